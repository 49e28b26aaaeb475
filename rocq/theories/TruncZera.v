(** TruncZera.v -- truncated ZERA messages never lie. *)

From Coq Require Import ZArith List Bool Lia ZifyBool ZifyNat.
From Verif Require Import Base BaseFacts Spec SpecFacts ZeraModel TruncSpec TruncFacts.
Import ListNotations.
Open Scope Z_scope.

Section Prefix.
Variables b t : bytes.
Notation B := (b ++ t).

Definition shorter (w' w : zview) : Prop :=
  zv_buf w' = b /\ zv_buf w = B /\ zv_env_size w = zv_env_size w' /\ zv_arena w = zv_arena w' /\
  zv_arena_len w' <= zv_arena_len w /\ zv_vr w = zv_vr w'.

Tactic Notation "bel" tactic3(lf) := repeat (cbv zeta; match goal with
  | |- below _ (bind (require _ _) _) _ => apply below_require; [exact (fun H => H)|intros _]
  | |- below _ (require _ _) _ => apply below_require1; exact (fun H => H)
  | |- below _ (bind _ _) _ => apply below_bind_eq; [|intros ? _]
  | |- below _ (if ?c then _ else _) (if ?c then _ else _) => destruct c
  | |- below _ (Ok _) (Ok _) => apply below_ok; first [reflexivity|cbn [sumr]; reflexivity|idtac]
  | |- below _ (Throw _) _ => apply below_throw
  | |- below _ UB _ => apply below_ub
  | |- below _ NoFuel _ => apply below_nofuel
  | |- _ => lf
  end).
Lemma b_u16 p : below eq (read_u16_le b p) (read_u16_le B p).
Proof. unfold read_u16_le. bel (apply below_rd). Qed.
Lemma b_u32 p : below eq (read_u32_le b p) (read_u32_le B p).
Proof. unfold read_u32_le. bel (apply below_rd). Qed.
Lemma b_u64 p : below eq (read_u64_le b p) (read_u64_le B p).
Proof. unfold read_u64_le. bel (first [apply below_rd|apply b_u32]). Qed.
Ltac base := first [apply below_rd|apply below_rd_view|apply b_u16|apply b_u32|apply b_u64].

Lemma zera_open_below : below shorter (zera_open b) (zera_open B).
Proof.
  unfold zera_open, parse_header. pose proof (zlen_app b t) as L. pose proof (zlen_nonneg t).
  apply below_bind with (P := eq).
  - apply below_require; [lia|intros _]. bel base.
  - intros h ? <-. do 3 (apply below_require; [exact (fun H => H)|intros _]).
    apply below_require; [lia|intros _]. apply below_require; [exact (fun H => H)|intros _].
    apply below_require; [lia|intros _]. do 4 (apply below_require; [exact (fun H => H)|intros _]).
    apply below_ok. unfold shorter. cbn [zv_buf zv_env_size zv_arena zv_arena_len zv_vr].
    repeat split. lia.
Qed.

Section View.
Variables (e a n' n : Z) (r : option Z).
Hypothesis N : n' <= n.
Notation v' := (mkZView b e a n' r).
Notation v := (mkZView B e a n r).
Lemma b_vr : below eq (require_vr v') (require_vr v).
Proof. unfold require_vr. cbn [zv_vr zv_env_size]. destruct r; bel base. Qed.
Lemma b_tag : below eq (zv_tag v') (zv_tag v).
Proof. unfold zv_tag. cbn [zv_buf]. bel (first [base|apply b_vr]). Qed.
Lemma b_flags : below eq (zv_flags v') (zv_flags v).
Proof. unfold zv_flags. cbn [zv_buf]. bel (first [base|apply b_vr]). Qed.
Lemma b_aux : below eq (zv_aux v') (zv_aux v).
Proof. unfold zv_aux. cbn [zv_buf]. bel (first [base|apply b_vr]). Qed.
Lemma b_a : below eq (zv_a v') (zv_a v).
Proof. unfold zv_a. cbn [zv_buf]. bel (first [base|apply b_vr]). Qed.
Lemma b_b : below eq (zv_b v') (zv_b v).
Proof. unfold zv_b. cbn [zv_buf]. bel (first [base|apply b_vr]). Qed.
Lemma b_c : below eq (zv_c v') (zv_c v).
Proof. unfold zv_c. cbn [zv_buf]. bel (first [base|apply b_vr]). Qed.
Lemma b_inline k : below eq (inline_bytes_view v' k) (inline_bytes_view v k).
Proof. unfold inline_bytes_view. bel (apply b_vr). Qed.
Lemma b_arena o k : below eq (arena_view v' o k) (arena_view v o k).
Proof.
  unfold arena_view. cbn [zv_arena zv_arena_len]. do 3 (apply below_require; [lia|intros _]). now apply below_ok.
Qed.
Lemma b_env o k : below eq (env_ptr_at v' o k) (env_ptr_at v o k).
Proof. unfold env_ptr_at. cbn [zv_env_size]. bel base. Qed.
Ltac base1 := first [base|apply b_tag|apply b_flags|apply b_aux|apply b_a|apply b_b|apply b_c|apply b_inline|apply b_arena|apply b_env].
Lemma b_flags_ok : below eq (require_flags_ok v') (require_flags_ok v).
Proof. unfold require_flags_ok. bel base1. Qed.
Ltac base2 := first [base1|apply b_flags_ok].
Lemma b_is k : below eq (zv_is k v') (zv_is k v).
Proof. unfold zv_is. bel base2. Qed.
Lemma b_isBlob : below eq (zv_isBlob v') (zv_isBlob v).
Proof. unfold zv_isBlob. bel base2. Qed.
Lemma b_asBool : below eq (zv_asBool v') (zv_asBool v).
Proof. unfold zv_asBool. bel base2. Qed.
Lemma b_asInt w : below eq (zv_asInt w v') (zv_asInt w v).
Proof. unfold zv_asInt, zv_asInt64, zv_bits. destruct w; bel base2. Qed.
Lemma b_asUInt w : below eq (zv_asUInt w v') (zv_asUInt w v).
Proof. unfold zv_asUInt, zv_asUInt64, zv_bits. destruct w; bel base2. Qed.
Lemma b_asDouble : below eq (zv_asDouble v') (zv_asDouble v).
Proof. unfold zv_asDouble, zv_bits. bel base2. Qed.
Lemma b_asStringView : below eq (zv_asStringView v') (zv_asStringView v).
Proof. unfold zv_asStringView. bel base2. Qed.
Lemma b_asString : below eq (zv_asString v') (zv_asString v).
Proof. unfold zv_asString. cbn [zv_buf]. bel (first [base2|apply b_asStringView]). Qed.
Lemma b_asBlob : below eq (zv_asBlob v') (zv_asBlob v).
Proof. unfold zv_asBlob. cbn [zv_buf]. bel (first [base2|apply b_isBlob]). Qed.
Lemma b_size : below eq (zv_arraySize v') (zv_arraySize v).
Proof. unfold zv_arraySize. cbn [zv_buf]. bel base2. Qed.
Lemma b_mapKeys : below eq (zv_mapKeys v') (zv_mapKeys v).
Proof. unfold zv_mapKeys. cbn [zv_buf]. bel base2. Qed.
Lemma b_keys : below eq (zv_keys v') (zv_keys v).
Proof.
  unfold zv_keys. apply below_bind_eq; [apply b_mapKeys|intros it _].
  eapply below_match; [apply below_zloop_eq| |].
  - intros [i acc]. unfold zk_deref, zk_incr. cbn [zv_buf]. bel base2.
  - intros [? ?] ? <-. now apply below_ok.
  - intros. now apply below_ok.
  Unshelve. exact eq.
Qed.
Lemma b_matches p k key : below eq (key_matches b p k key) (key_matches B p k key).
Proof. unfold key_matches. bel base2. Qed.
Lemma b_contains key : below eq (zv_contains v' key) (zv_contains v key).
Proof.
  unfold zv_contains. cbn [zv_buf]. apply below_bind_eq; [apply b_is|intros m _]. destruct (negb m); [now apply below_ok|].
  apply below_bind_eq; [apply b_flags_ok|intros _ _]. apply below_bind_eq; [apply b_a|intros o _].
  apply below_bind_eq; [apply b_env|intros p _]. apply below_bind_eq; [apply b_u32|intros c _].
  eapply below_match; [apply below_zloop_eq|intros; now apply below_ok|intros; apply below_ok; eassumption].
  intros s. bel (first [base2|apply b_matches]).
Qed.
Lemma shorter_child p : shorter (zv_child v' p) (zv_child v p).
Proof. unfold shorter, zv_child. cbn [zv_buf zv_env_size zv_arena zv_arena_len zv_vr]. auto 10. Qed.
Lemma b_idx i : below shorter (zv_idx v' i) (zv_idx v i).
Proof. unfold zv_idx. cbn [zv_buf]. bel (first [base2|apply shorter_child]). Qed.
Lemma b_key key : below shorter (zv_key v' key) (zv_key v key).
Proof.
  unfold zv_key. cbn [zv_buf]. apply below_bind_eq; [apply b_tag|intros m _]. apply below_require; [exact (fun H => H)|intros _].
  apply below_bind_eq; [apply b_flags_ok|intros _ _]. apply below_bind_eq; [apply b_a|intros o _].
  apply below_bind_eq; [apply b_env|intros p _]. apply below_bind_eq; [apply b_u32|intros c _].
  eapply below_match; [apply below_zloop_eq|intros; apply below_throw|intros; apply below_ok; eassumption].
  intros s. bel (first [base2|apply b_matches|apply shorter_child]).
Qed.
Lemma b_views l : below eq (rd_views b l) (rd_views B l).
Proof. induction l as [|w l IH]; cbn [rd_views]; bel (first [base|apply IH]). Qed.
Lemma view_told : still_told zera_reader v' v.
Proof.
  constructor; intros; apply told_below; cbn [zera_reader r_isNull r_isBool r_isInt r_isUInt r_isFloat r_isString
    r_isBlob r_isMap r_isArray r_asBool r_asInt r_asUInt r_asDouble r_asString r_asStringView r_asBlob r_arraySize r_contains r_mapKeys zv_buf];
    try apply b_is; auto using b_isBlob, b_asBool, b_asInt, b_asUInt, b_asDouble, b_asString, b_size, b_contains.
  - apply below_bind_eq; [apply b_asBlob|intros; apply below_rd_view].
  - apply below_bind_eq; [apply b_keys|intros; apply b_views].
Qed.
End View.

Lemma shorter_never_lies w' w : shorter w' w -> never_lies zera_reader w' w.
Proof.
  apply follow_below.
  - intros [b1 e a n' r] [b2 e2 a2 n r2] s (H1 & H2 & H3 & H4 & H5 & H6).
    cbn [zv_buf zv_env_size zv_arena zv_arena_len zv_vr] in *. subst b1 b2 e2 a2 r2.
    destruct s; cbn [take zera_reader r_idx r_key]; [now apply b_idx|now apply b_key].
  - intros [b1 e a n' r] [b2 e2 a2 n r2] (H1 & H2 & H3 & H4 & H5 & H6).
    cbn [zv_buf zv_env_size zv_arena zv_arena_len zv_vr] in *. subst b1 b2 e2 a2 r2. now apply view_told.
Qed.
Theorem zera_never_lies w' : zera_open b = Ok w' ->
  exists w, zera_open B = Ok w /\ never_lies zera_reader w' w.
Proof. intros E. destruct (zera_open_below w' E) as (w & E2 & S). exists w. split; [exact E2|now apply shorter_never_lies]. Qed.
End Prefix.
