(** ZeraFacts.v -- byte-level facts about the ZERA reader. *)

From Coq Require Import ZArith List Bool Lia ZifyBool ZifyNat.
From Verif Require Import Base BaseFacts Spec SpecFacts ZeraModel.
Import ListNotations.
Open Scope Z_scope.
Ltac Zify.zify_post_hook ::= Z.div_mod_to_equations.

(** Evaluate comparisons between closed integers. *)
Ltac isZcst t :=
  match eval cbv delta [TNull TBool TI64 TF64 TString TArray TObject TTyped TU64 DT_U8
                        RankMax InlineMax HeaderSize u32_max] in t with
  | Z0 => idtac | Zpos _ => idtac | Zneg _ => idtac
  end.
Ltac zcase1 f a b :=
  isZcst a; isZcst b;
  let r := eval vm_compute in (f a b) in
  match r with true => change (f a b) with true | false => change (f a b) with false end.
Ltac zcase :=
  repeat match goal with
  | |- context [Z.eqb ?a ?b] => zcase1 Z.eqb a b
  | |- context [Z.leb ?a ?b] => zcase1 Z.leb a b
  | |- context [Z.ltb ?a ?b] => zcase1 Z.ltb a b
  end.

Lemma u16_le_eq v : u16_le v = [v mod 256; v / 256 mod 256].
Proof. unfold u16_le. now rewrite !land_255, shiftr_div. Qed.
Lemma u32_le_eq v :
  u32_le v = [v mod 256; v / 256 mod 256; v / 65536 mod 256; v / 16777216 mod 256].
Proof. unfold u32_le. rewrite !land_255, !shiftr_div by lia. reflexivity. Qed.
Lemma zlen_u16_le v : zlen (u16_le v) = 2. Proof. reflexivity. Qed.
Lemma zlen_u32_le v : zlen (u32_le v) = 4. Proof. reflexivity. Qed.
Lemma bytes_ok_u16_le v : bytes_ok (u16_le v).
Proof. rewrite u16_le_eq. repeat constructor; lia. Qed.
Lemma bytes_ok_u32_le v : bytes_ok (u32_le v).
Proof. rewrite u32_le_eq. repeat constructor; lia. Qed.

Lemma read_u16_le_bytes b p x0 x1 :
  rd b p = Ok x0 -> rd b (p + 1) = Ok x1 -> is_byte x0 -> is_byte x1 ->
  read_u16_le b p = Ok (x0 + x1 * 256).
Proof.
  unfold is_byte; intros E0 E1 H0 H1. unfold read_u16_le. rewrite E0, E1. cbn [bind].
  rewrite lor_shiftl by lia. reflexivity.
Qed.
Lemma read_u32_le_bytes b p x0 x1 x2 x3 :
  rd b p = Ok x0 -> rd b (p + 1) = Ok x1 -> rd b (p + 2) = Ok x2 -> rd b (p + 3) = Ok x3 ->
  is_byte x0 -> is_byte x1 -> is_byte x2 -> is_byte x3 ->
  read_u32_le b p = Ok (x0 + x1 * 256 + x2 * 65536 + x3 * 16777216).
Proof.
  unfold is_byte; intros E0 E1 E2 E3 H0 H1 H2 H3. unfold read_u32_le.
  rewrite E0, E1, E2, E3. cbn [bind].
  rewrite (lor_shiftl x0) by lia. rewrite (lor_shiftl (x0 + _)) by lia.
  rewrite lor_shiftl by lia. reflexivity.
Qed.

Lemma read_u16_le_has b p v : 0 <= v < 2^16 -> has b p (u16_le v) -> read_u16_le b p = Ok v.
Proof.
  intros Hv H. rewrite u16_le_eq in H.
  rewrite has_cons in H. destruct H as [A B].
  rewrite (read_u16_le_bytes _ _ (v mod 256) (v / 256 mod 256)).
  - f_equal. lia.
  - eapply has_rd; eauto.
  - eapply has_rd; eauto.
  - unfold is_byte; lia.
  - unfold is_byte; lia.
Qed.
Lemma read_u32_le_has b p v : 0 <= v < 2^32 -> has b p (u32_le v) -> read_u32_le b p = Ok v.
Proof.
  intros Hv H. rewrite u32_le_eq in H.
  rewrite has_cons in H. destruct H as [A0 H].
  rewrite has_cons in H. destruct H as [A1 H].
  rewrite has_cons in H. destruct H as [A2 A3].
  replace (p + 1 + 1) with (p + 2) in * by lia.
  replace (p + 2 + 1) with (p + 3) in * by lia.
  rewrite (read_u32_le_bytes _ _ (v mod 256) (v / 256 mod 256) (v / 65536 mod 256) (v / 16777216 mod 256));
    try (eapply has_rd; eassumption); try (unfold is_byte; lia).
  f_equal. lia.
Qed.
Lemma read_u16_le_in b p : bytes_ok b -> 0 <= p -> p + 2 <= zlen b ->
  exists x, read_u16_le b p = Ok x /\ 0 <= x < 2^16.
Proof.
  intros Hb Hp Hl.
  destruct (rd_in b p ltac:(lia)) as [x0 E0]. destruct (rd_in b (p+1) ltac:(lia)) as [x1 E1].
  pose proof (rd_byte _ _ _ Hb E0) as B0. pose proof (rd_byte _ _ _ Hb E1) as B1.
  rewrite (read_u16_le_bytes _ _ _ _ E0 E1 B0 B1).
  eexists; split; [reflexivity|]. unfold is_byte in *. lia.
Qed.
Lemma read_u32_le_in b p : bytes_ok b -> 0 <= p -> p + 4 <= zlen b ->
  exists x, read_u32_le b p = Ok x /\ 0 <= x < 2^32.
Proof.
  intros Hb Hp Hl.
  destruct (rd_in b p ltac:(lia)) as [x0 E0]. destruct (rd_in b (p+1) ltac:(lia)) as [x1 E1].
  destruct (rd_in b (p+2) ltac:(lia)) as [x2 E2]. destruct (rd_in b (p+3) ltac:(lia)) as [x3 E3].
  pose proof (rd_byte _ _ _ Hb E0) as B0. pose proof (rd_byte _ _ _ Hb E1) as B1.
  pose proof (rd_byte _ _ _ Hb E2) as B2. pose proof (rd_byte _ _ _ Hb E3) as B3.
  rewrite (read_u32_le_bytes _ _ _ _ _ _ E0 E1 E2 E3 B0 B1 B2 B3).
  eexists; split; [reflexivity|]. unfold is_byte in *. lia.
Qed.

(** ** make_vr *)
Lemma zlen_make_vr t f x a b c : zlen (make_vr t f x a b c) = 16.
Proof. reflexivity. Qed.
Lemma has_make_vr l p t f x a b c :
  has l p (make_vr t f x a b c) ->
  has l p [t] /\ has l (p + 1) [f] /\ has l (p + 2) (u16_le x) /\ has l (p + 4) (u32_le a) /\
  has l (p + 8) (u32_le b) /\ has l (p + 12) (u32_le c).
Proof.
  unfold make_vr. rewrite has_app. intros [H1 H2].
  rewrite has_cons in H1. destruct H1 as [A B].
  rewrite has_app in H2. destruct H2 as [C H2].
  rewrite has_app in H2. destruct H2 as [D H2].
  rewrite has_app in H2. destruct H2 as [E F].
  change (zlen [t; f]) with 2 in *. rewrite zlen_u16_le in *. rewrite !zlen_u32_le in *.
  replace (p + 2 + 2) with (p + 4) in * by lia.
  replace (p + 4 + 4) with (p + 8) in * by lia.
  replace (p + 8 + 4) with (p + 12) in * by lia.
  auto 10.
Qed.

(** ** Views positioned on a ValueRef *)
Definition vr_at (v : zview) (vr : bytes) : Prop :=
  exists p, zv_vr v = Some p /\ has (zv_buf v) p vr /\ zlen vr = 16 /\
            HeaderSize <= p /\ p + 16 <= HeaderSize + zv_env_size v.

Lemma require_vr_at v vr : vr_at v vr ->
  exists p, require_vr v = Ok p /\ has (zv_buf v) p vr /\ zlen vr = 16.
Proof.
  intros (p & E & H & L & A & B). exists p. unfold require_vr. rewrite E.
  replace ((HeaderSize <=? p) && (p + 16 <=? HeaderSize + zv_env_size v)) with true by lia.
  auto.
Qed.

Definition u16r (x : Z) := 0 <= x < 2^16.
Definition u32r (x : Z) := 0 <= x < 2^32.

Lemma vr_fields v t f x a b c :
  vr_at v (make_vr t f x a b c) -> u16r x -> u32r a -> u32r b -> u32r c ->
  zv_tag v = Ok t /\ zv_flags v = Ok f /\ zv_aux v = Ok x /\
  zv_a v = Ok a /\ zv_b v = Ok b /\ zv_c v = Ok c.
Proof.
  unfold u16r, u32r. intros H Hx Ha Hb Hc. destruct (require_vr_at _ _ H) as (p & E & M & _).
  destruct (has_make_vr _ _ _ _ _ _ _ _ M) as (A & B & C & D & F & G).
  unfold zv_tag, zv_flags, zv_aux, zv_a, zv_b, zv_c. rewrite E. cbn [bind].
  repeat split.
  - eapply has_rd; eauto.
  - eapply has_rd; eauto.
  - now apply read_u16_le_has.
  - now apply read_u32_le_has.
  - now apply read_u32_le_has.
  - now apply read_u32_le_has.
Qed.

Lemma env_ptr_ok v o n : 0 <= o -> 0 <= n -> o + n <= zv_env_size v ->
  env_ptr_at v o n = Ok (HeaderSize + o).
Proof.
  intros. unfold env_ptr_at.
  replace (o <=? zv_env_size v) with true by lia. replace (n <=? zv_env_size v) with true by lia.
  replace (o + n <=? zv_env_size v) with true by lia. reflexivity.
Qed.
Lemma arena_view_ok v o n : 0 <= o -> 0 <= n -> o + n <= zv_arena_len v ->
  arena_view v o n = Ok (zv_arena v + o, n).
Proof.
  intros. unfold arena_view.
  replace (o <=? zv_arena_len v) with true by lia. replace (n <=? zv_arena_len v) with true by lia.
  replace (o + n <=? zv_arena_len v) with true by lia. reflexivity.
Qed.

Lemma lo_hi_bits z : 0 <= z < 2^64 -> Z.lor (lo32 z) (Z.shiftl (hi32 z) 32) = z.
Proof.
  intros H. unfold lo32, hi32. rewrite !land_ffff, shiftr_div by lia.
  rewrite lor_shiftl by lia. lia.
Qed.
Lemma lo32_range z : u32r (lo32 z).
Proof. unfold lo32, u32r. rewrite land_ffff. lia. Qed.
Lemma hi32_range z : u32r (hi32 z).
Proof. unfold hi32, u32r. rewrite land_ffff. lia. Qed.
