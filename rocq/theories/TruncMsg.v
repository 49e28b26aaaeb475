(** TruncMsg.v -- truncated MessagePack messages never lie. *)

From Coq Require Import ZArith List Bool Lia ZifyBool ZifyNat.
From Verif Require Import Base BaseFacts Spec SpecFacts MsgModel TruncSpec TruncFacts.
Import ListNotations.
Open Scope Z_scope.

Section Prefix.
Variables b t : bytes.
Notation B := (b ++ t).

(** [within]: the same start, and the span of the prefix is no longer.  [shorter]: moreover it is
    not empty unless the other is. *)
Definition within (w' w : mspan) : Prop :=
  ms_buf w' = b /\ ms_buf w = B /\ ms_off w = ms_off w' /\ ms_len w' <= ms_len w.
Definition shorter (w' w : mspan) : Prop := within w' w /\ (ms_len w' = 0 -> ms_len w = 0).

Tactic Notation "bel" tactic3(lf) := repeat (cbv zeta; match goal with
  | |- below _ (bind (require _ _) _) _ => apply below_require; [first [exact (fun H => H)|lia]|intros _]
  | |- below _ (require _ _) _ => apply below_require1; first [exact (fun H => H)|lia]
  | |- below _ (bind _ _) _ => apply below_bind_eq; [|intros ? _]
  | |- below _ (if ?c then _ else _) (if ?c then _ else _) => destruct c
  | |- below _ (Ok _) (Ok _) => apply below_ok; first [reflexivity|cbn [sumr]; reflexivity|idtac]
  | |- below _ (Throw _) _ => apply below_throw
  | |- below _ UB _ => apply below_ub
  | |- below _ NoFuel _ => apply below_nofuel
  | |- _ => lf
  end).
Lemma b_be16 p : below eq (mp_read_be16 b p) (mp_read_be16 B p).
Proof. unfold mp_read_be16. bel (apply below_rd). Qed.
Lemma b_be32 p : below eq (mp_read_be32 b p) (mp_read_be32 B p).
Proof. unfold mp_read_be32. bel (apply below_rd). Qed.
Lemma b_be64 p : below eq (mp_read_be64 b p) (mp_read_be64 B p).
Proof. unfold mp_read_be64. bel (apply below_rd). Qed.
Ltac base := first [apply below_rd|apply below_rd_view|apply b_be16|apply b_be32|apply b_be64].

Section Span.
Variables (o n' n : Z).
Hypothesis N : n' <= n.
Notation v' := (mkSpan b o n').
Notation v := (mkSpan B o n).
Lemma b_at i : below eq (sp_at v' i) (sp_at v i).
Proof.
  unfold sp_at. cbn [ms_buf ms_off ms_len]. destruct ((0 <=? i) && (i <? n')) eqn:C; [|apply below_ub].
  replace ((0 <=? i) && (i <? n)) with true by lia. apply below_rd.
Qed.
Lemma at_pos i x : sp_at v' i = Ok x -> 0 < n'.
Proof. unfold sp_at. cbn [ms_len]. destruct ((0 <=? i) && (i <? n')) eqn:C; [lia|discriminate]. Qed.
Lemma b_subspan i : below within (subspan v' i) (subspan v i).
Proof.
  unfold subspan. cbn [ms_buf ms_off ms_len]. destruct (i <=? n') eqn:C; [|apply below_ub].
  replace (i <=? n) with true by lia. apply below_ok. unfold within. cbn [ms_buf ms_off ms_len]. repeat split. lia.
Qed.
Lemma shorter_same p k : shorter (mkSpan b p k) (mkSpan B p k).
Proof. unfold shorter, within. cbn [ms_buf ms_off ms_len]. repeat split; auto. lia. Qed.
Lemma b_subspan2 i k : below shorter (subspan2 v' i k) (subspan2 v i k).
Proof.
  unfold subspan2. cbn [ms_buf ms_off ms_len]. destruct ((i <=? n') && (k <=? n' - i)) eqn:C; [|apply below_ub].
  replace ((i <=? n) && (k <=? n - i)) with true by lia. apply below_ok, shorter_same.
Qed.
Lemma b_first k : below shorter (first v' k) (first v k).
Proof.
  unfold first. cbn [ms_buf ms_off ms_len]. destruct (k <=? n') eqn:C; [|apply below_ub].
  replace (k <=? n) with true by lia. apply below_ok, shorter_same.
Qed.
(** an emptiness check before the first byte is read *)
Lemma b_need {A A'} (Q : A -> A' -> Prop) ex f g : (forall m, 0 < n' -> below Q (f m) (g m)) ->
  below Q (require (negb (sp_empty v')) ex ;;; m <- sp_at v' 0 ;; f m) (require (negb (sp_empty v)) ex ;;; m <- sp_at v 0 ;; g m).
Proof.
  intros H x E. unfold sp_empty in *. cbn [ms_len] in *. destruct (n' =? 0); cbn [negb require bind] in E; [discriminate E|].
  destruct (sp_at v' 0) as [m|?| |] eqn:A0; cbn [bind] in E; try discriminate E.
  pose proof (at_pos 0 m A0) as P. replace (n =? 0) with false by lia. cbn [negb require bind].
  destruct (b_at 0 m A0) as (m2 & -> & <-). cbn [bind]. exact (H m P x E).
Qed.
End Span.

Lemma skip_seq_below f g o n' n k p : n' <= n -> (forall w' w, within w' w -> below eq (f w') (g w)) ->
  below eq (skip_seq f (mkSpan b o n') k p) (skip_seq g (mkSpan B o n) k p).
Proof.
  intros N H. unfold skip_seq. eapply below_match; [apply below_zloop_eq|intros ? ? <-; now apply below_ok|intros; apply below_ub].
  intros q. eapply below_bind; [now apply b_subspan|]. intros w' w W. apply below_bind_eq; [now apply H|intros ? _].
  now apply below_ok. Unshelve. exact eq.
Qed.
Lemma skip_pairs_below f g o n' n k p : n' <= n -> (forall w' w, within w' w -> below eq (f w') (g w)) ->
  below eq (skip_pairs f (mkSpan b o n') k p) (skip_pairs g (mkSpan B o n) k p).
Proof.
  intros N H. unfold skip_pairs. eapply below_match; [apply below_zloop_eq|intros ? ? <-; now apply below_ok|intros; apply below_ub].
  intros q. eapply below_bind; [now apply b_subspan|]. intros w' w W. apply below_bind_eq; [now apply H|intros ? _].
  eapply below_bind; [now apply b_subspan|]. intros w2' w2 W2. apply below_bind_eq; [now apply H|intros ? _].
  now apply below_ok. Unshelve. exact eq.
Qed.
Lemma mp_skip_below : forall f g w' w, (f <= g)%nat -> within w' w -> below eq (mp_skip f w') (mp_skip g w).
Proof.
  induction f as [|f IH]; intros g w' w G W; cbn [mp_skip]; [apply below_nofuel|].
  destruct g as [|g]; [lia|]. cbn [mp_skip].
  assert (forall x y, within x y -> below eq (mp_skip f x) (mp_skip g y)) as K by (intros; apply IH; [lia|assumption]).
  clear IH G. destruct w' as [b1 o n'], w as [b2 o2 n]. destruct W as (W1 & W2 & W3 & N).
  cbn [ms_buf ms_off ms_len] in *. subst b1 b2 o2. apply b_need; [exact N|]. intros m P. unfold sp_ptr. cbn [ms_buf ms_off ms_len].
  bel (first [base|now apply b_at|apply skip_seq_below; [exact N|exact K]|apply skip_pairs_below; [exact N|exact K]]).
Qed.
Lemma b_skip w' w : within w' w -> below eq (skip w') (skip w).
Proof. intros W. unfold skip. apply mp_skip_below; [destruct W as (_ & _ & _ & W); lia|exact W]. Qed.

Section View.
Variables (o n' n : Z).
Hypothesis N : n' <= n.
Notation v' := (mkSpan b o n').
Notation v := (mkSpan B o n).
Ltac base1 := first [base|apply b_at; exact N].
Lemma b_str : below eq (str_info v') (str_info v).
Proof. unfold str_info, sp_ptr. cbn [ms_buf ms_off]. bel base1. Qed.
Lemma b_bin : below eq (bin_info v') (bin_info v).
Proof. unfold bin_info, sp_ptr. cbn [ms_buf ms_off]. bel base1. Qed.
Lemma b_arr : below eq (arr_info v') (arr_info v).
Proof. unfold arr_info, sp_ptr. cbn [ms_buf ms_off]. bel base1. Qed.
Lemma b_map : below eq (map_info v') (map_info v).
Proof. unfold map_info, sp_ptr. cbn [ms_buf ms_off]. bel base1. Qed.
Lemma b_asInt64 : below eq (mp_asInt64 v') (mp_asInt64 v).
Proof. unfold mp_asInt64. apply b_need; [exact N|]. intros m P. unfold sp_ptr. cbn [ms_buf ms_off ms_len]. bel base1. Qed.
Lemma b_asUInt64 : below eq (mp_asUInt64 v') (mp_asUInt64 v).
Proof. unfold mp_asUInt64. apply b_need; [exact N|]. intros m P. unfold sp_ptr. cbn [ms_buf ms_off ms_len]. bel (first [base1|apply b_asInt64]). Qed.
Lemma b_asInt w : below eq (mp_asInt w v') (mp_asInt w v).
Proof. unfold mp_asInt. apply below_bind_eq; [apply b_asInt64|intros x _]. destruct w; bel fail. Qed.
Lemma b_asUInt w : below eq (mp_asUInt w v') (mp_asUInt w v).
Proof. unfold mp_asUInt. apply below_bind_eq; [apply b_asUInt64|intros x _]. destruct w; bel fail. Qed.
Lemma b_size : below eq (mp_arraySize v') (mp_arraySize v).
Proof. unfold mp_arraySize. apply below_bind_eq; [apply b_arr|intros [k p] _]. now apply below_ok. Qed.
Lemma b_idx i : below shorter (mp_idx v' i) (mp_idx v i).
Proof.
  unfold mp_idx. apply below_bind_eq; [apply b_arr|intros [k p] _]. apply below_require; [exact (fun H => H)|intros _].
  apply below_bind_eq; [apply skip_seq_below; [exact N|exact b_skip]|intros q _].
  eapply below_bind; [apply b_subspan; exact N|]. intros w' w W. apply below_bind_eq; [now apply b_skip|intros s _].
  now apply b_subspan2.
Qed.
Hypothesis E : n' = 0 -> n = 0.
Lemma b_is k : below eq (mp_is k v') (mp_is k v).
Proof.
  unfold mp_is, sp_empty. cbn [ms_len]. destruct (n' =? 0) eqn:C; [replace (n =? 0) with true by lia; now apply below_ok|].
  intros x H. destruct (sp_at v' 0) as [m|?| |] eqn:A0; cbn [bind] in H; try discriminate H.
  pose proof (at_pos _ _ _ _ A0). replace (n =? 0) with false by lia. destruct (b_at o n' n N 0 m A0) as (m2 & -> & <-).
  cbn [bind]. eauto.
Qed.
Lemma b_asDouble : below eq (mp_asDouble v') (mp_asDouble v).
Proof. unfold mp_asDouble, sp_ptr. cbn [ms_buf ms_off ms_len]. bel (first [base1|apply b_is]). Qed.
Lemma b_asBool : below eq (mp_asBool v') (mp_asBool v).
Proof. unfold mp_asBool. bel (first [base1|apply b_is]). Qed.
End View.

Lemma on_span (P : mspan -> mspan -> Prop) : (forall o n' n, n' <= n -> (n' = 0 -> n = 0) -> P (mkSpan b o n') (mkSpan B o n)) ->
  forall w' w, shorter w' w -> P w' w.
Proof.
  intros H [b1 o n'] [b2 o2 n] ((W1 & W2 & W3 & W4) & W5). cbn [ms_buf ms_off ms_len] in *. subst b1 b2 o2. now apply H.
Qed.
Lemma b_key_is w' w key : shorter w' w -> below eq (mp_key_is w' key) (mp_key_is w key).
Proof.
  revert w' w. apply on_span. intros o n' n N E. unfold mp_key_is, mp_asStringView. cbn [ms_buf].
  bel (first [base|apply b_is; assumption|apply b_str; assumption]).
Qed.
Lemma b_contains w' w key : shorter w' w -> below eq (mp_contains w' key) (mp_contains w key).
Proof.
  revert w' w. apply on_span. intros o n' n N E. unfold mp_contains. apply below_bind_eq; [now apply b_is|intros k _].
  destruct (negb k); [now apply below_ok|]. apply below_bind_eq; [now apply b_map|intros [c p] _].
  eapply below_match; [apply below_zloop_eq|intros; now apply below_ok|intros; apply below_ok; eassumption].
  intros q. eapply below_bind; [now apply b_subspan|]. intros w' w W. apply below_bind_eq; [now apply b_skip|intros s _].
  apply below_bind with (P := shorter).
  { destruct w' as [b1 o1 n1], w as [b2 o2 n2]. destruct W as (W1 & W2 & W3 & W4). cbn [ms_buf ms_off ms_len] in *. subst. now apply b_first. }
  intros d' d D. eapply below_bind; [now apply b_subspan|]. intros x' x X. apply below_bind_eq; [now apply b_skip|intros z _].
  apply below_bind_eq; [now apply b_key_is|intros eq _]. bel fail.
Qed.
Lemma b_key w' w key : shorter w' w -> below shorter (mp_key w' key) (mp_key w key).
Proof.
  revert w' w. apply on_span. intros o n' n N E. unfold mp_key. apply below_bind_eq; [now apply b_is|intros k _].
  apply below_require; [exact (fun H => H)|intros _]. apply below_bind_eq; [now apply b_map|intros [c p] _].
  eapply below_match; [apply below_zloop_eq|intros; apply below_throw|intros; apply below_ok; eassumption].
  intros q. eapply below_bind; [now apply b_subspan|]. intros w' w W. apply below_bind_eq; [now apply b_skip|intros s _].
  apply below_bind with (P := shorter).
  { destruct w' as [b1 o1 n1], w as [b2 o2 n2]. destruct W as (W1 & W2 & W3 & W4). cbn [ms_buf ms_off ms_len] in *. subst. now apply b_first. }
  intros d' d D. eapply below_bind; [now apply b_subspan|]. intros x' x X. apply below_bind_eq; [now apply b_skip|intros z _].
  apply below_bind_eq; [now apply b_key_is|intros eq _]. destruct eq; [|now apply below_ok].
  eapply below_bind; [|intros; apply below_ok; cbn [sumr]; eassumption].
  destruct x' as [b1 o1 n1], x as [b2 o2 n2]. destruct X as (W1 & W2 & W3 & W4). cbn [ms_buf ms_off ms_len] in *. subst. now apply b_first.
Qed.
Lemma b_keys w' w : shorter w' w -> below eq (mp_keys w') (mp_keys w).
Proof.
  revert w' w. apply on_span. intros o n' n N E. unfold mp_keys. apply below_bind_eq; [now apply b_is|intros k _].
  apply below_require; [exact (fun H => H)|intros _]. apply below_bind_eq; [now apply b_map|intros [c p] _].
  apply below_bind_eq; [apply skip_pairs_below; [exact N|exact b_skip]|intros e _].
  eapply below_match; [apply below_zloop_eq|intros; apply below_nofuel|intros; apply below_ok; eassumption].
  intros [[i q] acc]. destruct ((i =? c) && (q =? e)); [now apply below_ok|].
  apply below_bind_eq; [|intros d _; apply below_bind_eq; [|intros z _; now apply below_ok]].
  - unfold mk_deref. eapply below_bind; [now apply b_subspan|]. intros w' w W. apply below_bind_eq; [now apply b_skip|intros s _].
    apply below_bind with (P := shorter).
    { destruct w' as [b1 o1 n1], w as [b2 o2 n2]. destruct W as (W1 & W2 & W3 & W4). cbn [ms_buf ms_off ms_len] in *. subst. now apply b_first. }
    apply on_span. intros. now apply b_str.
  - unfold mk_incr. eapply below_bind; [now apply b_subspan|]. intros w' w W. apply below_bind_eq; [now apply b_skip|intros s _].
    eapply below_bind; [now apply b_subspan|]. intros x' x X. apply below_bind_eq; [now apply b_skip|intros z _]. now apply below_ok.
Qed.
Lemma b_views l : below eq (mp_rd_views b l) (mp_rd_views B l).
Proof. induction l as [|w l IH]; cbn [mp_rd_views]; bel (first [base|apply IH]). Qed.

Lemma mp_told w' w : shorter w' w -> still_told mp_reader w' w.
Proof.
  intros W. constructor; intros; apply told_below; cbn [mp_reader r_isNull r_isBool r_isInt r_isUInt r_isFloat r_isString
    r_isBlob r_isMap r_isArray r_asBool r_asInt r_asUInt r_asDouble r_asString r_asStringView r_asBlob r_arraySize r_contains r_mapKeys];
    auto using b_contains.
  1-9: revert w' w W; apply on_span; intros; now apply b_is.
  1-7: revert w' w W; apply on_span; intros o n' n'' N E.
  - now apply b_asBool.
  - now apply b_asInt.
  - now apply b_asUInt.
  - now apply b_asDouble.
  - cbn [ms_buf]. apply below_bind_eq; [now apply b_str|intros; apply below_rd_view].
  - cbn [ms_buf]. apply below_bind_eq; [now apply b_str|intros; apply below_rd_view].
  - cbn [ms_buf]. apply below_bind_eq; [now apply b_bin|intros; apply below_rd_view].
  - revert w' w W. apply on_span. intros. now apply b_size.
  - apply below_bind_eq; [now apply b_keys|intros l _]. destruct W as ((-> & -> & _) & _). apply b_views.
Qed.
Lemma shorter_never_lies w' w : shorter w' w -> never_lies mp_reader w' w.
Proof.
  apply follow_below; [|exact mp_told]. intros x' x [i|k] X; cbn [take mp_reader r_idx r_key]; [|now apply b_key].
  revert x' x X. apply on_span. intros. now apply b_idx.
Qed.
Theorem mp_never_lies : b <> [] -> never_lies mp_reader (mp_open b) (mp_open B).
Proof.
  intros H. apply shorter_never_lies. unfold shorter, within, mp_open. cbn [ms_buf ms_off ms_len]. rewrite zlen_app.
  pose proof (zlen_nonneg t). destruct b; [congruence|]. rewrite zlen_cons in *. pose proof (zlen_nonneg l). repeat split; lia.
Qed.
End Prefix.
