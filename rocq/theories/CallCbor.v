(** CallCbor.v -- arbitrary call sequences on the CBOR writer (C81) *)

From Coq Require Import ZArith List Bool Lia ZifyBool ZifyNat.
From Verif Require Import Base BaseFacts Spec SpecFacts Utf8Model FloatModel FloatFacts CborModel CborSpec CborFacts CborMain IdentFacts IdentCbor CallSpec CallFacts.
Import ListNotations.
Open Scope Z_scope.

Definition good (e : ev) : Prop := ev_ok e /\ sized (2^64) e.
(** The bytes of one call *)
Definition cb_emit (e : ev) : bytes :=
  match e with
  | ENull => [246]
  | EBool b => [if b then 245 else 244]
  | EInt z => if 0 <=? z then put_head 0 z else put_head 1 (-1 - z)
  | EUInt z => put_head 0 z
  | EDbl b => put_double b
  | EStr t | EKey t => put_head 3 (zlen t) ++ t
  | EBin b => put_head 2 (zlen b) ++ b
  | EBeginArr n => put_head 4 n
  | EBeginMap n => put_head 5 n
  | EEndArr | EEndMap => []
  end.
Definition writes (e : ev) : bool := match e with EKey _ | EEndArr | EEndMap => false | _ => true end.

Lemma step_emit s e s' : cw_step s e = (s', Ok tt) -> cw_out s' = cw_out s ++ cb_emit e /\ cw_root s' = cw_root s || writes e.
Proof.
  intros E. destruct e; cbn [cw_step cb_emit writes] in *; unfold cw_value, cw_begin, cw_end in E;
    repeat match type of E with
    | context [if ?c then _ else _] => destruct c
    | context [match cw_st s with _ => _ end] => destruct (cw_st s) as [|[[? ?] ?] ?]
    end; try discriminate E; injection E as <-; cbn [cw_out cw_root];
    rewrite ?app_nil_r, ?orb_true_r, ?orb_false_r; auto.
Qed.
Lemma run_emit : forall es s s', run cbor_writer s es = (s', Ok tt) -> cw_out s' = cw_out s ++ flat_map cb_emit es /\ cw_root s' = cw_root s || existsb writes es.
Proof.
  induction es as [|e es IH]; intros s s' E.
  - cbn [run] in E. injection E as <-. cbn [flat_map existsb]. now rewrite app_nil_r, orb_false_r.
  - cbn [run] in E. change (w_step cbor_writer s e) with (cw_step s e) in E. destruct (cw_step s e) as [s1 [[]| | |]] eqn:S; try discriminate E.
    apply step_emit in S. apply IH in E. destruct S as [S1 S2], E as [E1 E2]. rewrite E1, E2, S1, S2. cbn [flat_map existsb]. now rewrite app_assoc, orb_assoc.
Qed.
Lemma emit_drop es : flat_map cb_emit es = flat_map cb_emit (drop_ends es).
Proof. induction es as [|e es IH]; [reflexivity|]. cbn [flat_map drop_ends filter]. destruct e; cbn [is_end negb flat_map cb_emit app]; now rewrite IH. Qed.

Lemma leaf_item e : good e -> is_leaf e = true -> exists x, item_ok x /\ cb_emit e = enc x.
Proof.
  intros [O S] L. destruct e; try discriminate L; cbn [ev_ok sized cb_emit] in *; unfold item_ok.
  - exists (CSimple 22). split; [cbn; lia|reflexivity].
  - exists (CSimple (if b then 21 else 20)). split; [cbn; destruct b; lia|now destruct b].
  - exists (int_item z). unfold is_i64, i64_min, i64_max in O. unfold int_item. destruct (0 <=? z) eqn:E; cbn [item_in enc]; rewrite put_head_hdr.
    + split; [split; [lia|apply arg_of_cap; lia]|reflexivity].
    + split; [split; [lia|apply arg_of_cap; lia]|reflexivity].
  - exists (CUInt (arg_of z) z). unfold is_u64, u64_max in O. cbn [item_in enc]. rewrite put_head_hdr. split; [split; [lia|apply arg_of_cap; lia]|reflexivity].
  - exists (dbl_item bits). unfold is_u64, u64_max in O. unfold dbl_item, put_double. destruct (f64_to_f32 bits) as [y|] eqn:E; cbn [item_in enc]; rewrite put_be_be.
    + destruct (narrow_widen bits y ltac:(lia) E) as [R _]. split; [lia|reflexivity].
    + split; [lia|reflexivity].
  - exists (str_item s). cbn [item_in enc str_item]. rewrite put_head_hdr. split; [split; [exact O|now apply arg_of_cap]|reflexivity].
  - exists (CBytes (arg_of (zlen b)) b). cbn [item_in enc]. rewrite put_head_hdr. split; [split; [exact O|now apply arg_of_cap]|reflexivity].
  - exists (str_item k). cbn [item_in enc str_item]. rewrite put_head_hdr. split; [split; [exact O|now apply arg_of_cap]|reflexivity].
Qed.
Lemma ok_pos x : item_ok x -> enc x <> [].
Proof. intros X E. pose proof (enc_nonempty x). rewrite E in H. cbn in H. lia. Qed.

(** The initial byte decides between arrays and maps of known length and everything else. *)
Lemma same_cls m n x s t : 0 <= m < 8 -> 0 <= n < 2^64 -> item_ok x -> hdr m (arg_of n) n ++ s = enc x ++ t -> tag x = 10 * m + code (arg_of n).
Proof.
  intros M N X E. destruct (hdr_cls m (arg_of n) n M) as (b & r & Q & C); [split; [lia|apply arg_of_cap; lia]|].
  destruct (enc_cls x X) as (b' & r' & Q' & C'). rewrite Q, Q' in E. cbn [app] in E. apply cons_eq in E. destruct E as [<- _]. congruence.
Qed.
Lemma arr_inv n x s t : good (EBeginArr n) -> item_ok x -> cb_emit (EBeginArr n) ++ s = enc x ++ t ->
  exists l, Forall item_ok l /\ zlen l = n /\ s = flat_map enc l ++ t.
Proof.
  intros [O S] X E. cbn [ev_ok sized cb_emit] in *. rewrite put_head_hdr in E. pose proof (same_cls 4 n x s t ltac:(lia) ltac:(lia) X E) as T.
  destruct x as [f m|f m|f b|l|f b|l|f l|l|f l|l|f m x|m|m|x|x|x]; try (destruct (arg_of n); repeat match goal with f : arg |- _ => destruct f end; discriminate T).
  assert (f = arg_of n) as -> by (clear - T; destruct (arg_of n), f; try reflexivity; discriminate T).
  apply item_in_arr in X. destruct X as [C X]. exists l. split; [exact X|]. cbn [enc] in E. rewrite <- app_assoc in E. pose proof (zlen_nonneg l).
  pose proof (arg_of_cap n S). apply hdr_inj in E; [|lia|lia]. destruct E as [E1 E2]. auto.
Qed.
Definition flat (l : list (item * item)) : list item := flat_map (fun kx => [fst kx; snd kx]) l.
Lemma zlen_flat l : zlen (flat l) = 2 * zlen l.
Proof. unfold flat. induction l as [|kx l IH]; [reflexivity|]. cbn [flat_map app]. rewrite !zlen_cons, IH. lia. Qed.
Lemma enc_flat l : flat_map (fun kx => enc (fst kx) ++ enc (snd kx)) l = flat_map enc (flat l).
Proof. unfold flat. induction l as [|kx l IH]; [reflexivity|]. cbn [flat_map app]. now rewrite IH, !app_assoc. Qed.
Lemma ok_flat l : Forall (fun kx => item_ok (fst kx) /\ item_ok (snd kx)) l <-> Forall item_ok (flat l).
Proof.
  unfold flat. induction l as [|kx l IH]; [split; constructor|]. cbn [flat_map app]. split; intros H.
  - inversion H as [|? ? [H1 H2] H3]; subst. constructor; [exact H1|]. constructor; [exact H2|]. now apply IH.
  - inversion H as [|? ? H1 H2]; subst. inversion H2 as [|? ? H3 H4]; subst. constructor; [now split|]. now apply IH.
Qed.
Lemma pairs : forall n (l : list item), zlen l = 2 * n -> exists p, l = flat p /\ zlen p = n.
Proof.
  intros n l. remember (length l) as k eqn:K. assert (L : (length l <= k)%nat) by lia. clear K. revert n l L.
  induction k as [|k IH]; intros n l L E.
  - destruct l; [|cbn in L; lia]. exists []. split; [reflexivity|]. change (zlen (@nil item)) with 0 in E. change (zlen (@nil (item * item))) with 0. lia.
  - destruct l as [|a [|b l]].
    + exists []. split; [reflexivity|]. change (zlen (@nil item)) with 0 in E. change (zlen (@nil (item * item))) with 0. lia.
    + change (zlen [a]) with 1 in E. lia.
    + rewrite !zlen_cons in E. cbn [length] in L. destruct (IH (n - 1) l ltac:(lia) ltac:(lia)) as (p & -> & P). exists ((a, b) :: p). split; [reflexivity|]. rewrite zlen_cons. lia.
Qed.
Lemma map_inv n x s t : good (EBeginMap n) -> item_ok x -> cb_emit (EBeginMap n) ++ s = enc x ++ t ->
  exists l, Forall item_ok l /\ zlen l = 2 * n /\ s = flat_map enc l ++ t.
Proof.
  intros [O S] X E. cbn [ev_ok sized cb_emit] in *. rewrite put_head_hdr in E. pose proof (same_cls 5 n x s t ltac:(lia) ltac:(lia) X E) as T.
  destruct x as [f m|f m|f b|l|f b|l|f l|l|f l|l|f m x|m|m|x|x|x]; try (destruct (arg_of n); repeat match goal with f : arg |- _ => destruct f end; discriminate T).
  assert (f = arg_of n) as -> by (clear - T; destruct (arg_of n), f; try reflexivity; discriminate T).
  apply item_in_map in X. destruct X as [C X]. exists (flat l). split; [now apply ok_flat|]. rewrite zlen_flat. cbn [enc] in E. rewrite <- app_assoc, enc_flat in E. pose proof (zlen_nonneg l).
  pose proof (arg_of_cap n S). apply hdr_inj in E; [|lia|lia]. destruct E as [E1 E2]. split; [lia|exact E2].
Qed.
Lemma put_head_pos m n : put_head m n <> [].
Proof. intros E. pose proof (zlen_hdr m (arg_of n) n) as Z. rewrite <- put_head_hdr, E in Z. pose proof (hlen_pos (arg_of n)). cbn in Z. lia. Qed.

Theorem cbor_calls es s b : Forall good es -> run cbor_writer (w_init cbor_writer) es = (s, Ok tt) -> snd (w_finish cbor_writer s) = Ok b ->
  ((exists x, item_ok x /\ b = enc x) <-> whole (drop_ends (es ++ if existsb writes es then [] else [ENull]))).
Proof.
  intros G R F. destruct (run_emit _ _ _ R) as [RO RR]. cbn [cbor_writer w_init w_finish cw_out cw_root app orb] in RO, RR, F.
  assert (Q : b = flat_map cb_emit (es ++ if existsb writes es then [] else [ENull])).
  { unfold cw_finish in F. rewrite RR in F. rewrite RO in F. rewrite flat_map_app. destruct (existsb writes es); cbn [snd] in F; cbn [flat_map cb_emit app]; rewrite ?app_nil_r; congruence. }
  assert (G' : Forall good (es ++ if existsb writes es then [] else [ENull])).
  { apply Forall_app. split; [exact G|]. destruct (existsb writes es); constructor; [now split|constructor]. }
  rewrite Q, emit_drop. apply (one_iff item_ok enc cb_emit good enc_delim ok_pos leaf_item).
  - intros e [O S] N. destruct e; try discriminate N; cbn [cb_emit]; try discriminate; try apply put_head_pos;
      destruct (leaf_item _ (conj O S) eq_refl) as (x & X & Qx); cbn [cb_emit] in Qx; rewrite Qx; now apply ok_pos.
  - exact arr_inv.
  - exact map_inv.
  - intros n l [O S] A <-. cbn [ev_ok sized] in *. exists (CArr (arg_of (zlen l)) l). split; [|cbn [cb_emit enc]; now rewrite put_head_hdr].
    apply item_in_arr. split; [now apply arg_of_cap|exact A].
  - intros n l [O S] A L. cbn [ev_ok sized] in *. destruct (pairs n l L) as (p & -> & <-). exists (CMap (arg_of (zlen p)) p).
    split; [|cbn [cb_emit enc]; rewrite put_head_hdr; now rewrite enc_flat]. apply item_in_map. split; [now apply arg_of_cap|now apply ok_flat].
  - unfold drop_ends. apply Forall_forall. intros e He. apply filter_In in He. rewrite Forall_forall in G'. now apply G'.
  - unfold no_end, drop_ends. apply Forall_forall. intros e He. apply filter_In in He. destruct He as [_ He]. now destruct (is_end e).
Qed.

(** ** Wrong lengths are reported. *)
Scheme calls_mi := Minimality for calls Sort Prop with list_mi := Minimality for calls_list Sort Prop with entries_mi := Minimality for calls_entries Sort Prop.
Combined Scheme calls_all from calls_mi, list_mi, entries_mi.
Lemma run_ok_app s s' a b : run cbor_writer s (a ++ b) = (s', Ok tt) -> exists s1, run cbor_writer s a = (s1, Ok tt) /\ run cbor_writer s1 b = (s', Ok tt).
Proof. rewrite run_app. destruct (run cbor_writer s a) as [s1 [[]| | |]]; try discriminate. eauto. Qed.
Lemma end_ok k n c st s s' e : is_end e = true -> cw_st s = (k, n, c) :: st -> run cbor_writer s [e] = (s', Ok tt) -> cw_count k c = n /\ cw_st s' = bump st.
Proof.
  intros E S R. cbn [run] in R. change (w_step cbor_writer s e) with (cw_step s e) in R.
  assert (Q : cw_step s e = cw_end s) by (destruct e; try discriminate E; reflexivity). rewrite Q in R. unfold cw_end in R. rewrite S in R.
  destruct (cw_count k c =? n) eqn:C; [|discriminate R]. injection R as <-. split; [lia|reflexivity].
Qed.
Lemma counts :
  (forall v es, calls v es -> forall s s', run cbor_writer s es = (s', Ok tt) -> es = events v /\ cw_st s' = bump (cw_st s)) /\
  (forall l es, calls_list l es -> forall s s' k n c st, cw_st s = (k, n, c) :: st -> run cbor_writer s es = (s', Ok tt) ->
     es = flat_map events l /\ cw_st s' = (k, n, c + zlen l) :: st) /\
  (forall l es, calls_entries l es -> forall s s' k n c st, cw_st s = (k, n, c) :: st -> run cbor_writer s es = (s', Ok tt) ->
     es = flat_map (fun kx => EKey (fst kx) :: events (snd kx)) l /\ cw_st s' = (k, n, c + 2 * zlen l) :: st).
Proof.
  assert (LEAF : forall e s s', is_leaf e = true -> (forall k, e <> EKey k) -> run cbor_writer s [e] = (s', Ok tt) -> cw_st s' = bump (cw_st s)).
  { intros e s s' L K R. cbn [run] in R. change (w_step cbor_writer s e) with (cw_step s e) in R.
    destruct e; try discriminate L; cbn [cw_step] in R; unfold cw_value in R; try (injection R as <-; reflexivity).
    - destruct (utf8_valid s0); [|discriminate R]. now injection R as <-.
    - now destruct (K k). }
  apply calls_all; try (intros; split; [reflexivity|]; eapply LEAF; [|intros ?|eassumption]; [reflexivity|discriminate]).
  - intros n l es _ IH s s' R. change (EBeginArr n :: es ++ [EEndArr]) with ([EBeginArr n] ++ es ++ [EEndArr]) in R.
    apply run_ok_app in R. destruct R as (s1 & R1 & R). apply run_ok_app in R. destruct R as (s2 & R2 & R3).
    assert (S1 : cw_st s1 = (false, n, 0) :: cw_st s).
    { cbn [run] in R1. change (w_step cbor_writer s (EBeginArr n)) with (cw_begin false s n) in R1. unfold cw_begin in R1. destruct (_ <? _); [discriminate R1|]. now injection R1 as <-. }
    destruct (IH _ _ _ _ _ _ S1 R2) as [-> S2]. destruct (end_ok _ _ _ _ _ _ EEndArr eq_refl S2 R3) as [N S3]. cbn [events cw_count] in N |- *. split; [|exact S3]. now rewrite <- N.
  - intros n l es _ IH s s' R. change (EBeginMap n :: es ++ [EEndMap]) with ([EBeginMap n] ++ es ++ [EEndMap]) in R.
    apply run_ok_app in R. destruct R as (s1 & R1 & R). apply run_ok_app in R. destruct R as (s2 & R2 & R3).
    assert (S1 : cw_st s1 = (true, n, 0) :: cw_st s).
    { cbn [run] in R1. change (w_step cbor_writer s (EBeginMap n)) with (cw_begin true s n) in R1. unfold cw_begin in R1. destruct (_ <? _); [discriminate R1|]. now injection R1 as <-. }
    destruct (IH _ _ _ _ _ _ S1 R2) as [-> S2]. destruct (end_ok _ _ _ _ _ _ EEndMap eq_refl S2 R3) as [N S3]. cbn [events]. split; [|exact S3].
    cbn [cw_count] in N. rewrite Z.add_0_l, Z.mul_comm, Z.div_mul in N by lia. now rewrite <- N.
  - intros s s' k n c st S R. cbn [run] in R. injection R as <-. rewrite zlen_nil, Z.add_0_r. auto.
  - intros x l es1 es2 _ IH1 _ IH2 s s' k n c st S R. apply run_ok_app in R. destruct R as (s1 & R1 & R2). destruct (IH1 _ _ R1) as [-> S1].
    rewrite S in S1. cbn [bump] in S1. destruct (IH2 _ _ _ _ _ _ S1 R2) as [-> S2]. split; [reflexivity|]. rewrite S2, zlen_cons. now replace (c + 1 + zlen l) with (c + (1 + zlen l)) by lia.
  - intros s s' k n c st S R. cbn [run] in R. injection R as <-. rewrite (zlen_nil (A := bytes * val)), Z.mul_0_r, Z.add_0_r. auto.
  - intros kk x l es1 es2 _ IH1 _ IH2 s s' k n c st S R. change (EKey kk :: es1 ++ es2) with ([EKey kk] ++ es1 ++ es2) in R.
    apply run_ok_app in R. destruct R as (s0 & R0 & R). apply run_ok_app in R. destruct R as (s1 & R1 & R2).
    assert (S0 : cw_st s0 = bump (cw_st s)).
    { cbn [run] in R0. change (w_step cbor_writer s (EKey kk)) with (cw_step s (EKey kk)) in R0. cbn [cw_step] in R0. destruct (utf8_valid kk); [|discriminate R0]. now injection R0 as <-. }
    destruct (IH1 _ _ R1) as [-> S1]. rewrite S0, S in S1. cbn [bump] in S1. destruct (IH2 _ _ _ _ _ _ S1 R2) as [-> S2].
    split; [reflexivity|]. rewrite S2, zlen_cons. now replace (c + 1 + 1 + 2 * zlen l) with (c + 2 * (1 + zlen l)) by lia.
Qed.
Theorem cbor_counts v es s : calls v es -> run cbor_writer (w_init cbor_writer) es = (s, Ok tt) -> es = events v.
Proof. intros C R. apply (proj1 counts v es C _ _ R). Qed.
