(** CallMsg.v -- arbitrary call sequences on the MessagePack writer (C81) *)

From Coq Require Import ZArith List Bool Lia ZifyBool ZifyNat.
From Verif Require Import Base BaseFacts Spec SpecFacts MsgModel MsgSpec MsgFacts MsgMain IdentFacts IdentMsg CallSpec CallFacts.
Import ListNotations.
Open Scope Z_scope.

Definition good (e : ev) : Prop := ev_ok e /\ sized (2^32) e.

Lemma emit_drop es : flat_map mp_emit es = flat_map mp_emit (drop_ends es).
Proof. induction es as [|e es IH]; [reflexivity|]. cbn [flat_map drop_ends filter]. destruct e; cbn [is_end negb flat_map mp_emit app]; now rewrite IH. Qed.

Lemma leaf_item e : good e -> is_leaf e = true -> exists x, item_ok x /\ mp_emit e = enc x.
Proof.
  intros [O S] L. destruct e; try discriminate L; cbn [ev_ok sized mp_emit] in *.
  - now exists MNil.
  - now exists (MBool b).
  - exists (int_item z). split; [now apply int_ok|now apply emit_int].
  - exists (uint_item z). unfold is_u64, u64_max in O. split; [apply uint_ok; lia|apply emit_uint; lia].
  - exists (MF64 bits). split; [unfold is_u64, u64_max in O; cbn; lia|now rewrite be64_be].
  - exists (str_item s). split; [now apply str_ok|now apply emit_str].
  - exists (MBin (bin_fmt (zlen b)) b). split; [|now apply emit_bin]. unfold item_ok. cbn [item_in]. split; [exact O|]. unfold bin_fmt.
    destruct (zlen b <? 256) eqn:?; [cbn; lia|]. destruct (zlen b <? 65536) eqn:?; cbn; lia.
  - exists (str_item k). split; [now apply str_ok|now apply emit_str].
Qed.
Lemma ok_pos x : item_ok x -> enc x <> [].
Proof. intros X E. destruct (enc_cls x X) as (m & r & Q & _). congruence. Qed.

Lemma arr_inv n x s t : good (EBeginArr n) -> item_ok x -> mp_emit (EBeginArr n) ++ s = enc x ++ t ->
  exists l, Forall item_ok l /\ zlen l = n /\ s = flat_map enc l ++ t.
Proof.
  intros [O S] X E. cbn [ev_ok sized mp_emit] in *. rewrite emit_arr in E by lia. destruct (enc_cls x X) as (m & r & Q & T).
  assert (exists f l, x = MArr f l /\ f = seq_fmt n) as (f & l & -> & ->).
  { rewrite Q in E. unfold seq_fmt in *. destruct (n <? 16) eqn:?; [|destruct (n <? 65536) eqn:?]; cbn [arr_hdr app] in E; apply cons_eq in E; destruct E as [E _]; subst m.
    - assert (C : cls (144 + n) = 20) by cls_go. rewrite C in T. destruct x as [| | |[]|[]| | |[]|[]|[]|[]]; try discriminate T. eauto.
    - change (cls 220) with 220 in T. destruct x as [| | |[]|[]| | |[]|[]|[]|[]]; try discriminate T. eauto.
    - change (cls 221) with 221 in T. destruct x as [| | |[]|[]| | |[]|[]|[]|[]]; try discriminate T. eauto. }
  apply item_in_arr in X. destruct X as [C X]. exists l. split; [exact X|]. cbn [enc] in E. rewrite <- app_assoc in E. pose proof (zlen_nonneg l).
  pose proof (seq_fmt_cap n S). apply arr_hdr_inj in E; [|lia|lia]. destruct E as [E1 E2]. auto.
Qed.
Definition flat (l : list (item * item)) : list item := flat_map (fun kx => [fst kx; snd kx]) l.
Lemma zlen_flat l : zlen (flat l) = 2 * zlen l.
Proof. unfold flat. induction l as [|kx l IH]; [reflexivity|]. cbn [flat_map app]. rewrite !zlen_cons, IH. lia. Qed.
Lemma enc_flat l : flat_map (fun kx => enc (fst kx) ++ enc (snd kx)) l = flat_map enc (flat l).
Proof. unfold flat. induction l as [|kx l IH]; [reflexivity|]. cbn [flat_map app]. now rewrite IH, !app_assoc. Qed.
Lemma ok_flat l : Forall (fun kx => item_ok (fst kx) /\ item_ok (snd kx)) l <-> Forall item_ok (flat l).
Proof.
  unfold flat. induction l as [|kx l IH]; [split; constructor|]. cbn [flat_map app]. split; intros H.
  - inversion H as [|? ? [H1 H2] H3]; subst. constructor; [exact H1|]. constructor; [exact H2|]. now apply IH.
  - inversion H as [|? ? H1 H2]; subst. inversion H2 as [|? ? H3 H4]; subst. constructor; [now split|]. now apply IH.
Qed.
Lemma pairs : forall n (l : list item), zlen l = 2 * n -> exists p, l = flat p /\ zlen p = n.
Proof.
  intros n l. remember (length l) as k eqn:K. assert (L : (length l <= k)%nat) by lia. clear K. revert n l L.
  induction k as [|k IH]; intros n l L E.
  - destruct l; [|cbn in L; lia]. exists []. split; [reflexivity|]. change (zlen (@nil item)) with 0 in E. change (zlen (@nil (item * item))) with 0. lia.
  - destruct l as [|a [|b l]].
    + exists []. split; [reflexivity|]. change (zlen (@nil item)) with 0 in E. change (zlen (@nil (item * item))) with 0. lia.
    + change (zlen [a]) with 1 in E. lia.
    + rewrite !zlen_cons in E. cbn [length] in L. destruct (IH (n - 1) l ltac:(lia) ltac:(lia)) as (p & -> & P). exists ((a, b) :: p). split; [reflexivity|]. rewrite zlen_cons. lia.
Qed.
Lemma map_inv n x s t : good (EBeginMap n) -> item_ok x -> mp_emit (EBeginMap n) ++ s = enc x ++ t ->
  exists l, Forall item_ok l /\ zlen l = 2 * n /\ s = flat_map enc l ++ t.
Proof.
  intros [O S] X E. cbn [ev_ok sized mp_emit] in *. rewrite emit_map in E by lia. destruct (enc_cls x X) as (m & r & Q & T).
  assert (exists f l, x = MMap f l /\ f = seq_fmt n) as (f & l & -> & ->).
  { rewrite Q in E. unfold seq_fmt in *. destruct (n <? 16) eqn:?; [|destruct (n <? 65536) eqn:?]; cbn [map_hdr app] in E; apply cons_eq in E; destruct E as [E _]; subst m.
    - assert (C : cls (128 + n) = 30) by cls_go. rewrite C in T. destruct x as [| | |[]|[]| | |[]|[]|[]|[]]; try discriminate T. eauto.
    - change (cls 222) with 222 in T. destruct x as [| | |[]|[]| | |[]|[]|[]|[]]; try discriminate T. eauto.
    - change (cls 223) with 223 in T. destruct x as [| | |[]|[]| | |[]|[]|[]|[]]; try discriminate T. eauto. }
  apply item_in_map in X. destruct X as [C X]. exists (flat l). split; [now apply ok_flat|]. rewrite zlen_flat. cbn [enc] in E. rewrite <- app_assoc, enc_flat in E. pose proof (zlen_nonneg l).
  pose proof (seq_fmt_cap n S). apply map_hdr_inj in E; [|lia|lia]. destruct E as [E1 E2]. split; [lia|exact E2].
Qed.

Theorem mp_calls es : Forall good es -> exists b, run mp_writer (w_init mp_writer) es = (b, Ok tt) /\ snd (w_finish mp_writer b) = Ok b /\
  ((exists x, item_ok x /\ b = enc x) <-> whole (drop_ends es)).
Proof.
  intros G. exists (flat_map mp_emit es). rewrite mp_run. split; [reflexivity|]. split; [reflexivity|]. rewrite emit_drop.
  apply (one_iff item_ok enc mp_emit good enc_delim ok_pos leaf_item).
  - intros e [O S] N. destruct e; try discriminate N; cbn [mp_emit]; try discriminate;
      try (destruct (leaf_item _ (conj O S) eq_refl) as (x & X & Q); cbn [mp_emit] in Q; rewrite Q; now apply ok_pos).
    + cbn [ev_ok sized] in *. unfold pack_array. destruct (n <? 16); [discriminate|]. destruct (n <? 65536); discriminate.
    + cbn [ev_ok sized] in *. unfold pack_map. destruct (n <? 16); [discriminate|]. destruct (n <? 65536); discriminate.
  - exact arr_inv.
  - exact map_inv.
  - intros n l [O S] F <-. cbn [ev_ok sized] in *. exists (MArr (seq_fmt (zlen l)) l). split; [|cbn [mp_emit enc]; now rewrite emit_arr by lia].
    apply item_in_arr. split; [now apply seq_fmt_cap|exact F].
  - intros n l [O S] F L. cbn [ev_ok sized] in *. destruct (pairs n l L) as (p & -> & <-). exists (MMap (seq_fmt (zlen p)) p).
    split; [|cbn [mp_emit enc]; rewrite emit_map by lia; now rewrite enc_flat]. apply item_in_map. split; [now apply seq_fmt_cap|now apply ok_flat].
  - unfold drop_ends. apply Forall_forall. intros e He. apply filter_In in He. rewrite Forall_forall in G. now apply G.
  - unfold no_end, drop_ends. apply Forall_forall. intros e He. apply filter_In in He. destruct He as [_ He]. now destruct (is_end e).
Qed.
