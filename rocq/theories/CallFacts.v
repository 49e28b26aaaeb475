(** CallFacts.v -- reading announced lengths off a concatenation of headers (C81), for any self-delimiting format. *)

From Coq Require Import ZArith List Bool Lia ZifyBool ZifyNat.
From Verif Require Import Base BaseFacts Spec SpecFacts IdentFacts CallSpec.
Import ListNotations.
Open Scope Z_scope.

Scheme whole_mut := Minimality for whole Sort Prop with wholes_mut := Minimality for wholes Sort Prop.
Combined Scheme whole_both from whole_mut, wholes_mut.

Lemma wholes_app n m a b : wholes n a -> wholes m b -> wholes (n + m) (a ++ b).
Proof.
  intros A B. induction A as [|k x y X Y IH]; [exact B|]. rewrite <- app_assoc. replace (k + 1 + m) with (k + m + 1) by lia. now constructor.
Qed.
Lemma whole_one a : whole a -> wholes 1 a.
Proof. intros W. rewrite <- (app_nil_r a). exact (wholes_cons 0 a [] W wholes_nil). Qed.
Lemma wholes_split : forall n es, wholes n es -> 0 <= n /\ forall m, 0 <= m <= n -> exists a b, es = a ++ b /\ wholes m a /\ wholes (n - m) b.
Proof.
  induction 1 as [|n a b A B [P IH]].
  - split; [lia|]. intros m M. assert (m = 0) as -> by lia. exists [], []. repeat split; constructor.
  - split; [lia|]. intros m M. destruct (Z.eq_dec m 0) as [->|N].
    + exists [], (a ++ b). split; [reflexivity|]. split; [constructor|]. rewrite Z.sub_0_r. now constructor.
    + destruct (IH (m - 1) ltac:(lia)) as (c & d & -> & C & D). exists (a ++ c), d. split; [now rewrite app_assoc|].
      split; [replace m with (m - 1 + 1) by lia; now constructor|]. now replace (n + 1 - m) with (n - (m - 1)) by lia.
Qed.
Lemma drop_app a b : drop_ends (a ++ b) = drop_ends a ++ drop_ends b.
Proof. apply filter_app. Qed.

Section Format.
  Context {T : Type} (ok : T -> Prop) (enc : T -> bytes) (emit : ev -> bytes) (good : ev -> Prop).
  Hypothesis DELIM : forall x, ok x -> delim ok enc x.
  Hypothesis POS : forall x, ok x -> enc x <> [].
  Hypothesis LEAF : forall e, good e -> is_leaf e = true -> exists x, ok x /\ emit e = enc x.
  Hypothesis SOME : forall e, good e -> is_end e = false -> emit e <> [].
  Hypothesis ARR : forall n x s t, good (EBeginArr n) -> ok x -> emit (EBeginArr n) ++ s = enc x ++ t ->
    exists l, Forall ok l /\ zlen l = n /\ s = flat_map enc l ++ t.
  Hypothesis MAP : forall n x s t, good (EBeginMap n) -> ok x -> emit (EBeginMap n) ++ s = enc x ++ t ->
    exists l, Forall ok l /\ zlen l = 2 * n /\ s = flat_map enc l ++ t.
  Hypothesis ARR' : forall n l, good (EBeginArr n) -> Forall ok l -> zlen l = n -> exists x, ok x /\ emit (EBeginArr n) ++ flat_map enc l = enc x.
  Hypothesis MAP' : forall n l, good (EBeginMap n) -> Forall ok l -> zlen l = 2 * n -> exists x, ok x /\ emit (EBeginMap n) ++ flat_map enc l = enc x.

  Definition no_end (es : list ev) : Prop := Forall (fun e => is_end e = false) es.
  Lemma enc_nil os : Forall ok os -> [] = flat_map enc os -> os = [].
  Proof.
    intros OS E. destruct os as [|o os]; [reflexivity|]. inversion OS; subst. cbn [flat_map] in E. symmetry in E. apply app_eq_nil in E.
    destruct E as [E _]. now apply POS in E.
  Qed.
  Lemma parse : forall k es os, (List.length es <= k)%nat -> Forall good es -> no_end es -> Forall ok os ->
    flat_map emit es = flat_map enc os -> wholes (zlen os) es.
  Proof.
    induction k as [|k IH]; intros [|e es] os L G NE OS E;
      try (rewrite (enc_nil os OS E); constructor); cbn [List.length] in L; [lia|].
    inversion G as [|? ? Ge Ges]; subst. inversion NE as [|? ? N1 NEs]; subst. cbn [flat_map] in E.
    destruct os as [|o os]; [apply app_eq_nil in E; destruct E as [E _]; now apply SOME in E|].
    inversion OS as [|? ? Oo Oos]; subst. cbn [flat_map] in E. rewrite zlen_cons.
    assert (REST : forall l, Forall ok l -> flat_map emit es = flat_map enc l ++ flat_map enc os ->
      exists a b, es = a ++ b /\ wholes (zlen l) a /\ wholes (zlen os) b).
    { intros l OL Q. rewrite <- flat_map_app in Q. apply IH in Q; [|lia|exact Ges|exact NEs|now apply Forall_app].
      rewrite zlen_app in Q. destruct (wholes_split _ _ Q) as [_ S]. pose proof (zlen_nonneg l). pose proof (zlen_nonneg os).
      destruct (S (zlen l) ltac:(lia)) as (a & b & -> & A & B). exists a, b. split; [reflexivity|]. split; [exact A|].
      now replace (zlen l + zlen os - zlen l) with (zlen os) in B by lia. }
    replace (1 + zlen os) with (zlen os + 1) by lia.
    destruct (is_leaf e) eqn:LE.
    - destruct (LEAF e Ge LE) as (x & X & Q). rewrite Q in E. apply (DELIM x X o _ _ Oo) in E. destruct E as [_ E].
      change (e :: es) with ([e] ++ es). constructor; [now constructor|]. apply IH; auto. lia.
    - destruct e; try discriminate LE; try discriminate N1.
      + destruct (ARR n o _ _ Ge Oo E) as (l & OL & <- & Q). destruct (REST l OL Q) as (a & b & -> & A & B).
        change (EBeginArr (zlen l) :: a ++ b) with ((EBeginArr (zlen l) :: a) ++ b). constructor; [now constructor|exact B].
      + destruct (MAP n o _ _ Ge Oo E) as (l & OL & LL & Q). destruct (REST l OL Q) as (a & b & -> & A & B).
        change (EBeginMap n :: a ++ b) with ((EBeginMap n :: a) ++ b). constructor; [constructor; now rewrite <- LL|exact B].
  Qed.
  Lemma build : (forall es, whole es -> Forall good es -> exists x, ok x /\ flat_map emit es = enc x) /\
    (forall n es, wholes n es -> Forall good es -> exists l, Forall ok l /\ zlen l = n /\ flat_map emit es = flat_map enc l).
  Proof.
    apply whole_both.
    - intros e L G. inversion G; subst. cbn [flat_map]. rewrite app_nil_r. now apply LEAF.
    - intros n es _ IH G. inversion G as [|? ? Ge Ges]; subst. destruct (IH Ges) as (l & OL & LL & Q). cbn [flat_map]. rewrite Q. now apply ARR'.
    - intros n es _ IH G. inversion G as [|? ? Ge Ges]; subst. destruct (IH Ges) as (l & OL & LL & Q). cbn [flat_map]. rewrite Q. now apply MAP'.
    - intros _. exists []. repeat split. constructor.
    - intros n a b _ IA _ IB G. apply Forall_app in G. destruct G as [GA GB]. destruct (IA GA) as (x & X & Qx). destruct (IB GB) as (l & OL & LL & Q).
      exists (x :: l). split; [now constructor|]. split; [rewrite zlen_cons; lia|]. rewrite flat_map_app, Qx, Q. reflexivity.
  Qed.
  Theorem one_iff es : Forall good es -> no_end es -> ((exists x, ok x /\ flat_map emit es = enc x) <-> whole es).
  Proof.
    intros G NE. split.
    - intros (x & X & Q). assert (W : wholes (zlen [x]) es).
      { apply (parse (List.length es)); auto. cbn [flat_map]. now rewrite app_nil_r. }
      change (zlen [x]) with (0 + 1) in W. remember (0 + 1) as m eqn:M. destruct W as [|n a b A B]; [discriminate M|]. assert (n = 0) as -> by lia.
      inversion B as [B0 B1|n0 c d C D E0 E1]; subst; [now rewrite app_nil_r|]. destruct (wholes_split _ _ D). lia.
    - intros W. now apply build.
  Qed.
End Format.
