(** TruncShows.v -- what a truncated message says about the value that was written. *)

From Coq Require Import ZArith List Bool Lia ZifyBool ZifyNat.
From Verif Require Import Base BaseFacts Spec SpecFacts TruncSpec TruncFacts.
Import ListNotations.
Open Scope Z_scope.

Section Any.
Context {V : Type}.
Variables (R : reader V) (T : val -> table).

Lemma shows_part w v s w2 : shows R T w v -> step_ok s -> take R w s = Ok w2 -> exists x, part v s = Some x /\ shows R T w2 x.
Proof.
  intros H O E.
  assert (match v with VArr _ | VMap _ => True | _ => False end) as C.
  { destruct v; auto; cbn [shows] in H; destruct H as (_ & _ & H1 & H2 & _);
      destruct s; cbn [take step_ok] in *; [rewrite (H1 _ O) in E|rewrite H2 in E|..]; try discriminate E;
      rewrite (H1 _ O) in E || rewrite H2 in E; discriminate E. }
  destruct v as [| | | | | | |l|l]; try contradiction; cbn [shows] in H.
  - destruct H as (_ & _ & H1 & H2 & H3 & _). destruct s as [i|k]; cbn [take step_ok part] in *; [|rewrite H3 in E; discriminate E].
    destruct (Z_lt_le_dec i (zlen l)) as [L|L]; [|rewrite H1 in E by lia; discriminate E].
    replace ((0 <=? i) && (i <? zlen l)) with true by lia.
    assert (forall l j, 0 <= j -> (fix go (i : Z) (l : list val) : Prop :=
         match l with [] => True | x :: l' => (exists w', r_idx R w i = Ok w' /\ shows R T w' x) /\ go (i + 1) l' end) j l ->
         forall n, (n < length l)%nat -> exists x w', nth_error l n = Some x /\ r_idx R w (j + Z.of_nat n) = Ok w' /\ shows R T w' x) as K.
    { clear. induction l as [|x l IH]; intros j J H n N; cbn [length] in N; [lia|]. destruct H as ((w' & H1 & H2) & H).
      destruct n as [|n]; cbn [nth_error]; [exists x, w'; rewrite Z.add_0_r; auto|].
      destruct (IH (j + 1) ltac:(lia) H n ltac:(lia)) as (y & w2 & A & B & C). exists y, w2.
      replace (j + Z.of_nat (S n)) with (j + 1 + Z.of_nat n) by lia. auto. }
    destruct (K l 0 ltac:(lia) H2 (Z.to_nat i) ltac:(unfold zlen in L; lia)) as (x & w' & A & B & D).
    replace (0 + Z.of_nat (Z.to_nat i)) with i in B by lia. exists x. split; [exact A|congruence].
  - destruct H as (_ & _ & _ & H1 & H2 & _ & H3). destruct s as [i|k]; cbn [take step_ok part] in *; [rewrite H3 in E by assumption; discriminate E|].
    destruct (existsb (beq k) (map fst l)) eqn:X; [|rewrite H1 in E by assumption; discriminate E].
    assert (forall l seen, (fix go (seen : list (list Z)) (l : list (bytes * val)) : Prop :=
         match l with [] => True | (k, x) :: l' => (existsb (beq k) seen = false -> exists w', r_key R w k = Ok w' /\ shows R T w' x) /\ go (k :: seen) l' end) seen l ->
         existsb (beq k) seen = false -> existsb (beq k) (map fst l) = true ->
         exists x w', option_map snd (find (fun e => beq k (fst e)) l) = Some x /\ r_key R w k = Ok w' /\ shows R T w' x) as K.
    { clear. induction l as [|[k' x] l IH]; intros seen H N X; cbn [map existsb fst] in X; [discriminate X|].
      destruct H as (H1 & H). cbn [find fst]. destruct (beq k k') eqn:E.
      - apply beq_eq in E. subst k'. destruct (H1 N) as (w' & A & B). exists x, w'. auto.
      - apply (IH (k' :: seen)); [exact H|cbn [existsb]; now rewrite E, N|exact X]. }
    destruct (K l [] H2 eq_refl X) as (x & w' & A & B & D). exists x. split; [exact A|congruence].
Qed.
Lemma shows_follow : forall p w v w2, shows R T w v -> Forall step_ok p -> follow R w p = Ok w2 -> exists x, part_at v p = Some x /\ shows R T w2 x.
Proof.
  induction p as [|s p IH]; intros w v w2 H O E; cbn [follow part_at] in *; [injection E as <-; eauto|].
  apply Forall_cons_iff in O as [O1 O2]. destruct (take R w s) as [w1|?| |] eqn:E1; cbn [bind] in E; try discriminate E.
  destruct (shows_part w v s w1 H O1 E1) as (x & -> & S). exact (IH w1 x w2 S O2 E).
Qed.
Lemma never_lies_tells w' w v : never_lies R w' w -> shows R T w v -> tells_only R T w' v.
Proof.
  intros N S p x' O E. destruct (N p x' E) as (w2 & E2 & K). destruct (shows_follow p w v w2 S O E2) as (x & P & S2). eauto.
Qed.
End Any.
