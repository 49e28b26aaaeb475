(** IdentFacts.v -- self-delimiting encodings. *)

From Coq Require Import ZArith List Bool Lia ZifyBool ZifyNat.
From Verif Require Import Base BaseFacts.
Import ListNotations.
Open Scope Z_scope.

Lemma zlen_app_eq (a b s t : bytes) : zlen a = zlen b -> a ++ s = b ++ t -> a = b /\ s = t.
Proof. intros L. apply app_eq_len. unfold zlen in L. lia. Qed.

Lemma cons_eq {A} (a b : A) s t : a :: s = b :: t -> a = b /\ s = t.
Proof. intros E. injection E as -> ->. auto. Qed.

(** Sequences of equally many self-delimiting pieces. *)
Definition delim {A} (P : A -> Prop) (e : A -> bytes) (x : A) : Prop :=
  forall y s t, P y -> e x ++ s = e y ++ t -> x = y /\ s = t.
Lemma delim_list {A} (P : A -> Prop) (e : A -> bytes) (l : list A) : Forall (delim P e) l ->
  forall l' s t, Forall P l' -> zlen l = zlen l' -> flat_map e l ++ s = flat_map e l' ++ t -> l = l' /\ s = t.
Proof.
  induction 1 as [|x l D F IH]; intros [|y l'] s t HP L E.
  - auto.
  - rewrite zlen_cons, zlen_nil in L. pose proof (zlen_nonneg l'). lia.
  - rewrite zlen_cons, zlen_nil in L. pose proof (zlen_nonneg l). lia.
  - apply Forall_cons_iff in HP. destruct HP as [Py HP]. cbn [flat_map] in E. rewrite <- !app_assoc in E.
    apply D in E; [|exact Py]. destruct E as [-> E]. apply IH in E; [|exact HP|rewrite !zlen_cons in L; lia]. destruct E as [-> ->]. auto.
Qed.


(** Sequences up to a terminator no piece starts with. *)
Lemma delim_stop {A} (P : A -> Prop) (e : A -> bytes) (z : Z) (l : list A) :
  (forall x, P x -> exists m r, e x = m :: r /\ m <> z) -> Forall P l -> Forall (delim P e) l ->
  forall l' s t, Forall P l' -> flat_map e l ++ z :: s = flat_map e l' ++ z :: t -> l = l' /\ s = t.
Proof.
  intros N. induction l as [|x l IH]; intros HL D [|y l'] s t HP E.
  - cbn [flat_map app] in E. apply cons_eq in E. tauto.
  - apply Forall_cons_iff in HP. destruct HP as [Py _]. destruct (N y Py) as (m & r & Ey & Ne).
    cbn [flat_map] in E. rewrite Ey in E. cbn [app] in E. apply cons_eq in E. destruct E as [E _]. congruence.
  - apply Forall_cons_iff in HL. destruct HL as [Px _]. destruct (N x Px) as (m & r & Ex & Ne).
    cbn [flat_map] in E. rewrite Ex in E. cbn [app] in E. apply cons_eq in E. destruct E as [E _]. congruence.
  - apply Forall_cons_iff in HP. destruct HP as [Py HP]. apply Forall_cons_iff in HL. destruct HL as [Px HL].
    apply Forall_cons_iff in D. destruct D as [Dx D].
    cbn [flat_map] in E. rewrite <- !app_assoc in E. apply Dx in E; [|exact Py]. destruct E as [-> E].
    apply IH in E; [|exact HL|exact D|exact HP]. destruct E as [-> ->]. auto.
Qed.
Lemma delim_pair {A} (P : A -> Prop) (e : A -> bytes) kx : delim P e (fst kx) -> delim P e (snd kx) ->
  delim (fun kx => P (fst kx) /\ P (snd kx)) (fun kx => e (fst kx) ++ e (snd kx)) kx.
Proof.
  destruct kx as [k x]. cbn [fst snd]. intros I1 I2 [k' x'] s t [P1 P2] E. cbn [fst snd] in *. rewrite <- !app_assoc in E.
  apply I1 in E; [|exact P1]. destruct E as [-> E]. apply I2 in E; [|exact P2]. destruct E as [-> ->]. auto.
Qed.
