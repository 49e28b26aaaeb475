(** TruncFacts.v -- computations that answer on a prefix of a buffer give the same answer on the buffer. *)

From Coq Require Import ZArith List Bool Lia ZifyBool ZifyNat.
From Verif Require Import Base BaseFacts Spec SpecFacts CborModel TruncSpec.
Import ListNotations.
Open Scope Z_scope.

(** [below Q m' m]: when [m'] answers, so does [m], with an answer related by [Q]. *)
Definition below {A B} (Q : A -> B -> Prop) (m' : res A) (m : res B) : Prop :=
  forall x, m' = Ok x -> exists y, m = Ok y /\ Q x y.
Definition sumr {A A' B B'} (P : A -> A' -> Prop) (Q : B -> B' -> Prop) (x : A + B) (y : A' + B') : Prop :=
  match x, y with inl a, inl b => P a b | inr a, inr b => Q a b | _, _ => False end.

Lemma below_ok {A B} (Q : A -> B -> Prop) x y : Q x y -> below Q (Ok x) (Ok y).
Proof. intros H z E. injection E as <-. eauto. Qed.
Lemma below_throw {A B} (Q : A -> B -> Prop) e m : below Q (Throw e) m.
Proof. intros z E. discriminate E. Qed.
Lemma below_ub {A B} (Q : A -> B -> Prop) m : below Q UB m.
Proof. intros z E. discriminate E. Qed.
Lemma below_nofuel {A B} (Q : A -> B -> Prop) m : below Q NoFuel m.
Proof. intros z E. discriminate E. Qed.
Lemma below_bind {A A' B B'} (P : A -> A' -> Prop) (Q : B -> B' -> Prop) m' m f g :
  below P m' m -> (forall x y, P x y -> below Q (f x) (g y)) -> below Q (bind m' f) (bind m g).
Proof.
  intros H K z E. destruct m' as [x|e| |]; cbn [bind] in E; try discriminate E.
  destruct (H x eq_refl) as (y & -> & HP). cbn [bind]. exact (K x y HP z E).
Qed.
Lemma below_bind_eq {A B B'} (Q : B -> B' -> Prop) (m' m : res A) f g :
  below eq m' m -> (forall x, m' = Ok x -> below Q (f x) (g x)) -> below Q (bind m' f) (bind m g).
Proof.
  intros H K z E. destruct m' as [x|e| |]; cbn [bind] in E; try discriminate E.
  destruct (H x eq_refl) as (y & -> & <-). cbn [bind]. exact (K x eq_refl z E).
Qed.
Lemma below_require {B B'} (Q : B -> B' -> Prop) (c' c : bool) e f g :
  (c' = true -> c = true) -> (c' = true -> below Q f g) -> below Q (require c' e ;;; f) (require c e ;;; g).
Proof.
  intros H K. destruct c'; cbn [require bind]; [|apply below_throw]. rewrite H by reflexivity. cbn [require bind]. auto.
Qed.
Lemma below_require1 (c' c : bool) e : (c' = true -> c = true) -> below eq (require c' e) (require c e).
Proof. intros H. destruct c'; cbn [require]; [rewrite H by reflexivity; now apply below_ok|apply below_throw]. Qed.
Lemma below_match {A A' B B' C C'} (P : A -> A' -> Prop) (P2 : B -> B' -> Prop) (Q : C -> C' -> Prop) m' m f' f g' g :
  below (sumr P P2) m' m -> (forall x y, P x y -> below Q (f' x) (f y)) -> (forall x y, P2 x y -> below Q (g' x) (g y)) ->
  below Q (x <- m' ;; match x with inl a => f' a | inr b => g' b end) (x <- m ;; match x with inl a => f a | inr b => g b end).
Proof. intros H K1 K2. eapply below_bind; [exact H|]. intros [?|?] [?|?] E; cbn [sumr] in E; try contradiction; auto. Qed.
Lemma below_weaken {A B} (P Q : A -> B -> Prop) m' m : (forall x y, P x y -> Q x y) -> below P m' m -> below Q m' m.
Proof. intros H K x E. destruct (K x E) as (y & -> & HP). eauto. Qed.
Lemma below_trans {A} (m1 m2 m3 : res A) : below eq m1 m2 -> below eq m2 m3 -> below eq m1 m3.
Proof. intros H K x E. destruct (H x E) as (y & E2 & <-). exact (K x E2). Qed.

Lemma below_nloop {S S' A A'} (P : S -> S' -> Prop) (Q : A -> A' -> Prop) f g : (forall s s', P s s' -> below (sumr P Q) (f s) (g s')) ->
  forall n s s', P s s' -> below (sumr P Q) (nloop n f s) (nloop n g s').
Proof.
  intros H. induction n as [|n IH]; intros s s' HP; cbn [nloop]; [now apply below_ok|].
  eapply below_match; [now apply H|exact IH|]. intros. apply below_ok. assumption.
Qed.
Lemma below_zloop {S S' A A'} (P : S -> S' -> Prop) (Q : A -> A' -> Prop) f g n s s' : (forall s s', P s s' -> below (sumr P Q) (f s) (g s')) ->
  P s s' -> below (sumr P Q) (zloop n f s) (zloop n g s').
Proof. intros. rewrite !zloop_nloop. now apply below_nloop. Qed.
Lemma below_zloop_eq {S A A'} (Q : A -> A' -> Prop) (f g : S -> _) n s : (forall s, below (sumr eq Q) (f s) (g s)) ->
  below (sumr eq Q) (zloop n f s) (zloop n g s).
Proof. intros. apply below_zloop; [|reflexivity]. intros s1 s2 <-. auto. Qed.
Lemma below_floop {S A A'} (Q : A -> A' -> Prop) (f g : S -> _) : (forall s, below (sumr eq Q) (f s) (g s)) ->
  forall n s, below Q (floop n f s) (floop n g s).
Proof.
  intros H. induction n as [|n IH]; intros s; cbn [floop]; [apply below_nofuel|].
  eapply below_match; [apply H| |]; [intros x y <-; apply IH|intros; now apply below_ok].
Qed.

Section Prefix.
Variables b t : bytes.
Lemma below_rd p : below eq (rd b p) (rd (b ++ t) p).
Proof.
  intros x E. unfold rd, get in *. rewrite zlen_app. pose proof (zlen_nonneg t).
  destruct ((0 <=? p) && (p <? zlen b)) eqn:C; [|discriminate E].
  replace ((0 <=? p) && (p <? zlen b + zlen t)) with true by lia.
  rewrite nth_error_app1 by (unfold zlen in *; lia). eauto.
Qed.
Lemma below_rd_view w : below eq (rd_view b w) (rd_view (b ++ t) w).
Proof.
  intros x E. unfold rd_view in *. rewrite zlen_app. pose proof (zlen_nonneg t).
  destruct ((0 <=? fst w) && (0 <=? snd w) && (fst w + snd w <=? zlen b)) eqn:C; [|discriminate E].
  replace ((0 <=? fst w) && (0 <=? snd w) && (fst w + snd w <=? zlen b + zlen t)) with true by lia.
  injection E as <-. eexists. split; [reflexivity|]. unfold slice.
  rewrite skipn_app, firstn_app. replace (Z.to_nat (snd w) - _)%nat with 0%nat by (rewrite skipn_length; unfold zlen in *; lia).
  cbn [firstn]. now rewrite app_nil_r.
Qed.
Lemma zlen_more p : (p <? zlen b) = true -> (p <? zlen (b ++ t)) = true.
Proof. rewrite zlen_app. pose proof (zlen_nonneg t). lia. Qed.
Lemma zlen_more_le p : (p <=? zlen b) = true -> (p <=? zlen (b ++ t)) = true.
Proof. rewrite zlen_app. pose proof (zlen_nonneg t). lia. Qed.
End Prefix.

(** Following the same path in two related messages. *)
Lemma follow_below {V} (R : reader V) (Q : V -> V -> Prop) :
  (forall w' w s, Q w' w -> below Q (take R w' s) (take R w s)) ->
  (forall w' w, Q w' w -> still_told R w' w) -> forall w' w, Q w' w -> never_lies R w' w.
Proof.
  intros H T w' w HQ p v' E.
  assert (below Q (follow R w' p) (follow R w p)) as K.
  { clear v' E. revert w' w HQ. induction p as [|s p IH]; intros w' w HQ; cbn [follow]; [now apply below_ok|].
    eapply below_bind; [now apply H|auto]. }
  destruct (K v' E) as (v & E2 & HV). exists v. split; [exact E2|now apply T].
Qed.
Lemma told_below {V A} (op : V -> res A) w' w : below eq (op w') (op w) -> same_answer op w' w.
Proof. intros H x E. destruct (H x E) as (y & E2 & <-). exact E2. Qed.
