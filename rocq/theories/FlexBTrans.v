(** FlexBTrans.v -- readers that answer alike are copied alike; the six bytes of an array that contains itself. *)

From Coq Require Import ZArith List Bool Lia ZifyBool ZifyNat.
From Verif Require Import Base BaseFacts Spec SpecFacts FlexModel FlexBModel FlexBSpec TransModel.
Import ListNotations.
Open Scope Z_scope.

Section Same.
Context {V1 V2 S O : Type} (R1 : reader V1) (R2 : reader V2) (W : writer S O).
Lemma bind_alike {A B C} (P : A -> B -> Prop) (a : res A) (b : res B) (f : A -> res C) (g : B -> res C) : alike P a b -> (forall x y, P x y -> f x = g y) -> bind a f = bind b g.
Proof. destruct a, b; cbn; intros H K; try contradiction; auto. now subst. Qed.
Lemma ploop_eq {A B} (P : A -> Prop) (f g : A -> res (A + B)) : (forall a, P a -> f a = g a) -> (forall a a', P a -> f a = Ok (inl a') -> P a') ->
  forall p a, P a -> ploop p f a = ploop p g a /\ forall a', ploop p f a = Ok (inl a') -> P a'.
Proof.
  intros E K. induction p as [p IH|p IH|]; intros a H; cbn [ploop].
  - rewrite <- (E a H). destruct (f a) as [[a1|b]|e| |] eqn:F; cbn [bind]; try (split; [reflexivity|discriminate]). pose proof (K a a1 H F) as H1.
    destruct (IH a1 H1) as (Q1 & N1). rewrite <- Q1. destruct (ploop p f a1) as [[a2|b]|e| |] eqn:F2; cbn [bind]; try (split; [reflexivity|discriminate]). apply IH. now apply N1.
  - destruct (IH a H) as (Q1 & N1). rewrite <- Q1. destruct (ploop p f a) as [[a2|b]|e| |] eqn:F2; cbn [bind]; try (split; [reflexivity|discriminate]). apply IH. now apply N1.
  - split; [now apply E|]. intros a' F. now apply (K a).
Qed.
Lemma write_same fuel : forall w1 w2 s, (forall n, same n R1 R2 w1 w2) -> write_value R1 W fuel w1 s = write_value R2 W fuel w2 s.
Proof.
  induction fuel as [|f IH]; intros w1 w2 s H; [reflexivity|]. cbn [write_value].
  pose proof (H 1%nat) as (N & B & Z & U & F & ST & BL & M & A & AB & AI & AU & AD & _ & AS & ABL & SZ & _ & MK & _ & _).
  assert (HK : forall k n, alike (same n R1 R2) (r_key R1 w1 k) (r_key R2 w2 k)) by (intros k n; apply (H (Datatypes.S n))).
  assert (HI : forall i n, 0 <= i -> alike (same n R1 R2) (r_idx R1 w1 i) (r_idx R2 w2 i)) by (intros i n; apply (H (Datatypes.S n))).
  rewrite N, B, Z, U, F, ST, BL, M, A, AB, AI, AU, AD, AS, ABL, SZ, MK.
  assert (C : forall (P : nat -> V1 -> V2 -> Prop) (a : res V1) (b : res V2), (forall n, alike (P n) a b) -> alike (fun x y => forall n, P n x y) a b).
  { intros P a b Q. destruct a, b; cbn in *; auto; try apply (Q O). }
  assert (WK : forall ks s, write_keys R1 W (write_value R1 W f) w1 ks s = write_keys R2 W (write_value R2 W f) w2 ks s).
  { induction ks as [|k ks IK]; intros s0; [reflexivity|]. cbn [write_keys]. destruct (emit W s0 (EKey k)) as [s1|e| |]; cbn [bind]; auto.
    apply (bind_alike (fun x y => forall n, same n R1 R2 x y)); [apply C, HK|]. intros x y Q. rewrite (IH x y s1 Q). destruct (write_value R2 W f y s1); cbn [bind]; auto. }
  assert (WE : forall n s, zloop n (write_elem R1 (write_value R1 W f) w1) (0, s) = zloop n (write_elem R2 (write_value R2 W f) w2) (0, s)).
  { intros n s0. unfold zloop. destruct n as [|p|p]; try reflexivity. apply (ploop_eq (fun a => 0 <= fst a)); [| |cbn; lia].
    - intros (i & s1) P. cbn [fst] in P. cbn [write_elem]. apply (bind_alike (fun x y => forall n, same n R1 R2 x y)); [apply C; intros n; now apply HI|]. intros x y Q. now rewrite (IH x y s1 Q).
    - intros (i & s1) (i' & s1') P E. cbn [write_elem] in E. destruct (r_idx R1 w1 i) as [x|e| |]; try discriminate. cbn [bind] in E. destruct (write_value R1 W f x s1); try discriminate. cbn [bind] in E. injection E as <- <-. cbn [fst] in *. lia. }
  repeat match goal with |- bind ?m _ = bind ?m _ => match type of m with res bool => destruct m as [[|]| | |] | _ => destruct m end; cbn [bind]; auto end.
  - now rewrite WK.
  - now rewrite WE.
Qed.
Lemma translate_same {V'} (open : O -> res V') fuel w1 w2 : (forall n, same n R1 R2 w1 w2) -> translate R1 W open fuel w1 = translate R2 W open fuel w2.
Proof. intros H. unfold translate. now rewrite (write_same fuel w1 w2 _ H). Qed.
End Same.
