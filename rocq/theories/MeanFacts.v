(** MeanFacts.v -- type questions of a view whose leaf answers are known. *)

From Coq Require Import ZArith List Bool Lia ZifyBool ZifyNat.
From Verif Require Import Base BaseFacts Spec SpecFacts TransSpec SaysSpec SaysFacts MeanSpec.
Import ListNotations.
Open Scope Z_scope.

Definition answers (t : table) : list bool := [t_null t; t_bool t; t_int t; t_uint t; t_float t; t_string t; t_blob t; t_map t; t_array t].
Fixpoint first_true (l : list bool) : option nat :=
  match l with [] => None | true :: _ => Some 0%nat | false :: l' => option_map S (first_true l') end.
Lemma first_true_spec l n : first_true l = Some n <-> nth_error l n = Some true /\ forall m, (m < n)%nat -> nth_error l m = Some false.
Proof.
  revert n. induction l as [|[] l IH]; intros n; cbn [first_true].
  - split; [discriminate|]. intros [H _]. destruct n; discriminate H.
  - split.
    + intros H. injection H as <-. split; [reflexivity|]. intros m L. lia.
    + intros [H H']. destruct n as [|n]; [reflexivity|]. specialize (H' 0%nat ltac:(lia)). discriminate H'.
  - split.
    + intros H. destruct (first_true l) as [k|]; [|discriminate H]. injection H as <-. destruct (proj1 (IH k) eq_refl) as [E E']. split; [exact E|]. intros [|m] L; [reflexivity|]. apply E'. lia.
    + intros [H H']. destruct n as [|n]; [discriminate H|]. rewrite (proj2 (IH n)); [reflexivity|]. split; [exact H|]. intros m L. exact (H' (S m) ltac:(lia)).
Qed.
Lemma yes_list {V} (R : reader V) w l n : Forall2 (fun q a => q w = Ok a) (questions R) l -> first_yes R w n <-> first_true l = Some n.
Proof.
  intros F. rewrite first_true_spec.
  assert (Q : forall m q, nth_error (questions R) m = Some q -> exists a, nth_error l m = Some a /\ q w = Ok a).
  { induction F as [|q a qs l H _ IH]; intros [|m] q' E; cbn [nth_error] in *; try discriminate E; [injection E as <-; eauto|now apply IH]. }
  assert (A : forall m a, nth_error l m = Some a -> exists q, nth_error (questions R) m = Some q /\ q w = Ok a).
  { clear Q. induction F as [|q a qs l H _ IH]; intros [|m] a' E; cbn [nth_error] in *; try discriminate E; [injection E as <-; eauto|now apply IH]. }
  split.
  - intros [(q & E & Y) N]. destruct (Q n q E) as (a & EA & YA). split; [congruence|]. intros m L.
    destruct (nth_error (questions R) m) as [q'|] eqn:Q'; [|apply nth_error_None in Q'; assert (n < List.length (questions R))%nat by (apply nth_error_Some; congruence); lia].
    destruct (Q m q' Q') as (a' & A' & B'). rewrite (N m q' L Q') in B'. congruence.
  - intros [E N]. destruct (A n true E) as (q & EQ & Y). split; [eauto|]. intros m q' L Q'. destruct (Q m q' Q') as (a' & A' & B'). rewrite (N m L) in A'. congruence.
Qed.
Lemma observes_yes {V} (R : reader V) w t n : observes R w t -> first_yes R w n <-> first_true (answers t) = Some n.
Proof.
  intros (A0 & A1 & A2 & A3 & A4 & A5 & A6 & A7 & A8 & _). apply yes_list. unfold questions, answers. repeat constructor; assumption.
Qed.

Lemma or_throw_ok {A} (o : option A) x : or_throw o = Ok x <-> o = Some x.
Proof. destruct o; cbn; split; congruence. Qed.

(** The scalar at a view whose answers are known. *)
Lemma says_scalar {V} (R : reader V) w t x : observes R w t -> scalar t <> None -> says R w x <-> scalar t = Some (Some x).
Proof.
  intros OB NS. pose proof (fun n => observes_yes R w t n OB) as Y. destruct OB as (_ & _ & _ & _ & _ & _ & _ & _ & _ & O1 & O2 & O3 & O4 & _ & O5 & O6).
  assert (Z : forall (b : bool) n, b = true -> b = false -> n = 0%nat) by congruence.
  unfold scalar in *. unfold answers in Y. split.
  - intros SY. destruct x; cbn [says] in SY.
    1: apply Y in SY; destruct (t_null t); [reflexivity|].
    2: destruct SY as [SY E]; apply Y in SY; rewrite O1 in E; apply or_throw_ok in E; destruct (t_null t); [discriminate SY|]; destruct (t_bool t); [now rewrite E|].
    3: destruct SY as [SY E]; apply Y in SY; rewrite O2 in E; apply or_throw_ok in E; destruct (t_null t); [discriminate SY|]; destruct (t_bool t); [discriminate SY|]; destruct (t_int t); [now rewrite E|].
    4: destruct SY as [SY E]; apply Y in SY; rewrite O3 in E; apply or_throw_ok in E; destruct (t_null t); [discriminate SY|]; destruct (t_bool t); [discriminate SY|]; destruct (t_int t); [discriminate SY|]; destruct (t_uint t); [now rewrite E|].
    5: destruct SY as [SY E]; apply Y in SY; rewrite O4 in E; apply or_throw_ok in E; destruct (t_null t); [discriminate SY|]; destruct (t_bool t); [discriminate SY|]; destruct (t_int t); [discriminate SY|]; destruct (t_uint t); [discriminate SY|]; destruct (t_float t); [now rewrite E|].
    6: destruct SY as [SY E]; apply Y in SY; rewrite O5 in E; apply or_throw_ok in E; destruct (t_null t); [discriminate SY|]; destruct (t_bool t); [discriminate SY|]; destruct (t_int t); [discriminate SY|]; destruct (t_uint t); [discriminate SY|]; destruct (t_float t); [discriminate SY|]; destruct (t_string t); [now rewrite E|].
    7: destruct SY as [SY E]; apply Y in SY; rewrite O6 in E; apply or_throw_ok in E; destruct (t_null t); [discriminate SY|]; destruct (t_bool t); [discriminate SY|]; destruct (t_int t); [discriminate SY|]; destruct (t_uint t); [discriminate SY|]; destruct (t_float t); [discriminate SY|]; destruct (t_string t); [discriminate SY|]; destruct (t_blob t); [now rewrite E|].
    8,9: destruct SY as [SY _]; apply Y in SY.
    all: exfalso; revert SY NS; cbn [first_true]; repeat match goal with |- context [if ?b then _ else _] => destruct b end; cbn [option_map]; intros; congruence.
  - intros E. destruct (t_null t) eqn:E0; [injection E as <-; cbn [says]; apply Y; reflexivity|].
    destruct (t_bool t) eqn:E1; [destruct (t_asBool t); [|discriminate E]; injection E as <-; cbn [says]; split; [apply Y; reflexivity|exact O1]|].
    destruct (t_int t) eqn:E2; [specialize (O2 I64); destruct (t_asInt t I64); [|discriminate E]; injection E as <-; cbn [says]; split; [apply Y; reflexivity|exact O2]|].
    destruct (t_uint t) eqn:E3; [specialize (O3 I64); destruct (t_asUInt t I64); [|discriminate E]; injection E as <-; cbn [says]; split; [apply Y; reflexivity|exact O3]|].
    destruct (t_float t) eqn:E4; [destruct (t_asDouble t); [|discriminate E]; injection E as <-; cbn [says]; split; [apply Y; reflexivity|exact O4]|].
    destruct (t_string t) eqn:E5; [destruct (t_asString t); [|discriminate E]; injection E as <-; cbn [says]; split; [apply Y; reflexivity|exact O5]|].
    destruct (t_blob t) eqn:E6; [destruct (t_asBlob t); [|discriminate E]; injection E as <-; cbn [says]; split; [apply Y; reflexivity|exact O6]|].
    now destruct NS.
Qed.

(** The type question that a value answers first. *)
Definition rank (x : val) : nat :=
  match x with VNull => 0 | VBool _ => 1 | VInt _ => 2 | VUInt _ => 3 | VDbl _ => 4 | VStr _ => 5 | VBlob _ => 6 | VMap _ => 7 | VArr _ => 8 end%nat.
Lemma says_rank {V} (R : reader V) w x : says R w x -> first_yes R w (rank x).
Proof. destruct x; cbn [says rank]; intros SY; try exact SY; exact (proj1 SY). Qed.
Lemma says_is {V} (R : reader V) w t x n : observes R w t -> first_true (answers t) = Some n -> says R w x -> rank x = n.
Proof. intros OB F SY. apply says_rank in SY. apply (observes_yes R w t _ OB) in SY. congruence. Qed.

Lemma all_some_nil {A} (xs : list A) : all_some [] = Some xs <-> xs = [].
Proof. cbn. split; [now intros [= <-]|now intros ->]. Qed.
Lemma all_some_cons {A} (o : option A) l xs : all_some (o :: l) = Some xs <-> exists x xs', xs = x :: xs' /\ o = Some x /\ all_some l = Some xs'.
Proof.
  cbn [all_some]. split.
  - destruct o as [x|]; [|discriminate]. destruct (all_some l) as [xs'|]; [|discriminate]. intros [= <-]. eauto.
  - intros (x & xs' & -> & -> & ->). reflexivity.
Qed.
Lemma entries_iff (G : bytes -> option val) ks : forall xs,
  all_entries (map (fun k => (k, G k)) ks) = Some xs <-> map fst xs = ks /\ Forall (fun kx => G (fst kx) = Some (snd kx)) xs.
Proof.
  induction ks as [|k ks IH]; intros xs; cbn [map all_entries].
  - split; [intros [= <-]; split; [reflexivity|constructor]|]. intros [H _]. destruct xs; [reflexivity|discriminate H].
  - split.
    + destruct (G k) as [x|] eqn:E; [|discriminate]. destruct (all_entries _) as [r|]; [|discriminate]. intros [= <-].
      destruct (proj1 (IH r) eq_refl) as [A B]. cbn [map fst]. split; [now rewrite A|]. constructor; [exact E|exact B].
    + intros [A B]. destruct xs as [|[k' x] xs]; [discriminate A|]. cbn [map fst] in A. injection A as -> A. apply Forall_cons_iff in B. destruct B as [E B].
      cbn [fst snd] in E. rewrite E. rewrite (proj2 (IH xs) (conj A B)). reflexivity.
Qed.
Lemma firsts_map {A} (L : list (bytes * A)) (G : bytes -> A) : (forall k d, In k (map fst L) -> first_of k d L = G k) -> firsts L = map (fun k => (k, G k)) (map fst L).
Proof.
  intros H. unfold firsts. rewrite map_map. apply map_ext_in. intros [k x] IN. cbn [fst snd]. rewrite H; [reflexivity|]. exact (in_map fst _ _ IN).
Qed.
