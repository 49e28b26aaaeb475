(** SaysFacts.v -- translate copies what the source says, whatever the source. *)

From Coq Require Import ZArith List Bool Lia ZifyBool ZifyNat.
From Verif Require Import Base BaseFacts Spec SpecFacts TransModel TransFacts SaysSpec.
Import ListNotations.
Open Scope Z_scope.

Section Elems.
Context {V : Type} (R : reader V).
Section At.
Variable w : V.
Fixpoint says_elems (i : Z) (l : list val) : Prop :=
  match l with [] => True | x :: l' => (exists w', r_idx R w i = Ok w' /\ says R w' x) /\ says_elems (i + 1) l' end.
Fixpoint says_entries (l : list (bytes * val)) : Prop :=
  match l with [] => True | (k, x) :: l' => (exists w', r_key R w k = Ok w' /\ says R w' x) /\ says_entries l' end.
End At.
Lemma says_arr w l : says R w (VArr l) <-> first_yes R w 8 /\ r_arraySize R w = Ok (zlen l) /\ says_elems w 0 l.
Proof. reflexivity. Qed.
Lemma says_map w l : says R w (VMap l) <-> first_yes R w 7 /\ r_mapKeys R w = Ok (map fst l) /\ says_entries w l.
Proof. reflexivity. Qed.

Lemma first_yes_fun w n m : first_yes R w n -> first_yes R w m -> n = m.
Proof.
  intros ((q & Q1 & Q2) & Q3) ((p & P1 & P2) & P3). destruct (Nat.lt_trichotomy n m) as [L|[L|L]]; [|exact L|].
  - rewrite (P3 n q L Q1) in Q2. discriminate Q2.
  - rewrite (Q3 m p L P1) in P2. discriminate P2.
Qed.
(** A view says at most one thing. *)
Theorem says_fun : forall x w y, says R w x -> says R w y -> x = y.
Proof.
  induction x as [| | | | | | |l IH|l IH] using val_ind'; intros w y H1 H2;
    (destruct y; [cbn [says] in H1, H2;
       try match type of H1 with _ /\ _ => destruct H1 as (F1 & E1) end; try match type of H2 with _ /\ _ => destruct H2 as (F2 & E2) end;
       repeat match goal with F : first_yes R w _, G : first_yes R w _ |- _ => pose proof (first_yes_fun w _ _ F G); clear F end; try discriminate; try reflexivity; try congruence..]).
  - f_equal. destruct E1 as (S1 & E1), E2 as (S2 & E2). change (says_elems w 0 l) in E1. change (says_elems w 0 l0) in E2.
    assert (length l = length l0) as L by (unfold zlen in *; assert (Z.of_nat (length l) = Z.of_nat (length l0)) by congruence; lia).
    clear S1 S2 F2 H. revert E1 E2 L. generalize 0. revert l0. induction l as [|x l IHl]; intros [|y l0] i E1 E2 L; try discriminate L; [reflexivity|].
    apply Forall_cons_iff in IH. destruct IH as (IH0 & IH). cbn [says_elems] in E1, E2. destruct E1 as ((w1 & A1 & A2) & E1), E2 as ((w2 & B1 & B2) & E2).
    assert (w2 = w1) as -> by congruence. f_equal; [exact (IH0 w1 y A2 B2)|]. apply (IHl IH l0 (i + 1) E1 E2). cbn in L. lia.
  - f_equal. destruct E1 as (S1 & E1), E2 as (S2 & E2). change (says_entries w l) in E1. change (says_entries w l0) in E2.
    assert (map fst l = map fst l0) as L by congruence.
    clear S1 S2 F2 H. revert l0 E1 E2 L. induction l as [|[k x] l IHl]; intros [|[k2 y] l0] E1 E2 L; try discriminate L; [reflexivity|].
    apply Forall_cons_iff in IH. destruct IH as (IH0 & IH). cbn [says_entries] in E1, E2. cbn [map fst] in L. injection L as <- L.
    destruct E1 as ((w1 & A1 & A2) & E1), E2 as ((w2 & B1 & B2) & E2).
    assert (w2 = w1) as -> by congruence. cbn [snd] in IH0. f_equal; [f_equal; exact (IH0 w1 y A2 B2)|]. exact (IHl IH l0 E1 E2 L).
Qed.
End Elems.

Section Copy.
Context {V S O : Type} (R : reader V) (W : writer S O).
Definition copies (wv : V -> S -> res S) : Prop := forall w s s', well_typed R w -> wv w s = Ok s' ->
  exists x, says R w x /\ val_ok x /\ run_res W s (events x) = Ok s'.

Lemma typed_idx w i w' : well_typed R w -> r_idx R w i = Ok w' -> well_typed R w'.
Proof.
  intros T E w2 H. apply T. clear T. induction H.
  - exact (leads_idx R w w i w' (leads_here R w) E).
  - exact (leads_idx R w _ i0 _ IHleads H0).
  - exact (leads_key R w _ k _ IHleads H0).
Qed.
Lemma typed_key w k w' : well_typed R w -> r_key R w k = Ok w' -> well_typed R w'.
Proof.
  intros T E w2 H. apply T. clear T. induction H.
  - exact (leads_key R w w k w' (leads_here R w) E).
  - exact (leads_idx R w _ i _ IHleads H0).
  - exact (leads_key R w _ k0 _ IHleads H0).
Qed.
(** An invariant of idx and key under which every result is in range. *)
Lemma well_typed_inv (I : V -> Prop) w : (forall v, I v -> typed R v) -> (forall v i v', I v -> r_idx R v i = Ok v' -> I v') ->
  (forall v k v', I v -> r_key R v k = Ok v' -> I v') -> I w -> well_typed R w.
Proof. intros A B C D w' H. apply A. induction H; eauto. Qed.

Lemma copy_keys wv w : copies wv -> well_typed R w -> forall ks s s', Forall bytes_ok ks -> write_keys R W wv w ks s = Ok s' ->
  exists l, map fst l = ks /\ says_entries R w l /\ Forall (fun kx => bytes_ok (fst kx) /\ val_ok (snd kx)) l /\
    run_res W s (flat_map (fun kx => EKey (fst kx) :: events (snd kx)) l) = Ok s'.
Proof.
  intros C T. induction ks as [|k ks IH]; intros s s' B E; cbn [write_keys] in E.
  - injection E as <-. exists []. repeat split; constructor.
  - apply Forall_cons_iff in B. destruct B as (B0 & B).
    destruct (emit W s (EKey k)) as [s1|?| |] eqn:E1; cbn [bind] in E; try discriminate E.
    destruct (r_key R w k) as [w1|?| |] eqn:E2; cbn [bind] in E; try discriminate E.
    destruct (wv w1 s1) as [s2|?| |] eqn:E3; cbn [bind] in E; try discriminate E.
    destruct (C w1 s1 s2 (typed_key w k w1 T E2) E3) as (x & X1 & X2 & X3). destruct (IH s2 s' B E) as (l & L1 & L2 & L3 & L4).
    exists ((k, x) :: l). cbn [map fst says_entries flat_map snd]. split; [congruence|]. split; [eauto|]. split; [constructor; auto|].
    cbn [app]. rewrite run_res_cons, E1. cbn [bind]. rewrite run_res_app, X3. exact L4.
Qed.
Lemma copy_elems wv w : copies wv -> well_typed R w -> forall n i s i' s',
  nloop n (write_elem R wv w) (i, s) = Ok (inl (i', s')) ->
  exists l, zlen l = Z.of_nat n /\ says_elems R w i l /\ Forall val_ok l /\ run_res W s (flat_map events l) = Ok s'.
Proof.
  intros C T. induction n as [|n IH]; intros i s i' s' E; cbn [nloop] in E.
  - injection E as <- <-. exists []. repeat split; constructor.
  - unfold write_elem at 1 in E. destruct (r_idx R w i) as [w1|?| |] eqn:E2; cbn [bind] in E; try discriminate E.
    destruct (wv w1 s) as [s2|?| |] eqn:E3; cbn [bind] in E; try discriminate E.
    destruct (C w1 s s2 (typed_idx w i w1 T E2) E3) as (x & X1 & X2 & X3).
    destruct (IH (i + 1) s2 i' s' E) as (l & L1 & L2 & L3 & L4).
    exists (x :: l). rewrite zlen_cons. split; [lia|]. cbn [says_elems flat_map]. split; [eauto|]. split; [constructor; auto|].
    rewrite run_res_app, X3. exact L4.
Qed.
Lemma yes_intro w n q : nth_error (questions R) n = Some q -> q w = Ok true -> (forall m p, (m < n)%nat -> nth_error (questions R) m = Some p -> p w = Ok false) -> first_yes R w n.
Proof. intros A B C. split; eauto. Qed.
Ltac earlier := intros m p L N; repeat (destruct m as [|m]; [cbn in N; injection N as <-; assumption|]); exfalso; lia.

Theorem write_value_copies fuel : copies (write_value R W fuel).
Proof.
  induction fuel as [|fuel IH]; intros w s s' T E; [discriminate E|]. cbn [write_value] in E. pose proof (T w (leads_here R w)) as (T1 & T2 & T3 & T4 & T5 & T6 & T7).
  assert (run1 : forall e, emit W s e = Ok s' -> run_res W s [e] = Ok s') by (intros e <-; apply run_res_one).
  destruct (r_isNull R w) as [[]|?| |] eqn:Q0; cbn [bind] in E; try discriminate E.
  { exists VNull. split; [apply (yes_intro w 0 _ eq_refl Q0); earlier|]. split; [exact I|]. now apply run1. }
  destruct (r_isBool R w) as [[]|?| |] eqn:Q1; cbn [bind] in E; try discriminate E.
  { destruct (r_asBool R w) as [b|?| |] eqn:A; cbn [bind] in E; try discriminate E. exists (VBool b).
    split; [split; [apply (yes_intro w 1 _ eq_refl Q1); earlier|exact A]|]. split; [exact I|]. now apply run1. }
  destruct (r_isInt R w) as [[]|?| |] eqn:Q2; cbn [bind] in E; try discriminate E.
  { destruct (r_asInt R I64 w) as [b|?| |] eqn:A; cbn [bind] in E; try discriminate E. exists (VInt b).
    split; [split; [apply (yes_intro w 2 _ eq_refl Q2); earlier|exact A]|]. split; [exact (T1 b eq_refl)|]. now apply run1. }
  destruct (r_isUInt R w) as [[]|?| |] eqn:Q3; cbn [bind] in E; try discriminate E.
  { destruct (r_asUInt R I64 w) as [b|?| |] eqn:A; cbn [bind] in E; try discriminate E. exists (VUInt b).
    split; [split; [apply (yes_intro w 3 _ eq_refl Q3); earlier|exact A]|]. split; [exact (T2 b eq_refl)|]. now apply run1. }
  destruct (r_isFloat R w) as [[]|?| |] eqn:Q4; cbn [bind] in E; try discriminate E.
  { destruct (r_asDouble R w) as [b|?| |] eqn:A; cbn [bind] in E; try discriminate E. exists (VDbl b).
    split; [split; [apply (yes_intro w 4 _ eq_refl Q4); earlier|exact A]|]. split; [exact (T3 b eq_refl)|]. now apply run1. }
  destruct (r_isString R w) as [[]|?| |] eqn:Q5; cbn [bind] in E; try discriminate E.
  { destruct (r_asStringView R w) as [b|?| |] eqn:A; cbn [bind] in E; try discriminate E. exists (VStr b).
    split; [split; [apply (yes_intro w 5 _ eq_refl Q5); earlier|exact A]|]. split; [exact (T4 b eq_refl)|]. now apply run1. }
  destruct (r_isBlob R w) as [[]|?| |] eqn:Q6; cbn [bind] in E; try discriminate E.
  { destruct (r_asBlob R w) as [b|?| |] eqn:A; cbn [bind] in E; try discriminate E. exists (VBlob b).
    split; [split; [apply (yes_intro w 6 _ eq_refl Q6); earlier|exact A]|]. split; [exact (T5 b eq_refl)|]. now apply run1. }
  destruct (r_isMap R w) as [[]|?| |] eqn:Q7; cbn [bind] in E; try discriminate E.
  { destruct (r_mapKeys R w) as [ks|?| |] eqn:K; cbn [bind] in E; try discriminate E.
    destruct (emit W s (EBeginMap (zlen ks))) as [s1|?| |] eqn:E1; cbn [bind] in E; try discriminate E.
    destruct (write_keys R W (write_value R W fuel) w ks s1) as [s2|?| |] eqn:E2; cbn [bind] in E; try discriminate E.
    destruct (copy_keys _ w IH T ks s1 s2 (T7 ks eq_refl) E2) as (l & L1 & L2 & L3 & L4). exists (VMap l).
    split; [apply says_map; split; [apply (yes_intro w 7 _ eq_refl Q7); earlier|]; split; [congruence|exact L2]|].
    split; [now apply val_ok_map|]. cbn [events]. rewrite run_res_cons. replace (zlen l) with (zlen ks) by (subst ks; unfold zlen; now rewrite map_length).
    rewrite E1. cbn [bind]. rewrite run_res_app, L4. cbn [bind]. now rewrite run_res_one. }
  destruct (r_isArray R w) as [[]|?| |] eqn:Q8; cbn [bind] in E; try discriminate E.
  destruct (r_arraySize R w) as [n|?| |] eqn:K; cbn [bind] in E; try discriminate E. specialize (T6 n eq_refl).
  destruct (emit W s (EBeginArr n)) as [s1|?| |] eqn:E1; cbn [bind] in E; try discriminate E.
  destruct (zloop n _ _) as [[[i2 s2]|[]]|?| |] eqn:E2; cbn [bind] in E; try discriminate E. rewrite zloop_nloop in E2.
  destruct (copy_elems _ w IH T (Z.to_nat n) 0 s1 i2 s2 E2) as (l & L1 & L2 & L3 & L4). exists (VArr l).
  split; [apply says_arr; split; [apply (yes_intro w 8 _ eq_refl Q8); earlier|]; split; [rewrite K; f_equal; lia|exact L2]|].
  split; [now apply val_ok_arr|]. cbn [events]. rewrite run_res_cons. replace (zlen l) with n by lia.
  rewrite E1. cbn [bind]. rewrite run_res_app, L4. cbn [bind]. now rewrite run_res_one.
Qed.

Theorem translate_copies {V'} (open : O -> res V') fuel w w' : well_typed R w -> translate R W open fuel w = Ok w' ->
  exists x b, says R w x /\ val_ok x /\ serialize W x = Ok b /\ open b = Ok w'.
Proof.
  intros T E. unfold translate in E. destruct (write_value R W fuel w (w_init W)) as [s|?| |] eqn:E1; cbn [bind] in E; try discriminate E.
  destruct (write_value_copies fuel w _ s T E1) as (x & X1 & X2 & X3).
  destruct (snd (w_finish W s)) as [b|?| |] eqn:F; cbn [bind] in E; try discriminate E. exists x, b. repeat split; auto.
  unfold serialize. unfold run_res in X3. destruct (run W (w_init W) (events x)) as [s3 [u|?| |]]; try discriminate X3. injection X3 as ->. exact F.
Qed.

(** Conversely, a source that says [x] makes the calls of [x]. *)
Lemma write_elems wv w l : forall i, says_elems R w i l -> Forall (fun x => forall w', says R w' x -> forall s, wv w' s = run_res W s (events x)) l ->
  forall s, nloop (List.length l) (write_elem R wv w) (i, s) = bind (run_res W s (flat_map events l)) (fun s' => Ok (inl (i + zlen l, s'))).
Proof.
  induction l as [|x l IH]; intros i E F s.
  - cbn [List.length nloop flat_map]. rewrite run_res_nil. cbn [bind]. replace (i + zlen (@nil val)) with i by (unfold zlen; cbn; lia). reflexivity.
  - apply Forall_cons_iff in F. destruct F as (F0 & F). cbn [List.length nloop flat_map says_elems] in *. destruct E as ((w' & A & SH) & E). rewrite run_res_app. unfold write_elem at 1. rewrite A. cbn [bind]. rewrite (F0 w' SH s).
    destruct (run_res W s (events x)) as [s'| | |]; cbn [bind]; try reflexivity. rewrite (IH (i + 1) E F s'). rewrite zlen_cons. replace (i + (1 + zlen l)) with (i + 1 + zlen l) by lia. reflexivity.
Qed.
Lemma write_entries wv w l : says_entries R w l -> Forall (fun kx => forall w', says R w' (snd kx) -> forall s, wv w' s = run_res W s (events (snd kx))) l ->
  forall s, write_keys R W wv w (map fst l) s = run_res W s (flat_map (fun kx => EKey (fst kx) :: events (snd kx)) l).
Proof.
  induction l as [|[k x] l IH]; intros E F s; cbn [map fst snd write_keys flat_map app]; [reflexivity|]. apply Forall_cons_iff in F. destruct F as (F0 & F). cbn [says_entries] in E. destruct E as ((w' & A & SH) & E).
  rewrite run_res_cons. destruct (emit W s (EKey k)) as [s1| | |]; cbn [bind]; try reflexivity. rewrite A. cbn [bind]. cbn [snd] in F0. rewrite (F0 w' SH s1), run_res_app. destruct (run_res W s1 (events x)) as [s2| | |]; cbn [bind]; try reflexivity. now apply IH.
Qed.
Ltac asked F := let q := fresh "q" in let Q1 := fresh "Q" in let Q2 := fresh "Q" in let QN := fresh "N" in
  destruct F as ((q & Q1 & Q2) & QN); cbn in Q1; injection Q1 as <-;
  try rewrite (QN 0%nat _ ltac:(lia) eq_refl); try rewrite (QN 1%nat _ ltac:(lia) eq_refl); try rewrite (QN 2%nat _ ltac:(lia) eq_refl);
  try rewrite (QN 3%nat _ ltac:(lia) eq_refl); try rewrite (QN 4%nat _ ltac:(lia) eq_refl); try rewrite (QN 5%nat _ ltac:(lia) eq_refl);
  try rewrite (QN 6%nat _ ltac:(lia) eq_refl); try rewrite (QN 7%nat _ ltac:(lia) eq_refl); rewrite Q2; cbn [bind].
Theorem says_writes : forall x w, says R w x -> forall fuel, (height x < fuel)%nat -> forall s, write_value R W fuel w s = run_res W s (events x).
Proof.
  induction x as [|b|z|z|d|t|t|l IH|l IH] using val_ind'; intros w H fuel L s; (destruct fuel as [|fuel]; [exfalso; lia|]); cbn [write_value events]; try rewrite run_res_one.
  - cbn [says] in H. asked H. reflexivity.
  - destruct H as (F & E). asked F. rewrite E. reflexivity.
  - destruct H as (F & E). asked F. rewrite E. reflexivity.
  - destruct H as (F & E). asked F. rewrite E. reflexivity.
  - destruct H as (F & E). asked F. rewrite E. reflexivity.
  - destruct H as (F & E). asked F. rewrite E. reflexivity.
  - destruct H as (F & E). asked F. rewrite E. reflexivity.
  - apply says_arr in H. destruct H as (F & E1 & E2). asked F. rewrite E1. cbn [bind]. rewrite run_res_cons. destruct (emit W s (EBeginArr (zlen l))) as [s1| | |]; cbn [bind]; try reflexivity.
    rewrite zloop_nloop. replace (Z.to_nat (zlen l)) with (List.length l) by (unfold zlen; lia). rewrite (write_elems _ w l 0 E2), run_res_app.
    + destruct (run_res W s1 (flat_map events l)) as [s2| | |]; cbn [bind]; try reflexivity. now rewrite run_res_one.
    + rewrite Forall_forall in *. intros x X w' S' s'. apply (IH x X w' S'). cbn [height] in L. pose proof (max_in height l x X). lia.
  - apply says_map in H. destruct H as (F & E1 & E2). asked F. rewrite E1. cbn [bind]. rewrite run_res_cons. replace (zlen (map fst l)) with (zlen l) by (unfold zlen; now rewrite map_length).
    destruct (emit W s (EBeginMap (zlen l))) as [s1| | |]; cbn [bind]; try reflexivity. rewrite (write_entries _ w l E2), run_res_app.
    + destruct (run_res W s1 _) as [s2| | |]; cbn [bind]; try reflexivity. now rewrite run_res_one.
    + rewrite Forall_forall in *. intros kx X w' S' s'. apply (IH kx X w' S'). cbn [height] in L. pose proof (max_in (fun kx => height (snd kx)) l kx X). lia.
Qed.
Theorem says_translates {V'} (open : O -> res V') x w : says R w x -> forall fuel, (height x < fuel)%nat -> translate R W open fuel w = bind (serialize W x) open.
Proof.
  intros H fuel L. unfold translate. rewrite (says_writes x w H fuel L). unfold run_res, serialize. destruct (run W (w_init W) (events x)) as [s [u|?| |]]; reflexivity.
Qed.
End Copy.
