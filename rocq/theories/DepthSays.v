(** DepthSays.v -- translate recurses exactly as deep as the value is nested. *)

From Coq Require Import ZArith List Bool Lia ZifyBool ZifyNat.
From Verif Require Import Base BaseFacts Spec SpecFacts TransModel TransFacts SaysSpec SaysFacts.
Import ListNotations.
Open Scope Z_scope.

Section Deep.
Context {V S O : Type} (R : reader V) (W : writer S O).
Ltac asked F := let q := fresh "q" in let Q1 := fresh "Q" in let Q2 := fresh "Q" in let QN := fresh "N" in
  destruct F as ((q & Q1 & Q2) & QN); cbn in Q1; injection Q1 as <-;
  try rewrite (QN 0%nat _ ltac:(lia) eq_refl); try rewrite (QN 1%nat _ ltac:(lia) eq_refl); try rewrite (QN 2%nat _ ltac:(lia) eq_refl);
  try rewrite (QN 3%nat _ ltac:(lia) eq_refl); try rewrite (QN 4%nat _ ltac:(lia) eq_refl); try rewrite (QN 5%nat _ ltac:(lia) eq_refl);
  try rewrite (QN 6%nat _ ltac:(lia) eq_refl); try rewrite (QN 7%nat _ ltac:(lia) eq_refl); rewrite Q2; cbn [bind].
(** How many containers the innermost value is in. *)
Fixpoint depth (v : val) : nat :=
  match v with
  | VArr l => list_max (map (fun x => Datatypes.S (depth x)) l)
  | VMap l => list_max (map (fun kx => Datatypes.S (depth (snd kx))) l)
  | _ => 0%nat
  end.
Lemma list_max_in {A} (f : A -> nat) l x : In x l -> (f x <= list_max (map f l))%nat.
Proof. induction l as [|y l IH]; [contradiction|]. cbn [map list_max fold_right]. fold (list_max (map f l)). intros [->|I]; [lia|specialize (IH I); lia]. Qed.

Lemma elems_depth f w l : forall i s s', says_elems R w i l ->
  Forall (fun x => forall w' s s', says R w' x -> run_res W s (events x) = Ok s' -> write_value R W f w' s = if (depth x <? f)%nat then Ok s' else NoFuel) l ->
  run_res W s (flat_map events l) = Ok s' ->
  nloop (List.length l) (write_elem R (write_value R W f) w) (i, s) = if forallb (fun x => (depth x <? f)%nat) l then Ok (inl (i + zlen l, s')) else NoFuel.
Proof.
  induction l as [|x l IH]; intros i s s' E F RU.
  - cbn [List.length nloop forallb]. cbn [flat_map] in RU. rewrite run_res_nil in RU. injection RU as <-. do 3 f_equal. unfold zlen. cbn. lia.
  - apply Forall_cons_iff in F. destruct F as (F0 & F). cbn [List.length nloop flat_map says_elems forallb] in *. destruct E as ((w' & A & SH) & E).
    rewrite run_res_app in RU. destruct (run_res W s (events x)) as [s1| | |] eqn:R1; cbn [bind] in RU; try discriminate RU.
    unfold write_elem at 1. rewrite A. cbn [bind]. rewrite (F0 w' s s1 SH R1). destruct (depth x <? f)%nat; cbn [bind andb]; [|reflexivity].
    rewrite (IH (i + 1) s1 s' E F RU). rewrite zlen_cons. replace (i + (1 + zlen l)) with (i + 1 + zlen l) by lia. reflexivity.
Qed.
Lemma entries_depth f w l : forall s s', says_entries R w l ->
  Forall (fun kx => forall w' s s', says R w' (snd kx) -> run_res W s (events (snd kx)) = Ok s' -> write_value R W f w' s = if (depth (snd kx) <? f)%nat then Ok s' else NoFuel) l ->
  run_res W s (flat_map (fun kx => EKey (fst kx) :: events (snd kx)) l) = Ok s' ->
  write_keys R W (write_value R W f) w (map fst l) s = if forallb (fun kx => (depth (snd kx) <? f)%nat) l then Ok s' else NoFuel.
Proof.
  induction l as [|[k x] l IH]; intros s s' E F RU; cbn [map fst snd write_keys flat_map app forallb] in *; [rewrite run_res_nil in RU; exact RU|].
  apply Forall_cons_iff in F. destruct F as (F0 & F). cbn [says_entries] in E. destruct E as ((w' & A & SH) & E). cbn [snd] in F0.
  rewrite run_res_cons in RU. destruct (emit W s (EKey k)) as [s1| | |]; cbn [bind] in *; try discriminate RU. rewrite A. cbn [bind].
  rewrite run_res_app in RU. destruct (run_res W s1 (events x)) as [s2| | |] eqn:R1; cbn [bind] in RU; try discriminate RU.
  rewrite (F0 w' s1 s2 SH R1). destruct (depth x <? f)%nat; cbn [bind andb]; [|reflexivity]. exact (IH s2 s' E F RU).
Qed.
Lemma forallb_depth {A} (d : A -> nat) (p : A -> bool) f l : (forall x, p x = (d x <? f)%nat) ->
  forallb p l = (list_max (map (fun x => Datatypes.S (d x)) l) <? Datatypes.S f)%nat.
Proof.
  intros P. induction l as [|x l IH]; [reflexivity|]. cbn [forallb map list_max fold_right]. fold (list_max (map (fun x => Datatypes.S (d x)) l)). rewrite IH, P. lia.
Qed.
Theorem write_depth : forall x w s s' fuel, says R w x -> run_res W s (events x) = Ok s' -> write_value R W fuel w s = if (depth x <? fuel)%nat then Ok s' else NoFuel.
Proof.
  induction x as [|b|z|z|d|t|t|l IH|l IH] using val_ind'; intros w s s' fuel H RU; (destruct fuel as [|fuel]; [reflexivity|]);
    cbn [write_value events] in *; try rewrite run_res_one in RU; try change (depth _ <? Datatypes.S fuel)%nat with true.
  - cbn [says] in H. asked H. exact RU.
  - destruct H as (F & E). asked F. rewrite E. exact RU.
  - destruct H as (F & E). asked F. rewrite E. exact RU.
  - destruct H as (F & E). asked F. rewrite E. exact RU.
  - destruct H as (F & E). asked F. rewrite E. exact RU.
  - destruct H as (F & E). asked F. rewrite E. exact RU.
  - destruct H as (F & E). asked F. rewrite E. exact RU.
  - apply says_arr in H. destruct H as (F & E1 & E2). asked F. rewrite E1. cbn [bind]. rewrite run_res_cons in RU. destruct (emit W s (EBeginArr (zlen l))) as [s1| | |]; cbn [bind] in *; try discriminate RU.
    rewrite run_res_app in RU. destruct (run_res W s1 (flat_map events l)) as [s2| | |] eqn:R2; cbn [bind] in RU; try discriminate RU. rewrite run_res_one in RU.
    rewrite zloop_nloop. replace (Z.to_nat (zlen l)) with (List.length l) by (unfold zlen; lia).
    rewrite (elems_depth fuel w l 0 s1 s2 E2); [|rewrite Forall_forall in *; intros x X w' s3 s4; apply (IH x X)|exact R2].
    rewrite (forallb_depth depth _ fuel) by reflexivity. cbn [depth]. destruct (list_max _ <? _)%nat; cbn [bind]; [exact RU|reflexivity].
  - apply says_map in H. destruct H as (F & E1 & E2). asked F. rewrite E1. cbn [bind]. replace (zlen (map fst l)) with (zlen l) by (unfold zlen; now rewrite map_length).
    rewrite run_res_cons in RU. destruct (emit W s (EBeginMap (zlen l))) as [s1| | |]; cbn [bind] in *; try discriminate RU.
    rewrite run_res_app in RU. destruct (run_res W s1 _) as [s2| | |] eqn:R2; cbn [bind] in RU; try discriminate RU. rewrite run_res_one in RU.
    rewrite (entries_depth fuel w l s1 s2 E2); [|rewrite Forall_forall in *; intros x X w' s3 s4; apply (IH x X)|exact R2].
    rewrite (forallb_depth (fun kx : bytes * val => depth (snd kx)) _ fuel) by reflexivity. cbn [depth]. destruct (list_max _ <? _)%nat; cbn [bind]; [exact RU|reflexivity].
Qed.
Theorem translate_depth {V'} (open : O -> res V') x w b fuel : says R w x -> serialize W x = Ok b ->
  translate R W open fuel w = if (depth x <? fuel)%nat then open b else NoFuel.
Proof.
  intros H E. unfold serialize in E. unfold translate.
  destruct (run W (w_init W) (events x)) as [s [u|?| |]] eqn:RU; try discriminate E.
  rewrite (write_depth x w (w_init W) s fuel H) by (unfold run_res; now rewrite RU). destruct (depth x <? fuel)%nat; [|reflexivity]. cbn [bind]. now rewrite E.
Qed.
End Deep.
