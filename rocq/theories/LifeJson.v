(** LifeJson.v -- the JSON writer reads string arguments when finish() is called. *)

From Coq Require Import ZArith List Bool Lia ZifyBool ZifyNat.
From Verif Require Import Base BaseFacts Spec SpecFacts B64Model B64Spec B64Facts JsonModel JsonSpec JsonFacts JsonWrite LifeModel LifeSpec LifeFacts.
Import ListNotations.
Open Scope Z_scope.

Definition jrun dbg := hrun (j_step dbg) (fun s a (_ : bytes) => j_push dbg (handle a) s) (fun s : jst => (s, Throw EBadAlloc : res unit)).

Lemma after_ok m o : memory_ok m -> hop_ok o -> memory_ok (after m o).
Proof.
  intros M H. destruct o; try exact M. cbn [after]. intros b d E. unfold mset in E. destruct (Nat.eqb b a); [|eauto].
  subst x. exact H.
Qed.

Section Late.
  Variable dbg : bool.
  Variable mf : memory.
  Let f := fm mf.
  Lemma sub_handle a : sub f (handle a) = VStr (text mf a).
  Proof. unfold handle, f, fm. cbn [sub]. now rewrite ptr_handle. Qed.

  Lemma jrun_late h : forall m s, memory_ok m -> Forall hop_ok h -> no_null h -> live_args m h ->
    run (json_writer dbg) (ssub f s) (heard_late mf m h) =
    (ssub f (snd (fst (jrun dbg m s h))), snd (jrun dbg m s h)) /\
    (snd (jrun dbg m s h) = Ok tt -> fst (fst (jrun dbg m s h)) = at_end m h).
  Proof.
    assert (FX : forall t, bytes_ok t -> f t = t) by (intros; now apply fm_bytes).
    induction h as [|o h IH]; intros m s M HO NN L; [now split|].
    apply Forall_cons_iff in HO. destruct HO as [HO1 HO2]. destruct L as [L1 L2].
    assert (NN' : no_null h) by (intro K; apply NN; now right).
    pose proof (after_ok m o M HO1) as M'.
    assert (G : forall e (r : jst * res unit), heard_late mf m (o :: h) = e :: heard_late mf (after m o) h ->
                j_step dbg (ssub f s) e = psub f r ->
                jrun dbg m s (o :: h) = match r with (s', Ok _) => jrun dbg (after m o) s' h | (s', x) => (after m o, s', x) end ->
                run (json_writer dbg) (ssub f s) (heard_late mf m (o :: h)) =
                  (ssub f (snd (fst (jrun dbg m s (o :: h)))), snd (jrun dbg m s (o :: h))) /\
                (snd (jrun dbg m s (o :: h)) = Ok tt -> fst (fst (jrun dbg m s (o :: h))) = at_end m (o :: h))).
    { intros e [s' r] -> E ->. rewrite JsonWrite.run_one, E. unfold psub. cbn [fst snd].
      destruct r as [u| | |]; try (split; [reflexivity|discriminate]).
      apply (IH (after m o) s' M' HO2 NN' L2). }
    assert (T : forall a d, m a = Some d -> text m a = d) by (intros a d H; unfold text; now rewrite H).
    destruct o as [e|a|a|a| |a x].
    - eapply (G (esub f e) (j_step dbg s e)).
      + cbn [heard_late app after]. f_equal. destruct e; try reflexivity. cbn [esub]. cbn [hop_ok ev_ok] in HO1. now rewrite FX.
      + apply step_sub; [exact FX|]. destruct e; try exact Logic.I. exact HO1.
      + reflexivity.
    - destruct (m a) as [d|] eqn:Ea; [|congruence].
      eapply (G (EStr (text mf a)) (j_push dbg (handle a) s)).
      + reflexivity.
      + cbn [j_step]. rewrite <- sub_handle. apply push_sub.
      + unfold jrun. cbn [hrun]. now rewrite Ea.
    - destruct (m a) as [d|] eqn:Ea; [|congruence].
      eapply (G (EKey (text m a)) (j_step dbg s (EKey d))).
      + reflexivity.
      + rewrite (T a d Ea). apply (step_sub f dbg FX (EKey d)). exact Logic.I.
      + unfold jrun. cbn [hrun]. now rewrite Ea.
    - destruct (m a) as [d|] eqn:Ea; [|congruence].
      eapply (G (EBin (text m a)) (j_step dbg s (EBin d))).
      + reflexivity.
      + rewrite (T a d Ea). apply (step_sub f dbg FX (EBin d)). exact (M a d Ea).
      + unfold jrun. cbn [hrun]. now rewrite Ea.
    - destruct NN. now left.
    - exact (IH _ s M' HO2 NN' L2).
  Qed.
End Late.

(** ** Which pointers the document contains *)
Definition crefs (c : jctx) : list nat := flat_map (fun kx => refs (snd kx)) (jc_kids c).
Definition srefs (s : jst) : list nat :=
  match js_root s with Some v => refs v | None => [] end ++ flat_map crefs (js_st s).
Definition jinv (s : jst) : Prop := (js_wrote s = false -> js_root s = None /\ js_st s = []) /\ (js_st s <> [] -> js_root s = None).

Lemma refs_node c : refs (node_of c) = crefs c.
Proof.
  unfold node_of, crefs. destruct (jc_obj c); cbn [refs]; [reflexivity|]. rewrite flat_map_concat_map, map_map, <- flat_map_concat_map. reflexivity.
Qed.
Lemma crefs_add c k v : crefs (add_kid c k v) = crefs c ++ refs v.
Proof. unfold crefs, add_kid. cbn [jc_kids]. rewrite flat_map_app. cbn [flat_map snd]. now rewrite app_nil_r. Qed.
Lemma refs_close st : forall v slot a, In a (refs (close_all v slot st)) <-> In a (refs v) \/ In a (flat_map crefs st).
Proof.
  induction st as [|c st IH]; intros v slot a; cbn [close_all flat_map]; [cbn [In]; tauto|].
  rewrite IH, refs_node, crefs_add, !in_app_iff. tauto.
Qed.
Lemma refs_tree s : jinv s -> match js_tree s with Some t => forall a, In a (refs t) <-> In a (srefs s) | None => srefs s = [] end.
Proof.
  intros [_ I2]. unfold js_tree, srefs. destruct (js_st s) as [|c st].
  - cbn [flat_map]. rewrite app_nil_r. destruct (js_root s); [tauto|reflexivity].
  - rewrite I2 by discriminate. intro a. rewrite refs_close, refs_node. cbn [app flat_map]. rewrite in_app_iff. tauto.
Qed.

Definition adds (l : list nat) (s s' : jst) : Prop := jinv s' /\ forall a, In a (srefs s') <-> In a (srefs s) \/ In a l.

Section Refs.
  Variable dbg : bool.
  Lemma accept_refs s k s1 : jinv s -> j_accept dbg s = Ok (k, s1) ->
    srefs s1 = srefs s /\ js_wrote s1 = true /\ js_root s1 = None.
  Proof.
    intros [I1 I2] H. unfold j_accept in H. destruct (js_doc s); cbn [negb] in H; [|discriminate].
    destruct (js_st s) as [|c st] eqn:Es.
    - destruct (js_wrote s) eqn:Ew; [discriminate|]. destruct (I1 eq_refl) as [R _]. injection H as <- <-.
      unfold srefs. cbn [js_root js_st js_wrote]. rewrite Es, R. auto.
    - assert (R : js_root s = None) by (apply I2; discriminate).
      assert (W : js_wrote s = true). { destruct (js_wrote s); [reflexivity|]. destruct (I1 eq_refl). discriminate. }
      destruct (jc_obj c).
      + destruct (negb (nonempty (jc_pending c))); [discriminate|]. destruct (dbg && has_nul (jc_pending c)); [discriminate|].
        injection H as <- <-. unfold srefs. cbn [js_root js_st js_wrote]. rewrite Es. auto.
      + injection H as <- <-. auto.
  Qed.
  Lemma push_refs v s s' : jinv s -> j_push dbg v s = (s', Ok tt) -> adds (refs v) s s'.
  Proof.
    intros I0 H. unfold j_push in H. destruct (j_accept dbg s) as [[k s1]| | |] eqn:A; try discriminate.
    destruct (accept_refs _ _ _ I0 A) as (E & W & R). unfold adds. rewrite <- E. unfold srefs, jinv.
    destruct (js_st s1) as [|c st] eqn:Es; injection H as <-; cbn [js_root js_st js_wrote flat_map]; rewrite W, R.
    - split; [split; [discriminate|congruence]|]. intro a. rewrite app_nil_r. cbn [app]. split; [auto|intros [[]|]; auto].
    - split; [split; [discriminate|reflexivity]|]. intro a. cbn [app]. rewrite crefs_add, !in_app_iff. tauto.
  Qed.
  Lemma begin_refs o s s' : jinv s -> j_begin dbg o s = (s', Ok tt) -> adds [] s s'.
  Proof.
    intros I0 H. unfold j_begin in H. destruct (j_accept dbg s) as [[k s1]| | |] eqn:A; try discriminate.
    destruct (accept_refs _ _ _ I0 A) as (E & W & R). injection H as <-. unfold adds. rewrite <- E. unfold srefs, jinv.
    cbn [js_root js_st js_wrote flat_map crefs jc_kids app]. rewrite W, R. split; [split; [discriminate|reflexivity]|].
    intro a. cbn [app]. split; [auto|intros [|[]]; auto].
  Qed.
  Lemma pop_refs s : jinv s -> adds [] s (j_pop s).
  Proof.
    intros [I1 I2]. unfold adds, j_pop, jinv, srefs. destruct (js_st s) as [|c [|p st]] eqn:Es.
    - rewrite Es. split; [auto|]. intro a. split; [auto|intros [|[]]; auto].
    - rewrite (I2 ltac:(discriminate)). assert (W : js_wrote s = true).
      { destruct (js_wrote s); [reflexivity|]. destruct (I1 eq_refl). discriminate. }
      cbn [js_root js_st js_wrote flat_map]. rewrite W, refs_node, !app_nil_r.
      split; [split; [discriminate|congruence]|]. intro a. cbn [app]. split; [auto|intros [|[]]; auto].
    - rewrite (I2 ltac:(discriminate)). assert (W : js_wrote s = true).
      { destruct (js_wrote s); [reflexivity|]. destruct (I1 eq_refl). discriminate. }
      cbn [js_root js_st js_wrote flat_map]. rewrite W, crefs_add, refs_node.
      split; [split; [discriminate|reflexivity]|]. intro a. cbn [app]. rewrite !in_app_iff. cbn [In]. tauto.
  Qed.
  Lemma end_array_refs s s' : jinv s -> j_end_array s = (s', Ok tt) -> adds [] s s'.
  Proof. intros I0 H. unfold j_end_array in H. destruct (j_in false s); [|discriminate]. injection H as <-. now apply pop_refs. Qed.
  Lemma end_map_refs s s' : jinv s -> j_end_map s = (s', Ok tt) -> adds [] s s'.
  Proof.
    intros I0 H. unfold j_end_map in H. destruct (js_st s) as [|c st]; [discriminate|]. destruct (jc_obj c); [|discriminate].
    destruct (nonempty (jc_pending c)); [discriminate|]. injection H as <-. now apply pop_refs.
  Qed.
  Lemma setkey_refs k s s' : jinv s -> j_setkey k s = (s', Ok tt) -> adds [] s s'.
  Proof.
    intros [I1 I2] H. unfold j_setkey in H. destruct (js_st s) as [|c st] eqn:Es; [discriminate|]. destruct (jc_obj c); [|discriminate].
    destruct (nonempty (jc_pending c)); [discriminate|]. injection H as <-. unfold adds, jinv, srefs.
    cbn [js_root js_st js_wrote]. rewrite Es. cbn [flat_map]. split; [split|].
    - intro E. destruct (I1 E). discriminate.
    - intros _. apply I2. discriminate.
    - intro a. unfold crefs at 1. cbn [jc_kids]. split; [auto|intros [|[]]; auto].
  Qed.
  Lemma seq_refs F G l1 l2 s s' : (forall s s', jinv s -> F s = (s', Ok tt) -> adds l1 s s') ->
    (forall s s', jinv s -> G s = (s', Ok tt) -> adds l2 s s') -> jinv s -> j_seq F G s = (s', Ok tt) -> adds (l1 ++ l2) s s'.
  Proof.
    intros HF HG I0 H. unfold j_seq in H. destruct (F s) as [s1 [[]| | |]] eqn:E; try discriminate.
    destruct (HF _ _ I0 E) as [I1 R1]. destruct (HG _ _ I1 H) as [I3 R2]. split; [exact I3|].
    intro a. rewrite R2, R1, in_app_iff. tauto.
  Qed.
  Lemma str_refs x : bytes_ok x -> refs (VStr x) = [].
  Proof. intro H. cbn [refs]. now rewrite ptr_bytes. Qed.
  Lemma step_refs e s s' : ev_ok e -> jinv s -> j_step dbg s e = (s', Ok tt) -> adds [] s s'.
  Proof.
    intros OK I0 H.
    assert (P : forall x, bytes_ok x -> forall s s', jinv s -> j_push dbg (VStr x) s = (s', Ok tt) -> adds [] s s').
    { intros x Hx t t' It Ht. rewrite <- (str_refs x Hx). now apply push_refs. }
    destruct e as [|b|z|z|z|t|b|k|n| |n|]; cbn [j_step ev_ok] in *; try (apply push_refs in H; [exact H|exact I0]).
    - now apply (P t).
    - unfold j_binary in H. rewrite (encode_rfc _ OK) in H.
      revert H. apply (seq_refs _ _ [] []); [apply begin_refs| |exact I0]. intros t t'.
      apply (seq_refs _ _ [] []); [apply P; okay|]. intros u u'.
      apply (seq_refs _ _ [] []); [apply P; now apply bytes_ok_rfc|]. intros v v'.
      apply (seq_refs _ _ [] []); [apply P; okay|]. apply end_array_refs.
    - now apply (setkey_refs k).
    - now apply (begin_refs false).
    - now apply end_array_refs.
    - now apply (begin_refs true).
    - now apply end_map_refs.
  Qed.

  Lemma jrun_refs h : forall m s, memory_ok m -> Forall hop_ok h -> jinv s -> snd (jrun dbg m s h) = Ok tt ->
    adds (strs h) s (snd (fst (jrun dbg m s h))).
  Proof.
    induction h as [|o h IH]; intros m s M HO I0 H.
    - split; [exact I0|]. intro a. cbn [jrun hrun fst snd strs flat_map In]. tauto.
    - apply Forall_cons_iff in HO. destruct HO as [HO1 HO2]. pose proof (after_ok m o M HO1) as M'.
      assert (G : forall (r : jst * res unit) l, (forall s', r = (s', Ok tt) -> adds l s s') ->
                jrun dbg m s (o :: h) = match r with (s', Ok _) => jrun dbg (after m o) s' h | (s', x) => (after m o, s', x) end ->
                adds (l ++ strs h) s (snd (fst (jrun dbg m s (o :: h))))).
      { intros [s' r] l A E. rewrite E in *. destruct r as [[]| | |]; try discriminate H.
        destruct (A s' eq_refl) as [I1 R1]. destruct (IH _ s' M' HO2 I1 H) as [I3 R2]. split; [exact I3|].
        intro a. rewrite R2, R1, in_app_iff. tauto. }
      destruct o as [e|a|a|a| |a x]; cbn [strs flat_map].
      + apply (G (j_step dbg s e) []); [|reflexivity]. intros s' E. eapply step_refs; eauto.
      + destruct (m a) as [d|] eqn:Ea; [|unfold jrun in H; cbn [hrun] in H; rewrite Ea in H; discriminate].
        apply (G (j_push dbg (handle a) s) [a]); [|unfold jrun; cbn [hrun]; now rewrite Ea].
        intros s' E. apply push_refs in E; [|exact I0]. unfold handle in E. cbn [refs] in E. now rewrite ptr_handle in E.
      + destruct (m a) as [d|] eqn:Ea; [|unfold jrun in H; cbn [hrun] in H; rewrite Ea in H; discriminate].
        apply (G (j_step dbg s (EKey d)) []); [|unfold jrun; cbn [hrun]; now rewrite Ea].
        intros s' E. eapply (step_refs (EKey d)); eauto. exact (M a d Ea).
      + destruct (m a) as [d|] eqn:Ea; [|unfold jrun in H; cbn [hrun] in H; rewrite Ea in H; discriminate].
        apply (G (j_step dbg s (EBin d)) []); [|unfold jrun; cbn [hrun]; now rewrite Ea].
        intros s' E. eapply (step_refs (EBin d)); eauto. exact (M a d Ea).
      + discriminate H.
      + exact (IH _ s M' HO2 I0 H).
  Qed.
End Refs.

Lemma jinv_init : jinv js_init.
Proof. split; [now split|]. intro H. now destruct H. Qed.

Lemma sub_init f : ssub f js_init = js_init.
Proof. reflexivity. Qed.

(** No call gives up the document. *)
Section Doc.
  Variable dbg : bool.
  Lemma doc_accept s k s1 : j_accept dbg s = Ok (k, s1) -> js_doc s1 = js_doc s.
  Proof.
    intro A. unfold j_accept in A. destruct (js_doc s) eqn:E; cbn [negb] in A; [|discriminate].
    destruct (js_st s) as [|c st]; [destruct (js_wrote s); [discriminate|]; injection A as <- <-; reflexivity|].
    destruct (jc_obj c); [|injection A as <- <-; exact E].
    destruct (negb (nonempty (jc_pending c))); [discriminate|]. destruct (dbg && has_nul (jc_pending c)); [discriminate|].
    injection A as <- <-. reflexivity.
  Qed.
  Lemma doc_push v s : js_doc (fst (j_push dbg v s)) = js_doc s.
  Proof.
    unfold j_push. destruct (j_accept dbg s) as [[k s1]| | |] eqn:A; try reflexivity. rewrite <- (doc_accept _ _ _ A).
    destruct (js_st s1); reflexivity.
  Qed.
  Lemma doc_begin o s : js_doc (fst (j_begin dbg o s)) = js_doc s.
  Proof. unfold j_begin. destruct (j_accept dbg s) as [[k s1]| | |] eqn:A; try reflexivity. now rewrite <- (doc_accept _ _ _ A). Qed.
  Lemma doc_pop s : js_doc (j_pop s) = js_doc s.
  Proof. unfold j_pop. destruct (js_st s) as [|c [|p st]]; reflexivity. Qed.
  Lemma doc_end_array s : js_doc (fst (j_end_array s)) = js_doc s.
  Proof. unfold j_end_array. destruct (j_in false s); [apply doc_pop|reflexivity]. Qed.
  Lemma doc_end_map s : js_doc (fst (j_end_map s)) = js_doc s.
  Proof.
    unfold j_end_map. destruct (js_st s) as [|c st]; [reflexivity|]. destruct (jc_obj c); [|reflexivity].
    destruct (nonempty (jc_pending c)); [reflexivity|apply doc_pop].
  Qed.
  Lemma doc_setkey k s : js_doc (fst (j_setkey k s)) = js_doc s.
  Proof.
    unfold j_setkey. destruct (js_st s) as [|c st]; [reflexivity|]. destruct (jc_obj c); [|reflexivity].
    destruct (nonempty (jc_pending c)); reflexivity.
  Qed.
  Lemma doc_seq F G s : (forall s, js_doc (fst (F s)) = js_doc s) -> (forall s, js_doc (fst (G s)) = js_doc s) ->
    js_doc (fst (j_seq F G s)) = js_doc s.
  Proof.
    intros HF HG. unfold j_seq. pose proof (HF s) as K. destruct (F s) as [s' [u| | |]]; cbn [fst] in *; try exact K.
    now rewrite HG.
  Qed.
  Lemma doc_step e s : js_doc (fst (j_step dbg s e)) = js_doc s.
  Proof.
    destruct e; cbn [j_step]; auto using doc_push, doc_begin, doc_end_array, doc_end_map, doc_setkey. unfold j_binary.
    destruct (base64Encode b) as [x| | |]; try reflexivity.
    repeat (apply doc_seq; [intros; auto using doc_push, doc_begin|]; intro); apply doc_end_array.
  Qed.
  Lemma doc_run es : forall s, js_doc s = true -> js_doc (fst (run (json_writer dbg) s es)) = true.
  Proof.
    induction es as [|e es IH]; intros s D; [exact D|]. rewrite JsonWrite.run_one. pose proof (doc_step e s) as K.
    destruct (j_step dbg s e) as [s' [u| | |]]; cbn [fst] in K; rewrite D in K; auto.
  Qed.
  Lemma doc_jrun h : forall m s, js_doc s = true -> snd (jrun dbg m s h) = Ok tt -> js_doc (snd (fst (jrun dbg m s h))) = true.
  Proof.
    induction h as [|o h IH]; intros m s0 D0 H; [exact D0|].
    assert (G : forall r : jst * res unit, js_doc (fst r) = js_doc s0 ->
              jrun dbg m s0 (o :: h) = match r with (s', Ok _) => jrun dbg (after m o) s' h | (s', x) => (after m o, s', x) end ->
              js_doc (snd (fst (jrun dbg m s0 (o :: h)))) = true).
    { intros [s' r] A E. rewrite E in *. cbn [fst] in A. destruct r; try discriminate H. apply IH; [now rewrite A|exact H]. }
    destruct o as [e|a|a|a| |a x].
    - apply (G (j_step dbg s0 e)); [apply doc_step|reflexivity].
    - destruct (m a) as [d|] eqn:Ea; [|unfold jrun in H; cbn [hrun] in H; rewrite Ea in H; discriminate].
      apply (G (j_push dbg (handle a) s0)); [apply doc_push|unfold jrun; cbn [hrun]; now rewrite Ea].
    - destruct (m a) as [d|] eqn:Ea; [|unfold jrun in H; cbn [hrun] in H; rewrite Ea in H; discriminate].
      apply (G (j_step dbg s0 (EKey d))); [apply doc_step|unfold jrun; cbn [hrun]; now rewrite Ea].
    - destruct (m a) as [d|] eqn:Ea; [|unfold jrun in H; cbn [hrun] in H; rewrite Ea in H; discriminate].
      apply (G (j_step dbg s0 (EBin d))); [apply doc_step|unfold jrun; cbn [hrun]; now rewrite Ea].
    - discriminate H.
    - exact (IH _ s0 D0 H).
  Qed.
End Doc.

(** The whole story of the JSON writer. *)
Lemma json_late dbg m h : memory_ok m -> Forall hop_ok h -> no_null h -> live_args m h ->
  let mf := at_end m h in
  (Forall (fun a => mf a <> None) (strs h) -> json_output dbg m h = output (json_writer dbg) (heard_late mf m h)) /\
  (all_return (json_writer dbg) (heard_late mf m h) -> Exists (fun a => mf a = None) (strs h) -> json_output dbg m h = UB).
Proof.
  intros M HO NN L mf. pose proof (jrun_late dbg mf h m js_init M HO NN L) as [E1 E2]. rewrite sub_init in E1.
  pose proof (jrun_refs dbg h m js_init M HO jinv_init) as RF.
  unfold json_output, output, all_return. cbn [w_init json_writer]. cbn [w_init json_writer] in E1.
  change (hrun (j_step dbg) _ _ m js_init h) with (jrun dbg m js_init h).
  destruct (jrun dbg m js_init h) as [[m' s] r] eqn:EJ. cbn [fst snd] in *.
  change (js_init) with (w_init (json_writer dbg)) in E1. cbn [w_init json_writer] in E1. rewrite E1. cbn [snd].
  split.
  - intro LV. destruct r as [[]| | |]; try reflexivity. specialize (E2 eq_refl). specialize (RF eq_refl). destruct RF as [JI RF].
    pose proof (refs_tree s JI) as RT. cbn [w_finish json_writer].
    unfold j_finish at 2. rewrite tree_sub. cbn [ssub js_doc].
    assert (DOC : js_doc s = true).
    { pose proof (doc_jrun dbg h m js_init eq_refl) as K. rewrite EJ in K. now apply K. }
    rewrite DOC. destruct (js_tree s) as [t|] eqn:ET; cbn [option_map snd].
    + rewrite E2. fold mf. rewrite resolve_ok; [reflexivity|]. intros a Ha. apply RT, RF in Ha. cbn in Ha.
      destruct Ha as [[]|Ha]. now apply (proj1 (Forall_forall _ _) LV a).
    + unfold j_finish. now rewrite DOC, ET.
  - intros AR EX. subst r. specialize (E2 eq_refl). specialize (RF eq_refl). destruct RF as [JI RF].
    pose proof (refs_tree s JI) as RT. apply Exists_exists in EX. destruct EX as (a & Ha & Hm).
    assert (IN : In a (srefs s)) by (apply RF; now right).
    destruct (js_tree s) as [t|] eqn:ET.
    + rewrite E2. fold mf. rewrite (resolve_ub mf t a); [reflexivity| |exact Hm]. now apply RT.
    + rewrite RT in IN. destruct IN.
Qed.

Lemma kept_late mf h : forall m, at_end m h = mf -> kept m h -> heard_late mf m h = heard m h.
Proof.
  induction h as [|o h IH]; intros m E K; [reflexivity|]. destruct K as [K1 K2]. cbn [heard heard_late].
  rewrite (IH (after m o)); [|exact E|exact K2]. destruct o; try reflexivity. unfold text. now rewrite <- E, K1.
Qed.
Lemma kept_live mf h : forall m, at_end m h = mf -> kept m h -> live_args m h -> Forall (fun a => mf a <> None) (strs h).
Proof.
  induction h as [|o h IH]; intros m E K L; [constructor|]. destruct K as [K1 K2], L as [L1 L2]. cbn [strs flat_map].
  apply Forall_app. split; [|exact (IH (after m o) E K2 L2)]. destruct o; constructor; [|constructor]. now rewrite <- E, K1.
Qed.

Lemma leak_iff dbg es : json_leaked dbg es = match snd (run (json_writer dbg) js_init es) with Ok _ => 0 | _ => 1 end.
Proof.
  unfold json_leaked.
  assert (K : js_doc (fst (run (json_writer dbg) js_init es)) = true).
  { apply doc_run. reflexivity. }
  destruct (run (json_writer dbg) js_init es) as [s r]. cbn [fst snd] in *. destruct r; rewrite ?K; try reflexivity.
  unfold j_finish. rewrite K. destruct (js_tree s); reflexivity.
Qed.
