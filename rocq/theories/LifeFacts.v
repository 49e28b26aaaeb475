(** LifeFacts.v -- facts about LifeModel.v, part 1: string arguments of writer calls. *)

From Coq Require Import ZArith List Bool Lia ZifyBool ZifyNat.
From Verif Require Import Base BaseFacts Spec SpecFacts B64Spec B64Facts JsonModel JsonSpec JsonFacts JsonWrite LifeModel LifeSpec.
Import ListNotations.
Open Scope Z_scope.

Section Copy.
  Context {S O : Type} (W : writer S O).
  Lemma hrun_copy h : forall m s, live_args m h ->
    hrun (w_step W) (fun s _ d => w_step W s (EStr d)) (fun s => w_step W s (EStr [])) m s h =
    (match run W s (heard m h) with
     | (s', Ok _) => (at_end m h, s', Ok tt)
     | (s', r) => (fst (fst (hrun (w_step W) (fun s _ d => w_step W s (EStr d)) (fun s => w_step W s (EStr [])) m s h)), s', r)
     end).
  Proof.
    induction h as [|o h IH]; intros m s L; [reflexivity|]. destruct L as [L1 L2]. specialize (IH (after m o)).
    assert (T : forall a d, m a = Some d -> text m a = d) by (intros a d H; unfold text; now rewrite H).
    destruct o as [e|a|a|a| |a x]; cbn [hrun heard after at_end fold_left app run] in *;
      try (destruct (m a) as [d|] eqn:Ea; [|congruence]; rewrite (T a d Ea)).
    - destruct (w_step W s e) as [s' [u| | |]]; try reflexivity. now apply IH.
    - destruct (w_step W s (EStr d)) as [s' [u| | |]]; try reflexivity. now apply IH.
    - destruct (w_step W s (EKey d)) as [s' [u| | |]]; try reflexivity. now apply IH.
    - destruct (w_step W s (EBin d)) as [s' [u| | |]]; try reflexivity. now apply IH.
    - destruct (w_step W s (EStr [])) as [s' [u| | |]]; try reflexivity. now apply IH.
    - now apply IH.
  Qed.
  Lemma copying_heard m h : live_args m h -> copying_output W m h = output W (heard m h).
  Proof.
    intro L. unfold copying_output, output. rewrite (hrun_copy h m _ L).
    destruct (run W (w_init W) (heard m h)) as [s' [u| | |]]; reflexivity.
  Qed.
End Copy.

(** ** The JSON writer does not look at string contents *)
Section Blind.
  Variable f : bytes -> bytes.
  Fixpoint sub (v : val) : val :=
    match v with
    | VStr s => VStr (f s)
    | VArr l => VArr (map sub l)
    | VMap l => VMap (map (fun kx => (fst kx, sub (snd kx))) l)
    | _ => v
    end.
  Definition ckids (l : list (bytes * val)) := map (fun kx => (fst kx, sub (snd kx))) l.
  Definition csub (c : jctx) : jctx := mkJctx (jc_obj c) (jc_pending c) (jc_slot c) (ckids (jc_kids c)).
  Definition ssub (s : jst) : jst := mkJst (js_doc s) (option_map sub (js_root s)) (js_wrote s) (map csub (js_st s)).

  Lemma node_sub c : node_of (csub c) = sub (node_of c).
  Proof.
    unfold node_of, csub, ckids. cbn [jc_obj jc_kids]. destruct (jc_obj c); cbn [sub]; [reflexivity|].
    now rewrite !map_map.
  Qed.
  Lemma kid_sub c k v : csub (add_kid c k v) = add_kid (csub c) k (sub v).
  Proof. unfold csub, add_kid, ckids. cbn [jc_obj jc_pending jc_slot jc_kids]. now rewrite map_app. Qed.
  Lemma close_sub st : forall v slot, close_all (sub v) slot (map csub st) = sub (close_all v slot st).
  Proof.
    induction st as [|c st IH]; intros v slot; cbn [close_all map]; [reflexivity|].
    rewrite <- kid_sub, node_sub. apply IH.
  Qed.
  Lemma tree_sub s : js_tree (ssub s) = option_map sub (js_tree s).
  Proof.
    unfold js_tree, ssub. cbn [js_st js_root]. destruct (js_st s) as [|c st]; cbn [map]; [reflexivity|].
    cbn [option_map]. now rewrite node_sub, close_sub.
  Qed.

  Variable dbg : bool.
  Lemma accept_sub s : j_accept dbg (ssub s) = rmap (fun kx => (fst kx, ssub (snd kx))) (j_accept dbg s).
  Proof.
    destruct s as [d r w st]. unfold j_accept, rmap, ssub. cbn [js_doc js_st js_root js_wrote]. destruct d; cbn [negb]; [|reflexivity].
    destruct st as [|c st]; cbn [map].
    - destruct w; reflexivity.
    - cbn [csub jc_obj jc_pending jc_slot jc_kids]. destruct (jc_obj c); [|reflexivity].
      destruct (nonempty (jc_pending c)); cbn [negb]; [|reflexivity].
      destruct (dbg && has_nul (jc_pending c)); reflexivity.
  Qed.
  Definition psub (r : jst * res unit) : jst * res unit := (ssub (fst r), snd r).
  Lemma push_sub v s : j_push dbg (sub v) (ssub s) = psub (j_push dbg v s).
  Proof.
    unfold j_push. rewrite accept_sub. destruct (j_accept dbg s) as [[k s1]| | |]; try reflexivity.
    unfold rmap. cbn [bind fst snd]. destruct s1 as [d r w st]. cbn [ssub js_st js_doc js_root js_wrote].
    destruct st as [|c st]; [reflexivity|]. cbn [map]. unfold ok, psub, ssub. cbn [fst snd js_doc js_root js_wrote js_st map].
    now rewrite kid_sub.
  Qed.
  Lemma begin_sub o s : j_begin dbg o (ssub s) = psub (j_begin dbg o s).
  Proof. unfold j_begin. rewrite accept_sub. destruct (j_accept dbg s) as [[k s1]| | |]; reflexivity. Qed.
  Lemma pop_sub s : j_pop (ssub s) = ssub (j_pop s).
  Proof.
    destruct s as [d r w st]. unfold j_pop, ssub. cbn [js_st js_doc js_root js_wrote].
    destruct st as [|c [|p st]]; cbn [map js_st js_doc js_root js_wrote option_map]; try reflexivity.
    - now rewrite node_sub.
    - now rewrite kid_sub, node_sub.
  Qed.
  Lemma end_array_sub s : j_end_array (ssub s) = psub (j_end_array s).
  Proof.
    unfold j_end_array. replace (j_in false (ssub s)) with (j_in false s).
    - destruct (j_in false s); [|reflexivity]. unfold ok, psub. cbn [fst snd]. now rewrite pop_sub.
    - unfold j_in, ssub. cbn [js_st]. destruct (js_st s); reflexivity.
  Qed.
  Lemma end_map_sub s : j_end_map (ssub s) = psub (j_end_map s).
  Proof.
    unfold j_end_map. replace (js_st (ssub s)) with (map csub (js_st s)) by reflexivity.
    destruct (js_st s) as [|c st]; [reflexivity|]. cbn [map csub jc_obj jc_pending].
    destruct (jc_obj c); [|reflexivity]. destruct (nonempty (jc_pending c)); [reflexivity|].
    unfold ok, psub. cbn [fst snd]. now rewrite pop_sub.
  Qed.
  Lemma setkey_sub k s : j_setkey k (ssub s) = psub (j_setkey k s).
  Proof.
    unfold j_setkey. replace (js_st (ssub s)) with (map csub (js_st s)) by reflexivity.
    destruct (js_st s) as [|c st]; [reflexivity|]. cbn [map csub jc_obj jc_pending].
    destruct (jc_obj c); [|reflexivity]. destruct (nonempty (jc_pending c)); reflexivity.
  Qed.
  Lemma seq_sub F G s : (forall s, F (ssub s) = psub (F s)) -> (forall s, G (ssub s) = psub (G s)) ->
    j_seq F G (ssub s) = psub (j_seq F G s).
  Proof.
    intros HF HG. unfold j_seq. rewrite HF. destruct (F s) as [s' [u| | |]]; unfold psub at 1; cbn [fst snd]; try reflexivity.
    apply HG.
  Qed.

  Definition esub (e : ev) : ev := match e with EStr s => EStr (f s) | _ => e end.
  Hypothesis Fix : forall s, bytes_ok s -> f s = s.
  Lemma step_sub e s : (match e with EBin b => bytes_ok b | _ => True end) ->
    j_step dbg (ssub s) (esub e) = psub (j_step dbg s e).
  Proof.
    intro OK. destruct e as [|b|z|z|z|t|b|k|n| |n|]; cbn [esub j_step].
    1-6: match goal with |- _ = psub (j_push dbg ?v ?t) => exact (push_sub v t) end.
    - unfold j_binary. rewrite (encode_rfc _ OK).
      assert (P : forall x t, bytes_ok x -> j_push dbg (VStr x) (ssub t) = psub (j_push dbg (VStr x) t)).
      { intros x t Hx. rewrite <- push_sub. cbn [sub]. now rewrite Fix. }
      apply seq_sub; [intro; apply begin_sub|]. intro. apply seq_sub; [intro; apply P; okay|].
      intro. apply seq_sub; [intro; apply P; now apply bytes_ok_rfc|]. intro. apply seq_sub; [intro; apply P; okay|].
      intro. apply end_array_sub.
    - apply setkey_sub.
    - apply begin_sub.
    - apply end_array_sub.
    - apply begin_sub.
    - apply end_map_sub.
  Qed.
End Blind.

(** ** Documents with pointers into the caller's storage *)
Definition ptr_of (s : bytes) : option nat :=
  match s with [x; a] => if x =? -1 then Some (Z.to_nat a) else None | _ => None end.
Definition fm (m : memory) (s : bytes) : bytes := match ptr_of s with Some a => text m a | None => s end.
Lemma ptr_bytes s : bytes_ok s -> ptr_of s = None.
Proof.
  intro H. unfold ptr_of. destruct s as [|x [|a [|? ?]]]; try reflexivity. destruct (Z.eqb_spec x (-1)); [|reflexivity].
  apply Forall_cons_iff in H. destruct H as [H _]. unfold is_byte in H. lia.
Qed.
Lemma fm_bytes m s : bytes_ok s -> fm m s = s.
Proof. intro H. unfold fm. now rewrite ptr_bytes. Qed.
Lemma ptr_handle a : ptr_of [-1; Z.of_nat a] = Some a.
Proof. unfold ptr_of. cbn [Z.eqb Pos.eqb]. now rewrite Nat2Z.id. Qed.

Fixpoint refs (v : val) : list nat :=
  match v with
  | VStr s => match ptr_of s with Some a => [a] | None => [] end
  | VArr l => flat_map refs l
  | VMap l => flat_map (fun kx => refs (snd kx)) l
  | _ => []
  end.

Lemma resolve_str m s : resolve m (VStr s) = match ptr_of s with
  | Some a => match m a with Some d => Ok (VStr d) | None => UB end | None => Ok (VStr s) end.
Proof. cbn [resolve]. unfold ptr_of. destruct s as [|x [|a [|? ?]]]; try reflexivity. destruct (x =? -1); reflexivity. Qed.

Lemma resolve_ok m v : (forall a, In a (refs v) -> m a <> None) -> resolve m v = Ok (sub (fm m) v).
Proof.
  induction v as [| | | | |s| |l IH|l IH] using val_ind'; intro H; try reflexivity.
  - rewrite resolve_str. cbn [sub refs] in *. unfold fm, text. destruct (ptr_of s) as [a|]; [|reflexivity].
    destruct (m a) eqn:E; [reflexivity|]. destruct (H a); [now left|exact E].
  - cbn [resolve sub refs] in *.
    match goal with |- bind ?X _ = _ => assert (E : X = Ok (map (sub (fm m)) l)) end; [|now rewrite E].
    induction l as [|x l IHl]; [reflexivity|]. apply Forall_cons_iff in IH. destruct IH as [IH1 IH2]. cbn [flat_map map] in *.
    rewrite IH1 by (intros a Ha; apply H, in_or_app; now left). cbn [bind].
    rewrite IHl; [reflexivity|exact IH2|]. intros a Ha. apply H, in_or_app. now right.
  - cbn [resolve sub refs] in *.
    match goal with |- bind ?X _ = _ => assert (E : X = Ok (map (fun kx => (fst kx, sub (fm m) (snd kx))) l)) end; [|now rewrite E].
    induction l as [|[k x] l IHl]; [reflexivity|]. apply Forall_cons_iff in IH. destruct IH as [IH1 IH2]. cbn [flat_map map fst snd] in *.
    rewrite IH1 by (intros a Ha; apply H, in_or_app; now left). cbn [bind].
    rewrite IHl; [reflexivity|exact IH2|]. intros a Ha. apply H, in_or_app. now right.
Qed.

Lemma resolve_total m v : match resolve m v with Ok _ | UB => True | _ => False end.
Proof.
  induction v as [| | | | |s| |l IH|l IH] using val_ind'; try exact Logic.I.
  - rewrite resolve_str. destruct (ptr_of s) as [a|]; [destruct (m a)|]; exact Logic.I.
  - cbn [resolve]. match goal with |- match bind ?X _ with _ => _ end => assert (E : match X with Ok _ | UB => True | _ => False end) end.
    { induction l as [|x l IHl]; [exact Logic.I|]. apply Forall_cons_iff in IH. destruct IH as [IH1 IH2]. specialize (IHl IH2).
      destruct (resolve m x); cbn [bind]; auto.
      match goal with |- match bind ?X _ with _ => _ end => destruct X end; auto. }
    match goal with |- match bind ?X _ with _ => _ end => destruct X end; auto.
  - cbn [resolve]. match goal with |- match bind ?X _ with _ => _ end => assert (E : match X with Ok _ | UB => True | _ => False end) end.
    { induction l as [|[k x] l IHl]; [exact Logic.I|]. apply Forall_cons_iff in IH. destruct IH as [IH1 IH2]. specialize (IHl IH2). cbn [snd] in IH1.
      destruct (resolve m x); cbn [bind]; auto.
      match goal with |- match bind ?X _ with _ => _ end => destruct X end; auto. }
    match goal with |- match bind ?X _ with _ => _ end => destruct X end; auto.
Qed.
Lemma resolve_ub m v a : In a (refs v) -> m a = None -> resolve m v = UB.
Proof.
  intros Ha Hm.
  assert (N : forall v t, resolve m v = Ok t -> In a (refs v) -> False).
  { clear v Ha. induction v as [| | | | |s| |l IH|l IH] using val_ind'; intros t E Ha; try (now destruct Ha).
    - rewrite resolve_str in E. cbn [refs] in Ha. destruct (ptr_of s) as [b|]; [|now destruct Ha].
      destruct Ha as [->|[]]. now rewrite Hm in E.
    - cbn [resolve refs] in *.
      match type of E with bind ?X _ = _ => destruct X as [r| | |] eqn:F; try discriminate end. clear E. revert r F.
      induction l as [|x l IHl]; intros r F; [now destruct Ha|]. apply Forall_cons_iff in IH. destruct IH as [IH1 IH2]. cbn [flat_map] in Ha.
      destruct (resolve m x) as [y| | |] eqn:Ex; try discriminate. cbn [bind] in F.
      match type of F with bind ?X _ = _ => destruct X as [r'| | |] eqn:G; try discriminate end.
      apply in_app_or in Ha. destruct Ha as [Ha|Ha]; [exact (IH1 _ eq_refl Ha)|]. exact (IHl IH2 Ha _ eq_refl).
    - cbn [resolve refs] in *.
      match type of E with bind ?X _ = _ => destruct X as [r| | |] eqn:F; try discriminate end. clear E. revert r F.
      induction l as [|[k x] l IHl]; intros r F; [now destruct Ha|]. apply Forall_cons_iff in IH. destruct IH as [IH1 IH2]. cbn [flat_map snd] in *.
      destruct (resolve m x) as [y| | |] eqn:Ex; try discriminate. cbn [bind] in F.
      match type of F with bind ?X _ = _ => destruct X as [r'| | |] eqn:G; try discriminate end.
      apply in_app_or in Ha. destruct Ha as [Ha|Ha]; [exact (IH1 _ eq_refl Ha)|]. exact (IHl IH2 Ha _ eq_refl). }
  pose proof (resolve_total m v) as T. destruct (resolve m v) as [t| | |] eqn:E; try tauto. destruct (N v t E Ha).
Qed.
