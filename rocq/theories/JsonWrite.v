(** JsonWrite.v -- the JSON writer on call sequences; round trip. *)

From Coq Require Import ZArith List Bool String Lia ZifyBool ZifyNat.
From Verif Require Import Base BaseFacts Spec SpecFacts FloatModel FloatSpec HalfModel FloatFacts B64Model B64Spec B64Facts
  Utf8Model Utf8Spec Utf8Facts JsonModel JsonSpec JsonFacts.
Import ListNotations.
Open Scope Z_scope.

(** The mutable tree built for a value. *)
Fixpoint mut (v : val) : val :=
  match v with
  | VBlob b => VArr [VStr tag_text; VStr (rfc4648 b); VStr enc_text]
  | VArr l => VArr (map mut l)
  | VMap l => VMap (map (fun kx => (c_str (fst kx), mut (snd kx))) l)
  | _ => v
  end.
Definition kfine (dbg : bool) (k : bytes) : bool := nonempty k && negb (dbg && has_nul k).
Fixpoint wfine (dbg : bool) (v : val) : bool :=
  match v with
  | VArr l => forallb (wfine dbg) l
  | VMap l => forallb (fun kx => kfine dbg (fst kx) && wfine dbg (snd kx)) l
  | _ => true
  end.

(** Linking a finished node. *)
Definition place (k : bytes) (v : val) (s : jst) : jst :=
  match js_st s with
  | [] => mkJst (js_doc s) (Some v) (js_wrote s) []
  | c :: st => mkJst (js_doc s) (js_root s) (js_wrote s) (add_kid c k v :: st)
  end.
Lemma push_place dbg v s k s1 : j_accept dbg s = Ok (k, s1) -> j_push dbg v s = (place k v s1, Ok tt).
Proof. intros H. unfold j_push, place. rewrite H. destruct (js_st s1); reflexivity. Qed.
Lemma push_fail dbg v s : (forall p, j_accept dbg s <> Ok p) -> exists r, j_push dbg v s = (s, r) /\ r <> Ok tt.
Proof.
  intros H. unfold j_push. destruct (j_accept dbg s) as [[k s1]|e| |]; [exfalso; now apply (H (k, s1))|..]; eexists; split; try reflexivity; discriminate.
Qed.
Lemma accept_arr dbg r w slot kids p st :
  j_accept dbg (mkJst true r w (mkJctx false p slot kids :: st)) = Ok ([], mkJst true r w (mkJctx false p slot kids :: st)).
Proof. reflexivity. Qed.
Lemma accept_doc dbg s k s1 : j_accept dbg s = Ok (k, s1) -> js_doc s = true /\ js_doc s1 = true.
Proof.
  unfold j_accept. destruct (js_doc s) eqn:D; [|discriminate]. cbn [negb]. destruct (js_st s) as [|c st].
  - destruct (js_wrote s); [discriminate|]. intros H; injection H as <- <-. auto.
  - destruct (jc_obj c); [|intros H; injection H as <- <-; auto]. destruct (negb _); [discriminate|]. destruct (_ && _); [discriminate|].
    intros H; injection H as <- <-. auto.
Qed.
Lemma pop_place obj p k kids s : j_pop (mkJst (js_doc s) (js_root s) (js_wrote s) (mkJctx obj p k kids :: js_st s)) =
  place k (node_of (mkJctx obj p k kids)) s.
Proof. unfold j_pop, place. cbn [js_st js_doc js_root js_wrote]. destruct (js_st s); reflexivity. Qed.
Lemma pop_place_doc obj p k kids s : js_doc s = true ->
  j_pop (mkJst true (js_root s) (js_wrote s) (mkJctx obj p k kids :: js_st s)) = place k (node_of (mkJctx obj p k kids)) s.
Proof. intros <-. apply pop_place. Qed.
Lemma push_arr dbg v r w slot kids p st :
  j_push dbg v (mkJst true r w (mkJctx false p slot kids :: st)) = (mkJst true r w (mkJctx false p slot (kids ++ [([], v)]) :: st), Ok tt).
Proof. reflexivity. Qed.
Lemma binary_place dbg b s k s1 : bytes_ok b -> j_accept dbg s = Ok (k, s1) ->
  j_binary dbg b s = (place k (VArr [VStr tag_text; VStr (rfc4648 b); VStr enc_text]) s1, Ok tt).
Proof.
  intros B H. pose proof (accept_doc _ _ _ _ H) as [_ D]. unfold j_binary. rewrite encode_rfc by exact B. unfold j_seq at 1, j_begin. rewrite H. cbv beta iota.
  unfold ok, j_seq. rewrite D, !push_arr.
  unfold j_end_array, j_in. cbn [js_st jc_obj Bool.eqb]. unfold ok. rewrite <- D at 1. rewrite pop_place. reflexivity.
Qed.

Section Run.
  Variable dbg : bool.
  Let W := json_writer dbg.

  Lemma run_one s e es : run W s (e :: es) = match j_step dbg s e with (s', Ok _) => run W s' es | (s', r) => (s', r) end.
  Proof. reflexivity. Qed.

  (** [res_is good s' r]: the outcome of a run that either succeeds with state [s'] or throws logic_error. *)
  Definition res_is (good : bool) (s' : jst) (r : jst * res unit) : Prop :=
    if good then r = (s', Ok tt) else exists s'', r = (s'', Throw ELogic).
  Lemma res_is_bind g1 g2 s1 s2 r es : res_is g1 s1 r -> (g1 = true -> res_is g2 s2 (run W s1 es)) ->
    res_is (g1 && g2) s2 (match r with (s', Ok _) => run W s' es | (s', x) => (s', x) end).
  Proof.
    intros H1 H2. destruct g1; cbn [andb].
    - rewrite H1. auto.
    - destruct H1 as [s'' ->]. now exists s''.
  Qed.
  Lemma run_bind g1 g2 s s1 s2 es1 es2 : res_is g1 s1 (run W s es1) -> (g1 = true -> res_is g2 s2 (run W s1 es2)) ->
    res_is (g1 && g2) s2 (run W s (es1 ++ es2)).
  Proof. intros H1 H2. rewrite run_app. now apply (res_is_bind g1 g2 s1). Qed.

  Lemma accept_obj r w slot kids k st :
    j_accept dbg (mkJst true r w (mkJctx true k slot kids :: st)) =
    if kfine dbg k then Ok (c_str k, mkJst true r w (mkJctx true [] slot kids :: st)) else Throw ELogic.
  Proof.
    unfold j_accept, kfine. cbn [js_doc js_st jc_obj jc_pending jc_slot jc_kids negb js_root js_wrote]. destruct (nonempty k); [|reflexivity].
    cbn [negb andb]. destruct (dbg && has_nul k); reflexivity.
  Qed.
  (** A value whose key is not acceptable. *)
  Lemma calls_first v es : calls v es -> exists e es', es = e :: es' /\
    (forall s, Forall ev_ok es -> j_accept dbg s = Throw ELogic -> j_step dbg s e = (s, Throw ELogic)).
  Proof.
    assert (P : forall v s, j_accept dbg s = Throw ELogic -> j_push dbg v s = (s, Throw ELogic)) by (intros ? ? H; unfold j_push; now rewrite H).
    assert (B : forall o s, j_accept dbg s = Throw ELogic -> j_begin dbg o s = (s, Throw ELogic)) by (intros ? ? H; unfold j_begin; now rewrite H).
    destruct 1; do 2 eexists; (split; [reflexivity|]); intros s0 OK H0; cbn [j_step]; auto.
    unfold j_binary. rewrite encode_rfc by (inversion OK; subst; auto). unfold j_seq at 1. now rewrite B.
  Qed.

  Lemma run_value :
    (forall v es, calls v es -> Forall ev_ok es -> forall s k s1, j_accept dbg s = Ok (k, s1) ->
       res_is (wfine dbg v) (place k (mut v) s1) (run W s es)) /\
    (forall l es, calls_list l es -> Forall ev_ok es -> forall r w slot kids st,
       res_is (forallb (wfine dbg) l)
         (mkJst true r w (mkJctx false [] slot (kids ++ map (fun x => ([], mut x)) l) :: st))
         (run W (mkJst true r w (mkJctx false [] slot kids :: st)) es)) /\
    (forall l es, calls_entries l es -> Forall ev_ok es -> forall r w slot kids st,
       res_is (forallb (fun kx => kfine dbg (fst kx) && wfine dbg (snd kx)) l)
         (mkJst true r w (mkJctx true [] slot (kids ++ map (fun kx => (c_str (fst kx), mut (snd kx))) l) :: st))
         (run W (mkJst true r w (mkJctx true [] slot kids :: st)) es)).
  Proof.
    assert (LEAF : forall v e s k s1, j_step dbg s e = j_push dbg v s -> j_accept dbg s = Ok (k, s1) ->
      res_is true (place k v s1) (run W s [e])).
    { intros v e s k s1 E A. rewrite run_one, E, (push_place _ _ _ _ _ A). reflexivity. }
    apply calls_mutind; cbn [wfine mut]; try (intros; eapply LEAF; [reflexivity|eassumption]).
    - intros b OK s k s1 A. inversion OK as [|? ? B _]. subst. rewrite run_one. cbn [j_step]. rewrite (binary_place _ _ _ _ _ B A). reflexivity.
    - intros n l es C IH OK s k s1 A. rewrite run_one. cbn [j_step]. unfold j_begin. rewrite A. unfold ok. cbv beta iota.
      pose proof (accept_doc _ _ _ _ A) as [_ D]. rewrite D. inversion OK as [|? ? _ OK1]. subst. apply Forall_app in OK1. destruct OK1 as [OK1 _].
      rewrite <- (andb_true_r (forallb _ l)). eapply run_bind; [apply IH; exact OK1|]. intros _. rewrite run_one. cbn [j_step]. unfold j_end_array, j_in.
      cbn [js_st jc_obj Bool.eqb run]. unfold ok. rewrite (pop_place_doc _ _ _ _ _ D). unfold node_of. cbn [jc_obj jc_kids app]. rewrite map_map. reflexivity.
    - intros n l es C IH OK s k s1 A. rewrite run_one. cbn [j_step]. unfold j_begin. rewrite A. unfold ok. cbv beta iota.
      pose proof (accept_doc _ _ _ _ A) as [_ D]. rewrite D. inversion OK as [|? ? _ OK1]. subst. apply Forall_app in OK1. destruct OK1 as [OK1 _].
      rewrite <- (andb_true_r (forallb _ l)). eapply run_bind; [apply IH; exact OK1|]. intros _. rewrite run_one. cbn [j_step]. unfold j_end_map.
      cbn [js_st jc_obj jc_pending nonempty run]. unfold ok. rewrite (pop_place_doc _ _ _ _ _ D). unfold node_of. cbn [jc_obj jc_kids app]. reflexivity.
    - intros _ r w slot kids st. cbn [forallb map]. rewrite app_nil_r. reflexivity.
    - intros x l es1 es2 Cx IHx Cl IHl OK r w slot kids st. apply Forall_app in OK. destruct OK as [OK1 OK2]. cbn [forallb map].
      eapply run_bind; [apply IHx; [exact OK1|apply accept_arr]|]. intros _. unfold place. cbn [js_st js_doc js_root js_wrote add_kid jc_obj jc_pending jc_slot jc_kids].
      specialize (IHl OK2 r w slot (kids ++ [([], mut x)]) st). rewrite <- app_assoc in IHl. exact IHl.
    - intros _ r w slot kids st. cbn [forallb map]. rewrite app_nil_r. reflexivity.
    - intros k x l es1 es2 Cx IHx Cl IHl OK r w slot kids st. inversion OK as [|? ? OKk OK']. subst. apply Forall_app in OK'. destruct OK' as [OK1 OK2].
      cbn [forallb map fst snd]. rewrite run_one. cbn [j_step]. unfold j_setkey. cbn [js_st jc_obj jc_pending nonempty js_doc js_root js_wrote jc_slot jc_kids]. unfold ok. cbv beta iota.
      rewrite <- andb_assoc. pose proof (accept_obj r w slot kids k st) as A. destruct (kfine dbg k).
      + cbn [andb]. eapply run_bind; [apply IHx; [exact OK1|exact A]|]. intros _. unfold place.
        cbn [js_st js_doc js_root js_wrote add_kid jc_obj jc_pending jc_slot jc_kids]. specialize (IHl OK2 r w slot (kids ++ [(c_str k, mut x)]) st).
        rewrite <- app_assoc in IHl. exact IHl.
      + cbn [andb]. destruct (calls_first x es1 Cx) as (e & es' & -> & F). exists (mkJst true r w (mkJctx true k slot kids :: st)).
        cbn [app]. rewrite run_one, (F _ OK1 A). reflexivity.
  Qed.

  Lemma run_calls v es : calls v es -> Forall ev_ok es ->
    res_is (wfine dbg v) (mkJst true (Some (mut v)) true []) (run W js_init es).
  Proof. intros C OK. exact (proj1 run_value v es C OK js_init [] (mkJst true None true []) eq_refl). Qed.
End Run.

(** ** Printing and parsing back *)
Lemma c_str_nul k : c_str k = to_nul k. Proof. reflexivity. Qed.
Fixpoint pr (v : val) : bool :=
  match v with
  | VDbl d => is_finite d
  | VStr s => utf8_valid s
  | VArr l => forallb pr l
  | VMap l => forallb (fun kx => utf8_valid (to_nul (fst kx)) && pr (snd kx)) l
  | _ => true
  end.

Definition write_list := fix go (l : list val) : option (list val) :=
  match l with
  | [] => Some []
  | x :: l' => match yy_write x, go l' with Some y, Some r => Some (y :: r) | _, _ => None end
  end.
Definition write_entries := fix go (l : list (bytes * val)) : option (list (bytes * val)) :=
  match l with
  | [] => Some []
  | (k, x) :: l' =>
      if utf8_valid k then match yy_write x, go l' with Some y, Some r => Some ((k, y) :: r) | _, _ => None end
      else None
  end.
Definition read_list := fix go (l : list val) : option (list val) :=
  match l with
  | [] => Some []
  | x :: l' => match yy_read x, go l' with Some y, Some r => Some (y :: r) | _, _ => None end
  end.
Definition read_entries := fix go (l : list (bytes * val)) : option (list (bytes * val)) :=
  match l with
  | [] => Some []
  | (k, x) :: l' =>
      if utf8_valid k then match yy_read x, go l' with Some y, Some r => Some ((k, y) :: r) | _, _ => None end
      else None
  end.
Lemma alpha_ascii n : 0 <= n < 64 -> 0 <= alpha n <= 127.
Proof. unfold alpha. intros. destruct (n <? 26) eqn:?, (n <? 52) eqn:?, (n <? 62) eqn:?, (n =? 62) eqn:?; lia. Qed.
Lemma ascii_valid s : Forall (fun c => 0 <= c <= 127) s -> utf8_valid s = true.
Proof. induction 1 as [|c s H _ IH]; [reflexivity|]. rewrite utf8_cons. replace (c <=? 127) with true by lia. exact IH. Qed.
Lemma rfc_ascii b : bytes_ok b -> Forall (fun c => 0 <= c <= 127) (rfc4648 b).
Proof.
  intros B. destruct (rfc_form b B) as (p & k & -> & P & _). apply Forall_app. split.
  - eapply Forall_impl; [|exact P]. cbv beta. intros c H. unfold in_alphabet in H. lia.
  - clear P. induction k; cbn [repeat]; constructor; [lia|assumption].
Qed.
Lemma write_mut v : val_ok v -> yy_write (mut v) = if pr v then Some (as_json (cut_keys v)) else None.
Proof.
  induction v as [| | | | |s|b|l IH|l IH] using val_ind'; intros OK; try reflexivity.
  - cbn [mut yy_write pr as_json cut_keys]. rewrite (ascii_valid _ (rfc_ascii b OK)). reflexivity.
  - cbn [mut pr cut_keys as_json]. change (yy_write (VArr (map mut l))) with (option_map VArr (write_list (map mut l))).
    apply val_ok_arr in OK. assert (E : write_list (map mut l) = if forallb pr l then Some (map as_json (map cut_keys l)) else None).
    { induction l as [|x l IHl]; [reflexivity|]. inversion IH; inversion OK; subst. cbn [map write_list forallb]. rewrite H1 by assumption.
      fold write_list. rewrite IHl by assumption. destruct (pr x), (forallb pr l); reflexivity. }
    rewrite E. destruct (forallb pr l); reflexivity.
  - cbn [mut pr cut_keys as_json].
    change (yy_write (VMap (map (fun kx => (c_str (fst kx), mut (snd kx))) l))) with (option_map VMap (write_entries (map (fun kx => (c_str (fst kx), mut (snd kx))) l))).
    apply val_ok_map in OK.
    assert (E : write_entries (map (fun kx => (c_str (fst kx), mut (snd kx))) l) =
      if forallb (fun kx => utf8_valid (to_nul (fst kx)) && pr (snd kx)) l then
        Some (map (fun kx => (fst kx, as_json (snd kx))) (map (fun kx => (to_nul (fst kx), cut_keys (snd kx))) l)) else None).
    { induction l as [|[k x] l IHl]; [reflexivity|]. inversion IH; inversion OK; subst. cbn [map write_entries forallb fst snd] in *. rewrite c_str_nul.
      destruct H5 as [_ H5]. rewrite H1 by assumption. fold write_entries. rewrite IHl by assumption.
      destruct (utf8_valid (to_nul k)), (pr x), (forallb _ l); reflexivity. }
    rewrite E. destruct (forallb _ l); reflexivity.
Qed.
Lemma read_json v : val_ok v -> pr v = true -> yy_read (as_json (cut_keys v)) = Some (as_json (cut_keys v)).
Proof.
  induction v as [| |z|z|d|s|b|l IH|l IH] using val_ind'; intros OK P; try reflexivity.
  - cbn [cut_keys as_json]. cbn [val_ok] in OK. unfold is_i64, i64_min, i64_max in OK. destruct (z <? 0) eqn:E; cbn [yy_read].
    + unfold i64_min. replace (_ <=? z) with true by lia. reflexivity.
    + unfold u64_max. replace (z <=? _) with true by lia. reflexivity.
  - cbn [cut_keys as_json yy_read]. cbn [val_ok] in OK. unfold is_u64 in OK. replace (z <=? _) with true by lia. reflexivity.
  - cbn [cut_keys as_json yy_read pr] in *. now rewrite P.
  - cbn [cut_keys as_json yy_read pr] in *. now rewrite P.
  - cbn [cut_keys as_json yy_read]. rewrite (ascii_valid _ (rfc_ascii b OK)). reflexivity.
  - cbn [pr cut_keys as_json] in *. apply val_ok_arr in OK.
    change (option_map VArr (read_list (map as_json (map cut_keys l))) = Some (VArr (map as_json (map cut_keys l)))).
    assert (E : read_list (map as_json (map cut_keys l)) = Some (map as_json (map cut_keys l))); [|now rewrite E].
    induction l as [|x l IHl]; [reflexivity|]. inversion IH; inversion OK; subst. cbn [forallb] in P. apply andb_prop in P. destruct P as [P1 P2].
    cbn [map read_list]. rewrite H1 by assumption. fold read_list. now rewrite IHl.
  - cbn [pr cut_keys as_json] in *. apply val_ok_map in OK. set (f := fun kx : bytes * val => (fst kx, as_json (snd kx))).
    set (g := fun kx : bytes * val => (to_nul (fst kx), cut_keys (snd kx))).
    change (option_map VMap (read_entries (map f (map g l))) = Some (VMap (map f (map g l)))).
    assert (E : read_entries (map f (map g l)) = Some (map f (map g l))); [|now rewrite E].
    induction l as [|[k x] l IHl]; [reflexivity|]. inversion IH; inversion OK; subst. cbn [forallb fst snd] in *. apply andb_prop in P. destruct P as [P1 P2].
    apply andb_prop in P1. destruct P1 as [P0 P1]. destruct H5 as [_ H5]. cbn [map]. change (f (g (k, x))) with (to_nul k, as_json (cut_keys x)). cbn [fst snd read_entries]. rewrite P0, H1 by assumption.
    fold read_entries. now rewrite IHl.
Qed.
Lemma doc_json v : val_ok v -> json_doc (as_json (cut_keys v)).
Proof.
  induction v as [| |z|z|d|s|b|l IH|l IH] using val_ind'; intros OK; cbn [cut_keys as_json]; try (split; [exact I|exact I]); try (split; [exact OK|exact I]).
  - cbn [val_ok] in OK. destruct (z <? 0) eqn:E; (split; [|exact I]); [exact OK|]. unfold is_i64, is_u64, i64_max, u64_max in *. lia.
  - apply every_arr. split; [exact I|]. repeat constructor; cbn [every]; try (unfold is_byte; lia). now apply bytes_ok_rfc.
  - apply every_arr. split; [exact I|]. apply val_ok_arr in OK. rewrite Forall_forall in *. intros y H. apply in_map_iff in H. destruct H as (y' & <- & H).
    apply in_map_iff in H. destruct H as (x & <- & H). apply IH; auto.
  - apply every_map. split; [exact I|]. apply val_ok_map in OK. rewrite Forall_forall in *. intros y H. apply in_map_iff in H. destruct H as (y' & <- & H).
    apply in_map_iff in H. destruct H as (x & <- & H). apply IH; auto. apply (OK x H).
Qed.
