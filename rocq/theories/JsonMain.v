(** JsonMain.v -- the JSON theorems. *)

From Coq Require Import ZArith List Bool String Lia ZifyBool ZifyNat.
From Verif Require Import Base BaseFacts Spec SpecFacts FloatModel FloatSpec HalfModel FloatFacts B64Model B64Spec B64Facts
  Utf8Model Utf8Spec Utf8Facts JsonModel JsonSpec JsonFacts JsonWrite.
Import ListNotations.
Open Scope Z_scope.

Lemma finite_iff d : is_finite d = true <-> finite d.
Proof.
  unfold is_finite, finite, f64_value, ieee, f64_exp. change (2^11 - 1) with 2047. change (2^11) with 2048.
  destruct (d / 2^52 mod 2048 =? 2047) eqn:E; cbn [negb]; [split; [discriminate|]|].
  - destruct (_ =? 0); intros [].
  - destruct (_ =? 0); split; auto.
Qed.
Lemma has_nul_iff k : has_nul k = true <-> In 0 k.
Proof. unfold has_nul. rewrite existsb_exists. split; [intros (x & H & E); apply Z.eqb_eq in E; now subst|]. intros H. exists 0. auto. Qed.
Lemma kfine_iff dbg k : kfine dbg k = true <-> key_ok dbg k.
Proof.
  unfold kfine, key_ok. rewrite andb_true_iff, negb_true_iff. split; intros [A B]; split.
  - intros ->. discriminate.
  - intros -> H. apply has_nul_iff in H. rewrite H in B. discriminate.
  - destruct k; [congruence|reflexivity].
  - destruct dbg; [|reflexivity]. cbn [andb]. destruct (has_nul k) eqn:E; [|reflexivity]. apply has_nul_iff in E. now specialize (B eq_refl).
Qed.
Lemma every_key_arr P l : every_key P (VArr l) <-> Forall (every_key P) l.
Proof. unfold every_key. rewrite every_arr. tauto. Qed.
Lemma every_key_map P l : every_key P (VMap l) <-> Forall (fun kx => P (fst kx) /\ every_key P (snd kx)) l.
Proof. unfold every_key. rewrite every_map. split; [intros [A B]; apply Forall_and; assumption|]. intros H. split; eapply Forall_impl; try exact H; cbv beta; tauto. Qed.
Lemma finite_arr l : doubles_finite (VArr l) <-> Forall doubles_finite l.
Proof. unfold doubles_finite. rewrite every_arr. tauto. Qed.
Lemma finite_map l : doubles_finite (VMap l) <-> Forall (fun kx => doubles_finite (snd kx)) l.
Proof. unfold doubles_finite. rewrite every_map. tauto. Qed.
Lemma Forall_both {A} (P Q : A -> Prop) l : Forall (fun x => P x /\ Q x) l <-> Forall P l /\ Forall Q l.
Proof. rewrite !Forall_forall. firstorder. Qed.
Lemma forallb_Forall {A} (f : A -> bool) (P : A -> Prop) l : Forall (fun x => f x = true <-> P x) l -> forallb f l = true <-> Forall P l.
Proof.
  induction 1 as [|x l H _ IH]; cbn [forallb]; [split; constructor|]. rewrite andb_true_iff, Forall_cons_iff. tauto.
Qed.
Lemma wfine_iff dbg v : wfine dbg v = true <-> every_key (key_ok dbg) v.
Proof.
  induction v as [| | | | | | |l IH|l IH] using val_ind'; try (split; intros; [split; exact I|reflexivity]).
  - cbn [wfine]. rewrite every_key_arr. now apply forallb_Forall.
  - cbn [wfine]. rewrite every_key_map. apply forallb_Forall. eapply Forall_impl; [|exact IH]. cbv beta. intros [k x] H. rewrite andb_true_iff, kfine_iff. cbn [fst snd] in *. tauto.
Qed.
Lemma to_nul_ok k : bytes_ok k -> bytes_ok (to_nul k).
Proof. induction 1 as [|x k H _ IH]; [constructor|]. cbn [to_nul]. destruct (x =? 0); constructor; assumption. Qed.
Lemma pr_iff v : val_ok v -> pr v = true <-> doubles_finite v /\ texts_utf8 (cut_keys v).
Proof.
  induction v as [| | | |d|s| |l IH|l IH] using val_ind'; intros OK; try (split; intros; [repeat split|reflexivity]).
  - cbn [pr cut_keys texts_utf8]. unfold doubles_finite. cbn [every]. rewrite finite_iff. tauto.
  - cbn [pr cut_keys texts_utf8]. unfold doubles_finite. cbn [every]. rewrite utf8_iff by exact OK. tauto.
  - cbn [pr cut_keys]. rewrite finite_arr, texts_arr. apply val_ok_arr in OK. rewrite Forall_map. rewrite <- Forall_both. apply forallb_Forall.
    rewrite Forall_forall in *. intros x H. apply IH; auto.
  - cbn [pr cut_keys]. rewrite finite_map, texts_map. apply val_ok_map in OK. rewrite Forall_map. rewrite <- Forall_both. apply forallb_Forall.
    rewrite Forall_forall in *. intros [k x] H. specialize (OK _ H). cbn [fst snd] in *. rewrite andb_true_iff, utf8_iff by (apply to_nul_ok, OK). specialize (IH _ H (proj2 OK)).
    cbn [snd] in IH. tauto.
Qed.
Lemma to_nul_id k : ~ In 0 k -> to_nul k = k.
Proof. induction k as [|x k IH]; [reflexivity|]. intros H. cbn [to_nul]. destruct (x =? 0) eqn:E; [exfalso; apply H; left; lia|]. f_equal. apply IH. intros G. apply H. now right. Qed.
Lemma cut_id v : every_key (fun k => ~ In 0 k) v -> cut_keys v = v.
Proof.
  induction v as [| | | | | | |l IH|l IH] using val_ind'; intros H; try reflexivity; cbn [cut_keys]; f_equal.
  - rewrite every_key_arr in H. rewrite <- (map_id l) at 2. apply map_ext_in. rewrite Forall_forall in *. auto.
  - rewrite every_key_map in H. rewrite <- (map_id l) at 2. apply map_ext_in. rewrite Forall_forall in *. intros [k x] I. specialize (H _ I). cbn [fst snd] in *.
    f_equal; [apply to_nul_id, H|]. apply (IH _ I), H.
Qed.
Lemma every_mono (P Q : val -> Prop) v : (forall v, P v -> Q v) -> every P v -> every Q v.
Proof.
  intros PQ. induction v as [| | | | | | |l IH|l IH] using val_ind'; try (intros [H _]; split; [now apply PQ|exact I]).
  - rewrite !every_arr. intros [A B]. split; [now apply PQ|]. rewrite Forall_forall in *. auto.
  - rewrite !every_map. intros [A B]. split; [now apply PQ|]. rewrite Forall_forall in *. auto.
Qed.
Lemma every_key_mono (P Q : bytes -> Prop) v : (forall k, P k -> Q k) -> every_key P v -> every_key Q v.
Proof. intros PQ. apply every_mono. intros []; auto. intros H. eapply Forall_impl; [|exact H]. cbv beta. auto. Qed.

(** ** Writing *)
Lemma calls_outcome dbg v es : calls v es -> Forall ev_ok es ->
  match run (json_writer dbg) js_init es with
  | (s, Ok _) =>
      every_key (key_ok dbg) v /\
      (doubles_finite v /\ texts_utf8 (cut_keys v) /\ snd (j_finish s) = Ok (as_json (cut_keys v)) \/
       ~ (doubles_finite v /\ texts_utf8 (cut_keys v)) /\ snd (j_finish s) = Throw ERuntime)
  | (_, r) => ~ every_key (key_ok dbg) v /\ r = Throw ELogic
  end.
Proof.
  intros C OK. pose proof (proj1 calls_val_ok v es C OK) as V. pose proof (run_calls dbg v es C OK) as R. unfold res_is in R.
  pose proof (wfine_iff dbg v) as WF. destruct (wfine dbg v).
  - rewrite R. split; [now apply WF|]. unfold j_finish, js_tree. cbn [js_doc js_st js_root snd]. rewrite (write_mut v V). pose proof (pr_iff v V) as P. destruct (pr v).
    + left. destruct P as [P _]. specialize (P eq_refl). tauto.
    + right. split; [|reflexivity]. intros Q. apply P in Q. discriminate.
  - destruct R as [s ->]. split; [|reflexivity]. intros H. apply WF in H. discriminate.
Qed.
Lemma open_json v : val_ok v -> doubles_finite v -> texts_utf8 (cut_keys v) ->
  json_open (as_json (cut_keys v)) = Ok (as_json (cut_keys v)) /\
  shows json_reader json_table (as_json (cut_keys v)) (as_json (cut_keys v)).
Proof.
  intros V F T. split.
  - unfold json_open. rewrite read_json; [reflexivity|exact V|]. apply pr_iff; auto.
  - now apply json_shows, doc_json.
Qed.

Lemma json_write dbg v : val_ok v ->
  (every_key (key_ok dbg) v /\ doubles_finite v /\ texts_utf8 (cut_keys v) /\
     exists d, serialize (json_writer dbg) v = Ok d /\ json_open d = Ok (as_json (cut_keys v))) \/
  (every_key (key_ok dbg) v /\ ~ (doubles_finite v /\ texts_utf8 (cut_keys v)) /\ serialize (json_writer dbg) v = Throw ERuntime) \/
  (~ every_key (key_ok dbg) v /\ serialize (json_writer dbg) v = Throw ELogic).
Proof.
  intros V. pose proof (calls_outcome dbg v (events v) (events_calls v) (events_ev_ok v V)) as H. unfold serialize.
  change (w_init (json_writer dbg)) with js_init. destruct (run (json_writer dbg) js_init (events v)) as [s [u|e| |]].
  - destruct H as [K [(F & T & E)|(N & E)]].
    + left. repeat split; auto. exists (as_json (cut_keys v)). split; [exact E|]. now apply open_json.
    + right. left. repeat split; auto.
  - destruct H as [K E]. right. right. injection E as ->. auto.
  - destruct H as [_ H]. discriminate.
  - destruct H as [_ H]. discriminate.
Qed.
Lemma json_ok_cut v : json_ok v -> cut_keys v = v.
Proof. intros (_ & _ & K). apply cut_id. eapply every_key_mono; [|exact K]. unfold good_key. tauto. Qed.
Lemma json_round_trip dbg v : val_ok v -> json_ok v ->
  exists d w, serialize (json_writer dbg) v = Ok d /\ json_open d = Ok w /\ shows json_reader json_table w (as_json v).
Proof.
  intros V J. pose proof (json_ok_cut v J) as C. destruct J as (F & T & K).
  destruct (json_write dbg v V) as [(_ & _ & _ & d & S & O)|[(_ & N & _)|(N & _)]].
  - rewrite C in O. exists d, (as_json v). repeat split; auto. pose proof (open_json v V F) as H. rewrite C in H. now apply H.
  - rewrite C in N. tauto.
  - exfalso. apply N. eapply every_key_mono; [|exact K]. unfold good_key, key_ok. tauto.
Qed.
(** Any text: rejected with DeserializationError, or navigable. *)
Lemma yy_big_doc z v : yy_big z = Some v -> exists d, v = VDbl d.
Proof. unfold yy_big. destruct (is_finite _); [|discriminate]. intros H. injection H as <-. eauto. Qed.
Lemma read_doc t : json_text t -> forall w, yy_read t = Some w -> json_doc w.
Proof.
  induction t as [| |z|z|d|s| |l IH|l IH] using val_ind'; intros OK w H.
  - injection H as <-. split; exact I.
  - injection H as <-. split; exact I.
  - cbn [yy_read] in H. destruct OK as [OK _]. destruct (i64_min <=? z) eqn:E; [injection H as <-; split; [|exact I]; unfold is_i64, i64_max, i64_min in *; lia|].
    destruct (yy_big_doc _ _ H) as [d ->]. split; exact I.
  - cbn [yy_read] in H. destruct OK as [OK _]. destruct (z <=? u64_max) eqn:E; [injection H as <-; split; [|exact I]; unfold is_u64, u64_max in *; lia|].
    destruct (yy_big_doc _ _ H) as [d ->]. split; exact I.
  - cbn [yy_read] in H. destruct (is_finite d); [|discriminate]. injection H as <-. split; exact I.
  - cbn [yy_read] in H. destruct (utf8_valid s); [|discriminate]. injection H as <-. exact OK.
  - discriminate.
  - apply every_arr in OK. destruct OK as [_ OK]. change (option_map VArr (read_list l) = Some w) in H. destruct (read_list l) as [l'|] eqn:E; [|discriminate].
    injection H as <-. apply every_arr. split; [exact I|]. revert l' E. induction l as [|x l IHl]; intros l' E.
    + injection E as <-. constructor.
    + cbn [read_list] in E. fold read_list in E. inversion IH; inversion OK; subst. destruct (yy_read x) eqn:Ex; [|discriminate]. destruct (read_list l) eqn:El; [|discriminate].
      injection E as <-. constructor; [exact (H1 ltac:(assumption) _ eq_refl)|exact (IHl ltac:(assumption) ltac:(assumption) _ eq_refl)].
  - apply every_map in OK. destruct OK as [_ OK]. change (option_map VMap (read_entries l) = Some w) in H. destruct (read_entries l) as [l'|] eqn:E; [|discriminate].
    injection H as <-. apply every_map. split; [exact I|]. revert l' E. induction l as [|[k x] l IHl]; intros l' E.
    + injection E as <-. constructor.
    + cbn [read_entries] in E. fold read_entries in E. inversion IH; inversion OK; subst. destruct (utf8_valid k); [|discriminate].
      destruct (yy_read x) eqn:Ex; [|discriminate]. destruct (read_entries l) eqn:El; [|discriminate].
      injection E as <-. constructor; [exact (H1 ltac:(assumption) _ Ex)|exact (IHl ltac:(assumption) ltac:(assumption) _ eq_refl)].
Qed.
Lemma json_any t : json_text t ->
  json_open t = Throw EDeser \/ exists w, json_open t = Ok w /\ json_doc w /\ shows json_reader json_table w w.
Proof.
  intros T. unfold json_open. destruct (yy_read t) as [w|] eqn:E; [|now left]. right. exists w. pose proof (read_doc t T w E) as D. repeat split; auto. now apply json_shows.
Qed.

(** ** Blobs *)
Definition blobby (v : val) : Prop := no_blob_form v /\ val_ok v.
Lemma as_json_str v s : as_json v = VStr s -> v = VStr s.
Proof. destruct v; cbn [as_json]; try discriminate; [destruct (z <? 0); discriminate|auto]. Qed.
Lemma blob_text_json l : blob_text (VArr l) = None -> blob_text (as_json (VArr l)) = None.
Proof.
  intros H. cbn [as_json]. destruct l as [|a [|b [|c [|? ?]]]]; try reflexivity; try (cbn [map blob_text]; destruct (as_json a); try reflexivity; destruct (as_json b); try reflexivity; destruct (as_json c); reflexivity).
  cbn [map blob_text].
  destruct (as_json a) eqn:A; try reflexivity. destruct (as_json b) eqn:B; try reflexivity. destruct (as_json c) eqn:C; try reflexivity.
  apply as_json_str in A, B, C. subst. exact H.
Qed.
Lemma blob_form v : no_blob_form v -> blob_text (as_json v) = match v with VBlob b => Some (rfc4648 b) | _ => None end.
Proof.
  destruct v; intros H; try reflexivity; [cbn [as_json]; destruct (z <? 0); reflexivity|]. apply blob_text_json. apply every_arr in H. tauto.
Qed.
Lemma isBlob_json v : no_blob_form v -> j_isBlob (as_json v) = Ok (match v with VBlob _ => true | _ => false end).
Proof. intros H. rewrite isBlob_spec, (blob_form v H). destruct v; reflexivity. Qed.
Lemma asBlob_json b : bytes_ok b -> j_asBlob (as_json (VBlob b)) = Ok b.
Proof.
  intros B. assert (D : json_doc (as_json (VBlob b))) by (exact (doc_json (VBlob b) B)).
  rewrite (asBlob_spec _ (rfc4648 b) D) by reflexivity. now rewrite unb64_rfc.
Qed.
Lemma json_injective v1 : forall v2, val_ok v1 -> val_ok v2 -> no_blob_form v1 -> no_blob_form v2 -> as_json v1 = as_json v2 -> signless v1 = signless v2.
Proof.
  induction v1 as [| |z|z|d|s|b|l IH|l IH] using val_ind'; intros v2 V1 V2 N1 N2 E.
  - destruct v2; cbn [as_json signless] in *; try discriminate; [reflexivity|destruct (z <? 0); discriminate].
  - destruct v2; cbn [as_json signless] in *; try discriminate; [exact E|destruct (z <? 0); discriminate].
  - destruct v2; cbn [as_json signless] in *; try (destruct (z <? 0); discriminate); exact E.
  - destruct v2; cbn [as_json signless] in *; try discriminate; exact E.
  - destruct v2; cbn [as_json signless] in *; try discriminate; [destruct (z <? 0); discriminate|exact E].
  - destruct v2; cbn [as_json signless] in *; try discriminate; [destruct (z <? 0); discriminate|exact E].
  - pose proof (blob_form _ N1) as B1. pose proof (blob_form _ N2) as B2. rewrite E in B1. rewrite B1 in B2. destruct v2; try discriminate.
    injection B2 as B2. f_equal. assert (O : Some b = Some b0) by (rewrite <- (unb64_rfc b V1), <- (unb64_rfc b0 V2), B2; reflexivity). now injection O as ->.
  - pose proof (blob_form _ N1) as B1. pose proof (blob_form _ N2) as B2. rewrite E in B1. rewrite B1 in B2. destruct v2 as [| |z2| | | | |l2|]; try discriminate.
    + cbn [as_json] in E. destruct (z2 <? 0); discriminate.
    + cbn [as_json signless] in *. injection E as E. f_equal. apply val_ok_arr in V1, V2. apply every_arr in N1, N2. destruct N1 as [_ N1], N2 as [_ N2].
      clear B1 B2. revert l2 V2 N2 E. induction l as [|x l IHl]; intros [|y l2] V2 N2 E; try discriminate; [reflexivity|]. cbn [map] in *. injection E as E1 E2.
      rewrite Forall_cons_iff in *. f_equal; [apply IH; tauto|apply IHl; tauto].
  - destruct v2 as [| |z2| | | | | |l2]; cbn [as_json] in E; try discriminate; [destruct (z2 <? 0); discriminate|]. cbn [signless]. injection E as E. f_equal.
    apply val_ok_map in V1, V2. apply every_map in N1, N2. destruct N1 as [_ N1], N2 as [_ N2].
    revert l2 V2 N2 E. induction l as [|[k x] l IHl]; intros [|[k2 y] l2] V2 N2 E; try discriminate; [reflexivity|]. cbn [map fst snd] in *. injection E as -> E1 E2.
    rewrite Forall_cons_iff in *. cbn [fst snd] in *. f_equal; [f_equal; apply IH; tauto|apply IHl; tauto].
Qed.

(** ** Integers *)
Lemma to_signed_exact n z : 0 < n -> - 2^(n-1) <= z <= 2^(n-1) - 1 -> to_signed n z = z.
Proof. intros. apply to_signed_id; lia. Qed.
