(** Properties_Depth.v -- C78: how much stack reading and copying a message take. *)

From Coq Require Import ZArith List Bool Lia ZifyBool ZifyNat.
From Verif Require Import Base BaseFacts Spec SpecFacts TransModel TransSpec TransFacts TransMain SaysSpec SaysFacts DepthSays HaltFacts HaltWriters HaltTree HaltZera.
From Verif Require JsonModel JsonSpec FlexSpec Utf8Spec FloatSpec MsgModel MsgSpec MsgFacts MsgSafe DepthFacts CborModel CborFacts HaltMsg HaltCbor.
Import ListNotations.
Open Scope Z_scope.

(** ** Exactly how deep

    The [fuel] of write_value and mp_skip counts nested calls; [NoFuel] means that a call nested deeper was attempted.
    Copying takes exactly one nested call per level of nesting of the value. *)
Theorem C78_translate_depth_partial : forall V S O V' (R : reader V) (W : writer S O) (open : O -> res V') w x b fuel, says R w x -> serialize W x = Ok b ->
  translate R W open fuel w = if (depth x <? fuel)%nat then open b else NoFuel.
Proof. intros V S O V' R W open w x b fuel. exact (translate_depth R W open x w b fuel). Qed.
Print Assumptions C78_translate_depth_partial.
Example C78_depth_case : depth (VArr [VNull; VMap [([97], VArr [VInt 1])]; VArr []]) = 3%nat. Proof. reflexivity. Qed.
(** So does stepping over a MessagePack object. *)
Theorem C78_msgpack_skip_partial : forall it suf fuel, MsgSpec.item_small it ->
  MsgModel.mp_skip fuel (MsgModel.mp_open (MsgSpec.enc it ++ suf)) = if (DepthFacts.mdepth it <? fuel)%nat then Ok (zlen (MsgSpec.enc it)) else NoFuel.
Proof.
  intros it suf fuel OK. apply (DepthFacts.skip_depth it OK). split; [apply (has_app_l _ suf), has_self|]. cbn. rewrite zlen_app. pose proof (zlen_nonneg suf). lia.
Qed.
Print Assumptions C78_msgpack_skip_partial.
Example C78_skip_case : MsgSpec.item_small (MsgSpec.MArr MsgSpec.FFix [MsgSpec.MMap MsgSpec.F16 [(MsgSpec.MNil, MsgSpec.MArr MsgSpec.F32 [])]; MsgSpec.MNil]) /\
  DepthFacts.mdepth (MsgSpec.MArr MsgSpec.FFix [MsgSpec.MMap MsgSpec.F16 [(MsgSpec.MNil, MsgSpec.MArr MsgSpec.F32 [])]; MsgSpec.MNil]) = 2%nat.
Proof. split; [cbn; repeat split; lia|reflexivity]. Qed.

(** ** No bound but the length of the message: [d] bytes of stack-consuming nesting per [d + 1] bytes of message *)
Fixpoint nested (d : nat) : val := match d with O => VNull | S d => VArr [nested d] end.
Fixpoint nested_item (d : nat) : MsgSpec.item := match d with O => MsgSpec.MNil | S d => MsgSpec.MArr MsgSpec.FFix [nested_item d] end.
Lemma nested_depth d : depth (nested d) = d.
Proof. induction d as [|d IH]; [reflexivity|]. cbn [nested depth map list_max fold_right]. rewrite IH. lia. Qed.
Lemma nested_mdepth d : DepthFacts.mdepth (nested_item d) = d.
Proof. induction d as [|d IH]; [reflexivity|]. cbn [nested_item DepthFacts.mdepth map list_max fold_right]. rewrite IH. lia. Qed.
Lemma nested_small d : MsgSpec.item_small (nested_item d).
Proof. unfold MsgSpec.item_small. induction d as [|d IH]; [exact I|]. cbn [nested_item]. apply MsgFacts.item_in_arr. split; [cbn; lia|constructor; [exact IH|constructor]]. Qed.
Lemma nested_len d : zlen (MsgSpec.enc (nested_item d)) = Z.of_nat d + 1.
Proof. induction d as [|d IH]; [reflexivity|]. cbn [nested_item MsgSpec.enc flat_map MsgSpec.arr_hdr]. rewrite app_nil_r, zlen_app, IH. unfold zlen. cbn [length]. lia. Qed.
Lemma nested_bytes d : bytes_ok (MsgSpec.enc (nested_item d)).
Proof. induction d as [|d IH]; [cbn; okay|]. cbn [nested_item MsgSpec.enc flat_map MsgSpec.arr_hdr]. rewrite app_nil_r. apply Forall_app. split; [repeat constructor; unfold is_byte; cbn; lia|exact IH]. Qed.
Lemma nested_says d : forall w, MsgFacts.starts w (MsgSpec.enc (nested_item d)) -> says MsgModel.mp_reader w (nested d).
Proof.
  induction d as [|d IH]; intros w H; pose proof (MsgFacts.observes_item w _ (2^32 - 5) ltac:(lia) (nested_small _) H) as (O1 & O2 & O3 & O4 & O5 & O6 & O7 & O8 & O9 & _).
  - cbn [nested says]. split; [exists (r_isNull MsgModel.mp_reader); split; [reflexivity|exact O1]|]. intros m q L. lia.
  - cbn [nested]. apply says_arr. split.
    + split; [exists (r_isArray MsgModel.mp_reader); split; [reflexivity|exact O9]|]. intros m q L N.
      repeat (destruct m as [|m]; [cbn in N; injection N as <-; assumption|]). exfalso; lia.
    + split; [exact (MsgFacts.size_item w _ _ _ (nested_small (S d)) H)|]. cbn [says_elems]. split; [|exact I].
      destruct (MsgFacts.idx_item w MsgSpec.FFix [] (nested_item d) [] (nested_small (S d)) H) as (c & E & SP). exists c. split; [exact E|]. apply IH. now apply MsgFacts.spans_starts.
Qed.
Lemma nested_every (P : val -> Prop) d : P VNull -> (forall l, P (VArr l)) -> every P (nested d).
Proof. intros P0 P1. induction d as [|d IH]; cbn [nested every]; auto. Qed.
Lemma nested_utf8 d : Utf8Spec.texts_utf8 (nested d).
Proof. induction d as [|d IH]; cbn [nested Utf8Spec.texts_utf8]; auto. Qed.
Lemma nested_writes Q d : Q = P_msgpack \/ (exists dbg, Q = P_json dbg) \/ (exists dbg srt, FlexSpec.sorts srt /\ Q = P_flex dbg srt) ->
  exists b w, serialize (p_writer Q) (nested d) = Ok b /\ p_open Q b = Ok w.
Proof.
  intros HQ. assert (IQ : is_protocol Q) by (destruct HQ as [-> |[[dbg ->]|(dbg & srt & HS & ->)]]; now constructor).
  assert (V : val_ok (nested d)) by (induction d as [|d IH]; [exact I|]; cbn [nested]; apply val_ok_arr; repeat constructor; exact IH).
  destruct (protocol_round_trip Q (nested d) IQ V) as (b & w & n & E & O & _); [|exists b, w; auto].
  clear IQ V. destruct HQ as [-> |[[dbg ->]|(dbg & srt & HS & ->)]]; cbn [p_ok P_msgpack P_json P_flex P_flexb].
  - induction d as [|d IH]; [exact I|]. cbn [nested MsgSpec.lengths_below]. split; [cbn; lia|]. split; [exact IH|exact I].
  - split; [apply nested_every; exact I || (intros; exact I)|]. split; [apply nested_utf8|]. apply nested_every; exact I || (intros; exact I).
  - apply nested_every; exact I || (intros; exact I).
Qed.
Theorem C78_msgpack_depth_refuted : forall d, exists b, bytes_ok b /\ zlen b = Z.of_nat d + 1 /\
  (forall fuel, MsgModel.mp_skip fuel (MsgModel.mp_open b) = NoFuel <-> (fuel <= d)%nat) /\
  forall Q, Q = P_msgpack \/ (exists dbg, Q = P_json dbg) \/ (exists dbg srt, FlexSpec.sorts srt /\ Q = P_flex dbg srt) ->
  forall fuel, translate MsgModel.mp_reader (p_writer Q) (p_open Q) fuel (MsgModel.mp_open b) = NoFuel <-> (fuel <= d)%nat.
Proof.
  intros d. exists (MsgSpec.enc (nested_item d)). split; [apply nested_bytes|]. split; [apply nested_len|]. split.
  - intros fuel. pose proof (C78_msgpack_skip_partial (nested_item d) [] fuel (nested_small d)) as E. rewrite app_nil_r, nested_mdepth in E. rewrite E.
    destruct (d <? fuel)%nat eqn:L; split; intros H; try discriminate H; try reflexivity; lia.
  - intros Q HQ fuel. destruct (nested_writes Q d HQ) as (b & w & E & O).
    rewrite (C78_translate_depth_partial _ _ _ _ MsgModel.mp_reader (p_writer Q) (p_open Q) _ (nested d) b fuel); [|apply nested_says; split; [apply has_self|cbn; lia]|exact E].
    rewrite nested_depth. destruct (d <? fuel)%nat eqn:L; [rewrite O|]; split; intros H; try discriminate H; try reflexivity; lia.
Qed.
Print Assumptions C78_msgpack_depth_refuted.

(** The same for stepping over CBOR items. *)
Fixpoint nested_cbor (d : nat) : bytes := match d with O => [246] | S d => 129 :: nested_cbor d end.
Lemma nested_cbor_skip b : forall d f p, has b p (nested_cbor d) -> CborModel.skip f b p = if (d <? f)%nat then Ok (p + Z.of_nat d + 1) else NoFuel.
Proof.
  assert (RH : forall p x l, has b p (x :: l) -> (p <? zlen b) = true).
  { intros p x l (_ & L & _). rewrite zlen_cons in L. pose proof (zlen_nonneg l). lia. }
  induction d as [|d IH]; intros [|f] p H; try reflexivity; cbn [CborModel.skip nested_cbor] in *; unfold CborModel.read_head; rewrite (RH _ _ _ H), (has_rd _ _ _ _ H); cbn [require bind].
  - cbn. do 2 f_equal. lia.
  - apply has_cons in H. destruct H as [_ H].
    change (Z.shiftr 129 5) with 4. change (Z.land 129 31) with 1. cbv zeta. cbn [Z.eqb Z.ltb Z.compare Pos.eqb Pos.compare Pos.compare_cont bind CborModel.h_len CborModel.h_major CborModel.h_indef CborModel.h_val negb orb].
    unfold CborModel.times. cbn [zloop ploop]. rewrite (IH f (p + 1) H). change (S d <? S f)%nat with (d <? f)%nat. destruct (d <? f)%nat; cbn [bind]; [|reflexivity]. f_equal. lia.
Qed.
Theorem C78_cbor_depth_refuted : forall d, exists b, bytes_ok b /\ zlen b = Z.of_nat d + 1 /\ forall fuel, CborModel.skip fuel b 0 = NoFuel <-> (fuel <= d)%nat.
Proof.
  intros d. exists (nested_cbor d). split; [|split].
  - induction d as [|d IH]; [cbn; okay|]. constructor; [unfold is_byte; lia|exact IH].
  - induction d as [|d IH]; [reflexivity|]. cbn [nested_cbor]. rewrite zlen_cons, IH. lia.
  - intros fuel. rewrite (nested_cbor_skip _ d fuel 0 (has_self _)). destruct (d <? fuel)%nat eqn:L; split; intros H; try discriminate H; try reflexivity; lia.
Qed.
Print Assumptions C78_cbor_depth_refuted.

(** ** Into CBOR: never more than 1025 levels, from any MessagePack bytes, JSON document or ZERA message *)
Theorem C78_into_cbor_bounded : forall V (R : reader V) (good : V -> Prop) w fuel,
  (forall u, good u -> answers R u) -> (forall u i c, good u -> r_idx R u i = Ok c -> good c) -> (forall u k c, good u -> r_key R u k = Ok c -> good c) ->
  good w -> (1025 <= fuel)%nat -> forall hard, translate R (p_writer (P_cbor hard)) (p_open (P_cbor hard)) fuel w <> NoFuel.
Proof.
  intros V R good w fuel A I1 K1 G L hard. apply (halts_ne any). unfold translate. cbn [p_writer p_open P_cbor].
  assert (K : halts (sized 0) (write_value R CborModel.cbor_writer fuel w (w_init CborModel.cbor_writer))).
  { apply (deep_halts R good); auto; [discriminate|cbn; lia]. }
  hb (exact K). hb (apply ne_halts, (proj2 cbor_obliging)). exact I.
Qed.
Print Assumptions C78_into_cbor_bounded.
Theorem C78_msgpack_into_cbor_bounded : forall b fuel hard, bytes_ok b -> (1025 <= fuel)%nat ->
  translate MsgModel.mp_reader (p_writer (P_cbor hard)) (p_open (P_cbor hard)) fuel (MsgModel.mp_open b) <> NoFuel.
Proof.
  intros b fuel hard B L. apply (C78_into_cbor_bounded _ _ MsgSafe.wfs); auto.
  - exact HaltMsg.msgpack_answers.
  - intros w i c G E. exact (proj1 (halts_ok _ _ _ (HaltMsg.idx_halts w i G) E)).
  - intros w i c G E. exact (proj1 (halts_ok _ _ _ (HaltMsg.key_halts w i G) E)).
  - now apply MsgSafe.wfs_open.
Qed.
Print Assumptions C78_msgpack_into_cbor_bounded.
Theorem C78_json_into_cbor_bounded : forall v fuel hard, (1025 <= fuel)%nat ->
  translate JsonModel.json_reader (p_writer (P_cbor hard)) (p_open (P_cbor hard)) fuel v <> NoFuel.
Proof. intros v fuel hard L. apply (C78_into_cbor_bounded _ _ (fun _ => True)); auto. intros; apply json_answers. Qed.
Print Assumptions C78_json_into_cbor_bounded.
Example C78_into_cbor_case : let b := MsgSpec.enc (nested_item 3) in bytes_ok b /\
  exists w, translate MsgModel.mp_reader (p_writer (P_cbor true)) (p_open (P_cbor true)) 1025 (MsgModel.mp_open b) = Ok w.
Proof. cbv zeta. split; [apply nested_bytes|]. exists (CborModel.cb_open (nested_cbor 3)). vm_compute. reflexivity. Qed.
