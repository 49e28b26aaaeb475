(** Properties_FlexE.v -- C60, C63, C70, C71 and C79 for FlexBuffers messages as bytes.

    Vocabulary: [message] in FlexBFormat.v: bytes laid out as the format says, whoever wrote them ([far]: with numbers out of
    line); [steady] in TensorSpec.v; [lookups_agree], [indices_agree] in LookSpec.v; [nodes], [weight] in SizeSpec.v, [bulk]
    (without the text of keys) in SizeFSpec.v; [says] in SaysSpec.v; [alike], [no_doubles] in TextSpec.v. *)

From Coq Require Import ZArith List Bool String Lia ZifyBool ZifyNat.
From Verif Require Import Base BaseFacts Spec SpecFacts TextSpec TextFacts TextInj TensorModel TensorSpec LookSpec FlexModel FlexSpec FlexFacts FlexBModel FlexBSpec FlexBFormat FlexBFacts FlexBMain FlexBSize FlexBConf
  FlexTextModel FlexTextFacts FlexBLook FlexBGrow TransModel TransSpec SaysSpec SizeSpec SizeFSpec SizeGrow Properties_Flex Properties_FlexB Properties_FlexC Properties_FlexD.
From Verif Require MsgModel Properties_Tensor.
Import ListNotations.
Open Scope Z_scope.
Ltac Zify.zify_post_hook ::= idtac.

(** ** C60: tensors read from FlexBuffers messages, whatever they hold *)
Theorem C60_flex_message_partial : forall al far fuel B v blob_at t, message al B far false v -> zlen B < 2 ^ 63 -> TensorSpec.sized t ->
  exists r, fb_open B = Ok r /\ forall w, reach (flexb_reader B fuel) r w ->
  let R := flexb_reader B fuel in
  safe any (is_tensor R t w) /\ (forall D, orderly (as_xtensor_view R blob_at t D w)) /\ (forall D, orderly (as_xtensor R blob_at t D w)) /\
  (forall nr nc rm, orderly (as_eigen_view R blob_at t nr nc rm w)) /\ (forall nr nc rm, orderly (as_eigen R blob_at t nr nc rm w)).
Proof.
  intros al far fuel B v blob_at t M LB S. destruct (message_steady al B far fuel v M LB) as (r & O & ST). exists r. split; [exact O|]. intros w RE R.
  apply Properties_Tensor.C60_tensor_layer_safe; [exact S|]. intros w' RE'. apply ST. clear - RE RE'.
  induction RE' as [|u i u' RE' IH I E|u k u' RE' IH K E]; [exact RE|eapply reach_idx; eauto|eapply reach_key; eauto].
Qed.
Print Assumptions C60_flex_message_partial.
(** Other bytes: a root whose offset leads out of the buffer. *)
Theorem C60_flex_bytes_refuted : forall t, exists B r, bytes_ok B /\ fb_open B = Ok r /\ is_tensor (flexb_reader B 64) t r = UB.
Proof. intros t. exists [200; 40; 1]. eexists. split; [repeat constructor; discriminate|]. split; vm_compute; reflexivity. Qed.
Print Assumptions C60_flex_bytes_refuted.

(** ** C70 and C71: at every view of such a message *)
Theorem C70_flex_message_partial : forall al far fuel B v r w, message al B far false v -> zlen B < 2 ^ 63 -> (64 <= fuel)%nat -> fb_open B = Ok r ->
  reach (flexb_reader B fuel) r w -> lookups_agree (flexb_reader B fuel) w.
Proof. intros al far fuel B v r w M L F O RE. exact (proj1 (message_lookups al B far fuel v r w M L F O RE)). Qed.
Print Assumptions C70_flex_message_partial.
Theorem C71_flex_message_partial : forall al far fuel B v r w, message al B far false v -> zlen B < 2 ^ 63 -> (64 <= fuel)%nat -> fb_open B = Ok r ->
  reach (flexb_reader B fuel) r w -> indices_agree (flexb_reader B fuel) w.
Proof. intros al far fuel B v r w M L F O RE. exact (proj2 (message_lookups al B far fuel v r w M L F O RE)). Qed.
Print Assumptions C71_flex_message_partial.
(** On any bytes, no index at or above arraySize() is accepted. *)
Theorem C71_flex_above : forall B fuel w n i, r_arraySize (flexb_reader B fuel) w = Ok n -> n <= i -> r_idx (flexb_reader B fuel) w i = Throw EDeser.
Proof. exact flexb_above. Qed.
Print Assumptions C71_flex_above.
(** {"b": null, "a": null} with its keys out of order: "b" is listed, and not found.  An array announcing 200 elements. *)
Theorem C70_flex_bytes_refuted : exists B r, bytes_ok B /\ fb_open B = Ok r /\
  r_mapKeys (flexb_reader B 64) r = Ok [[98]; [97]] /\ r_contains (flexb_reader B 64) r [98] = Ok false /\ r_key (flexb_reader B 64) r [98] = Throw EDeser.
Proof. exists [98; 0; 97; 0; 2; 5; 4; 2; 1; 2; 0; 0; 0; 0; 4; 36; 1]. eexists. split; [repeat constructor; discriminate|]. repeat split; vm_compute; reflexivity. Qed.
Print Assumptions C70_flex_bytes_refuted.
Theorem C71_flex_announced_refuted : exists B r, bytes_ok B /\ fb_open B = Ok r /\ r_arraySize (flexb_reader B 64) r = Ok 200 /\ r_idx (flexb_reader B 64) r 0 = UB.
Proof. exists [200; 0; 40; 2; 40; 1]. eexists. split; [repeat constructor; discriminate|]. repeat split; vm_compute; reflexivity. Qed.
Print Assumptions C71_flex_announced_refuted.

(** ** C63: messages that print the same text hold the same value (without doubles, whose digits are cut) *)
Theorem C63_flex_bytes_identify_partial : forall fl al1 al2 far1 far2 B1 B2 v1 v2, message al1 B1 far1 false v1 -> message al2 B2 far2 false v2 ->
  bytes_ok B1 -> bytes_ok B2 -> no_doubles v1 -> no_doubles v2 ->
  exists r1 r2 n, fb_open B1 = Ok r1 /\ fb_open B2 = Ok r2 /\
    forall fuel, (n <= fuel)%nat -> fb_to_string fl B1 fuel r1 = fb_to_string fl B2 fuel r2 -> TextSpec.alike v1 v2.
Proof.
  intros fl al1 al2 far1 far2 B1 B2 v1 v2 M1 M2 OK1 OK2 N1 N2.
  assert (V : forall al far B v, message al B far false v -> bytes_ok B -> val_ok v) by (intros al far B v (w & t & _ & LY) OK; exact (lays_val_ok _ _ _ _ _ _ _ OK LY)).
  destruct (C63_flex_message_text fl al1 far1 B1 v1 M1 OK1) as (r1 & n1 & O1 & T1), (C63_flex_message_text fl al2 far2 B2 v2 M2 OK2) as (r2 & n2 & O2 & T2).
  exists r1, r2, (n1 + n2)%nat. split; [exact O1|]. split; [exact O2|]. intros fuel F E. rewrite (T1 fuel ltac:(lia)), (T2 fuel ltac:(lia)) in E.
  apply (f_equal (fun x => match x with Ok y => y | _ => [] end)) in E. apply app_inv_head in E.
  apply (pretty_determines (bar_leaf fl as_written escaped) _ _ (bar_decodable fl as_written)); eauto.
Qed.
Print Assumptions C63_flex_bytes_identify_partial.

(** ** C79: how big a copy can be *)
(** What the Flex writer wrote is bigger than what it holds, if the text of keys is not counted (equal keys are stored once). *)
Theorem C79_flex_written_partial : forall dbg srt v es s b, key_sort srt -> calls v es -> Forall ev_ok es ->
  let W := flexb_writer dbg (srt (bval * bval)%type) in run W (w_init W) es = (s, Ok tt) -> snd (w_finish W s) = Ok b -> bulk v < zlen b.
Proof. intros dbg srt v es s b KS C EV W R FI. pose proof (written_bulk dbg srt KS v es s b C EV R FI). lia. Qed.
Print Assumptions C79_flex_written_partial.
(** Not if it is: four maps with the same key of forty letters. *)
Definition forty : bytes := repeat 97 40.
Theorem C79_flex_keys_refuted : exists v b, val_ok v /\ flex_ok v /\ serialize (flexb_writer true by_key) v = Ok b /\ in_key_order v = v /\ weight v = 173 /\ zlen b = 81.
Proof.
  exists (VArr (repeat (VMap [(forty, VNull)]) 4)). eexists. split; [unfold forty; cbn [repeat]; okay|]. split; [unfold flex_ok, forty; cbn; repeat split; repeat constructor; cbn; intuition discriminate|].
  split; [vm_compute; reflexivity|]. repeat split; vm_compute; reflexivity.
Qed.
Print Assumptions C79_flex_keys_refuted.
(** Messages of other writers: 5n + 8 bytes, laid out as the format says, copy to 2^(n+2) - 1 bytes of MessagePack. *)
Theorem C79_flex_shared_refuted : forall n, 5 * Z.of_nat n + 8 < 2 ^ 63 -> exists B v r b' m, bytes_ok B /\ zlen B = 5 * Z.of_nat n + 8 /\ message aligned B false false v /\ distinct_keys v /\
  nodes v = 2 ^ (Z.of_nat n + 2) - 1 /\ fb_open B = Ok r /\ zlen b' = 2 ^ (Z.of_nat n + 2) - 1 /\
  forall fuel, (m <= fuel)%nat -> says (flexb_reader B fuel) r v /\ translate (flexb_reader B fuel) MsgModel.mp_writer (fun b => Ok (MsgModel.mp_open b)) fuel r = Ok (MsgModel.mp_open b').
Proof.
  intros n N. destruct (tower_grows n N) as (r & b' & m & O & L & T). exists (tower n), (arrs (S n)), r, b', m. split; [apply tower_bytes|]. split; [apply zlen_tower|]. split; [apply tower_message|].
  split; [apply arrs_distinct|]. split; [rewrite arrs_nodes; f_equal; f_equal; lia|]. auto.
Qed.
Print Assumptions C79_flex_shared_refuted.
(** And bytes whose copy never ends: an array that contains itself. *)
Lemma loop6_copy fuel : forall f p s, p = 1 \/ p = 3 -> write_value (flexb_reader loop6 f) MsgModel.mp_writer fuel (mkRef p 1 1 10) s = NoFuel.
Proof.
  induction fuel as [|fuel IH]; intros f p s P; [reflexivity|]. cbn [write_value flexb_reader r_isNull r_isBool r_isInt r_isUInt r_isFloat r_isString r_isBlob r_isMap r_isArray r_arraySize].
  unfold fb_is. cbn [f_ty existsb Z.eqb Pos.eqb orb bind]. change (fb_isMap (mkRef p 1 1 10)) with false. change (fb_isArray (mkRef p 1 1 10)) with true. cbn [bind].
  assert (A : fb_arraySize loop6 (mkRef p 1 1 10) = Ok 1) by (destruct P as [-> | ->]; reflexivity). rewrite A. cbn [bind].
  change (emit MsgModel.mp_writer s (EBeginArr 1)) with (Ok (s ++ MsgModel.mp_emit (EBeginArr 1))). cbn [bind]. set (s1 := s ++ _).
  unfold zloop. cbn [ploop]. unfold write_elem. cbn [r_idx flexb_reader]. assert (E : fb_idx loop6 (mkRef p 1 1 10) 0 = Ok (mkRef 1 1 1 10)) by (destruct P as [-> | ->]; reflexivity). rewrite E. cbn [bind].
  specialize (IH f 1 s1 (or_introl eq_refl)). rewrite IH. reflexivity.
Qed.
Theorem C79_flex_endless_refuted : exists B r, bytes_ok B /\ zlen B = 6 /\ fb_open B = Ok r /\
  forall f fuel, translate (flexb_reader B f) MsgModel.mp_writer (fun b => Ok (MsgModel.mp_open b)) fuel r = NoFuel.
Proof.
  exists loop6. eexists. split; [repeat constructor; discriminate|]. split; [reflexivity|]. split; [vm_compute; reflexivity|]. intros f fuel. unfold translate. now rewrite loop6_copy by auto.
Qed.
Print Assumptions C79_flex_endless_refuted.

(** A tensor inside a message of another program: [5, [2, 2], blob of 4 bytes], the tag out of line; and {"a": 1, "b": 2}. *)
Definition tens : bytes := [5; 2; 2; 2; 8; 8; 4; 1; 2; 3; 4; 3; 12; 11; 7; 24; 40; 100; 6; 40; 1].
Definition two : val := VMap [([97], VUInt 1); ([98], VUInt 2)].
Example C60_flex_case :
  message aligned tens true false (VArr [VInt 5; VArr [VUInt 2; VUInt 2]; VBlob [1; 2; 3; 4]]) /\ TensorSpec.sized TF64 /\
  (exists r, fb_open tens = Ok r /\ (exists b, is_tensor (flexb_reader tens 64) TF64 r = Ok b) /\ as_xtensor (flexb_reader tens 64) (fun _ => (true, 1)) TF64 None r = Throw EDeser) /\
  (exists b, serialize (flexb_writer true by_key) two = Ok b /\ message aligned b false false two /\ zlen b < 2 ^ 63 /\ bytes_ok b) /\ no_doubles two /\
  bulk two = 5 /\ zlen (tower 30) = 158 /\ 2 ^ (Z.of_nat 30 + 2) - 1 = 4294967295.
Proof.
  split; [|split; [exact I|split; [|split; [|split; [cbn; intuition|split; [reflexivity|split; reflexivity]]]]]].
  - exists 1, (4 * 10 + 0). split; [lie 2|].
    apply (lays_arr aligned _ true false 18 1 0 12 (fun i => if i =? 0 then 4 * 6 + 0 else if i =? 1 then 4 * 10 + 0 else 4 * 25 + 0)); [lia|exists 6; split; [num [6]|reflexivity]|num [3]| |];
      intros i x G; pose proof (get_some _ _ _ G) as R; change (zlen _) with 3 in R; assert (i = 0 \/ i = 1 \/ i = 2) as [-> |[-> | ->]] by lia; injection G as <-; try lie 1.
    + apply (lays_indirect_int aligned _ true false _ _ 0 0); [lia|reflexivity|exists 12; split; [num [12]|reflexivity]|]. split; [cbn; lia|]. num [5].
    + apply (lays_arr aligned _ true false _ _ 0 2 (fun _ => 4 * 2 + 0)); [lia|exists 11; split; [num [11]|reflexivity]|num [2]| |];
        intros i x G'; pose proof (get_some _ _ _ G') as R'; change (zlen _) with 2 in R'; assert (i = 0 \/ i = 1) as [-> | ->] by lia; injection G' as <-; try lie 1; apply (lays_uint aligned _ true false _ _ 0); try lia; num [2].
    + apply (lays_blob aligned _ true false _ _ 0 7); [lia|exists 7; split; [num [7]|reflexivity]|num [4]|lie 4].
  - eexists. split; [vm_compute; reflexivity|]. split; [eexists; vm_compute; reflexivity|vm_compute; reflexivity].
  - destruct (C87_serialize_partial true (@by_key) two by_key_sort) as (b & S & M); [unfold two; okay|unfold two, flex_ok; cbn; repeat split; repeat constructor; cbn; intuition discriminate|reflexivity|].
    exists b. split; [exact S|]. split; [exact M|]. assert (E : serialize (flexb_writer true by_key) two = Ok b) by exact S. vm_compute in E. injection E as <-. split; [reflexivity|repeat constructor; discriminate].
Qed.
