(** Properties_Look.v -- C70: every listed key is found, no other; C71: the indices below arraySize() are exactly the valid ones.

    Vocabulary: [lookups_agree], [indices_agree] in LookSpec.v; [reach] in Spec.v; [no_huge] in MsgSpec.v and CborSpec.v;
    [ordered] in FlexSpec.v.  The messages are arbitrary bytes, not only written ones. *)

From Coq Require Import ZArith List Bool Lia ZifyBool Sorted.
From Verif Require Import Base BaseFacts Spec SpecFacts ZeraModel ZeraHist JsonModel FlexModel FlexSpec LookTree LookSpec.
From Verif Require MsgModel MsgSpec LookMsg LookMsgArr CborModel CborSpec LookArr.
Import ListNotations.
Open Scope Z_scope.

Lemma In_slice (l : bytes) p n x : In x (slice l p n) -> In x l.
Proof. intros H. unfold slice in H. rewrite <- (firstn_skipn (Z.to_nat p) l). apply in_or_app. right. rewrite <- (firstn_skipn (Z.to_nat n) (skipn (Z.to_nat p) l)). apply in_or_app. now left. Qed.

(** ** C70 *)
Theorem C70_json : forall w, lookups_agree json_reader w.
Proof. exact json_lookups. Qed.
Print Assumptions C70_json.
Theorem C70_zera : forall b v w, bytes_ok b -> zlen b < 2^32 - 20 -> zera_open b = Ok v -> reach zera_reader v w -> lookups_agree zera_reader w.
Proof. intros b v w Hb Hl O R ks key _ K. exact (keys_agree b v w ks Hb Hl O R K key). Qed.
Print Assumptions C70_zera.
(** MessagePack: on any view contains() is exact; operator[] may run off the message where the value is truncated. *)
Theorem C70_msgpack_any_partial : forall v ks key, r_mapKeys MsgModel.mp_reader v = Ok ks ->
  r_contains MsgModel.mp_reader v key = Ok (existsb (beq key) ks) /\
  if existsb (beq key) ks then (exists c, r_key MsgModel.mp_reader v key = Ok c) \/ r_key MsgModel.mp_reader v key = UB
  else r_key MsgModel.mp_reader v key = Throw EDeser.
Proof. exact LookMsg.msgpack_lookups. Qed.
Print Assumptions C70_msgpack_any_partial.
(** Exact at every view of a message that skip() accepts. *)
Theorem C70_msgpack_partial : forall b s w, bytes_ok b -> MsgSpec.no_huge b -> MsgModel.skip (MsgModel.mp_open b) = Ok s -> s <= zlen b ->
  reach MsgModel.mp_reader (MsgModel.mp_open b) w -> lookups_agree MsgModel.mp_reader w.
Proof. intros b s w B NH SK L R. exact (LookMsgArr.msgpack_lookups_safe b B NH s SK L w R). Qed.
Print Assumptions C70_msgpack_partial.
(** CBOR: exact at every view of a message that skip() accepts and that has no byte 0xf8 (two-byte simple values). *)
Theorem C70_cbor_partial : forall hard fuel b e w, bytes_ok b -> zlen b < 2^63 -> CborSpec.no_huge b -> zlen b < Z.of_nat fuel ->
  (forall q, rd b q <> Ok 248) -> CborModel.skip fuel b 0 = Ok e ->
  reach (CborModel.cbor_reader hard fuel) (CborModel.cb_open b) w -> lookups_agree (CborModel.cbor_reader hard fuel) w.
Proof. intros hard fuel b e w B HB NH HF N SK R. exact (LookArr.reach_lookups b B HB NH fuel HF N hard e w SK R). Qed.
Print Assumptions C70_cbor_partial.
(** FlexBuffers: whatever the order of the keys, contains() and operator[] agree and find only listed keys; all listed keys are
    found when the keys are ordered, as the builder leaves them. *)
Theorem C70_flex_any_partial : forall fuel w ks key, (64 <= fuel)%nat -> r_mapKeys (flex_reader fuel) w = Ok ks -> zlen ks < 2^63 ->
  (r_contains (flex_reader fuel) w key = Ok true /\ In key ks /\ exists x, r_key (flex_reader fuel) w key = Ok x) \/
  (r_contains (flex_reader fuel) w key = Ok false /\ r_key (flex_reader fuel) w key = Throw EDeser).
Proof. exact flex_lookups. Qed.
Print Assumptions C70_flex_any_partial.
Theorem C70_flex_ordered_partial : forall fuel w, (64 <= fuel)%nat ->
  (forall ks, r_mapKeys (flex_reader fuel) w = Ok ks -> ordered ks /\ zlen ks < 2^63) -> lookups_agree (flex_reader fuel) w.
Proof. exact flex_lookups_ordered. Qed.
Print Assumptions C70_flex_ordered_partial.

(** {"a": a string of five bytes, cut off after one}: "a" is listed and contained, and operator[] makes a span past the end. *)
Theorem C70_msgpack_truncated_refuted : exists b, r_mapKeys MsgModel.mp_reader (MsgModel.mp_open b) = Ok [[97]] /\
  r_contains MsgModel.mp_reader (MsgModel.mp_open b) [97] = Ok true /\ r_key MsgModel.mp_reader (MsgModel.mp_open b) [97] = UB.
Proof. exists [129; 161; 97; 165; 120]. split; [vm_compute; reflexivity|]. split; vm_compute; reflexivity. Qed.
Print Assumptions C70_msgpack_truncated_refuted.
(** {"a": simple(32), "b": 1}, well-formed CBOR: "b" is listed, but neither contains() nor operator[] gets to it. *)
Theorem C70_cbor_simple_refuted : exists b, let R := CborModel.cbor_reader false 100 in let w := CborModel.cb_open b in
  r_mapKeys R w = Ok [[97]; [98]] /\ r_contains R w [98] = Throw EDeser /\ r_key R w [98] = Throw EDeser.
Proof. exists [162; 97; 97; 248; 32; 97; 98; 1]. cbv zeta. split; [vm_compute; reflexivity|]. split; vm_compute; reflexivity. Qed.
Print Assumptions C70_cbor_simple_refuted.
(** {"a": a string of five bytes, cut off after one}: mapKeys() answers, contains("b") throws. *)
Theorem C70_cbor_truncated_refuted : exists b, let R := CborModel.cbor_reader false 100 in let w := CborModel.cb_open b in
  r_mapKeys R w = Ok [[97]] /\ r_contains R w [98] = Throw EDeser.
Proof. exists [161; 97; 97; 101; 120]. cbv zeta. split; vm_compute; reflexivity. Qed.
Print Assumptions C70_cbor_truncated_refuted.
(** A FlexBuffers map whose keys are not in order, as another writer may produce: "b" is listed but not found. *)
Theorem C70_flex_unordered_refuted : exists w, let R := flex_reader 64 in
  r_mapKeys R w = Ok [[98]; [97]; [99]] /\ r_contains R w [98] = Ok false /\ r_key R w [98] = Throw EDeser.
Proof. exists (XMap [([98], XNull); ([97], XNull); ([99], XNull)]). cbv zeta. split; [vm_compute; reflexivity|]. split; vm_compute; reflexivity. Qed.
Print Assumptions C70_flex_unordered_refuted.

(** MessagePack [{"a": nil, "b": {"a": 7}}] with trailing bytes, and the inner map of it *)
Definition c70_mp : bytes := [145; 130; 161; 97; 192; 161; 98; 129; 161; 97; 7; 1; 2].
Example C70_msgpack_case : bytes_ok c70_mp /\ MsgModel.skip (MsgModel.mp_open c70_mp) = Ok 11 /\
  exists w, reach MsgModel.mp_reader (MsgModel.mp_open c70_mp) w /\ r_mapKeys MsgModel.mp_reader w = Ok [[97]; [98]].
Proof.
  split; [unfold c70_mp; okay|]. split; [vm_compute; reflexivity|]. exists (MsgModel.mkSpan c70_mp 1 10). split; [|vm_compute; reflexivity].
  apply (reach_idx _ _ (MsgModel.mp_open c70_mp) 0); [apply reach_here|lia|vm_compute; reflexivity].
Qed.
Example C70_msgpack_case_no_huge : MsgSpec.no_huge c70_mp.
Proof.
  intros p m n Hp Hm Hn E. exfalso. assert (I0 : In m c70_mp).
  { apply (In_slice c70_mp p 5 m). rewrite E. now left. }
  cbn [c70_mp In] in I0. lia.
Qed.
(** CBOR [{"a": null, "b": {"a": 7}}] *)
Definition c70_cb : bytes := [129; 162; 97; 97; 246; 97; 98; 161; 97; 97; 7].
Example C70_cbor_case : bytes_ok c70_cb /\ (forall q, rd c70_cb q <> Ok 248) /\ CborModel.skip 20 c70_cb 0 = Ok 11 /\ CborSpec.no_huge c70_cb /\
  exists w, reach (CborModel.cbor_reader true 20) (CborModel.cb_open c70_cb) w /\ r_mapKeys (CborModel.cbor_reader true 20) w = Ok [[97]; [98]].
Proof.
  split; [unfold c70_cb; okay|]. split.
  { intros q E. unfold rd, get in E. destruct (_ && _); [|discriminate]. destruct (nth_error c70_cb (Z.to_nat q)) eqn:N; [|discriminate]. injection E as ->. apply nth_error_In in N. cbn [c70_cb In] in N. lia. }
  split; [vm_compute; reflexivity|]. split.
  { intros p m n Hp Hm Hn E. exfalso. assert (I0 : In m c70_cb) by (apply (In_slice c70_cb p 9 m); rewrite E; now left). cbn [c70_cb In] in I0. lia. }
  exists (CborModel.mkCView c70_cb 1). split; [|vm_compute; reflexivity].
  apply (reach_idx _ _ (CborModel.cb_open c70_cb) 0); [apply reach_here|lia|vm_compute; reflexivity].
Qed.
Example C70_flex_case : ordered [[97]; [98]; [98; 99]] /\ r_mapKeys (flex_reader 64) (XMap [([97], XNull); ([98], XInt 1); ([98; 99], XBool true)]) = Ok [[97]; [98]; [98; 99]].
Proof. split; [|reflexivity]. repeat constructor. Qed.
Example C70_json_case : lookups_agree json_reader (VMap [([97], VNull); ([97], VInt 1)]).
Proof. apply C70_json. Qed.

(** ** C71 *)
Theorem C71_json : forall w, indices_agree json_reader w.
Proof. exact json_indices. Qed.
Print Assumptions C71_json.
Theorem C71_flex : forall fuel w, indices_agree (flex_reader fuel) w.
Proof. exact flex_indices. Qed.
Print Assumptions C71_flex.
Theorem C71_zera : forall b v w, bytes_ok b -> zlen b < 2^32 - 20 -> zera_open b = Ok v -> reach zera_reader v w -> indices_agree zera_reader w.
Proof.
  intros b v w Hb Hl O R n i A I0. destruct (index_agrees b v w n Hb Hl O R A) as (base & _ & _ & X). cbn [zera_reader r_idx]. rewrite X by lia. destruct (i <? n); eauto.
Qed.
Print Assumptions C71_zera.
Theorem C71_msgpack_partial : forall b s w, bytes_ok b -> MsgSpec.no_huge b -> MsgModel.skip (MsgModel.mp_open b) = Ok s -> s <= zlen b ->
  reach MsgModel.mp_reader (MsgModel.mp_open b) w -> indices_agree MsgModel.mp_reader w.
Proof. intros b s w B NH SK L R. exact (LookMsgArr.msgpack_indices b B NH s SK L w R). Qed.
Print Assumptions C71_msgpack_partial.
Theorem C71_cbor_partial : forall hard fuel b e w, bytes_ok b -> zlen b < 2^63 -> CborSpec.no_huge b -> zlen b < Z.of_nat fuel ->
  CborModel.skip fuel b 0 = Ok e -> reach (CborModel.cbor_reader hard fuel) (CborModel.cb_open b) w -> indices_agree (CborModel.cbor_reader hard fuel) w.
Proof. intros hard fuel b e w B HB NH HF SK R. exact (LookArr.reach_indices b B HB NH fuel HF hard e w SK R). Qed.
Print Assumptions C71_cbor_partial.
(** On any view whatsoever, no index at or above arraySize() is accepted. *)
Theorem C71_msgpack_above : forall v n i, r_arraySize MsgModel.mp_reader v = Ok n -> n <= i -> r_idx MsgModel.mp_reader v i = Throw EDeser.
Proof. exact LookMsgArr.msgpack_index_out. Qed.
Print Assumptions C71_msgpack_above.
Theorem C71_cbor_above : forall hard fuel v n i, r_arraySize (CborModel.cbor_reader hard fuel) v = Ok n -> 0 <= i -> n <= i ->
  r_idx (CborModel.cbor_reader hard fuel) v i = Throw EDeser.
Proof. intros hard fuel [b p] n i A I0 L. exact (proj1 (LookArr.cbor_indices hard fuel b p n i A I0) L). Qed.
Print Assumptions C71_cbor_above.

(** Five bytes announce 2^32 - 1 elements: arraySize() believes them. *)
Theorem C71_msgpack_announced_refuted : exists b, zlen b = 5 /\ r_arraySize MsgModel.mp_reader (MsgModel.mp_open b) = Ok (2^32 - 1) /\
  r_idx MsgModel.mp_reader (MsgModel.mp_open b) 0 = Throw EDeser.
Proof. exists [221; 255; 255; 255; 255]. split; [reflexivity|]. split; vm_compute; reflexivity. Qed.
Print Assumptions C71_msgpack_announced_refuted.
Theorem C71_cbor_announced_refuted : exists b, let R := CborModel.cbor_reader false 100 in let w := CborModel.cb_open b in
  zlen b = 5 /\ r_arraySize R w = Ok (2^32 - 1) /\ r_idx R w 1 = Throw EDeser.
Proof. exists [154; 255; 255; 255; 255]. cbv zeta. split; [reflexivity|]. split; vm_compute; reflexivity. Qed.
Print Assumptions C71_cbor_announced_refuted.
(** An element cut off: operator[](0) of an array of one makes a span past the end. *)
Theorem C71_msgpack_truncated_refuted : exists b, r_arraySize MsgModel.mp_reader (MsgModel.mp_open b) = Ok 1 /\
  r_idx MsgModel.mp_reader (MsgModel.mp_open b) 0 = UB.
Proof. exists [145; 217; 5]. split; vm_compute; reflexivity. Qed.
Print Assumptions C71_msgpack_truncated_refuted.

(** The outer arrays above; a CBOR array of indefinite length *)
Example C71_msgpack_case : r_arraySize MsgModel.mp_reader (MsgModel.mp_open c70_mp) = Ok 1 /\ r_idx MsgModel.mp_reader (MsgModel.mp_open c70_mp) 0 = Ok (MsgModel.mkSpan c70_mp 1 10).
Proof. split; vm_compute; reflexivity. Qed.
Example C71_cbor_case : let b := [159; 1; 130; 2; 3; 255] in bytes_ok b /\ CborModel.skip 10 b 0 = Ok 6 /\
  r_arraySize (CborModel.cbor_reader false 10) (CborModel.cb_open b) = Ok 2 /\ r_idx (CborModel.cbor_reader false 10) (CborModel.cb_open b) 1 = Ok (CborModel.mkCView b 2) /\
  r_idx (CborModel.cbor_reader false 10) (CborModel.cb_open b) 2 = Throw EDeser.
Proof. cbv zeta. split; [okay|]. split; [vm_compute; reflexivity|]. split; [vm_compute; reflexivity|]. split; vm_compute; reflexivity. Qed.
Example C71_flex_case : r_arraySize (flex_reader 64) (XVec [XNull; XInt 4]) = Ok 2 /\ r_idx (flex_reader 64) (XVec [XNull; XInt 4]) 1 = Ok (XInt 4).
Proof. split; reflexivity. Qed.
