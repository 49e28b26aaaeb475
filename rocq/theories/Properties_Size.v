(** Properties_Size.v -- C79: how big a copy can be, compared with the message it was read from.

    Full statement: whatever bytes a message consists of, the value read out of it has no more nodes, keys and bytes of
    text than the message has bytes.  Proved for MessagePack and CBOR messages whose maps have distinct keys (and whose
    length fields stay below the wrap-around of C09, which [no_huge] names); refuted without that condition and for ZERA. *)

From Coq Require Import ZArith List Bool Lia ZifyBool ZifyNat.
From Verif Require Import Base BaseFacts Spec SpecFacts TransModel TransSpec TransFacts TransMain SaysSpec SaysFacts SizeSpec SizeGrow Properties_Says.
From Verif Require ZeraModel MsgModel MsgSpec CborModel CborSpec SizeMsg SizeCbor.
Import ListNotations.
Open Scope Z_scope.

(** Nodes and keys of a MessagePack message: at most one for each byte. *)
Theorem C79_msgpack_nodes_partial : forall b x, bytes_ok b -> distinct_keys x ->
  says MsgModel.mp_reader (MsgModel.mp_open b) x -> nodes x <= zlen b.
Proof. exact SizeMsg.msgpack_nodes. Qed.
(** Also counting the bytes of strings, blobs and keys. *)
Theorem C79_msgpack_weight_partial : forall b x, bytes_ok b -> MsgSpec.no_huge b -> distinct_keys x ->
  says MsgModel.mp_reader (MsgModel.mp_open b) x -> weight x <= zlen b.
Proof. exact SizeMsg.msgpack_weight. Qed.
Theorem C79_cbor_weight_partial : forall hard b x fuel, bytes_ok b -> zlen b < 2^63 -> CborSpec.no_huge b -> zlen b < Z.of_nat fuel -> distinct_keys x ->
  says (CborModel.cbor_reader hard fuel) (CborModel.cb_open b) x -> weight x <= zlen b.
Proof. exact SizeCbor.cbor_weight. Qed.
(** So whatever translate makes of a MessagePack message without repeated keys is the document of a value not bigger than the message. *)
Theorem C79_msgpack_translate_partial : forall b, bytes_ok b -> MsgSpec.no_huge b ->
  forall S O V' (W : writer S O) (open : O -> res V') fuel w', translate MsgModel.mp_reader W open fuel (MsgModel.mp_open b) = Ok w' ->
  exists x d, serialize W x = Ok d /\ open d = Ok w' /\ (distinct_keys x -> weight x <= zlen b).
Proof.
  intros b B H S O V' W open fuel w' E. destruct (translate_copies MsgModel.mp_reader W open fuel _ w' (source_typed _ _ (src_msgpack b B)) E) as (x & d & X1 & X2 & X3 & X4).
  exists x, d. split; [exact X3|]. split; [exact X4|]. intros D. exact (SizeMsg.msgpack_weight b x B H D X1).
Qed.

(** Repeated keys: 6n + 1 bytes of MessagePack copy to more than 2^n bytes. *)
Theorem C79_msgpack_repeated_keys_refuted : forall n, exists v b b' m, serialize MsgModel.mp_writer v = Ok b /\ zlen b = 6 * Z.of_nat n + 1 /\ 2 ^ Z.of_nat n <= zlen b' /\
  forall fuel, (m <= fuel)%nat -> translate MsgModel.mp_reader MsgModel.mp_writer (fun b => Ok (MsgModel.mp_open b)) fuel (MsgModel.mp_open b) = Ok (MsgModel.mp_open b').
Proof. intros n. exists (dupv n). exact (dup_msgpack n). Qed.
(** The same for CBOR, up to its writer's nesting limit. *)
Theorem C79_cbor_repeated_keys_refuted : forall hard n, (n <= 1024)%nat -> exists v b b' m, serialize CborModel.cbor_writer v = Ok b /\ zlen b = 6 * Z.of_nat n + 1 /\ 2 ^ Z.of_nat n <= zlen b' /\
  forall fuel, (m <= fuel)%nat -> translate (CborModel.cbor_reader hard fuel) MsgModel.mp_writer (fun b => Ok (MsgModel.mp_open b)) fuel (CborModel.cb_open b) = Ok (MsgModel.mp_open b').
Proof. intros hard n N. exists (dupv n). exact (dup_cbor hard n N). Qed.
(** ZERA: also without any map.  The two elements of an array may be one and the same. *)
Theorem C79_zera_refuted : forall n, 36 * Z.of_nat n + 100 < 2^32 -> exists b w x b' m, bytes_ok b /\ zlen b < 36 * Z.of_nat n + 52 /\ ZeraModel.zera_open b = Ok w /\
  says ZeraModel.zera_reader w x /\ distinct_keys x /\ nodes x = 2 ^ (Z.of_nat n + 1) - 1 /\ zlen b' = 2 ^ (Z.of_nat n + 1) - 1 /\
  forall fuel, (m <= fuel)%nat -> translate ZeraModel.zera_reader MsgModel.mp_writer (fun b => Ok (MsgModel.mp_open b)) fuel w = Ok (MsgModel.mp_open b').
Proof.
  intros n N. destruct (ladder_grows n N) as (w & b' & m & O & L & T). exists (ladder n), w, (arrs n), b', m. split; [apply ladder_bytes|].
  split; [rewrite zlen_ladder; pose proof (zpad_range n); lia|]. split; [exact O|]. split; [rewrite (ladder_open n N) in O; injection O as <-; exact (ladder_root_says n N)|].
  split; [apply arrs_distinct|]. split; [apply arrs_nodes|]. split; [exact L|exact T].
Qed.
Print Assumptions C79_msgpack_nodes_partial.
Print Assumptions C79_msgpack_weight_partial.
Print Assumptions C79_cbor_weight_partial.
Print Assumptions C79_msgpack_translate_partial.
Print Assumptions C79_msgpack_repeated_keys_refuted.
Print Assumptions C79_cbor_repeated_keys_refuted.
Print Assumptions C79_zera_refuted.

Lemma In_slice (l : bytes) p n x : In x (slice l p n) -> In x l.
Proof. intros H. unfold slice in H. rewrite <- (firstn_skipn (Z.to_nat p) l). apply in_or_app. right. rewrite <- (firstn_skipn (Z.to_nat n) (skipn (Z.to_nat p) l)). apply in_or_app. now left. Qed.
Lemma mp_plain b : ~ In 219 b -> ~ In 198 b -> MsgSpec.no_huge b.
Proof.
  intros N1 N2 p m n P M N E. assert (I : In m b); [|destruct M; subst; contradiction].
  apply (In_slice b p 5 m). rewrite E. now left.
Qed.
Lemma cb_plain b : ~ In 91 b -> ~ In 123 b -> CborSpec.no_huge b.
Proof.
  intros N1 N2 p m n P M N E. assert (I : In m b); [|destruct M; subst; contradiction].
  apply (In_slice b p 9 m). rewrite E. now left.
Qed.
(** {"a": "hi", "b": [null]}: the bound is met with equality. *)
Example C79_msgpack_case :
  let b := [130; 161; 97; 162; 104; 105; 161; 98; 145; 192] in let x := VMap [([97], VStr [104; 105]); ([98], VArr [VNull])] in
  bytes_ok b /\ MsgSpec.no_huge b /\ distinct_keys x /\ says MsgModel.mp_reader (MsgModel.mp_open b) x /\ nodes x = 6 /\ weight x = 10 /\ zlen b = 10.
Proof.
  intros b x. split; [subst b; okay|]. split; [apply mp_plain; cbn; intuition discriminate|]. split; [cbn; repeat split; repeat constructor; cbn; intuition discriminate|].
  split; [|repeat split; reflexivity]. apply says_map. split; [yes|]. split; [vm_compute; reflexivity|]. cbn [says_entries]. split; [|split; [|exact I]].
  - eexists. split; [vm_compute; reflexivity|]. split; [yes|vm_compute; reflexivity].
  - eexists. split; [vm_compute; reflexivity|]. apply says_arr. split; [yes|]. split; [vm_compute; reflexivity|]. cbn [says_elems]. split; [|exact I]. eexists. split; [vm_compute; reflexivity|]. yes.
Qed.
(** The same value in CBOR, with an indefinite-length array: one byte to spare. *)
Example C79_cbor_case :
  let b := [162; 97; 97; 98; 104; 105; 97; 98; 159; 246; 255] in let x := VMap [([97], VStr [104; 105]); ([98], VArr [VNull])] in
  bytes_ok b /\ CborSpec.no_huge b /\ zlen b < Z.of_nat 20 /\ distinct_keys x /\ says (CborModel.cbor_reader true 20) (CborModel.cb_open b) x /\ weight x = 10 /\ zlen b = 11.
Proof.
  intros b x. split; [subst b; okay|]. split; [apply cb_plain; cbn; intuition discriminate|]. split; [reflexivity|]. split; [cbn; repeat split; repeat constructor; cbn; intuition discriminate|].
  split; [|repeat split; reflexivity]. apply says_map. split; [yes|]. split; [vm_compute; reflexivity|]. cbn [says_entries]. split; [|split; [|exact I]].
  - eexists. split; [vm_compute; reflexivity|]. split; [yes|vm_compute; reflexivity].
  - eexists. split; [vm_compute; reflexivity|]. apply says_arr. split; [yes|]. split; [vm_compute; reflexivity|]. cbn [says_elems]. split; [|exact I]. eexists. split; [vm_compute; reflexivity|]. yes.
Qed.
(** With thirty levels: 1120 bytes of ZERA, a copy of two gigabytes. *)
Example C79_zera_case : zlen (ladder 30) = 1120 /\ 2 ^ (Z.of_nat 30 + 1) - 1 = 2147483647 /\ ZeraModel.zera_open (ladder 3) = Ok (ladder_view 3 128).
Proof. repeat split; vm_compute; reflexivity. Qed.
