(** Properties_Kind.v -- C68: type tests decide which accessors work; C69: written values pass the test of their own type.

    Vocabulary: [kind], [test], [exclusive], [guarded] in KindSpec.v; [value_at], [view_at] in NarrowSpec.v; [is_protocol] in
    TransMain.v; [denotes] in BuildSpec.v. *)

From Coq Require Import ZArith List Bool Lia ZifyBool.
From Verif Require Import Base BaseFacts Spec SpecFacts NarrowModel KindSpec KindFacts ZeraModel JsonModel FlexModel.
From Verif Require MsgModel CborModel.
From Verif Require Import TransSpec TransMain NarrowSpec BuildModel BuildSpec BuildFacts.
Import ListNotations.
Open Scope Z_scope.

(** ** C68

    The views are arbitrary, not only those of written messages. *)
Theorem C68_zera : forall w, guarded zera_reader w /\ exclusive zera_reader w.
Proof. intros w. split; [apply zera_guarded|apply zera_exclusive]. Qed.
Print Assumptions C68_zera.
Theorem C68_cbor : forall hard fuel w, guarded (CborModel.cbor_reader hard fuel) w /\ exclusive (CborModel.cbor_reader hard fuel) w.
Proof. intros hard fuel w. split; [apply cbor_guarded|apply cbor_exclusive]. Qed.
Print Assumptions C68_cbor.
Theorem C68_flex : forall fuel w, guarded (flex_reader fuel) w /\ exclusive (flex_reader fuel) w.
Proof. intros fuel w. split; [apply flex_guarded|apply flex_exclusive]. Qed.
Print Assumptions C68_flex.
(** MessagePack: on every view but the empty one. *)
Theorem C68_msgpack_partial : forall w, (0 < MsgModel.ms_len w -> guarded MsgModel.mp_reader w) /\ (bytes_ok (MsgModel.ms_buf w) -> exclusive MsgModel.mp_reader w).
Proof. intros w. split; [apply msgpack_guarded|apply msgpack_exclusive]. Qed.
Print Assumptions C68_msgpack_partial.
(** JSON: the only overlap is an array that encodes a blob. *)
Theorem C68_json_partial : forall w, guarded json_reader w /\
  forall k k', test json_reader k w = Ok true -> test json_reader k' w = Ok true -> k = k' \/
    (r_isBlob json_reader w = Ok true /\ (k = KBlob /\ k' = KArray \/ k = KArray /\ k' = KBlob)).
Proof. intros w. split; [apply json_guarded|apply json_exclusive]. Qed.
Print Assumptions C68_json_partial.

(** An empty MessagePack message is not a string, a blob or an array, but the accessors read its first byte. *)
Theorem C68_msgpack_empty_refuted : let w := MsgModel.mp_open [] in
  test MsgModel.mp_reader KString w = Ok false /\ MsgModel.mp_asStringView w = UB /\
  test MsgModel.mp_reader KBlob w = Ok false /\ MsgModel.mp_asBlob w = UB /\
  test MsgModel.mp_reader KArray w = Ok false /\ MsgModel.mp_arraySize w = UB.
Proof. repeat split. Qed.
Print Assumptions C68_msgpack_empty_refuted.
Theorem C68_json_blob_refuted : forall dbg, exists w, (b <- serialize (json_writer dbg) (VBlob [65]) ;; json_open b) = Ok w /\
  test json_reader KBlob w = Ok true /\ test json_reader KArray w = Ok true /\ r_arraySize json_reader w = Ok 3.
Proof. intros dbg. eexists. split; [destruct dbg; vm_compute; reflexivity|]. split; [vm_compute; reflexivity|]. split; vm_compute; reflexivity. Qed.
Print Assumptions C68_json_blob_refuted.

(** A MessagePack view with marker 0xcc (uint8): an integer, so neither a string nor a map; no other accessor works. *)
Example C68_case : let w := MsgModel.mp_open [204; 200] in 0 < MsgModel.ms_len w /\ bytes_ok (MsgModel.ms_buf w) /\
  test MsgModel.mp_reader KInteger w = Ok true /\ test MsgModel.mp_reader KString w = Ok false /\ MsgModel.mp_asStringView w = Throw EDeser /\
  MsgModel.mp_asUInt64 w = Ok 200.
Proof. cbv zeta. split; [vm_compute; reflexivity|]. split; [cbn; okay|]. split; [vm_compute; reflexivity|]. split; [vm_compute; reflexivity|]. split; vm_compute; reflexivity. Qed.

(** ** C69

    [view_at] navigates with operator[]; the values may be at any depth. *)
Theorem C69_own_test_partial : forall P e v, is_protocol P -> denotes e v -> val_ok v -> p_ok P v ->
  exists b w n, build (p_writer P) e = Ok b /\ p_open P b = Ok w /\ forall fuel, (n <= fuel)%nat ->
    forall p x, value_at v p = Some x ->
    exists w', view_at (p_reader P fuel) w p = Ok w' /\ test (p_reader P fuel) (kind_of x) w' = Ok true /\
      (forall z, x = VInt z -> (P = P_msgpack -> z < 128) -> r_isInt (p_reader P fuel) w' = Ok true) /\
      (forall z, x = VUInt z -> r_isUInt (p_reader P fuel) w' = Ok true).
Proof. exact written_kinds. Qed.
Print Assumptions C69_own_test_partial.
(** MessagePack: no signed integer of 128 or more is isInt(), although asInt64() returns it. *)
Theorem C69_msgpack_signed_refuted : forall z, 128 <= z <= i64_max ->
  exists b, serialize MsgModel.mp_writer (VInt z) = Ok b /\
    r_isInt MsgModel.mp_reader (MsgModel.mp_open b) = Ok false /\ r_asInt MsgModel.mp_reader I64 (MsgModel.mp_open b) = Ok z.
Proof. exact msgpack_signed. Qed.
Print Assumptions C69_msgpack_signed_refuted.

Example C69_case : value_at (VMap [([97], VArr [VNull; VInt 5])]) [Entry [97]; Elem 1] = Some (VInt 5) /\
  val_ok (VMap [([97], VArr [VNull; VInt 5])]) /\ p_ok P_zera (VMap [([97], VArr [VNull; VInt 5])]) /\ is_protocol P_zera.
Proof. split; [reflexivity|]. split; [okay; unfold i64_min, i64_max; lia|]. split; [vm_compute; intuition congruence|apply is_zera]. Qed.
