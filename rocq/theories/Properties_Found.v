(** Properties_Found.v -- C83 for MessagePack: an accessor that returns has found an object of its kind. *)

From Coq Require Import ZArith List Bool Lia ZifyBool ZifyNat.
From Verif Require Import Base Spec FloatModel MsgModel MsgSpec MsgFacts FoundSpec FoundMsg.
Import ListNotations.
Open Scope Z_scope.

(** ** C83 (MessagePack), for the message as a whole.  [item] and [enc] are the objects of the MessagePack specification and their bytes (MsgSpec.v); whatever
    the message continues with is [suf]. *)

(** asStringView() and asString() return exactly the strings that stand at the beginning. *)
Theorem C83_msgpack_string : forall b s, bytes_ok b ->
  (r_asString mp_reader (mp_open b) = Ok s <-> exists f suf, item_ok (MStr f s) /\ b = enc (MStr f s) ++ suf) /\
  (r_asStringView mp_reader (mp_open b) = Ok s <-> exists f suf, item_ok (MStr f s) /\ b = enc (MStr f s) ++ suf).
Proof. intros b s B. split; exact (msg_string b s B). Qed.
Theorem C83_msgpack_blob : forall b s, bytes_ok b ->
  r_asBlob mp_reader (mp_open b) = Ok s <-> exists f suf, item_ok (MBin f s) /\ b = enc (MBin f s) ++ suf.
Proof. exact msg_blob. Qed.
Theorem C83_msgpack_bool : forall b x, bytes_ok b -> r_asBool mp_reader (mp_open b) = Ok x <-> exists suf, b = enc (MBool x) ++ suf.
Proof. exact msg_bool. Qed.
Theorem C83_msgpack_null : forall b, bytes_ok b -> r_isNull mp_reader (mp_open b) = Ok true <-> exists suf, b = enc MNil ++ suf.
Proof. exact msg_null. Qed.
Theorem C83_msgpack_double : forall b x, bytes_ok b ->
  r_asDouble mp_reader (mp_open b) = Ok x <-> exists it suf, item_ok it /\ b = enc it ++ suf /\ ((exists y, it = MF32 y /\ x = f32_to_f64 y) \/ it = MF64 x).
Proof. exact msg_double. Qed.
(** asInt8() to asInt64() and asUInt8() to asUInt64() return the integer that stands at the beginning, signed or unsigned and of whatever width, if it fits;
    however, an integer from 2^63 on counts as negative for the former, and a negative one as 2^64 more for the latter. *)
Theorem C83_msgpack_int_partial : forall b iw z, bytes_ok b ->
  r_asInt mp_reader iw (mp_open b) = Ok z <->
  exists it suf n, item_ok it /\ b = enc it ++ suf /\ number_of it = Some n /\ z = to_signed 64 n /\ smin iw <= z <= smax iw.
Proof. exact msg_int. Qed.
Theorem C83_msgpack_uint_partial : forall b iw z, bytes_ok b ->
  r_asUInt mp_reader iw (mp_open b) = Ok z <->
  exists it suf n, item_ok it /\ b = enc it ++ suf /\ number_of it = Some n /\ z = n mod 2^64 /\ z <= umax iw.
Proof. exact msg_uint. Qed.
(** So the number returned need not be the number found. *)
Theorem C83_msgpack_numbers_refuted : exists b b' it it', item_ok it /\ item_ok it' /\ b = enc it /\ b' = enc it' /\
  number_of it = Some (2^64 - 1) /\ (forall iw, r_asInt mp_reader iw (mp_open b) = Ok (-1)) /\
  number_of it' = Some (-1) /\ r_asUInt mp_reader I64 (mp_open b') = Ok (2^64 - 1).
Proof.
  exists [207; 255; 255; 255; 255; 255; 255; 255; 255], [255], (MUInt I64 (2^64 - 1)), (MFixInt (-1)). split; [cbn; lia|]. split; [cbn; lia|]. split; [vm_compute; reflexivity|]. split; [reflexivity|].
  split; [reflexivity|]. split; [intros []; vm_compute; reflexivity|]. split; [reflexivity|vm_compute; reflexivity].
Qed.

(** ** Concrete cases: a two-byte string with an eight-bit length and something after it, a 16-bit unsigned integer read as a signed one. *)
Example C83_msgpack_string_case : r_asString mp_reader (mp_open [217; 2; 104; 105; 1]) = Ok [104; 105] /\ item_ok (MStr F8 [104; 105]) /\ [217; 2; 104; 105; 1] = enc (MStr F8 [104; 105]) ++ [1].
Proof. split; [vm_compute; reflexivity|]. split; [|reflexivity]. split; [repeat constructor; lia|reflexivity]. Qed.
Example C83_msgpack_int_case : r_asInt mp_reader I32 (mp_open [205; 1; 0]) = Ok 256 /\ r_asInt mp_reader I8 (mp_open [205; 1; 0]) = Throw EDeser /\
  number_of (MUInt I16 256) = Some 256 /\ enc (MUInt I16 256) = [205; 1; 0].
Proof. repeat split; vm_compute; reflexivity. Qed.
(** Nothing is found in a string whose last byte is missing. *)
Example C83_msgpack_none_case : forall s, r_asString mp_reader (mp_open [162; 104]) <> Ok s.
Proof.
  intros s H. vm_compute in H. discriminate H.
Qed.

Print Assumptions C83_msgpack_string.
Print Assumptions C83_msgpack_blob.
Print Assumptions C83_msgpack_bool.
Print Assumptions C83_msgpack_null.
Print Assumptions C83_msgpack_double.
Print Assumptions C83_msgpack_int_partial.
Print Assumptions C83_msgpack_uint_partial.
Print Assumptions C83_msgpack_numbers_refuted.
