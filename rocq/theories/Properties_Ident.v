(** Properties_Ident.v -- C72: a binary message identifies its value; C73: bytes after a message do not matter.

    Vocabulary: [val], [val_ok], [serialize], [shows] in Spec.v; [same_value] in TransSpec.v (equal trees; an integer is the same number
    whether written as signed or unsigned); [lengths_below] in MsgSpec.v. *)

From Coq Require Import ZArith List Bool Lia ZifyBool.
From Verif Require Import Base BaseFacts Spec SpecFacts ZeraModel ZeraSpec TransSpec IdentZera TrailFacts.
From Verif Require MsgModel MsgSpec IdentMsg CborModel CborSpec IdentCbor.
Import ListNotations.
Open Scope Z_scope.

(** ** C72: equal bytes, even with something after them, come from equal values, and end at the same place. *)
Theorem C72_zera : forall v1 v2 b1 b2 s t, val_ok v1 -> val_ok v2 ->
  serialize zera_writer v1 = Ok b1 -> serialize zera_writer v2 = Ok b2 -> b1 ++ s = b2 ++ t -> v1 = v2 /\ s = t.
Proof. exact zera_ident. Qed.
Print Assumptions C72_zera.
(** Also between writers with different inline-string thresholds. *)
Theorem C72_zera_thresholds : forall t1 t2 v1 v2 b1 b2 s t, 0 <= t1 <= 12 -> 0 <= t2 <= 12 -> val_ok v1 -> val_ok v2 ->
  serialize (zera_writer_thr t1) v1 = Ok b1 -> serialize (zera_writer_thr t2) v2 = Ok b2 -> b1 ++ s = b2 ++ t -> v1 = v2.
Proof. exact zera_thr_ident. Qed.
Print Assumptions C72_zera_thresholds.
(** Also between arbitrary call histories (exceptions caught); [arun_catch], [afinish] (ZeraSpec.v) say which tree a history builds. *)
Theorem C72_zera_histories : forall es1 es2 s1 s2 o1 o2 b1 b2 s t, Forall ev_ok es1 -> Forall ev_ok es2 ->
  run_catch zera_writer zw_init es1 = (s1, o1) -> run_catch zera_writer zw_init es2 = (s2, o2) ->
  snd (zw_finish s1) = Ok b1 -> snd (zw_finish s2) = Ok b2 -> b1 ++ s = b2 ++ t ->
  exists v, snd (afinish (fst (arun_catch a_init es1))) = Ok v /\ snd (afinish (fst (arun_catch a_init es2))) = Ok v.
Proof. exact zera_hist_ident. Qed.
Print Assumptions C72_zera_histories.
Theorem C72_cbor : forall v1 v2 b1 b2 s t, val_ok v1 -> val_ok v2 -> zlen b1 < 2^63 -> zlen b2 < 2^63 ->
  serialize CborModel.cbor_writer v1 = Ok b1 -> serialize CborModel.cbor_writer v2 = Ok b2 -> b1 ++ s = b2 ++ t -> same_value v1 v2 /\ s = t.
Proof. exact IdentCbor.cbor_ident. Qed.
Print Assumptions C72_cbor.
Theorem C72_msgpack_partial : forall v1 v2 b1 b2 s t, val_ok v1 -> val_ok v2 -> MsgSpec.lengths_below (2^32) v1 -> MsgSpec.lengths_below (2^32) v2 ->
  serialize MsgModel.mp_writer v1 = Ok b1 -> serialize MsgModel.mp_writer v2 = Ok b2 -> b1 ++ s = b2 ++ t -> same_value v1 v2 /\ s = t.
Proof. exact IdentMsg.mp_ident. Qed.
Print Assumptions C72_msgpack_partial.
(** Without the bound: the length of a string of 4 GiB and more is cut to 32 bits, and the rest of it is read as further values. *)
Theorem C72_msgpack_refuted : exists v1 v2 b, val_ok v1 /\ val_ok v2 /\
  serialize MsgModel.mp_writer v1 = Ok b /\ serialize MsgModel.mp_writer v2 = Ok b /\ ~ same_value v1 v2.
Proof. exact IdentMsg.mp_collision. Qed.
Print Assumptions C72_msgpack_refuted.

(** Repeated keys included: the messages of {"a":1,"a":2} and {"a":2,"a":1} differ in every protocol. *)
Definition dup12 := VMap [([97], VUInt 1); ([97], VUInt 2)].
Definition dup21 := VMap [([97], VUInt 2); ([97], VUInt 1)].
Example C72_case : val_ok dup12 /\ MsgSpec.lengths_below (2^32) dup12 /\
  serialize MsgModel.mp_writer dup12 = Ok [130; 161; 97; 1; 161; 97; 2] /\ serialize CborModel.cbor_writer dup12 = Ok [162; 97; 97; 1; 97; 97; 2] /\
  (exists b, serialize zera_writer dup12 = Ok b /\ zlen b = 96) /\
  serialize zera_writer dup12 <> serialize zera_writer dup21 /\ serialize MsgModel.mp_writer dup12 <> serialize MsgModel.mp_writer dup21 /\
  serialize CborModel.cbor_writer dup12 <> serialize CborModel.cbor_writer dup21.
Proof.
  split; [okay; unfold u64_max; lia|]. split; [cbn; lia|]. split; [vm_compute; reflexivity|]. split; [vm_compute; reflexivity|].
  split; [|split; [|split]].
  - assert (E : match serialize zera_writer dup12 with Ok b => zlen b = 96 | _ => False end) by (vm_compute; reflexivity).
    destruct (serialize zera_writer dup12) as [b| | |]; try contradiction E. exists b. auto.
  - assert (E : match serialize zera_writer dup12, serialize zera_writer dup21 with Ok b, Ok c => beq b c = false | _, _ => False end) by (vm_compute; reflexivity).
    intros X. rewrite X in E. clear X. destruct (serialize zera_writer dup21) as [b| | |]; [|exact E..]. rewrite beq_refl in E. discriminate E.
  - vm_compute. discriminate.
  - vm_compute. discriminate.
Qed.

(** ** C73 *)
Theorem C73_zera : forall v b t, val_ok v -> serialize zera_writer v = Ok b ->
  exists w, zera_open (b ++ t) = Ok w /\ shows zera_reader ideal w v.
Proof. exact zera_trail. Qed.
Print Assumptions C73_zera.
Theorem C73_msgpack_partial : forall v b t, val_ok v -> MsgSpec.lengths_below (2^32 - 5) v -> serialize MsgModel.mp_writer v = Ok b ->
  shows MsgModel.mp_reader MsgSpec.T_mp (MsgModel.mp_open (b ++ t)) v.
Proof. exact mp_trail. Qed.
Print Assumptions C73_msgpack_partial.
(** CBOR: also repairs the reading of a final empty string (refuted without trailing bytes in a hardened build, see C18). *)
Theorem C73_cbor : forall hard fuel v b t, val_ok v -> serialize CborModel.cbor_writer v = Ok b -> t <> [] ->
  zlen (b ++ t) < 2^63 -> zlen (b ++ t) < Z.of_nat fuel ->
  shows (CborModel.cbor_reader hard fuel) CborSpec.T_cbor (CborModel.cb_open (b ++ t)) v.
Proof. intros hard fuel v b t V S T L F. apply cbor_trail; auto. Qed.
Print Assumptions C73_cbor.
Example C73_case : exists b w, serialize zera_writer (VStr [97]) = Ok b /\ zera_open (b ++ [1; 2; 3]) = Ok w /\ zlen b = 48 /\
  r_asString zera_reader w = Ok [97] /\
  r_asString MsgModel.mp_reader (MsgModel.mp_open ([161; 97] ++ [193; 193])) = Ok [97] /\
  r_asString (CborModel.cbor_reader true 10) (CborModel.cb_open ([97; 97] ++ [255])) = Ok [97].
Proof.
  destruct (serialize zera_writer (VStr [97])) as [b| | |] eqn:E; try (vm_compute in E; discriminate E).
  assert (b = match serialize zera_writer (VStr [97]) with Ok x => x | _ => [] end) as -> by (now rewrite E).
  eexists _, (match zera_open (match serialize zera_writer (VStr [97]) with Ok x => x | _ => [] end ++ [1; 2; 3]) with Ok w => w | _ => mkZView [] 0 0 0 None end).
  split; [reflexivity|]. split; [vm_compute; reflexivity|]. split; [vm_compute; reflexivity|]. split; [vm_compute; reflexivity|].
  split; vm_compute; reflexivity.
Qed.
