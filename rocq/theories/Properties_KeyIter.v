(** Properties_KeyIter.v -- C75: iterators over mapKeys() are positions in the list of keys, in every client program.

    Vocabulary (KeyIterSpec.v): [kexpect F keys p] - what program [p] must print if iterators are positions in the lists [keys], or nothing if [p]
    breaks the rules of forward iterators or the extra rules [F]; [keys_by R views] - the keys a range-for loop over mapKeys() lists at each view.
    [krun P (kstart views) p] runs [p] on the code's own iterators.  No bound on the program, the number of variables or the messages. *)

From Coq Require Import ZArith List Bool Lia ZifyBool.
From Verif Require Import Base BaseFacts Spec SpecFacts ZeraModel JsonModel FlexModel KeyIterModel KeyIterSpec KeyIterFacts KeyIterInst.
From Verif Require MsgModel CborModel CborSpec CborFacts CborMain TextCbor.
Import ListNotations.
Open Scope Z_scope.

(** ** JSON and MessagePack: no extra rules. *)
Theorem C75_json : forall views p o, kexpect no_rules (keys_by json_reader views) p = Some o -> krun json_keys (kstart views) p = Ok o.
Proof. exact json_iters. Qed.
Print Assumptions C75_json.
Theorem C75_msgpack : forall views p o, kexpect no_rules (keys_by MsgModel.mp_reader views) p = Some o -> krun msgpack_keys (kstart views) p = Ok o.
Proof. exact msgpack_iters. Qed.
Print Assumptions C75_msgpack.

(** ** FlexBuffers: the range object must outlive its iterators. *)
Theorem C75_flex_partial : forall fuel views p o,
  kexpect (mkRules false true false) (keys_by (flex_reader fuel) views) p = Some o -> krun flex_keys (kstart views) p = Ok o.
Proof. exact flex_iters. Qed.
Print Assumptions C75_flex_partial.

(** ** ZERA: the view must outlive the iterators. *)
Theorem C75_zera_partial : forall views p o, (forall v w, views v = Some w -> bytes_ok (zv_buf w)) ->
  kexpect (mkRules true false false) (keys_by zera_reader views) p = Some o -> krun zera_keys (kstart views) p = Ok o.
Proof. exact zera_iters. Qed.
Print Assumptions C75_zera_partial.

(** ** CBOR: a string_view must be read before its iterator is dereferenced again or dies - unless all keys are text strings of definite length,
    as in every message the library writes; then no extra rules. *)
Theorem C75_cbor_partial : forall hard fuel views p o,
  kexpect (mkRules false false true) (keys_by (CborModel.cbor_reader hard fuel) views) p = Some o -> krun (cbor_keys hard fuel) (kstart views) p = Ok o.
Proof. exact cbor_iters. Qed.
Print Assumptions C75_cbor_partial.
Theorem C75_cbor_text_keys : forall hard fuel views p o,
  (forall v w, views v = Some w -> zlen (CborModel.cv_buf w) < 2^63 /\ zlen (CborModel.cv_buf w) < Z.of_nat fuel /\
    exists it, CborSpec.item_ok it /\ text_keyed it /\ has (CborModel.cv_buf w) (CborModel.cv_pos w) (CborSpec.enc it)) ->
  kexpect no_rules (keys_by (CborModel.cbor_reader hard fuel) views) p = Some o -> krun (cbor_keys hard fuel) (kstart views) p = Ok o.
Proof. exact cbor_plain_iters. Qed.
Print Assumptions C75_cbor_text_keys.
Theorem C75_cbor_written : forall hard fuel views p o,
  (forall v w, views v = Some w -> exists l b, val_ok (VMap l) /\ serialize CborModel.cbor_writer (VMap l) = Ok b /\ zlen b < 2^63 /\ zlen b < Z.of_nat fuel /\
    w = CborModel.cb_open b) ->
  kexpect no_rules (keys_by (CborModel.cbor_reader hard fuel) views) p = Some o -> krun (cbor_keys hard fuel) (kstart views) p = Ok o.
Proof.
  intros hard fuel views p o HV. apply cbor_plain_iters. intros v w W. destruct (HV v w W) as (l & b & OK & S & B1 & B2 & ->).
  cbn [CborModel.cb_open CborModel.cv_buf CborModel.cv_pos]. split; [exact B1|]. split; [exact B2|].
  pose proof (TextCbor.serialize_enc _ _ OK S) as ->. exists (CborMain.item_of (VMap l)).
  split; [apply CborFacts.item_in_mono with (s8 := false), CborMain.item_of_ok; auto|]. split; [|apply has_self].
  cbn [CborMain.item_of text_keyed]. apply Forall_forall. intros x X. apply in_map_iff in X. destruct X as ((k & y) & <- & _). cbn [fst]. eexists. eexists. reflexivity.
Qed.
Print Assumptions C75_cbor_written.

(** ** Why the extra rules are needed: ordinary-looking programs that read freed or overwritten memory. *)
Definition the_view {V} (w : V) (v : nat) : option V := match v with 0%nat => Some w | _ => None end.
(** [for (auto k : rd["m"].mapKeys())]: in C++17 and C++20 the view rd["m"] is destroyed before the loop starts, the key range is kept. *)
Definition loop_over_temporary : list kcmd := [CKeys 0 0; CKillView 0; CBegin 0 0; CEnd 1 0; CEq 0 1; CDeref 0 0; CRead 0].
(** [auto it = v.mapKeys().begin();] *)
Definition begin_of_temporary : list kcmd := [CKeys 0 0; CBegin 0 0; CKillRange 0; CDeref 0 0; CRead 0].
(** [std::vector<std::string_view> keys; for (auto k : v.mapKeys()) keys.push_back(k);] *)
Definition stash_keys : list kcmd := [CKeys 0 0; CBegin 0 0; CEnd 1 0; CDeref 0 0; CInc 0; CDeref 1 0; CInc 0; CEq 0 1; CKillIter 0; CKillIter 1; CRead 0; CRead 1].

(** {"a": null, "b": 7} *)
Definition kdoc : val := VMap [([97], VNull); ([98], VUInt 7)].
Definition kz : zview := match serialize zera_writer kdoc with Ok b => match zera_open b with Ok w => w | _ => mkZView [] 0 0 0 None end | _ => mkZView [] 0 0 0 None end.
Definition km : MsgModel.mspan := MsgModel.mp_open [130; 161; 97; 192; 161; 98; 7].
Definition kc : CborModel.cview := CborModel.cb_open [162; 97; 97; 246; 97; 98; 7].
(** the same map with the first key in chunks *)
Definition kc_chunks : CborModel.cview := CborModel.cb_open [162; 127; 97; 97; 255; 246; 97; 98; 7].
Definition kx : fx := XMap [([97], XNull); ([98], XInt 7)].

Theorem C75_zera_refuted : exists w p o, serialize zera_writer kdoc = Ok (zv_buf w) /\ bytes_ok (zv_buf w) /\
  kexpect no_rules (keys_by zera_reader (the_view w)) p = Some o /\ krun zera_keys (kstart (the_view w)) p = UB.
Proof.
  exists kz, loop_over_temporary, [OBool false; OKey [97]]. split; [vm_compute; reflexivity|]. split; [|split; vm_compute; reflexivity].
  apply Forall_forall. intros x X. vm_compute in X. unfold is_byte. repeat (destruct X as [<-|X]; [lia|]). destruct X.
Qed.
Print Assumptions C75_zera_refuted.
Theorem C75_flex_refuted : exists w p o, kexpect no_rules (keys_by (flex_reader 64) (the_view w)) p = Some o /\ krun flex_keys (kstart (the_view w)) p = UB.
Proof. exists kx, begin_of_temporary, [OKey [97]]. split; vm_compute; reflexivity. Qed.
Print Assumptions C75_flex_refuted.
Theorem C75_cbor_refuted : exists w p o, kexpect no_rules (keys_by (CborModel.cbor_reader true 20) (the_view w)) p = Some o /\
  krun (cbor_keys true 20) (kstart (the_view w)) p = UB.
Proof. exists kc_chunks, stash_keys, [OBool true; OKey [97]; OKey [98]]. split; vm_compute; reflexivity. Qed.
Print Assumptions C75_cbor_refuted.

(** ** Cases *)
(** A multi-pass program: a copy stays behind while the original runs to the end. *)
Definition two_passes : list kcmd :=
  [CKeys 0 0; CBegin 0 0; CEnd 1 0; CCopy 2 0; CInc 0; CEq 0 2; CInc 0; CEq 0 1; CDeref 0 2; CRead 0; CInc 2; CDeref 0 2; CRead 0; CInc 2; CEq 0 2].
Definition two_passes_out : list kout := [OBool false; OBool true; OKey [97]; OKey [98]; OBool true].
Example C75_case :
  kexpect no_rules (keys_by MsgModel.mp_reader (the_view km)) two_passes = Some two_passes_out /\
  kexpect no_rules (keys_by (CborModel.cbor_reader true 20) (the_view kc)) two_passes = Some two_passes_out /\
  kexpect (mkRules false false true) (keys_by (CborModel.cbor_reader true 20) (the_view kc_chunks)) two_passes = Some two_passes_out /\
  kexpect no_rules (keys_by json_reader (the_view kdoc)) two_passes = Some two_passes_out /\
  kexpect (mkRules false true false) (keys_by (flex_reader 64) (the_view kx)) two_passes = Some two_passes_out /\
  kexpect (mkRules true false false) (keys_by zera_reader (the_view kz)) two_passes = Some two_passes_out.
Proof. repeat split; vm_compute; reflexivity. Qed.
(** The programs above are fine where no rule forbids them: MessagePack and JSON allow all three. *)
Example C75_case_temporaries :
  kexpect no_rules (keys_by MsgModel.mp_reader (the_view km)) loop_over_temporary = Some [OBool false; OKey [97]] /\
  kexpect no_rules (keys_by json_reader (the_view kdoc)) begin_of_temporary = Some [OKey [97]] /\
  kexpect (mkRules true false false) (keys_by zera_reader (the_view kz)) begin_of_temporary = Some [OKey [97]] /\
  kexpect (mkRules false true false) (keys_by (flex_reader 64) (the_view kx)) stash_keys = Some [OBool true; OKey [97]; OKey [98]] /\
  kexpect no_rules (keys_by (CborModel.cbor_reader true 20) (the_view kc)) stash_keys = Some [OBool true; OKey [97]; OKey [98]].
Proof. repeat split; vm_compute; reflexivity. Qed.
(** The rules forbid what iterators do not allow: going past the end, comparing positions in different ranges. *)
Example C75_case_rules :
  kexpect no_rules (keys_by json_reader (the_view kdoc)) [CKeys 0 0; CEnd 0 0; CInc 0] = None /\
  kexpect no_rules (keys_by json_reader (the_view kdoc)) [CKeys 0 0; CKeys 1 0; CBegin 0 0; CBegin 1 1; CEq 0 1] = None /\
  kexpect no_rules (keys_by json_reader (the_view (VInt 1))) [CKeys 0 0] = None.
Proof. repeat split. Qed.
(** C75_cbor_written: the message meets the hypotheses. *)
Example C75_case_written : val_ok kdoc /\ serialize CborModel.cbor_writer kdoc = Ok (CborModel.cv_buf kc) /\ kc = CborModel.cb_open (CborModel.cv_buf kc).
Proof. split; [okay; unfold u64_max; lia|]. split; [vm_compute; reflexivity|reflexivity]. Qed.
