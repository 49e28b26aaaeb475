(** Properties_Halt.v -- C77: copying a message into another format comes to an end. *)

From Coq Require Import ZArith List Bool Lia ZifyBool ZifyNat.
From Verif Require Import Base BaseFacts Spec SpecFacts TransModel TransSpec TransFacts TransMain HaltFacts HaltWriters HaltTree HaltZera.
From Verif Require ZeraModel MsgModel MsgSafe CborModel CborSpec CborFacts CborSafe JsonModel FlexModel HaltMsg HaltCbor.
Import ListNotations.
Open Scope Z_scope.

Lemma protocol_obliging Q : is_protocol Q -> obliging (p_writer Q) /\ forall o, p_open Q o <> NoFuel.
Proof.
  intros [| |hard|dbg|dbg srt S|dbg srt S]; cbn [p_writer p_open P_zera P_msgpack P_cbor P_json P_flex P_flexb]; (split; [|intros o]); try discriminate.
  - exact zera_obliging. - apply zera_open_halts. - exact msgpack_obliging. - exact cbor_obliging. - apply json_obliging. - apply json_open_halts. - apply flex_obliging. - apply flexb_obliging. - apply flexb_open_halts.
Qed.

(** ** MsgPack: any bytes whatsoever.  The recursion is no deeper than the message is long. *)
Theorem C77_msgpack_finishes : forall Q b fuel, is_protocol Q -> bytes_ok b -> zlen b < Z.of_nat fuel ->
  translate MsgModel.mp_reader (p_writer Q) (p_open Q) fuel (MsgModel.mp_open b) <> NoFuel.
Proof.
  intros Q b fuel HQ B L. destruct (protocol_obliging Q HQ) as [OB OP].
  apply (translate_halts _ _ MsgSafe.wfs (fun v => Z.to_nat (MsgModel.ms_len v))); auto.
  - exact HaltMsg.msgpack_answers.
  - intros w i c G _ E. destruct (halts_ok _ _ _ (HaltMsg.idx_halts w i G) E) as [G' K]. split; [exact G'|]. pose proof (MsgSafe.wf_len c G'). lia.
  - intros w i c G E. destruct (halts_ok _ _ _ (HaltMsg.key_halts w i G) E) as [G' K]. split; [exact G'|]. pose proof (MsgSafe.wf_len c G'). lia.
  - now apply MsgSafe.wfs_open.
  - cbn [MsgModel.mp_open MsgModel.ms_len]. pose proof (zlen_nonneg b). lia.
Qed.
Print Assumptions C77_msgpack_finishes.
(** An array header announcing 2^32 - 1 elements and nothing after it, and an array inside an array inside an array. *)
Example C77_msgpack_case : bytes_ok [221; 255; 255; 255; 255] /\ zlen [221; 255; 255; 255; 255] < Z.of_nat 6 /\
  translate MsgModel.mp_reader (p_writer (P_json true)) (p_open (P_json true)) 6 (MsgModel.mp_open [145; 145; 145; 42]) =
  Ok (VArr [VArr [VArr [VUInt 42]]]).
Proof. split; [okay|]. split; [reflexivity|]. vm_compute. reflexivity. Qed.

(** ** JSON: any parsed document.  The recursion is no deeper than the document. *)
Theorem C77_json_finishes : forall Q v fuel, is_protocol Q -> (height v < fuel)%nat ->
  translate JsonModel.json_reader (p_writer Q) (p_open Q) fuel v <> NoFuel.
Proof.
  intros Q v fuel HQ L. destruct (protocol_obliging Q HQ) as [OB OP].
  apply (translate_halts _ _ (fun _ => True) height); auto.
  - intros; apply json_answers.
  - intros w i c _ _ E. exact (conj I (halts_ok _ _ _ (jidx_halts w i) E)).
  - intros w i c _ E. exact (conj I (halts_ok _ _ _ (jkey_halts w i) E)).
Qed.
Print Assumptions C77_json_finishes.
Example C77_json_case : (height (VArr [VArr [VNull]; VMap [([97%Z], VInt 1%Z)]]) < 4)%nat. Proof. cbn. lia. Qed.

(** ** FlexBuffers: any tree of fewer than 2^63 values (the binary search for a key adds two positions). *)
Theorem C77_flex_finishes : forall Q x n fuel, is_protocol Q -> modest x -> (64 <= n)%nat -> (fx_size x < fuel)%nat ->
  translate (FlexModel.flex_reader n) (p_writer Q) (p_open Q) fuel x <> NoFuel.
Proof.
  intros Q x n fuel HQ M N L. destruct (protocol_obliging Q HQ) as [OB OP].
  apply (translate_halts _ _ modest fx_size); auto.
  - intros w G. now apply flex_answers.
  - intros w i c G _ E. exact (halts_ok _ _ _ (xidx_halts w i G) E).
  - intros w i c G E. exact (halts_ok _ _ _ (xkey_halts n N w i G) E).
Qed.
Print Assumptions C77_flex_finishes.
Example C77_flex_case : modest (FlexModel.XMap [([97], FlexModel.XVec [FlexModel.XNull]); ([98], FlexModel.XNull)]). Proof. unfold modest. reflexivity. Qed.

(** ** CBOR: any bytes in which no 64-bit argument has its top bit set. *)
Theorem C77_cbor_finishes_partial : forall Q hard b n fuel, is_protocol Q -> bytes_ok b -> zlen b < 2^63 -> HaltCbor.small_args b ->
  zlen b < Z.of_nat n -> zlen b < Z.of_nat fuel ->
  translate (CborModel.cbor_reader hard n) (p_writer Q) (p_open Q) fuel (CborModel.cb_open b) <> NoFuel.
Proof.
  intros Q hard b n fuel HQ B HB SA N L. destruct (protocol_obliging Q HQ) as [OB OP].
  apply (translate_halts _ _ (fun w => CborModel.cv_buf w = b /\ 0 <= CborModel.cv_pos w) (fun w => Z.to_nat (CborSafe.rest b (CborModel.cv_pos w)))); auto.
  - intros w [G1 G2]. now apply (HaltCbor.cbor_answers b B HB SA n N hard).
  - intros [b0 p] i c [G1 G2] _ E. cbn [CborModel.cv_buf CborModel.cv_pos] in *. subst b0.
    destruct (halts_ok _ _ _ (HaltCbor.idx_halts b B HB SA n N p i G2) E) as (E1 & E2 & E3). unfold CborSafe.rest. repeat split; [exact E1|lia|lia].
  - intros [b0 p] i c [G1 G2] E. cbn [CborModel.cv_buf CborModel.cv_pos] in *. subst b0.
    destruct (halts_ok _ _ _ (HaltCbor.key_halts b B HB SA n N hard p i G2) E) as (E1 & E2 & E3). unfold CborSafe.rest. repeat split; [exact E1|lia|lia].
  - split; [reflexivity|cbn; lia].
  - unfold CborSafe.rest. cbn. pose proof (zlen_nonneg b). lia.
Qed.
Print Assumptions C77_cbor_finishes_partial.
(** An array announcing 2^63 - 1 elements, cut off after the first. *)
Example C77_cbor_case : HaltCbor.small_args [155; 127; 255; 255; 255; 255; 255; 255; 255; 1].
Proof.
  intros p m y E P M1 M2. assert (PP : p < 10). { destruct (Z_lt_ge_dec p 10) as [K|K]; [exact K|]. unfold slice in E. rewrite skipn_all2 in E by (cbn; lia). discriminate E. }
  assert (CS : p = 0 \/ p = 1 \/ p = 2 \/ p = 3 \/ p = 4 \/ p = 5 \/ p = 6 \/ p = 7 \/ p = 8 \/ p = 9) by lia.
  destruct CS as [-> |[-> |[-> |[-> |[-> |[-> |[-> |[-> |[-> | ->]]]]]]]]]; cbn in E; try discriminate E; injection E as <- <-; lia.
Qed.

(** The full claim, without [small_args], is false: the key iterator walks an indefinite-length key chunk by chunk, adding the
    chunk's argument to the position without looking at its kind or at the end of the buffer.  One map entry, the key an
    indefinite-length string whose "chunk" is the integer 2^64 - 9: the position comes back to where it was, for ever. *)
Definition stuck_key : bytes := [161; 127; 27; 255; 255; 255; 255; 255; 255; 255; 247].
Lemma stuck_chunk : CborModel.k_chunk stuck_key 2 = Ok (inl 2). Proof. vm_compute. reflexivity. Qed.
Lemma stuck_loop : forall f, CborModel.floop f (CborModel.k_chunk stuck_key) 2 = NoFuel.
Proof. induction f as [|f IH]; [reflexivity|]. cbn [CborModel.floop]. rewrite stuck_chunk. cbn [bind]. exact IH. Qed.
Lemma stuck_skip : forall f, CborModel.k_skip f stuck_key 1 = NoFuel.
Proof.
  intros [|f]; [reflexivity|]. cbn [CborModel.k_skip]. change (CborModel.k_read_head stuck_key 1) with (Ok (CborModel.mkHead 3 31 0 1 true)).
  cbn [bind CborModel.h_len CborModel.h_major CborModel.h_indef negb Z.eqb orb]. apply stuck_loop.
Qed.
Theorem C77_cbor_keys_refuted : exists b, bytes_ok b /\ zlen b = 11 /\ CborSpec.no_huge b /\ forall hard n,
  r_mapKeys (CborModel.cbor_reader hard n) (CborModel.cb_open b) = NoFuel /\
  forall Q fuel, is_protocol Q -> (0 < fuel)%nat -> translate (CborModel.cbor_reader hard n) (p_writer Q) (p_open Q) fuel (CborModel.cb_open b) = NoFuel.
Proof.
  exists stuck_key. split; [okay|]. split; [reflexivity|].
  assert (NH : CborSpec.no_huge stuck_key).
  { intros p m n P M N E. exfalso. assert (PP : p < 11). { destruct (Z_lt_ge_dec p 11) as [K|K]; [exact K|]. unfold slice in E. rewrite skipn_all2 in E by (cbn; lia). discriminate E. }
    assert (CS : p = 0 \/ p = 1 \/ p = 2 \/ p = 3 \/ p = 4 \/ p = 5 \/ p = 6 \/ p = 7 \/ p = 8 \/ p = 9 \/ p = 10) by lia.
    apply (f_equal (fun l => nth 0 l 0)) in E. cbn [nth] in E.
    destruct CS as [-> |[-> |[-> |[-> |[-> |[-> |[-> |[-> |[-> |[-> | ->]]]]]]]]]]; vm_compute in E; lia. }
  split; [exact NH|]. intros hard n.
  assert (K : r_mapKeys (CborModel.cbor_reader hard n) (CborModel.cb_open stuck_key) = NoFuel).
  { cbn [CborModel.cbor_reader r_mapKeys]. unfold CborModel.c_mapKeys. cbn [CborModel.cb_open CborModel.cv_buf CborModel.cv_pos].
    change (CborModel.chd (CborModel.cb_open stuck_key)) with (Ok (CborModel.mkHead 5 1 1 1 false)).
    cbn [bind CborModel.h_major Z.eqb Pos.eqb require]. change (CborModel.k_read_head stuck_key 0) with (Ok (CborModel.mkHead 5 1 1 1 false)). cbn [bind].
    unfold CborModel.k_end. change (CborModel.k_read_head stuck_key 0) with (Ok (CborModel.mkHead 5 1 1 1 false)).
    cbn [bind CborModel.h_len CborModel.h_val CborModel.h_indef negb]. change (0 + 1) with 1.
    unfold CborModel.times. cbn [zloop ploop bind]. rewrite stuck_skip. reflexivity. }
  split; [exact K|]. intros Q [|fuel] HQ L; [lia|]. unfold translate. cbn [write_value].
  change (r_isNull (CborModel.cbor_reader hard n) (CborModel.cb_open stuck_key)) with (Ok false). cbn [bind].
  change (r_isBool (CborModel.cbor_reader hard n) (CborModel.cb_open stuck_key)) with (Ok false). cbn [bind].
  change (r_isInt (CborModel.cbor_reader hard n) (CborModel.cb_open stuck_key)) with (Ok false). cbn [bind].
  change (r_isUInt (CborModel.cbor_reader hard n) (CborModel.cb_open stuck_key)) with (Ok false). cbn [bind].
  change (r_isFloat (CborModel.cbor_reader hard n) (CborModel.cb_open stuck_key)) with (Ok false). cbn [bind].
  change (r_isString (CborModel.cbor_reader hard n) (CborModel.cb_open stuck_key)) with (Ok false). cbn [bind].
  change (r_isBlob (CborModel.cbor_reader hard n) (CborModel.cb_open stuck_key)) with (Ok false). cbn [bind].
  change (r_isMap (CborModel.cbor_reader hard n) (CborModel.cb_open stuck_key)) with (Ok true). cbn [bind]. rewrite K. reflexivity.
Qed.
Print Assumptions C77_cbor_keys_refuted.

(** ** ZERA: the references of a message may form a cycle (C07_translate_cyclic_refuted).  If every value found lies before
    the reference through which its container was found, the copy ends. *)
Inductive within (w : ZeraModel.zview) : ZeraModel.zview -> Prop :=
| within_here : within w w
| within_idx u i c : within w u -> 0 <= i -> ZeraModel.zv_idx u i = Ok c -> within w c
| within_key u k c : within w u -> ZeraModel.zv_key u k = Ok c -> within w c.
Definition place (w : ZeraModel.zview) : Z := match ZeraModel.zv_vr w with Some p => p | None => 0 end.
Definition downhill (w : ZeraModel.zview) : Prop := forall u c, within w u ->
  (exists i, 0 <= i /\ ZeraModel.zv_idx u i = Ok c) \/ (exists k, ZeraModel.zv_key u k = Ok c) -> 0 <= place c < place u.
Theorem C77_zera_finishes_partial : forall Q b w fuel, is_protocol Q -> ZeraModel.zera_open b = Ok w -> downhill w -> zlen b + 20 <= Z.of_nat fuel ->
  translate ZeraModel.zera_reader (p_writer Q) (p_open Q) fuel w <> NoFuel.
Proof.
  intros Q b w fuel HQ O D L. destruct (protocol_obliging Q HQ) as [OB OP].
  apply (translate_halts _ _ (within w) (fun u => Z.to_nat (place u))); auto.
  - intros u _. apply zera_answers.
  - intros u i c G I0 E. split; [exact (within_idx w u i c G I0 E)|]. destruct (D u c G (or_introl (ex_intro _ i (conj I0 E)))). lia.
  - intros u k c G E. split; [exact (within_key w u k c G E)|]. destruct (D u c G (or_intror (ex_intro _ k E))). lia.
  - apply within_here.
  - unfold ZeraModel.zera_open in O. destruct (ZeraModel.parse_header b) as [h|?| |]; try discriminate O. cbn [bind] in O.
    repeat match type of O with bind (require ?c _) _ = _ => destruct c eqn:?; cbn [require bind] in O; [|discriminate O] end.
    apply (f_equal (fun r => match r with Ok v => place v | _ => 0 end)) in O. cbn [place ZeraModel.zv_vr] in O. unfold ZeraModel.HeaderSize in O.
    pose proof (zlen_nonneg b). clear Heqb7 Heqb8 Heqb6. lia.
Qed.
Print Assumptions C77_zera_finishes_partial.
(** [ZERA] of the array [null]: the element's reference is at offset 24, the array's own at offset 40. *)
Definition one_null : bytes := match serialize ZeraModel.zera_writer (VArr [VNull]) with Ok b => b | _ => [] end.
Definition at_ref (p : Z) : ZeraModel.zview := match ZeraModel.zera_open one_null with Ok w => ZeraModel.zv_child w p | _ => ZeraModel.zera_default end.
Example C77_zera_case : ZeraModel.zera_open one_null = Ok (at_ref 40) /\ downhill (at_ref 40).
Proof.
  split; [vm_compute; reflexivity|].
  assert (T0 : ZeraModel.zv_tag (at_ref 40) = Ok ZeraModel.TArray) by (vm_compute; reflexivity).
  assert (T1 : ZeraModel.zv_tag (at_ref 24) = Ok ZeraModel.TNull) by (vm_compute; reflexivity).
  assert (I0 : forall i c, 0 <= i -> ZeraModel.zv_idx (at_ref 40) i = Ok c -> c = at_ref 24).
  { intros i c P E. assert (CS : i = 0 \/ 1 <= i) by lia. destruct CS as [-> |P1].
    - apply (f_equal (fun r => match r with Ok v => v | _ => at_ref 0 end)) in E. rewrite <- E. vm_compute. reflexivity.
    - exfalso. revert E. unfold ZeraModel.zv_idx. rewrite T0. cbn [bind].
      change (ZeraModel.require_flags_ok (at_ref 40)) with (Ok tt). change (ZeraModel.zv_a (at_ref 40)) with (Ok 0). cbn [bind require Z.eqb Pos.eqb ZeraModel.TArray].
      change (ZeraModel.env_ptr_at (at_ref 40) 0 4) with (Ok 20). cbn [bind]. change (ZeraModel.read_u32_le (ZeraModel.zv_buf (at_ref 40)) 20) with (Ok 1). cbn [bind].
      replace (i <? 1) with false by lia. discriminate. }
  assert (I1 : forall i c, ZeraModel.zv_idx (at_ref 24) i <> Ok c) by (intros i c; unfold ZeraModel.zv_idx; rewrite T1; discriminate).
  assert (K0 : forall i c, ZeraModel.zv_key (at_ref 40) i <> Ok c) by (intros i c; unfold ZeraModel.zv_key; rewrite T0; discriminate).
  assert (K1 : forall i c, ZeraModel.zv_key (at_ref 24) i <> Ok c) by (intros i c; unfold ZeraModel.zv_key; rewrite T1; discriminate).
  assert (W : forall u, within (at_ref 40) u -> u = at_ref 40 \/ u = at_ref 24).
  { intros u H. induction H as [|u i c H [-> | ->] P E|u k c H [-> | ->] E]; [now left|right; eapply I0; eauto|destruct (I1 _ _ E)|destruct (K0 _ _ E)|destruct (K1 _ _ E)]. }
  intros u c H. destruct (W u H) as [-> | ->]; intros [(i & P & E)|(k & E)]; [|destruct (K0 _ _ E)|destruct (I1 _ _ E)|destruct (K1 _ _ E)].
  rewrite (I0 i c P E). vm_compute. split; [discriminate|reflexivity].
Qed.

(** Into CBOR the copy ends whatever the ZERA message is, cycles included: the encoder refuses the 1025th level. *)
Theorem C77_zera_into_cbor_finishes : forall hard w fuel, (1025 <= fuel)%nat ->
  translate ZeraModel.zera_reader (p_writer (P_cbor hard)) (p_open (P_cbor hard)) fuel w <> NoFuel.
Proof.
  intros hard w fuel L. apply (halts_ne any). unfold translate. cbn [p_writer p_open P_cbor].
  assert (K : halts (sized 0) (write_value ZeraModel.zera_reader CborModel.cbor_writer fuel w (w_init CborModel.cbor_writer))).
  { apply (deep_halts ZeraModel.zera_reader (fun _ => True)); auto; [intros; apply zera_answers|discriminate|cbn; lia]. }
  hb (exact K). hb (apply ne_halts, (proj2 cbor_obliging)). exact I.
Qed.
Print Assumptions C77_zera_into_cbor_finishes.
