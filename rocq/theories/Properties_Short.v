(** Properties_Short.v -- C82: messages are as short as their format allows. *)

From Coq Require Import ZArith List Bool Lia ZifyBool ZifyNat.
From Verif Require Import Base BaseFacts Spec SpecFacts FloatModel FloatSpec FloatFacts TransSpec MeanSpec MeanCSpec ShortSpec.
From Verif Require MsgModel MsgSpec ShortMsg CborModel CborSpec CborFacts CborMain ShortCbor.
Import ListNotations.
Open Scope Z_scope.

(** Full statement: whatever object of the format stands for [v] (the same tree; integers equal as numbers), it is at least as long as the
    message the writer produces for [v].  Missing for MessagePack: doubles that a 32-bit float holds too, and maps with a repeated key. *)
Theorem C82_msgpack_shortest_partial : forall v b it x, val_ok v -> no_f32 v -> distinct_keys v -> serialize MsgModel.mp_writer v = Ok b ->
  MsgSpec.item_ok it -> mp_meaning it = Some x -> same_value v x -> zlen b <= zlen (MsgSpec.enc it).
Proof. exact ShortMsg.msgpack_shortest. Qed.

(** Missing for CBOR: doubles that a 16-bit float holds too, NaNs that a 32-bit float holds too, maps with a repeated key, and items of indefinite
    length when [v] contains an array or map of 256 or more entries or a string of 4 GiB or more. *)
Theorem C82_cbor_shortest_partial : forall v b it x, val_ok v -> no_f16 v -> distinct_keys v -> serialize CborModel.cbor_writer v = Ok b ->
  definite it \/ compact v -> CborSpec.item_ok it -> cb_meaning it = Some x -> same_value v x -> zlen b <= zlen (CborSpec.enc it).
Proof. exact ShortCbor.cbor_shortest. Qed.

(** The conditions are needed.  MessagePack: 1.0 takes 9 bytes, as a 32-bit float 5. *)
Theorem C82_msgpack_double_refuted : exists v b it, val_ok v /\ distinct_keys v /\ serialize MsgModel.mp_writer v = Ok b /\ MsgSpec.item_ok it /\ mp_meaning it = Some v /\
  zlen b = 9 /\ zlen (MsgSpec.enc it) = 5.
Proof.
  exists (VDbl 4607182418800017408), (203 :: MsgModel.be64 4607182418800017408), (MsgSpec.MF32 1065353216). split; [unfold val_ok, is_u64, u64_max; lia|].
  split; [split; exact I|]. split; [reflexivity|]. split; [unfold MsgSpec.item_ok; cbn [MsgSpec.item_in]; lia|]. repeat split.
Qed.
(** Two entries with one key: readers never look at the second value, so any value will do for it. *)
Theorem C82_msgpack_repeated_key_refuted : exists v b it, val_ok v /\ no_f32 v /\ serialize MsgModel.mp_writer v = Ok b /\ MsgSpec.item_ok it /\ mp_meaning it = Some v /\
  zlen b = 9 /\ zlen (MsgSpec.enc it) = 8.
Proof.
  exists (VMap [([97], VStr [98]); ([97], VStr [98])]), [130; 161; 97; 161; 98; 161; 97; 161; 98],
    (MsgSpec.MMap MsgSpec.FFix [(MsgSpec.MStr MsgSpec.FFix [97], MsgSpec.MStr MsgSpec.FFix [98]); (MsgSpec.MStr MsgSpec.FFix [97], MsgSpec.MNil)]).
  split; [okay|]. split; [cbn; tauto|]. split; [vm_compute; reflexivity|]. split; [|repeat split].
  unfold MsgSpec.item_ok. cbn [MsgSpec.item_in MsgSpec.seq_cap MsgSpec.str_cap]. repeat split; try (repeat constructor; unfold is_byte; lia); vm_compute; reflexivity.
Qed.
(** CBOR: 1.0 takes 5 bytes, as a 16-bit float 3; an array of 256 nulls takes 259 bytes, with indefinite length 258. *)
Theorem C82_cbor_refuted :
  (exists v b it, val_ok v /\ distinct_keys v /\ serialize CborModel.cbor_writer v = Ok b /\ CborSpec.item_ok it /\ definite it /\ cb_meaning it = Some v /\
     zlen b = 5 /\ zlen (CborSpec.enc it) = 3) /\
  (exists v b it, val_ok v /\ no_f16 v /\ distinct_keys v /\ serialize CborModel.cbor_writer v = Ok b /\ CborSpec.item_ok it /\ cb_meaning it = Some v /\
     zlen b = 259 /\ zlen (CborSpec.enc it) = 258).
Proof.
  split.
  - exists (VDbl 4607182418800017408), (250 :: CborModel.put_be 4 1065353216), (CborSpec.CF16 15360). split; [unfold val_ok, is_u64, u64_max; lia|].
    split; [split; exact I|]. split; [vm_compute; reflexivity|]. split; [unfold CborSpec.item_ok; cbn [CborSpec.item_in]; lia|]. split; [exact I|]. repeat split.
  - exists (VArr (repeat VNull 256)). eexists. exists (CborSpec.CArrI (repeat (CborSpec.CSimple 22) 256)). 
    split; [apply val_ok_arr, Forall_forall; intros y H; apply repeat_spec in H; now subst y|].
    split; [apply every_arr; split; [exact I|]; apply Forall_forall; intros y H; apply repeat_spec in H; subst y; split; exact I|].
    split; [apply every_arr; split; [exact I|]; apply Forall_forall; intros y H; apply repeat_spec in H; subst y; split; exact I|].
    split; [vm_compute; reflexivity|]. split; [apply CborFacts.item_in_arrI, Forall_forall; intros y H; apply repeat_spec in H; subst y; cbn [CborSpec.item_in]; lia|].
    split; [vm_compute; reflexivity|]. split; vm_compute; reflexivity.
Qed.

(** A NaN that is not the default one takes 9 bytes, as a 32-bit float 5. *)
Theorem C82_cbor_nan_refuted : exists v b it, val_ok v /\ distinct_keys v /\ serialize CborModel.cbor_writer v = Ok b /\ CborSpec.item_ok it /\ definite it /\ cb_meaning it = Some v /\
  (forall y, v <> VDbl (f16_to_f64 y)) /\ zlen b = 9 /\ zlen (CborSpec.enc it) = 5.
Proof.
  exists (VDbl (f32_to_f64 2143289345)), (251 :: CborModel.put_be 8 (f32_to_f64 2143289345)), (CborSpec.CF32 2143289345). split; [vm_compute; split; discriminate|].
  split; [split; exact I|]. split; [vm_compute; reflexivity|]. split; [unfold CborSpec.item_ok; cbn [CborSpec.item_in]; lia|]. split; [exact I|]. split; [reflexivity|].
  split; [|repeat split]. intros y E. apply (f_equal (fun v => match v with VDbl x => f64_man x mod 2^42 | _ => 0 end)) in E. cbv beta match in E. rewrite ShortCbor.half_mantissa in E. vm_compute in E. discriminate E.
Qed.
Lemma zeros n : 0 <= n -> exists z, zlen z = n /\ bytes_ok z.
Proof. intros H. exists (repeat 0 (Z.to_nat n)). split; [rewrite zlen_repeat; lia|]. apply Forall_forall. intros y I. apply repeat_spec in I. subst y. unfold is_byte. lia. Qed.
(** A blob of 4 GiB takes 9 bytes besides its content, in two chunks 8. *)
Theorem C82_cbor_chunks_refuted : exists v b it, val_ok v /\ no_f16 v /\ distinct_keys v /\ serialize CborModel.cbor_writer v = Ok b /\ CborSpec.item_ok it /\ cb_meaning it = Some v /\
  zlen b = 2^32 + 9 /\ zlen (CborSpec.enc it) = 2^32 + 8.
Proof.
  destruct (zeros (2^32 - 1) ltac:(lia)) as (z & L & B).
  assert (B' : bytes_ok (z ++ [0])) by (apply Forall_app; split; [exact B|]; repeat constructor; unfold is_byte; lia). assert (L' : zlen (z ++ [0]) = 2^32) by (rewrite zlen_app, L; reflexivity).
  exists (VBlob (z ++ [0])), (CborSpec.enc (CborMain.item_of (VBlob (z ++ [0])))), (CborSpec.CBytesI [(CborSpec.A4, z); (CborSpec.A0, [0])]).
  split; [exact B'|]. split; [split; exact I|]. split; [split; exact I|]. split; [apply CborMain.cbor_serialize; [exact B'|split; [exact I|vm_compute; discriminate]]|].
  split; [unfold CborSpec.item_ok; cbn [CborSpec.item_in]; constructor; [split; [exact B|cbn [fst snd CborSpec.arg_cap]; rewrite L; lia]|constructor; [split; [repeat constructor; unfold is_byte; lia|vm_compute; reflexivity]|constructor]]|].
  split; [cbn [cb_meaning flat_map snd]; now rewrite app_nil_r|].
  split.
  - cbn [CborMain.item_of CborSpec.enc]. rewrite zlen_app, CborFacts.zlen_hdr, L'. reflexivity.
  - cbn [CborSpec.enc flat_map CborSpec.chunk fst snd]. unfold CborSpec.chunk. cbn [fst snd]. rewrite !zlen_app, !CborFacts.zlen_hdr, L. reflexivity.
Qed.

(** A value with something of everything, 0.1 among it, and longer encodings of it. *)
Definition short_demo : val := VMap [([107], VArr [VInt (-5); VUInt 300; VDbl 4591870180066957722; VStr [104; 105]; VBlob [1]; VNull; VBool true])].
Definition long_msg : MsgSpec.item := MsgSpec.MMap MsgSpec.F32 [(MsgSpec.MStr MsgSpec.F16 [107], MsgSpec.MArr MsgSpec.F16
  [MsgSpec.MSInt I64 (-5); MsgSpec.MSInt I16 300; MsgSpec.MF64 4591870180066957722; MsgSpec.MStr MsgSpec.F8 [104; 105]; MsgSpec.MBin MsgSpec.F16 [1]; MsgSpec.MNil; MsgSpec.MBool true])].
Definition long_cbor : CborSpec.item := CborSpec.CMapI [(CborSpec.CTextI [(CborSpec.A1, [107])], CborSpec.CArrI
  [CborSpec.CNeg CborSpec.A4 4; CborSpec.CUInt CborSpec.A8 300; CborSpec.CF64 4591870180066957722; CborSpec.CText CborSpec.A2 [104; 105]; CborSpec.CBytesI [(CborSpec.A0, [1]); (CborSpec.A0, [])]; CborSpec.CSimple 22; CborSpec.CSimple 21])].
Lemma tenth_not_f32 y : 0 <= y < 2^32 -> f32_to_f64 y <> 4591870180066957722.
Proof. intros Hy E. pose proof (ShortCbor.widen_narrow y Hy) as W. rewrite E in W. apply W; [vm_compute; discriminate|vm_compute; reflexivity]. Qed.
Lemma tenth_not_f16 y : f16_to_f64 y <> 4591870180066957722.
Proof. intros E. apply (f_equal (fun x => f64_man x mod 2^42)) in E. cbv beta in E. rewrite ShortCbor.half_mantissa in E. vm_compute in E. discriminate E. Qed.
Example C82_msgpack_example : val_ok short_demo /\ no_f32 short_demo /\ distinct_keys short_demo /\ MsgSpec.item_ok long_msg /\
  (exists x, mp_meaning long_msg = Some x /\ same_value short_demo x /\ x <> short_demo) /\ zlen (MsgSpec.enc long_msg) = 43 /\ exists b, serialize MsgModel.mp_writer short_demo = Ok b /\ zlen b = 25.
Proof.
  split; [unfold short_demo; okay|]. split; [cbn; repeat split; exact tenth_not_f32|]. split; [cbn; repeat split; repeat constructor; intros []|].
  split; [unfold MsgSpec.item_ok; cbn [MsgSpec.item_in long_msg MsgSpec.seq_cap MsgSpec.str_cap MsgSpec.bin_cap]; unfold smin, smax, ibits; repeat split; try (repeat constructor; unfold is_byte; lia); try lia; vm_compute; reflexivity|].
  split; [eexists; split; [reflexivity|split; [reflexivity|discriminate]]|]. split; [vm_compute; reflexivity|]. eexists. split; vm_compute; reflexivity.
Qed.
Example C82_cbor_example : val_ok short_demo /\ no_f16 short_demo /\ distinct_keys short_demo /\ compact short_demo /\ CborSpec.item_ok long_cbor /\
  (exists x, cb_meaning long_cbor = Some x /\ same_value short_demo x /\ x <> short_demo) /\ zlen (CborSpec.enc long_cbor) = 44 /\ exists b, serialize CborModel.cbor_writer short_demo = Ok b /\ zlen b = 24.
Proof.
  split; [unfold short_demo; okay|]. split; [unfold no_f16, short_demo; cbn [every]; repeat (split; try exact I); [intros; apply tenth_not_f16|intros _; exact tenth_not_f32]|].
  split; [cbn; repeat split; repeat constructor; intros []|]. split; [unfold compact, short_demo; cbn [every]; repeat (split; try exact I); repeat constructor|].
  split; [unfold CborSpec.item_ok; cbn [CborSpec.item_in long_cbor]; repeat split; cbn [CborSpec.arg_cap]; try (repeat constructor; cbn [fst snd CborSpec.arg_cap]; unfold is_byte; try lia; vm_compute; reflexivity); try lia; vm_compute; reflexivity|].
  split; [eexists; split; [reflexivity|split; [reflexivity|discriminate]]|]. split; [vm_compute; reflexivity|]. eexists. split; vm_compute; reflexivity.
Qed.

Print Assumptions C82_msgpack_shortest_partial.
Print Assumptions C82_cbor_shortest_partial.
Print Assumptions C82_msgpack_double_refuted.
Print Assumptions C82_msgpack_repeated_key_refuted.
Print Assumptions C82_cbor_refuted.
Print Assumptions C82_cbor_nan_refuted.
Print Assumptions C82_cbor_chunks_refuted.
