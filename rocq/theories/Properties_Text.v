(** Properties_Text.v -- C63, C64: to_string() of the readers.

    [fl] is the text std::ostream prints for a double; the theorems hold whatever it is. *)

From Coq Require Import ZArith List Bool String Lia.
From Verif Require Import Base BaseFacts Spec SpecFacts TextSpec TextModel TextZera TextInj TextMain TextCbor
  ZeraModel ZeraSpec ZeraSafe MsgModel MsgSpec FlexModel FlexSpec FlexFacts CborModel.
From Verif Require ZeraHist CborSpec TextSafe TextSafeC.
Import ListNotations.
Open Scope Z_scope.

Definition tdemo : val :=
  VMap [([107; 34; 10], VArr [VNull; VBool true; VInt (-5); VUInt (2^63); VStr [97; 92; 1]; VBlob [0; 255]; VArr []]);
        ([122], VDbl 4611686018427387904)].
Lemma tdemo_ok : val_ok tdemo.
Proof. unfold tdemo. okay. Qed.

(** ** C63: the dump of a serialized message is the dump of the value *)

(** MessagePack: the layout of [pretty], strings and keys escaped as in JSON. *)
Theorem C63_msgpack_text : forall fl v, val_ok v -> lengths_below (2^32 - 5) v ->
  exists b n, serialize mp_writer v = Ok b /\
    forall fuel, (n <= fuel)%nat -> mp_to_string fl fuel (mp_open b) = Ok (pretty (colon_leaf fl escaped) escaped 0 v).
Proof. exact mp_text. Qed.
Print Assumptions C63_msgpack_text.
Example C63_msgpack_case : val_ok tdemo /\ lengths_below (2^32 - 5) tdemo /\
  pretty (colon_leaf (fun _ => txt "2") escaped) escaped 0 tdemo = txt
"map {
  ""k\""\n"": arr [
    null: null,
    bool: true,
    int: -5,
    uint: 9223372036854775808,
    str: ""a\\\u0001"",
    bin[size=2],
    arr [
    ]
  ],
  ""z"": float: 2
}".
Proof.
  split; [exact tdemo_ok|]. split; [|vm_compute; reflexivity].
  unfold tdemo, lengths_below. cbn. repeat split; repeat constructor; cbn; lia.
Qed.

(** FlexBuffers: maps in key order. *)
Theorem C63_flex_text : forall fl dbg srt v, sorts srt -> val_ok v -> flex_ok v ->
  exists b, serialize (flex_writer dbg srt) v = Ok b /\
    fx_to_string fl (flex_open b) = txt "Flex " ++ pretty (bar_leaf fl as_written escaped) escaped 0 (in_key_order v).
Proof. exact flex_text. Qed.
Print Assumptions C63_flex_text.
Example C63_flex_case : sorts (@by_key fx) /\ val_ok tdemo /\ flex_ok tdemo.
Proof.
  split; [apply by_key_sorts|]. split; [exact tdemo_ok|]. unfold tdemo, flex_ok. cbn.
  repeat split; repeat constructor; cbn; intuition discriminate.
Qed.

(** ZERA: a one-line summary. *)
Theorem C63_zera_text : forall fl v, val_ok v -> zera_fits v ->
  exists b w, serialize zera_writer v = Ok b /\ zera_open b = Ok w /\ zv_to_string fl w = Ok (summary fl v).
Proof.
  intros fl v V F. destruct (ZeraHist.round_trip v V F) as (b & w & S & O & SH). exists b, w. repeat split; auto. now apply zera_text.
Qed.
Print Assumptions C63_zera_text.
Example C63_zera_case : val_ok tdemo /\ zera_fits tdemo /\ summary (fun _ => []) (VArr [tdemo; tdemo]) = txt "Zera(arr[n=2])".
Proof. split; [exact tdemo_ok|]. split; [vm_compute; intuition congruence|reflexivity]. Qed.

(** CBOR.  Full statement: as above for every serializable value.  Proved when no map is empty, every array inside an
    array root is as long as the root, and a map root holds no array; strings are printed unescaped.  (The first
    alternative of the fifth hypothesis is a standard library that does not check [&buf_[size()]].) *)
Theorem C63_cbor_text_partial : forall fl hard fuel v b, val_ok v -> serialize cbor_writer v = Ok b -> zlen b < 2^63 ->
  zlen b < Z.of_nat fuel -> hard = false \/ CborSpec.last_empty v = false -> dumpable v v ->
  (forall l, v = VMap l -> has_array v = false) ->
  c_to_string fl hard fuel (cb_open b) = Ok (pretty (bar_leaf fl by_sign plain) plain 0 v).
Proof. exact cbor_text. Qed.
Print Assumptions C63_cbor_text_partial.
Definition cdemo : val := VArr [VArr [VStr [97; 98]; VInt (-3)]; VMap [([107], VArr [VUInt 5; VNull])]].
Example C63_cbor_case : exists b, val_ok cdemo /\ serialize cbor_writer cdemo = Ok b /\ zlen b < 2^63 /\ zlen b < Z.of_nat 100 /\
  CborSpec.last_empty cdemo = false /\ dumpable cdemo cdemo /\ (forall l, cdemo = VMap l -> has_array cdemo = false).
Proof.
  eexists. split; [unfold cdemo; okay|]. split; [vm_compute; reflexivity|]. repeat split; try reflexivity; try discriminate.
  all: cbn; intros m; injection 1 as <-; reflexivity.
Qed.

(** Every message that is a map with an array somewhere below it (and no empty map) makes to_string throw. *)
Theorem C63_cbor_map_with_array_refuted : forall fl hard fuel l b, val_ok (VMap l) -> serialize cbor_writer (VMap l) = Ok b ->
  zlen b < 2^63 -> zlen b < Z.of_nat fuel -> hard = false \/ CborSpec.last_empty (VMap l) = false ->
  every (fun v => v <> VMap []) (VMap l) -> has_array (VMap l) = true ->
  c_to_string fl hard fuel (cb_open b) = Throw EDeser.
Proof. exact cbor_text_throws. Qed.
Print Assumptions C63_cbor_map_with_array_refuted.
Example C63_cbor_map_with_array_case : exists b, serialize cbor_writer (VMap [([97], VArr [VInt 1])]) = Ok b /\
  every (fun v => v <> VMap []) (VMap [([97], VArr [VInt 1])]) /\ has_array (VMap [([97], VArr [VInt 1])]) = true.
Proof. eexists. repeat split; try discriminate; vm_compute; reflexivity. Qed.

(** The text of a CBOR message. *)
Definition cbor_says (v : val) : res bytes :=
  match serialize cbor_writer v with Ok b => c_to_string (fun _ => []) false 40 (cb_open b) | r => r end.
(** An empty map throws, or swallows what follows it; an array inside an array prints as many elements as the outer
    one has; strings can imitate structure.  In each line two different messages print the same text. *)
Theorem C63_cbor_text_refuted :
  cbor_says (VMap []) = Throw EDeser /\
  (exists t, cbor_says (VArr [VMap []; VStr [97]; VInt 1]) = Ok t /\ cbor_says (VArr [VMap [([97], VInt 1)]; VStr [97]; VInt 1]) = Ok t) /\
  (exists t, cbor_says (VArr [VArr [VInt 1; VInt 2; VInt 3]]) = Ok t /\ cbor_says (VArr [VArr [VInt 1]]) = Ok t) /\
  (exists t, cbor_says (VArr [VStr [97]; VStr [98]]) = Ok t /\ cbor_says (VArr [VStr (txt "a"",
  str|""b")]) = Ok t).
Proof. repeat split; try (eexists; split); vm_compute; reflexivity. Qed.
Print Assumptions C63_cbor_text_refuted.

(** *** The dumps with escapes identify the message

    Escaping loses nothing: a JSON decoder returns the string. *)
Theorem C63_escape_round_trip : forall s, bytes_ok s -> esc s = escaped s /\ json_unescape (escaped s) = Some s.
Proof. intros s H. split; [now apply TextFacts.esc_spec|now apply TextFacts.unescape_escaped]. Qed.
Print Assumptions C63_escape_round_trip.
Example C63_escape_case : escaped [34; 92; 10; 31; 195; 169] = txt "\""\\\n\u001f" ++ [195; 169].
Proof. reflexivity. Qed.

(** Full statement: different values print different texts.  Missing: doubles (rounded to six digits by std::ostream) and
    what [alike] leaves open, the contents of blobs and which call wrote an integer. *)
Theorem C63_msgpack_text_identifies_partial : forall fl v w a b n, val_ok v -> val_ok w ->
  lengths_below (2^32 - 5) v -> lengths_below (2^32 - 5) w -> no_doubles v -> no_doubles w ->
  serialize mp_writer v = Ok a -> serialize mp_writer w = Ok b ->
  (forall fuel, (n <= fuel)%nat -> mp_to_string fl fuel (mp_open a) = mp_to_string fl fuel (mp_open b)) -> alike v w.
Proof. exact mp_text_determines. Qed.
Print Assumptions C63_msgpack_text_identifies_partial.
Theorem C63_flex_text_identifies_partial : forall fl dbg srt v w a b, sorts srt -> val_ok v -> val_ok w -> flex_ok v -> flex_ok w ->
  no_doubles v -> no_doubles w -> serialize (flex_writer dbg srt) v = Ok a -> serialize (flex_writer dbg srt) w = Ok b ->
  fx_to_string fl (flex_open a) = fx_to_string fl (flex_open b) -> alike (in_key_order v) (in_key_order w).
Proof. exact flex_text_determines. Qed.
Print Assumptions C63_flex_text_identifies_partial.
(** On the strings that fool the CBOR dump. *)
Example C63_identifies_case : ~ alike (VArr [VStr [97]; VStr [98]]) (VArr [VStr [97; 34; 44; 10; 32; 32; 115; 116; 114; 124; 34; 98]]) /\
  alike (VArr [VInt 3; VBlob [1]]) (VArr [VUInt 3; VBlob [2]]).
Proof. cbn. intuition discriminate. Qed.
(** Blobs of equal size do print the same. *)
Theorem C63_blob_contents_refuted : forall fl, exists a b, a <> b /\
  pretty (colon_leaf fl escaped) escaped 0 (VBlob a) = pretty (colon_leaf fl escaped) escaped 0 (VBlob b).
Proof. intros fl. exists [1], [2]. split; [discriminate|reflexivity]. Qed.
Print Assumptions C63_blob_contents_refuted.

(** ** C64: to_string on untrusted messages

    Full statement: for every buffer, to_string returns text or throws DeserializationError.  Proved for ZERA buffers below
    2^32-20 bytes, at every view reachable from the root; refuted for MessagePack and CBOR, and proved there for messages
    that are well formed (below). *)
Theorem C64_zera_to_string_safe_partial : forall fl b, bytes_ok b -> zlen b < 2^32 - 20 ->
  safe (fun v => forall w, reach zera_reader v w -> safe any (zv_to_string fl w)) (zera_open b).
Proof. exact zera_text_safe. Qed.
Print Assumptions C64_zera_to_string_safe_partial.
Example C64_zera_case : exists b v, serialize zera_writer tdemo = Ok b /\ bytes_ok b /\ zlen b < 2^32 - 20 /\ zera_open b = Ok v /\
  zv_to_string (fun _ => []) v = Ok (txt "Zera(map)").
Proof.
  do 2 eexists. split; [vm_compute; reflexivity|]. split; [okay|]. split; [vm_compute; reflexivity|]. split; [vm_compute; reflexivity|]. vm_compute; reflexivity.
Qed.
(** Two bytes of MessagePack (str8 of length 255 with no payload); one byte of CBOR (a byte string of indefinite length). *)
Theorem C64_to_string_overread_refuted :
  mp_to_string (fun _ => []) 40 (mp_open [217; 255]) = UB /\
  (forall hard, c_to_string (fun _ => []) hard 40 (cb_open [95]) = UB).
Proof. split; [vm_compute; reflexivity|]. intros []; vm_compute; reflexivity. Qed.
Print Assumptions C64_to_string_overread_refuted.

(** MessagePack: every view of a message that skip() accepts, whoever wrote it; [safe] also says that the dump ends.
    Missing: messages that skip() rejects, and str32/bin32 of 2^32-5 bytes and more. *)
Theorem C64_msgpack_to_string_safe_partial : forall fl fuel b s, bytes_ok b -> no_huge b ->
  MsgModel.skip (mp_open b) = Ok s -> s <= zlen b -> zlen b < Z.of_nat fuel ->
  forall w, reach mp_reader (mp_open b) w -> safe any (mp_to_string fl fuel w).
Proof. exact TextSafe.mp_text_safe. Qed.
Print Assumptions C64_msgpack_to_string_safe_partial.
(** [[{1: "a"}], {"k": "b"}]: the first element cannot be printed because of its integer key, the second can. *)
Definition foreign : bytes := [146; 145; 129; 1; 161; 97; 129; 161; 107; 161; 98].
Example C64_msgpack_case : bytes_ok foreign /\ no_huge foreign /\ MsgModel.skip (mp_open foreign) = Ok 11 /\ zlen foreign < Z.of_nat 12 /\
  mp_to_string (fun _ => []) 12 (mp_open foreign) = Throw EDeser /\
  exists w, reach mp_reader (mp_open foreign) w /\ mp_to_string (fun _ => []) 12 w = Ok (txt "map {
  ""k"": str: ""b""
}").
Proof.
  split; [okay|]. split.
  { intros p m n P M N E. exfalso. assert (IN : In m foreign).
    { unfold slice in E. rewrite <- (firstn_skipn (Z.to_nat p) foreign). apply in_or_app. right.
      rewrite <- (firstn_skipn (Z.to_nat 5) (skipn (Z.to_nat p) foreign)). apply in_or_app. left. rewrite E. now left. }
    cbn in IN. destruct M; subst; intuition discriminate. }
  do 3 (split; [vm_compute; reflexivity|]).
  eexists. split; [eapply reach_idx with (i := 1); [apply reach_here|lia|vm_compute; reflexivity]|vm_compute; reflexivity].
Qed.

(** CBOR: every view of a message that is one well-formed item (simple values below 24), whoever wrote it, in a build without
    library assertions.  dump_rec repeats the items that follow a nested array, but stays inside the message.
    Missing: messages that are not well formed, and bytes after the item (next theorem). *)
Theorem C64_cbor_to_string_safe_partial : forall fl fuel it, let b := CborSpec.enc it in
  CborSpec.item_plain it -> bytes_ok b -> zlen b < 2^63 -> zlen b < Z.of_nat fuel ->
  forall w, reach (cbor_reader false fuel) (cb_open b) w -> safe any (c_to_string fl false fuel w).
Proof. exact TextSafeC.cbor_text_safe. Qed.
Print Assumptions C64_cbor_to_string_safe_partial.
(** [[1], "a"]: the "a" is printed twice, once as an element of [1]. *)
Example C64_cbor_case : let it := CborSpec.CArr CborSpec.A0 [CborSpec.CArr CborSpec.A0 [CborSpec.CUInt CborSpec.A0 1]; CborSpec.CText CborSpec.A0 [97]] in
  let b := CborSpec.enc it in
  CborSpec.item_plain it /\ bytes_ok b /\ zlen b < 2^63 /\ zlen b < Z.of_nat 12 /\
  c_to_string (fun _ => []) false 12 (cb_open b) = Ok (txt "arr [
  arr [
    uint|1,
    str|""a""
  ],
  str|""a""
]").
Proof. cbv zeta. split; [cbn; okay|]. split; [okay|]. repeat (split; [vm_compute; reflexivity|]). vm_compute; reflexivity. Qed.
(** [1, []] and then the byte fb: a message that skip() accepts, and that every accessor reads as [1, []] (C73). *)
Theorem C64_cbor_trailing_refuted : let b := CborSpec.enc (CborSpec.CArr CborSpec.A0 [CborSpec.CUInt CborSpec.A0 1; CborSpec.CArr CborSpec.A0 []]) ++ [251] in
  skip 40 b 0 = Ok 3 /\ forall hard, c_to_string (fun _ => []) hard 40 (cb_open b) = UB.
Proof. cbv zeta. split; [vm_compute; reflexivity|]. intros []; vm_compute; reflexivity. Qed.
Print Assumptions C64_cbor_trailing_refuted.
