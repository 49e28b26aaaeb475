(** Properties_MeanC.v -- C80 for CBOR: what a message says is what RFC 8949 says it stands for. *)

From Coq Require Import ZArith List Bool Lia ZifyBool ZifyNat.
From Verif Require Import Base BaseFacts Spec SpecFacts CborModel CborSpec CborFacts CborRead TransModel TransSpec TransFacts SaysSpec SaysFacts MeanFacts MeanCSpec MeanCbor SoundSpec SoundCbor.
Import ListNotations.
Open Scope Z_scope.

(** A message beginning with an item of the common kind, in whatever widths it was encoded and whatever follows it, is read as the value of
    that item and as no other.  [hard] and the last condition: an empty string at the very end of the buffer, with hardened spans. *)
Theorem C80_cbor_read_partial : forall hard fuel it suf x, item_plain it -> cb_common it -> zlen (enc it ++ suf) < 2^63 -> zlen (enc it ++ suf) < Z.of_nat fuel ->
  hard = false \/ ends_empty it = false \/ suf <> [] ->
  says (cbor_reader hard fuel) (cb_open (enc it ++ suf)) x <-> cb_meaning it = Some x.
Proof. intros hard fuel it suf x IP CM HB HF H. apply item_says; auto. apply at_start; [now apply item_in_mono in IP|exact H]. Qed.

(** Two encodings of one value are copied to the same document. *)
Theorem C80_cbor_widths_partial : forall it it' suf suf' x, item_plain it -> item_plain it' -> cb_common it -> cb_common it' -> zlen (enc it ++ suf) < 2^63 -> zlen (enc it' ++ suf') < 2^63 ->
  cb_meaning it = Some x -> cb_meaning it' = Some x -> forall S O V' (W : writer S O) (open : O -> res V'), exists n, forall fuel, (n <= fuel)%nat ->
  translate (cbor_reader false fuel) W open fuel (cb_open (enc it ++ suf)) = translate (cbor_reader false fuel) W open fuel (cb_open (enc it' ++ suf')).
Proof.
  intros it it' suf suf' x O1 O2 C1 C2 L1 L2 M1 M2 S O V' W open.
  exists (Datatypes.S (height x + Z.to_nat (zlen (enc it ++ suf)) + Z.to_nat (zlen (enc it' ++ suf')))). intros fuel F.
  apply (C80_cbor_read_partial false fuel it suf x O1 C1 L1) in M1; [|lia|auto]. apply (C80_cbor_read_partial false fuel it' suf' x O2 C2 L2) in M2; [|lia|auto].
  rewrite (says_translates _ _ open x _ M1 fuel ltac:(lia)), (says_translates _ _ open x _ M2 fuel ltac:(lia)). reflexivity.
Qed.

(** The other items are not read as what they stand for.  Integers from 2^63 on are read as negative numbers; *)
Theorem C80_cbor_large_refuted : forall hard fuel f n suf x, 2^63 <= n < arg_cap f -> zlen (enc (CUInt f n) ++ suf) < 2^63 ->
  cb_meaning (CUInt f n) = Some (VUInt n) /\ (says (cbor_reader hard fuel) (cb_open (enc (CUInt f n) ++ suf)) x <-> x = VInt (n - 2^64)).
Proof.
  intros hard fuel f n suf x N HB. cbn [cb_meaning]. replace (n <? 2^63) with false by lia. split; [reflexivity|].
  assert (IO : item_ok (CUInt f n)) by (unfold item_ok; cbn [item_in]; lia). apply large_says with (f := f); auto; [lia|]. apply at_start; [exact IO|auto].
Qed.
(** strings in chunks are not read at all (translate reads strings as views), *)
Theorem C80_cbor_chunked_refuted : forall hard fuel l suf x, chunks_ok l ->
  (zlen (enc (CTextI l) ++ suf) < 2^63 -> cb_meaning (CTextI l) = Some (VStr (flat_map snd l)) /\ ~ says (cbor_reader hard fuel) (cb_open (enc (CTextI l) ++ suf)) x) /\
  (zlen (enc (CBytesI l) ++ suf) < 2^63 -> cb_meaning (CBytesI l) = Some (VBlob (flat_map snd l)) /\ ~ says (cbor_reader hard fuel) (cb_open (enc (CBytesI l) ++ suf)) x).
Proof.
  intros hard fuel l suf x C. split; intros HB; (split; [reflexivity|]).
  - assert (IO : item_ok (CTextI l)) by exact C. apply (chunked_silent hard fuel _ HB (CTextI l) l); [left; reflexivity|exact IO|]. apply at_start; [exact IO|auto].
  - assert (IO : item_ok (CBytesI l)) by exact C. apply (chunked_silent hard fuel _ HB (CBytesI l) l); [right; reflexivity|exact IO|]. apply at_start; [exact IO|auto].
Qed.
(** and so are maps of indefinite length (mapKeys runs past the last key). *)
Theorem C80_cbor_indefinite_map_refuted : forall hard fuel l suf x, item_ok (CMapI l) -> zlen (enc (CMapI l) ++ suf) < 2^63 -> zlen (enc (CMapI l) ++ suf) < Z.of_nat fuel ->
  cb_meaning (CMapI l) = cb_meaning (CMap A8 l) /\ ~ says (cbor_reader hard fuel) (cb_open (enc (CMapI l) ++ suf)) x.
Proof. intros hard fuel l suf x IO HB HF. split; [reflexivity|]. apply (indef_map_silent hard fuel _ HB HF l); [exact IO|]. apply at_start; [exact IO|auto]. Qed.

Ltac yes := split; [eexists; split; [reflexivity|vm_compute; reflexivity]|
  intros m q L N; repeat (destruct m as [|m]; [cbn in N; injection N as <-; vm_compute; reflexivity|]); exfalso; lia].
(** Conversely, not everything that is read is CBOR: the byte 0x1f, which begins no item, is read as the integer 0. *)
Theorem C80_cbor_sound_refuted : says (cbor_reader false 2) (cb_open [31]) (VInt 0) /\ ~ exists it suf, item_ok it /\ [31] = enc it ++ suf.
Proof.
  split; [split; [yes|vm_compute; reflexivity]|]. intros (it & suf & OK & E).
  assert (H : has [31] 0 (enc it)) by (rewrite E; apply has_app_l, has_self). destruct (item_head it _ _ OK H) as [HD _].
  assert (E' : read_head [31] 0 = Ok (mkHead 0 31 0 1 true)) by (vm_compute; reflexivity). assert (X : hd_of it = mkHead 0 31 0 1 true) by congruence.
  destruct it; try discriminate X.
Qed.

(** Apart from those two bytes (0x3f is read as -1), from lengths near 2^64 and from repeated keys, what is read is what an item at the beginning of the
    message stands for: the messages read as [x] are exactly the encodings of [x] by items of the common kind. *)
Theorem C80_cbor_sound_partial : forall hard fuel b x, bytes_ok b -> zlen b < 2^63 -> zlen b < Z.of_nat fuel -> no_large b -> distinct_keys x ->
  (forall w, leads (cbor_reader hard fuel) (cb_open b) w -> rd (cv_buf w) (cv_pos w) <> Ok 31 /\ rd (cv_buf w) (cv_pos w) <> Ok 63) ->
  says (cbor_reader hard fuel) (cb_open b) x <->
  exists it suf, item_plain it /\ cb_common it /\ b = enc it ++ suf /\ (hard = false \/ ends_empty it = false \/ suf <> []) /\ cb_meaning it = Some x.
Proof.
  intros hard fuel b x B HB HF NL D OD. split.
  - intros SY. destruct (stands_sound hard fuel b HB HF B NL x 0 ltac:(lia) D (fun q L => OD (mkCView b q) L) SY) as (it & IP & C & ST & M).
    assert (H := sits_has _ _ _ _ ST). destruct (has_split _ _ _ H) as (pre & suf & E & L). apply zlen_0 in L. subst pre. cbn [app] in E.
    exists it, suf. split; [exact IP|]. split; [exact C|]. split; [exact E|]. split; [|exact M]. destruct ST as (_ & _ & _ & [R|[R|R]]); auto. right. right. intros ->. rewrite E, app_nil_r in R. lia.
  - intros (it & suf & IP & C & E & R & M). subst b. now apply C80_cbor_read_partial.
Qed.
(** A repeated key hides a value that is no CBOR: both occurrences are looked up by name. *)
Theorem C80_cbor_repeated_key_refuted : let b := [162; 97; 97; 1; 97; 97; 28] in
  says (cbor_reader true 9) (cb_open b) (VMap [([97], VInt 1); ([97], VInt 1)]) /\ ~ exists it suf, item_plain it /\ b = enc it ++ suf.
Proof.
  cbv zeta. split.
  - split; [yes|]. split; [vm_compute; reflexivity|]. split; [|split; [|exact I]]; (eexists; split; [vm_compute; reflexivity|split; [yes|vm_compute; reflexivity]]).
  - intros (it & suf & OK & E). assert (H : has [162; 97; 97; 1; 97; 97; 28] 0 (enc it)) by (rewrite E; apply has_app_l, has_self).
    pose proof (sk 9 [162; 97; 97; 1; 97; 97; 28] ltac:(vm_compute; reflexivity) ltac:(vm_compute; reflexivity) it 0 OK H) as S. assert (T : skip 9 [162; 97; 97; 1; 97; 97; 28] 0 = Throw EDeser) by (vm_compute; reflexivity). congruence.
Qed.
(** A length near 2^64 takes the iteration over the keys back to where it was: of the two announced entries, one is read. *)
Theorem C80_cbor_large_length_refuted : let b := [162; 97; 97; 1; 0; 123; 255; 255; 255; 255; 255; 255; 255; 246] in
  says (cbor_reader true 20) (cb_open b) (VMap [([97], VInt 1)]) /\ ~ exists it suf, item_plain it /\ b = enc it ++ suf.
Proof.
  set (b := [162; 97; 97; 1; 0; 123; 255; 255; 255; 255; 255; 255; 255; 246]). cbv zeta. split.
  - split; [yes|]. split; [vm_compute; reflexivity|]. split; [|exact I]. eexists; split; [vm_compute; reflexivity|split; [yes|vm_compute; reflexivity]].
  - intros (it & suf & OK & E). assert (H : has b 0 (enc it)) by (rewrite E; apply has_app_l, has_self). assert (IO := plain_ok it OK).
    pose proof (sk 20 b ltac:(vm_compute; reflexivity) ltac:(vm_compute; reflexivity) it 0 OK H) as S. assert (S4 : skip 20 b 0 = Ok 4) by (vm_compute; reflexivity).
    assert (L : zlen (enc it) = 4) by (rewrite S4 in S; injection S as S; lia). destruct (item_head it b 0 IO H) as [HD _].
    assert (E' : read_head b 0 = Ok (mkHead 5 2 2 1 false)) by (vm_compute; reflexivity). assert (X : hd_of it = mkHead 5 2 2 1 false) by congruence.
    destruct it; try discriminate X. cbn [hd_of] in X. injection X as _ XN _. unfold item_ok in IO. apply item_in_map in IO. destruct IO as [_ IO]. cbn [enc] in L. rewrite zlen_app, zlen_hdr in L. pose proof (hlen_pos f).
    destruct l as [|[k1 x1] [|[k2 x2] [|]]]; try (rewrite !zlen_cons in XN; try pose proof (zlen_nonneg l); rewrite ?zlen_nil in XN; lia); try discriminate XN.
    inversion IO as [|? ? [O1 O2] IO']; subst. inversion IO' as [|? ? [O3 O4] _]; subst. cbn [flat_map fst snd] in *. rewrite !zlen_app in L.
    pose proof (enc_pos _ O1). pose proof (enc_pos _ O2). pose proof (enc_pos _ O3). pose proof (enc_pos _ O4). pose proof (zlen_nonneg (@nil Z)). lia.
Qed.

(** ** A concrete case: {"a": [_ 300, "hi", 1.5, true]} with the key in two chunks, an array of indefinite length, a 64-bit integer and a half float. *)
Definition c80_cbor : item :=
  CMap A1 [(CTextI [(A0, [97]); (A0, [])], CArrI [CUInt A8 300; CText A0 [104; 105]; CF16 15872; CSimple 21])].
Example C80_cbor_case : item_plain c80_cbor /\ cb_common c80_cbor /\
  enc c80_cbor = [184; 1; 127; 97; 97; 96; 255; 159; 27; 0; 0; 0; 0; 0; 0; 1; 44; 98; 104; 105; 249; 62; 0; 245; 255] /\
  cb_meaning c80_cbor = Some (VMap [([97], VArr [VInt 300; VStr [104; 105]; VDbl 4609434218613702656; VBool true])]) /\
  (* the same value, plainly encoded *)
  cb_meaning (CMap A0 [(CText A0 [97], CArr A0 [CUInt A2 300; CText A0 [104; 105]; CF64 4609434218613702656; CSimple 21])]) = cb_meaning c80_cbor.
Proof.
  split; [|split; [|split; [|split]]]; try (vm_compute; reflexivity).
  - unfold c80_cbor, item_plain. cbn. unfold chunks_ok, zlen. cbn. repeat split; try lia; okay.
  - unfold c80_cbor. cbn. repeat split; lia.
Qed.
Example C80_cbor_large_case : cb_meaning (CUInt A8 (2^63)) = Some (VUInt (2^63)) /\ says (cbor_reader true 10) (cb_open (enc (CUInt A8 (2^63)))) (VInt (- 2^63)).
Proof. split; [reflexivity|]. apply (C80_cbor_large_refuted true 10 A8 (2^63) [] (VInt (- 2^63))); [cbn; lia|reflexivity|reflexivity]. Qed.

(** The conditions of the soundness theorem hold of that message: no byte 0x1f or 0x3f occurs, and no eight-byte argument begins with a byte from 0x80 on. *)
Example C80_cbor_sound_case : let b := [184; 1; 127; 97; 97; 96; 255; 159; 27; 0; 0; 0; 0; 0; 0; 1; 44; 98; 104; 105; 249; 62; 0; 245; 255] in
  bytes_ok b /\ no_large b /\ (forall w, leads (cbor_reader true 100) (cb_open b) w -> rd (cv_buf w) (cv_pos w) <> Ok 31 /\ rd (cv_buf w) (cv_pos w) <> Ok 63) /\
  distinct_keys (VMap [([97], VArr [VInt 300; VStr [104; 105]; VDbl 4609434218613702656; VBool true])]) /\
  says (cbor_reader true 100) (cb_open b) (VMap [([97], VArr [VInt 300; VStr [104; 105]; VDbl 4609434218613702656; VBool true])]).
Proof.
  cbv zeta. split; [repeat constructor; unfold is_byte; lia|]. split; [apply args_low_ok; reflexivity|]. split; [|split].
  - intros w L. rewrite (leads_buf _ _ _ _ L). cbn [cb_open cv_buf]. split; apply no_byte; cbn; lia.
  - unfold distinct_keys. cbn. repeat constructor. intros [].
  - destruct C80_cbor_case as (OK & C & E & M & _). pose proof (C80_cbor_read_partial true 100 c80_cbor [] (VMap [([97], VArr [VInt 300; VStr [104; 105]; VDbl 4609434218613702656; VBool true])]) OK C) as RD.
    rewrite app_nil_r, E in RD. apply RD; [reflexivity|reflexivity|right; left; reflexivity|exact M].
Qed.

Print Assumptions C80_cbor_read_partial.
Print Assumptions C80_cbor_widths_partial.
Print Assumptions C80_cbor_large_refuted.
Print Assumptions C80_cbor_chunked_refuted.
Print Assumptions C80_cbor_indefinite_map_refuted.
Print Assumptions C80_cbor_sound_refuted.
Print Assumptions C80_cbor_sound_partial.
Print Assumptions C80_cbor_repeated_key_refuted.
Print Assumptions C80_cbor_large_length_refuted.
