(** Properties_FoundC.v -- C83 for CBOR: an accessor that returns has found an item of its kind. *)

From Coq Require Import ZArith List Bool Lia ZifyBool ZifyNat.
From Verif Require Import Base BaseFacts Spec SpecFacts FloatModel FloatSpec CborModel CborSpec CborFacts SoundSpec CborSound FoundCbor.
Import ListNotations.
Open Scope Z_scope.

(** ** C83 (CBOR), for a view anywhere in the message: [pre] is what stands before it, [b] what begins there.  [item] and [enc] are the data items of RFC 8949
    and their bytes (CborSpec.v).  With the assertions of the standard library ([hard = true]) an empty string at the very end is not read (C20). *)

(** asString() returns the texts, in one piece or in chunks; asStringView() and asBlob() those in one piece; asBlobVec() byte strings of either form. *)
Theorem C83_cbor_string : forall hard fuel pre b s, bytes_ok (pre ++ b) -> zlen (pre ++ b) < 2^63 -> zlen (pre ++ b) < Z.of_nat fuel ->
  c_asString hard fuel (mkCView (pre ++ b) (zlen pre)) = Ok s <->
  exists it suf, item_plain it /\ text_of it = Some s /\ b = enc it ++ suf /\ (hard = false \/ ends_empty it = false \/ suf <> []).
Proof.
  intros hard fuel pre b s B HB HF. split.
  - intros H. destruct (asString_sound hard (pre ++ b) HB B fuel (zlen pre) s (zlen_nonneg pre) H) as (it & IP & T & ST). apply sits_end in ST. destruct ST as (suf & E & R). exists it, suf. auto.
  - intros (it & suf & IP & T & E & R). apply (asString_complete hard (pre ++ b) HB fuel (zlen pre) it s HF IP T). apply sits_end. eauto.
Qed.
Theorem C83_cbor_string_view : forall hard fuel pre b s, bytes_ok (pre ++ b) -> zlen (pre ++ b) < 2^63 ->
  r_asStringView (cbor_reader hard fuel) (mkCView (pre ++ b) (zlen pre)) = Ok s <->
  exists f suf, item_plain (CText f s) /\ b = enc (CText f s) ++ suf /\ (hard = false \/ s ++ suf <> []).
Proof.
  intros hard fuel pre b s B HB. split.
  - intros H. destruct (view_sound hard (pre ++ b) B 3 (zlen pre) s (or_intror eq_refl) (zlen_nonneg pre) H) as (f & BS & LS & HS & R). change (hdr 3 f (zlen s) ++ s) with (enc (CText f s)) in HS.
    apply has_at_end in HS. destruct HS as [suf ->]. exists f, suf. split; [split; assumption|]. split; [reflexivity|]. destruct R as [R|R]; [now left|right]. intros E. apply app_eq_nil in E. destruct E as [-> ->].
    cbn [enc] in R. rewrite !zlen_app, zlen_hdr, !zlen_nil in R. lia.
  - intros (f & suf & IP & E & R). destruct IP as [BS LS]. apply (view_complete hard (pre ++ b) HB 3 (zlen pre) f s (CText f s) (or_intror eq_refl) eq_refl eq_refl LS).
    apply sits_end. exists suf. split; [exact E|]. destruct R as [R|R]; [now left|right]. destruct s; [right; exact R|left; reflexivity].
Qed.
Theorem C83_cbor_blob : forall hard fuel pre b s, bytes_ok (pre ++ b) -> zlen (pre ++ b) < 2^63 ->
  r_asBlob (cbor_reader hard fuel) (mkCView (pre ++ b) (zlen pre)) = Ok s <->
  exists f suf, item_plain (CBytes f s) /\ b = enc (CBytes f s) ++ suf /\ (hard = false \/ s ++ suf <> []).
Proof.
  intros hard fuel pre b s B HB. split.
  - intros H. destruct (view_sound hard (pre ++ b) B 2 (zlen pre) s (or_introl eq_refl) (zlen_nonneg pre) H) as (f & BS & LS & HS & R). change (hdr 2 f (zlen s) ++ s) with (enc (CBytes f s)) in HS.
    apply has_at_end in HS. destruct HS as [suf ->]. exists f, suf. split; [split; assumption|]. split; [reflexivity|]. destruct R as [R|R]; [now left|right]. intros E. apply app_eq_nil in E. destruct E as [-> ->].
    cbn [enc] in R. rewrite !zlen_app, zlen_hdr, !zlen_nil in R. lia.
  - intros (f & suf & IP & E & R). destruct IP as [BS LS]. apply (view_complete hard (pre ++ b) HB 2 (zlen pre) f s (CBytes f s) (or_introl eq_refl) eq_refl eq_refl LS).
    apply sits_end. exists suf. split; [exact E|]. destruct R as [R|R]; [now left|right]. destruct s; [right; exact R|left; reflexivity].
Qed.
Theorem C83_cbor_blob_vector : forall hard fuel pre b s, bytes_ok (pre ++ b) -> zlen (pre ++ b) < 2^63 -> zlen (pre ++ b) < Z.of_nat fuel ->
  c_asBlobVec hard fuel (mkCView (pre ++ b) (zlen pre)) = Ok s <->
  exists it suf, item_plain it /\ blob_of it = Some s /\ b = enc it ++ suf /\ (hard = false \/ ends_empty it = false \/ suf <> []).
Proof.
  intros hard fuel pre b s B HB HF. split.
  - intros H. destruct (asBlobVec_sound hard (pre ++ b) HB B fuel (zlen pre) s (zlen_nonneg pre) H) as (it & IP & T & ST). apply sits_end in ST. destruct ST as (suf & E & R). exists it, suf. auto.
  - intros (it & suf & IP & T & E & R). apply (asBlobVec_complete hard (pre ++ b) HB fuel (zlen pre) it s HF IP T). apply sits_end. eauto.
Qed.
Theorem C83_cbor_bool : forall hard fuel pre b x, bytes_ok (pre ++ b) ->
  r_asBool (cbor_reader hard fuel) (mkCView (pre ++ b) (zlen pre)) = Ok x <-> exists suf, b = enc (CSimple (if x then 21 else 20)) ++ suf.
Proof. intros hard fuel pre b x B. rewrite <- (has_at_end pre b). exact (asBool_iff (pre ++ b) B (zlen pre) x (zlen_nonneg pre)). Qed.
Theorem C83_cbor_null : forall hard fuel pre b, bytes_ok (pre ++ b) ->
  r_isNull (cbor_reader hard fuel) (mkCView (pre ++ b) (zlen pre)) = Ok true <-> exists suf, b = enc (CSimple 22) ++ suf.
Proof. intros hard fuel pre b B. rewrite <- (has_at_end pre b). exact (isNull_iff (pre ++ b) B (zlen pre) (zlen_nonneg pre)). Qed.
Theorem C83_cbor_double : forall hard fuel pre b d, bytes_ok (pre ++ b) -> zlen (pre ++ b) < 2^63 ->
  r_asDouble (cbor_reader hard fuel) (mkCView (pre ++ b) (zlen pre)) = Ok d <->
  exists it suf, item_plain it /\ b = enc it ++ suf /\ ((exists x, it = CF16 x /\ d = f16_to_f64 x) \/ (exists x, it = CF32 x /\ d = f32_to_f64 x) \/ it = CF64 d).
Proof.
  intros hard fuel pre b d B HB. split.
  - intros H. destruct (asDouble_sound (pre ++ b) B (zlen pre) d (zlen_nonneg pre) H) as (it & IP & HS & K). apply has_at_end in HS. destruct HS as [suf E]. eauto.
  - intros (it & suf & IP & E & K). apply (asDouble_complete (pre ++ b) (zlen pre) it d IP); auto. apply has_at_end. eauto.
Qed.

(** The integer accessors return the integers that stand there, if they fit.  In addition the bytes 0x1f and 0x3f, which begin no item, are taken for 0 and -1,
    and signed accessors take an integer from 2^63 on for a negative one. *)
Theorem C83_cbor_int_partial : forall hard fuel pre b iw z, bytes_ok (pre ++ b) ->
  r_asInt (cbor_reader hard fuel) iw (mkCView (pre ++ b) (zlen pre)) = Ok z <->
  smin iw <= z <= smax iw /\
  ((exists f n suf, item_plain (CUInt f n) /\ b = enc (CUInt f n) ++ suf /\ z = to_signed 64 n) \/
   (exists f n suf, item_plain (CNeg f n) /\ b = enc (CNeg f n) ++ suf /\ z = -1 - n) \/
   (exists suf, b = 31 :: suf /\ z = 0) \/ (exists suf, b = 63 :: suf /\ z = -1)).
Proof.
  intros hard fuel pre b iw z B. cbn [cbor_reader r_asInt]. rewrite asInt_narrow, (asInt_iff (pre ++ b) B (zlen pre) z (zlen_nonneg pre)). split.
  - intros [[(f & n & IP & H & E)|[(f & n & IP & H & N & E)|[[H E]|[H E]]]] R].
    + apply has_at_end in H. destruct H as [suf H]. split; [|left; exists f, n, suf; auto]. destruct R as [-> |R]; [|exact R]. subst z. unfold to_signed. pose proof (Z.mod_pos_bound n (2^64) ltac:(lia)). destruct (n mod 2^64 <? 2^(64-1)) eqn:C; cbn in *; lia.
    + apply has_at_end in H. destruct H as [suf H]. split; [|right; left; eauto 6]. destruct R as [-> |R]; [|exact R]. unfold item_plain in IP. cbn [item_in] in IP. cbn. lia.
    + apply has_at_end in H. destruct H as [suf H]. split; [|right; right; left; eauto]. destruct R as [-> |R]; [|exact R]. cbn. lia.
    + apply has_at_end in H. destruct H as [suf H]. split; [|right; right; right; eauto]. destruct R as [-> |R]; [|exact R]. cbn. lia.
  - intros [R [(f & n & suf & IP & H & E)|[(f & n & suf & IP & H & E)|[(suf & H & E)|(suf & H & E)]]]]; (split; [|now right]).
    + left. exists f, n. split; [exact IP|]. split; [apply has_at_end; eauto|exact E].
    + right. left. exists f, n. split; [exact IP|]. split; [apply has_at_end; eauto|]. split; [|exact E]. destruct iw; cbn in R; lia.
    + right. right. left. split; [apply has_at_end; exists suf; exact H|exact E].
    + right. right. right. split; [apply has_at_end; exists suf; exact H|exact E].
Qed.
Theorem C83_cbor_uint_partial : forall hard fuel pre b iw n, bytes_ok (pre ++ b) ->
  r_asUInt (cbor_reader hard fuel) iw (mkCView (pre ++ b) (zlen pre)) = Ok n <->
  n <= umax iw /\ ((exists f suf, item_plain (CUInt f n) /\ b = enc (CUInt f n) ++ suf) \/ (exists suf, b = 31 :: suf /\ n = 0)).
Proof.
  intros hard fuel pre b iw n B. cbn [cbor_reader r_asUInt].
  assert (Q : forall x, c_asUInt64 (mkCView (pre ++ b) (zlen pre)) = Ok x -> 0 <= x < 2^64).
  { intros x H. apply (asUInt_iff (pre ++ b) B (zlen pre) x (zlen_nonneg pre)) in H. destruct H as [(f & IP & _)|[_ ->]]; [|lia]. unfold item_plain in IP. cbn [item_in] in IP. destruct f; cbn [arg_cap] in IP; lia. }
  rewrite (asUInt_narrow _ _ _ (fun x H => proj1 (Q x H))). split.
  - intros [H R]. pose proof (Q n H) as QN. apply (asUInt_iff (pre ++ b) B (zlen pre) n (zlen_nonneg pre)) in H. split; [destruct R as [-> |R]; [cbn; lia|exact R]|].
    destruct H as [(f & IP & H)|[H E]]; apply has_at_end in H; destruct H as [suf H]; [left; eauto|right; eauto].
  - intros [R H]. split; [|now right]. apply (asUInt_iff (pre ++ b) B (zlen pre) n (zlen_nonneg pre)). destruct H as [(f & suf & IP & H)|(suf & H & E)]; [left; exists f|right]; (split; [|assumption || (apply has_at_end; eauto)]); [exact IP|apply has_at_end; exists suf; exact H].
Qed.
(** So an integer returned need not have been found, nor be the one found. *)
Theorem C83_cbor_numbers_refuted : forall hard fuel, let R := cbor_reader hard fuel in
  (r_asInt R I8 (cb_open [31]) = Ok 0 /\ r_asUInt R I8 (cb_open [31]) = Ok 0 /\ r_asInt R I8 (cb_open [63]) = Ok (-1)) /\
  (~ exists it suf, item_ok it /\ [31] = enc it ++ suf) /\ (~ exists it suf, item_ok it /\ [63] = enc it ++ suf) /\
  (item_ok (CUInt A8 (2^64 - 1)) /\ r_asInt R I8 (cb_open (enc (CUInt A8 (2^64 - 1)))) = Ok (-1)).
Proof.
  intros hard fuel R. split; [repeat split; vm_compute; reflexivity|].
  assert (N : forall x h, read_head [x] 0 = Ok h -> h_indef h = true -> h_major h <= 1 -> ~ exists it suf, item_ok it /\ [x] = enc it ++ suf).
  { intros x h E I M (it & suf & OK & S). assert (H : has [x] 0 (enc it)) by (rewrite S; apply has_app_l, has_self). destruct (item_head it _ _ OK H) as [HD _]. assert (X : hd_of it = h) by congruence. subst h.
    destruct it; cbn in I, M; try discriminate; lia. }
  split; [apply (N 31 (mkHead 0 31 0 1 true)); [vm_compute; reflexivity|reflexivity|cbn; lia]|]. split; [apply (N 63 (mkHead 1 31 0 1 true)); [vm_compute; reflexivity|reflexivity|cbn; lia]|].
  split; [cbn; lia|vm_compute; reflexivity].
Qed.

(** asBlobVec(), which the reader has in addition to asBlob(), is as safe as asBlob() is (C20): if no string announces 2^63 bytes or more it returns or
    throws DeserializationError; otherwise it may read outside the message. *)
Theorem C20_cbor_blob_vector_partial : forall b fuel p, bytes_ok b -> zlen b < 2^63 -> no_huge b -> zlen b < Z.of_nat fuel -> 0 <= p -> safe (fun _ => True) (c_asBlobVec false fuel (mkCView b p)).
Proof. exact asBlobVec_safe. Qed.
Theorem C20_cbor_blob_vector_refuted : forall fuel, c_asBlobVec false fuel (cb_open [91; 255; 255; 255; 255; 255; 255; 255; 247]) = UB /\
  c_asBlobVec false (S fuel) (cb_open [95; 91; 255; 255; 255; 255; 255; 255; 255; 247; 255]) = UB.
Proof. intros fuel. split; vm_compute; reflexivity. Qed.

(** ** Concrete cases: after one byte that does not matter, "hi" in two chunks, a byte string in two chunks, -500. *)
Example C83_cbor_string_case : c_asString true 20 (mkCView ([129] ++ [127; 97; 104; 97; 105; 255]) (zlen [129])) = Ok [104; 105] /\
  text_of (CTextI [(A0, [104]); (A0, [105])]) = Some [104; 105] /\ enc (CTextI [(A0, [104]); (A0, [105])]) = [127; 97; 104; 97; 105; 255].
Proof. repeat split; vm_compute; reflexivity. Qed.
Example C83_cbor_blob_vector_case : c_asBlobVec true 20 (mkCView ([129] ++ [95; 65; 1; 66; 2; 3; 255]) (zlen [129])) = Ok [1; 2; 3] /\
  item_plain (CBytesI [(A0, [1]); (A0, [2; 3])]) /\ enc (CBytesI [(A0, [1]); (A0, [2; 3])]) = [95; 65; 1; 66; 2; 3; 255] /\
  (* text inside a byte string is rejected, and asBlob() rejects chunks *)
  c_asBlobVec true 20 (cb_open [95; 97; 1; 255]) = Throw EDeser /\ r_asBlob (cbor_reader true 20) (cb_open [95; 65; 1; 255]) = Throw EDeser.
Proof. split; [vm_compute; reflexivity|]. split; [|repeat split; vm_compute; reflexivity]. unfold item_plain. cbn. unfold chunks_ok, zlen. repeat constructor; cbn; lia. Qed.
Example C83_cbor_int_case : r_asInt (cbor_reader true 5) I16 (mkCView ([129] ++ [57; 1; 243]) (zlen [129])) = Ok (-500) /\ r_asInt (cbor_reader true 5) I8 (mkCView ([129] ++ [57; 1; 243]) (zlen [129])) = Throw EDeser /\
  enc (CNeg A2 499) = [57; 1; 243].
Proof. repeat split; vm_compute; reflexivity. Qed.

Print Assumptions C83_cbor_string.
Print Assumptions C83_cbor_string_view.
Print Assumptions C83_cbor_blob.
Print Assumptions C83_cbor_blob_vector.
Print Assumptions C83_cbor_bool.
Print Assumptions C83_cbor_null.
Print Assumptions C83_cbor_double.
Print Assumptions C83_cbor_int_partial.
Print Assumptions C83_cbor_uint_partial.
Print Assumptions C83_cbor_numbers_refuted.
Print Assumptions C20_cbor_blob_vector_partial.
Print Assumptions C20_cbor_blob_vector_refuted.
