(** CborRead.v -- the CBOR accessors and containers on well-formed items. *)

From Coq Require Import ZArith List Bool Lia ZifyBool ZifyNat.
From Verif Require Import Base BaseFacts Spec SpecFacts FloatModel FloatSpec HalfModel FloatFacts CborModel CborSpec CborFacts.
Import ListNotations.
Open Scope Z_scope.

Lemma sits_has hard b p it : sits hard b p it -> has b p (enc it).
Proof. unfold sits, has. tauto. Qed.
Lemma has_sits hard b p it : has b p (enc it) ->
  (hard = false \/ ends_empty it = false \/ p + zlen (enc it) < zlen b) -> sits hard b p it.
Proof. unfold sits, has. tauto. Qed.

Section View.
  Context (hard : bool) (fuel : nat) (b : bytes) (p : Z) (h : chead).
  Hypothesis (HD : read_head b p = Ok h).
  Let v := mkCView b p.
  Lemma c_is_at q : c_is q v = Ok (q h).
  Proof. unfold c_is, chd, v. cbn [cv_buf cv_pos]. now rewrite HD. Qed.
  Lemma no_bool : p_bool h = false -> c_asBool v = Throw EDeser.
  Proof. intros N. unfold c_asBool, chd, v. cbn [cv_buf cv_pos]. rewrite HD. cbn [bind]. rewrite N. reflexivity. Qed.
  Lemma no_double : p_float h = false -> c_asDouble v = Throw EDeser.
  Proof. intros N. unfold c_asDouble, chd, v. cbn [cv_buf cv_pos]. rewrite HD. cbn [bind]. rewrite N. reflexivity. Qed.
  Lemma no_int iw : p_int h = false -> c_asInt iw v = Throw EDeser.
  Proof. intros N. unfold c_asInt, c_asInt64, chd, v. cbn [cv_buf cv_pos]. rewrite HD. cbn [bind]. rewrite N. reflexivity. Qed.
  Lemma no_uint iw : p_major 0 h = false -> c_asUInt iw v = Throw EDeser.
  Proof. unfold p_major. intros N. unfold c_asUInt, c_asUInt64, chd, v. cbn [cv_buf cv_pos]. rewrite HD. cbn [bind]. rewrite N. reflexivity. Qed.
  Lemma no_str : p_major 3 h = false -> c_asString hard fuel v = Throw EDeser.
  Proof. unfold p_major. intros N. unfold c_asString, chd, v. cbn [cv_buf cv_pos]. rewrite HD. cbn [bind]. rewrite N. reflexivity. Qed.
  Lemma no_view m : p_major m h = false -> c_view hard m v = Throw EDeser.
  Proof. unfold p_major. intros N. unfold c_view, chd, v. cbn [cv_buf cv_pos]. rewrite HD. cbn [bind]. rewrite N. reflexivity. Qed.
  Lemma no_view_indef m : h_indef h = true -> c_view hard m v = Throw EDeser.
  Proof.
    intros N. unfold c_view, chd, v. cbn [cv_buf cv_pos]. rewrite HD. cbn [bind]. rewrite N.
    destruct (h_major h =? m); reflexivity.
  Qed.
  Lemma no_size : p_major 4 h = false -> c_arraySize fuel v = Throw EDeser.
  Proof. unfold p_major. intros N. unfold c_arraySize, chd, v. cbn [cv_buf cv_pos]. rewrite HD. cbn [bind]. rewrite N. reflexivity. Qed.
  Lemma no_idx i : p_major 4 h = false -> c_idx fuel v i = Throw EDeser.
  Proof. unfold p_major. intros N. unfold c_idx, chd, v. cbn [cv_buf cv_pos]. rewrite HD. cbn [bind]. rewrite N. reflexivity. Qed.
  Lemma no_key k : p_major 5 h = false -> c_key hard fuel v k = Throw EDeser.
  Proof. unfold p_major. intros N. unfold c_key, chd, v. cbn [cv_buf cv_pos]. rewrite HD. cbn [bind]. rewrite N. reflexivity. Qed.
  Lemma no_contains k : p_major 5 h = false -> c_contains hard fuel v k = Ok false.
  Proof. unfold p_major. intros N. unfold c_contains, chd, v. cbn [cv_buf cv_pos]. rewrite HD. cbn [bind]. rewrite N. reflexivity. Qed.
  Lemma no_keys : p_major 5 h = false -> c_mapKeys hard fuel v = Throw EDeser.
  Proof. unfold p_major. intros N. unfold c_mapKeys, chd, v. cbn [cv_buf cv_pos]. rewrite HD. cbn [bind]. rewrite N. reflexivity. Qed.

  Lemma int_major0 iw n : h_major h = 0 -> h_val h = n -> 0 <= n < 2^64 ->
    c_asInt iw v = or_throw (fits_s iw (to_signed 64 n)) /\ c_asUInt iw v = or_throw (fits_u iw n).
  Proof.
    intros M V N. unfold c_asInt, c_asInt64, c_asUInt, c_asUInt64, chd, v, p_int, require. cbn [cv_buf cv_pos]. rewrite HD. cbn [bind].
    rewrite M, V. cbn [Z.eqb orb bind].
    assert (R : -2^63 <= to_signed 64 n < 2^63).
    { unfold to_signed. rewrite Z.mod_small by lia. destruct (n <? 2 ^ (64 - 1)) eqn:C; change (2^(64-1)) with (2^63) in *; lia. }
    split; [apply (fits_s_spec iw (to_signed 64 n))|apply (fits_u_spec iw n)].
    - unfold is_i64, i64_min, i64_max. lia.
    - unfold is_u64, u64_max. lia.
  Qed.
  Lemma int_major1 iw n : h_major h = 1 -> h_val h = n -> 0 <= n < 2^64 ->
    c_asInt iw v = or_throw (fits_s iw (-1 - n)) /\ c_asUInt iw v = Throw EDeser.
  Proof.
    intros M V N. split; [|apply no_uint; unfold p_major; rewrite M; reflexivity].
    unfold c_asInt, c_asInt64, chd, v, p_int, require. cbn [cv_buf cv_pos]. rewrite HD. cbn [bind].
    rewrite M, V. cbn [Z.eqb Pos.eqb orb bind]. destruct (i64_max <? n) eqn:C; cbn [bind]; unfold i64_max in C.
    - unfold fits_s. assert (S : -2^63 <= smin iw) by (destruct iw; vm_compute; discriminate).
      replace (smin iw <=? -1 - n) with false by lia. reflexivity.
    - apply (fits_s_spec iw (-1 - n)). unfold is_i64, i64_min, i64_max. lia.
  Qed.
End View.

(** The nine type tests, as answered from the header and as stated by the table. *)
Definition kinds (h : chead) :=
  (p_null h, p_bool h, p_int h, p_major 0 h, p_float h, p_major 3 h, p_major 2 h, p_major 5 h, p_major 4 h).
Definition tkinds (t : table) :=
  (t_null t, t_bool t, t_int t, t_uint t, t_float t, t_string t, t_blob t, t_map t, t_array t).
Lemma kinds_item it : item_ok it -> kinds (hd_of it) = tkinds (item_table it).
Proof.
  unfold item_ok. intros OK. destruct it; cbn [item_in] in OK; try reflexivity.
  - unfold tkinds, item_table, int_tbl. cbn [t_null t_bool t_int t_uint t_float t_string t_blob t_map t_array].
    replace (0 <=? n) with true by lia. reflexivity.
  - unfold tkinds, item_table, int_tbl. cbn [t_null t_bool t_int t_uint t_float t_string t_blob t_map t_array].
    replace (0 <=? -1 - n) with false by lia. reflexivity.
  - cbn [hd_of item_table]. unfold kinds, p_null, p_bool, p_int, p_major, p_float. cbn [h_major h_addl].
    destruct (n =? 20) eqn:E0; [apply Z.eqb_eq in E0; subst; reflexivity|].
    destruct (n =? 21) eqn:E1; [apply Z.eqb_eq in E1; subst; reflexivity|].
    destruct (n =? 22) eqn:E2; [apply Z.eqb_eq in E2; subst; reflexivity|].
    replace (n =? 25) with false by lia. replace (n =? 26) with false by lia. replace (n =? 27) with false by lia. reflexivity.
Qed.

Lemma addr_room hard b q : 0 <= q <= zlen b -> (hard = false \/ q < zlen b) -> addr hard b q = Ok q.
Proof.
  intros R H. unfold addr. destruct (q <? zlen b) eqn:E; [reflexivity|]. destruct H as [-> |H]; [|lia].
  replace (q =? zlen b) with true by lia. reflexivity.
Qed.
Lemma mk_string_has b q s : zlen b < 2^63 -> has b q s -> mk_string b q (zlen s) = Ok s.
Proof.
  intros HB H. pose proof (has_bound _ _ _ H) as [B0 B1]. unfold mk_string.
  replace (i64_max <? zlen s) with false by (unfold i64_max; lia). now apply has_rd_view.
Qed.
Lemma read_definite hard fuel b p m f s : zlen b < 2^63 -> 0 <= m < 7 -> zlen s < arg_cap f -> has b p (hdr m f (zlen s) ++ s) ->
  (hard = false \/ p + hlen f < zlen b) ->
  c_view hard m (mkCView b p) = Ok (p + hlen f, zlen s) /\
  rd_view b (p + hlen f, zlen s) = Ok s /\
  (m = 3 -> c_asString hard fuel (mkCView b p) = Ok s).
Proof.
  intros HB Hm L H R. apply has_app in H. destruct H as [H1 H2]. rewrite zlen_hdr in H2.
  pose proof (zlen_nonneg s). pose proof (has_bound _ _ _ H2) as [B0 B1].
  destruct (head_hdr _ _ _ _ _ H1 Hm ltac:(lia)) as [HD _].
  assert (A : addr hard b (p + hlen f) = Ok (p + hlen f)) by (apply addr_room; [lia|exact R]).
  assert (W : wrap64 (p + hlen f + zlen s) = p + hlen f + zlen s) by (apply wrap64_small; lia).
  split; [|split].
  - unfold c_view, chd, require. cbn [cv_buf cv_pos]. rewrite HD. cbn [bind h_major h_indef h_len h_val negb].
    rewrite Z.eqb_refl, W. cbn [bind]. replace (_ <=? _) with true by lia. cbn [bind]. rewrite A. reflexivity.
  - now apply has_rd_view.
  - intros ->. unfold c_asString, chd, require. cbn [cv_buf cv_pos]. rewrite HD. cbn [bind h_major h_indef h_len h_val negb Z.eqb Pos.eqb].
    rewrite W. replace (_ <=? _) with true by lia. cbn [bind]. rewrite A. cbn [bind]. now apply mk_string_has.
Qed.

Lemma chunks_string hard b : zlen b < 2^63 -> forall l q fuel out, chunks_ok l -> has b q (flat_map (chunk 3) l ++ [255]) ->
  (length l < fuel)%nat -> floop fuel (str_chunk hard b) (q, out) = Ok (out ++ flat_map snd l).
Proof.
  intros HB. induction l as [|[f s] l IH]; intros q fuel out OK H L; (destruct fuel as [|fuel]; [lia|]); rewrite floop_S.
  - cbn [flat_map app] in *. pose proof (has_bound _ _ _ H) as [B0 B1]. change (zlen [255]) with 1 in B1.
    unfold str_chunk at 1. unfold require. replace (q <? zlen b) with true by lia. rewrite (has_rd _ _ _ _ H). cbn. now rewrite app_nil_r.
  - cbn [flat_map length snd] in *. rewrite <- app_assoc in H. apply has_app in H. destruct H as [H1 H2].
    inversion OK as [|? ? [O1 O2] OK']; subst. cbn [fst snd] in *.
    destruct (chunk_facts 3 f s b q ltac:(lia) O1 O2 H1) as (x & t & E & Hx & R & RH & _ & HS & LC).
    pose proof (has_bound _ _ _ HS) as [B0 B1]. pose proof (has_bound _ _ _ H2) as [B2 B3]. rewrite zlen_app in B3. change (zlen [255]) with 1 in B3.
    pose proof (zlen_nonneg (flat_map (chunk 3) l)). pose proof (zlen_nonneg s). pose proof (hlen_pos f). rewrite LC in *.
    assert (W : wrap64 (q + hlen f + zlen s) = q + hlen f + zlen s) by (apply wrap64_small; lia).
    assert (STEP : str_chunk hard b (q, out) = Ok (inl (q + hlen f + zlen s, out ++ s))).
    { pose proof (has_bound _ _ _ H1) as [B4 B5]. rewrite LC in B5.
      unfold str_chunk, require. replace (q <? zlen b) with true by lia. cbn [bind]. rewrite R. cbn [bind].
      replace (x =? 255) with false by lia. rewrite RH. cbn [bind h_major h_indef h_len h_val negb Z.eqb Pos.eqb andb]. rewrite W.
      replace (_ <=? _) with true by lia. cbn [bind]. rewrite addr_room by lia. cbn [bind].
      rewrite mk_string_has by assumption. reflexivity. }
    rewrite STEP. cbn [bind]. replace (q + (hlen f + zlen s)) with (q + hlen f + zlen s) in H2 by lia.
    rewrite IH; [|exact OK'|exact H2|lia]. now rewrite <- app_assoc.
Qed.
Lemma asString_chunked hard fuel b p l : zlen b < 2^63 -> zlen b < Z.of_nat fuel -> chunks_ok l -> has b p (enc (CTextI l)) ->
  c_asString hard fuel (mkCView b p) = Ok (flat_map snd l).
Proof.
  intros HB HF OK H. destruct (item_head (CTextI l) b p OK H) as [HD _].
  unfold c_asString, chd. cbn [cv_buf cv_pos]. rewrite HD. cbn [hd_of bind require h_major h_indef h_len h_val negb Z.eqb Pos.eqb].
  cbn [enc app] in H. apply has_cons in H. destruct H as [_ H]. pose proof (has_bound _ _ _ H) as [B0 B1].
  rewrite zlen_app in B1. pose proof (flat_len (chunk 3) l (fun x _ => chunk_pos 3 x)).
  change (zlen [255]) with 1 in B1. rewrite (chunks_string hard b HB l (p + 1) fuel [] OK H) by (unfold zlen in *; lia). reflexivity.
Qed.

Lemma be_after b p x n v : has b p (x :: be n v) -> has b (p + 1) (be n v).
Proof. intros H. now apply has_cons in H. Qed.

Theorem observes_item hard fuel b p it : zlen b < 2^63 -> item_ok it -> is_chunked_text it = false -> sits hard b p it ->
  observes (cbor_reader hard fuel) (mkCView b p) (item_table it).
Proof.
  intros HB OK NC ST. assert (H := sits_has _ _ _ _ ST). destruct ST as (_ & _ & _ & RM).
  destruct (item_head it b p OK H) as [HD _]. pose proof (kinds_item it OK) as K. unfold kinds, tkinds in K.
  injection K as K1 K2 K3 K4 K5 K6 K7 K8 K9.
  assert (OTHER : t_int (item_table it) = false -> t_uint (item_table it) = false ->
    (forall iw, t_asInt (item_table it) iw = None) -> (forall iw, t_asUInt (item_table it) iw = None) ->
    c_asBool (mkCView b p) = or_throw (t_asBool (item_table it)) \/ t_bool (item_table it) = false /\ t_asBool (item_table it) = None ->
    c_asDouble (mkCView b p) = or_throw (t_asDouble (item_table it)) \/ t_float (item_table it) = false /\ t_asDouble (item_table it) = None ->
    c_asString hard fuel (mkCView b p) = or_throw (t_asString (item_table it)) /\
      (w <- c_asStringView hard (mkCView b p) ;; rd_view b w) = or_throw (t_asString (item_table it)) \/
      t_string (item_table it) = false /\ t_asString (item_table it) = None ->
    (w <- c_asBlob hard (mkCView b p) ;; rd_view b w) = or_throw (t_asBlob (item_table it)) \/
      t_blob (item_table it) = false /\ t_asBlob (item_table it) = None ->
    observes (cbor_reader hard fuel) (mkCView b p) (item_table it)).
  { intros NI NU TI TU HB' HF' HS HL.
    repeat apply conj; cbn [cbor_reader r_isNull r_isBool r_isInt r_isUInt r_isFloat r_isString r_isBlob r_isMap r_isArray r_asBool r_asInt r_asUInt r_asDouble r_asString r_asStringView r_asBlob cv_buf];
      try (rewrite (c_is_at _ _ _ HD); now f_equal).
    - destruct HB' as [E|[E1 E2]]; [exact E|]. rewrite E2. apply (no_bool _ _ _ HD). congruence.
    - intros iw. rewrite TI. apply (no_int _ _ _ HD). congruence.
    - intros iw. rewrite TU. apply (no_uint _ _ _ HD). congruence.
    - destruct HF' as [E|[E1 E2]]; [exact E|]. rewrite E2. apply (no_double _ _ _ HD). congruence.
    - destruct HS as [[E _]|[E1 E2]]; [exact E|]. rewrite E2. apply (no_str _ _ _ _ _ HD). congruence.
    - destruct HS as [[_ E]|[E1 E2]]; [exact E|]. rewrite E2. unfold c_asStringView. rewrite (no_view _ _ _ _ HD) by congruence. reflexivity.
    - destruct HL as [E|[E1 E2]]; [exact E|]. rewrite E2. unfold c_asBlob. rewrite (no_view _ _ _ _ HD) by congruence. reflexivity. }
  unfold item_ok in OK.
  destruct it; cbn [item_in hd_of] in *; try discriminate NC.
  - (* CUInt *) assert (N64 : 0 <= n < 2^64) by (destruct f; cbn [arg_cap] in OK; lia). clear OTHER.
    pose proof (fun iw => int_major0 b p _ HD iw n eq_refl eq_refl N64) as I.
    repeat apply conj; cbn [cbor_reader r_isNull r_isBool r_isInt r_isUInt r_isFloat r_isString r_isBlob r_isMap r_isArray r_asBool r_asInt r_asUInt r_asDouble r_asString r_asStringView r_asBlob cv_buf];
      try (rewrite (c_is_at _ _ _ HD); f_equal; assumption).
    + apply (no_bool _ _ _ HD eq_refl).
    + intros iw. destruct (I iw) as [-> _]. cbn [t_asInt item_table int_tbl]. replace (n <? 0) with false by lia. reflexivity.
    + intros iw. destruct (I iw) as [_ ->]. reflexivity.
    + apply (no_double _ _ _ HD eq_refl).
    + apply (no_str _ _ _ _ _ HD eq_refl).
    + unfold c_asStringView. now rewrite (no_view _ _ _ _ HD 3 eq_refl).
    + unfold c_asBlob. now rewrite (no_view _ _ _ _ HD 2 eq_refl).
  - (* CNeg *) assert (N64 : 0 <= n < 2^64) by (destruct f; cbn [arg_cap] in OK; lia). clear OTHER.
    pose proof (fun iw => int_major1 b p _ HD iw n eq_refl eq_refl N64) as I.
    repeat apply conj; cbn [cbor_reader r_isNull r_isBool r_isInt r_isUInt r_isFloat r_isString r_isBlob r_isMap r_isArray r_asBool r_asInt r_asUInt r_asDouble r_asString r_asStringView r_asBlob cv_buf];
      try (rewrite (c_is_at _ _ _ HD); f_equal; assumption).
    + apply (no_bool _ _ _ HD eq_refl).
    + intros iw. destruct (I iw) as [-> _]. cbn [t_asInt item_table int_tbl]. replace (-1 - n <? 0) with true by lia. reflexivity.
    + intros iw. destruct (I iw) as [_ ->]. cbn [t_asUInt item_table int_tbl]. unfold fits_u. replace (0 <=? -1 - n) with false by lia. reflexivity.
    + apply (no_double _ _ _ HD eq_refl).
    + apply (no_str _ _ _ _ _ HD eq_refl).
    + unfold c_asStringView. now rewrite (no_view _ _ _ _ HD 3 eq_refl).
    + unfold c_asBlob. now rewrite (no_view _ _ _ _ HD 2 eq_refl).
  - (* CBytes *) destruct OK as [O1 O2]. apply OTHER; try reflexivity; try (right; split; reflexivity). left.
    cbn [enc] in H. assert (R : hard = false \/ p + hlen f < zlen b).
    { pose proof (has_bound _ _ _ H) as [B0 B1]. rewrite zlen_app, zlen_hdr in B1. cbn [enc] in RM. rewrite zlen_app, zlen_hdr in RM.
      destruct b0 as [|x b0]; [cbn in RM; destruct RM as [RM|[RM|RM]]; [now left|discriminate|right; cbn in *; lia]|].
      right. rewrite zlen_cons in B1. pose proof (zlen_nonneg b0). lia. }
    destruct (read_definite hard fuel b p 2 f b0 HB ltac:(lia) O2 H R) as (E1 & E2 & _).
    unfold c_asBlob. rewrite E1. cbn [bind]. exact E2.
  - (* CBytesI *) apply OTHER; try reflexivity; try (right; split; reflexivity). left.
    unfold c_asBlob. rewrite (no_view_indef _ _ _ _ HD 2 eq_refl). reflexivity.
  - (* CText *) destruct OK as [O1 O2]. apply OTHER; try reflexivity; try (right; split; reflexivity). left.
    cbn [enc] in H. assert (R : hard = false \/ p + hlen f < zlen b).
    { pose proof (has_bound _ _ _ H) as [B0 B1]. rewrite zlen_app, zlen_hdr in B1. cbn [enc] in RM. rewrite zlen_app, zlen_hdr in RM.
      destruct s as [|x s]; [cbn in RM; destruct RM as [RM|[RM|RM]]; [now left|discriminate|right; cbn in *; lia]|].
      right. rewrite zlen_cons in B1. pose proof (zlen_nonneg s). lia. }
    destruct (read_definite hard fuel b p 3 f s HB ltac:(lia) O2 H R) as (E1 & E2 & E3).
    split; [now apply E3|]. unfold c_asStringView. rewrite E1. cbn [bind]. exact E2.
  - (* CArr *) apply OTHER; try reflexivity; right; split; reflexivity.
  - apply OTHER; try reflexivity; right; split; reflexivity.
  - apply OTHER; try reflexivity; right; split; reflexivity.
  - apply OTHER; try reflexivity; right; split; reflexivity.
  - apply OTHER; try reflexivity; right; split; reflexivity.
  - (* CSimple *) cbn [item_table] in *.
    destruct (n =? 20) eqn:E0; [|destruct (n =? 21) eqn:E1; [|destruct (n =? 22) eqn:E2]];
      apply OTHER; try reflexivity; try (right; split; reflexivity).
    + apply Z.eqb_eq in E0. subst. left. unfold c_asBool, chd. cbn [cv_buf cv_pos]. rewrite HD. reflexivity.
    + apply Z.eqb_eq in E1. subst. left. unfold c_asBool, chd. cbn [cv_buf cv_pos]. rewrite HD. reflexivity.
  - apply OTHER; try reflexivity; right; split; reflexivity.
  - (* CF16 *) apply OTHER; try reflexivity; try (right; split; reflexivity). left.
    unfold c_asDouble, chd. cbn [cv_buf cv_pos]. rewrite HD. cbn [bind require p_float h_major h_addl h_len Z.eqb Pos.eqb andb orb].
    cbn [enc] in H. apply be_after in H. assert (G := get_be_be _ _ _ _ H ltac:(lia) ltac:(cbn; lia)).
    cbn [be] in H. rewrite (has_rd _ _ _ _ H). apply has_cons in H. destruct H as [_ H]. rewrite (has_rd _ _ _ _ H). cbn [bind].
    cbn [t_asDouble ideal item_table or_throw]. f_equal.
    change (256 ^ Z.of_nat 1) with 256. change (256 ^ Z.of_nat 0) with 1. rewrite Z.div_1_r.
    rewrite (Z.mod_small (x / 256)) by (split; [apply Z.div_pos; lia|apply Z.div_lt_upper_bound; lia]).
    assert (M : 0 <= x mod 256 < 256) by (apply Z.mod_pos_bound; lia).
    rewrite Z.lor_comm, lor_shiftl by (change (2^8) with 256; lia). change (2^8) with 256.
    pose proof (Z.div_mod x 256 ltac:(lia)). replace (x mod 256 + x / 256 * 256) with x by lia.
    unfold wrap16. rewrite Z.mod_small by lia. apply decode_f16_spec. lia.
  - (* CF32 *) apply OTHER; try reflexivity; try (right; split; reflexivity). left.
    unfold c_asDouble, chd. cbn [cv_buf cv_pos]. rewrite HD. cbn [bind require p_float h_major h_addl h_len Z.eqb Pos.eqb andb orb].
    cbn [enc] in H. apply be_after in H. rewrite (get_be_be _ _ _ _ H) by (cbn; lia). cbn [bind].
    cbn [t_asDouble ideal item_table or_throw]. rewrite wrap32_small by lia. reflexivity.
  - (* CF64 *) apply OTHER; try reflexivity; try (right; split; reflexivity). left.
    unfold c_asDouble, chd. cbn [cv_buf cv_pos]. rewrite HD. cbn [bind require p_float h_major h_addl h_len Z.eqb Pos.eqb andb orb].
    cbn [enc] in H. apply be_after in H. rewrite (get_be_be _ _ _ _ H) by (cbn; lia). reflexivity.
Qed.

(** ** Containers *)
Lemma beq_zlen s k : zlen s <> zlen k -> beq s k = false.
Proof. intros H. apply beq_neq. intros ->. now apply H. Qed.
Lemma nloop_S {S R} (f : S -> res (S + R)) n s :
  nloop (Datatypes.S n) f s = (x <- f s ;; match x with inl s' => nloop n f s' | inr r => Ok (inr r) end).
Proof. reflexivity. Qed.

Section Containers.
  Context (hard : bool) (fuel : nat) (b : bytes).
  Hypothesis (HB : zlen b < 2^63) (HF : zlen b < Z.of_nat fuel).
  Let at_ (q : Z) : cview := mkCView b q.

  Lemma plain_ok it : item_plain it -> item_ok it.
  Proof. apply item_in_mono. Qed.
  Lemma sk it q : item_plain it -> has b q (enc it) -> skip fuel b q = Ok (q + zlen (enc it)).
  Proof. intros OK H. pose proof (has_bound _ _ _ H) as [B0 _]. apply (skipper_enc false b HB it OK fuel q H). lia. Qed.
  Lemma ksk it q : item_ok it -> has b q (enc it) -> k_skip fuel b q = Ok (q + zlen (enc it)).
  Proof. intros OK H. pose proof (has_bound _ _ _ H) as [B0 _]. apply (skipper_enc true b HB it OK fuel q H). lia. Qed.
  Lemma first_byte it q : item_ok it -> has b q (enc it) -> q < zlen b /\ exists x, rd b q = Ok x /\ x <> 255.
  Proof.
    intros OK H. pose proof (has_bound _ _ _ H) as [B0 B1]. pose proof (enc_pos it OK).
    destruct (enc_first it OK) as (x & t & E & Hx). rewrite E in H. split; [lia|]. exists x.
    split; [apply (has_rd _ _ _ _ H)|lia].
  Qed.

  Lemma key_text k q : item_ok k -> has b q (enc k) -> q + zlen (enc k) < zlen b ->
    c_asString hard fuel (at_ q) = or_throw (text_of k).
  Proof.
    intros OK H R. unfold at_.
    destruct (is_chunked_text k) eqn:C.
    - destruct k; try discriminate. cbn [text_of or_throw]. now apply asString_chunked.
    - assert (ST : sits hard b q k) by (apply has_sits; [exact H|auto]).
      pose proof (observes_item hard fuel b q k HB OK C ST) as O.
      destruct O as (_ & _ & _ & _ & _ & _ & _ & _ & _ & _ & _ & _ & _ & O & _). cbn [cbor_reader r_asString] in O. rewrite O.
      unfold item_ok in OK. destruct k; try reflexivity; [discriminate|]. cbn [item_table text_of].
      destruct (n =? 20); [reflexivity|]. destruct (n =? 21); [reflexivity|]. destruct (n =? 22); reflexivity.
  Qed.

  (** *** Arrays *)
  Lemma arr_at p f l : item_ok (CArr f l) -> has b p (enc (CArr f l)) ->
    read_head b p = Ok (mkHead 4 (addl f (zlen l)) (zlen l) (hlen f) false) /\ has b (p + hlen f) (flat_map enc l).
  Proof.
    intros OK H. destruct (item_head _ b p OK H) as [HD _]. split; [exact HD|].
    cbn [enc] in H. apply has_app in H. rewrite zlen_hdr in H. apply H.
  Qed.
  Lemma arrI_at p l : item_ok (CArrI l) -> has b p (enc (CArrI l)) ->
    read_head b p = Ok (mkHead 4 31 0 1 true) /\ has b (p + 1) (flat_map enc l ++ [255]).
  Proof.
    intros OK H. destruct (item_head _ b p OK H) as [HD _]. split; [exact HD|].
    cbn [enc app] in H. apply has_cons in H. apply H.
  Qed.
  Theorem size_def p f l : item_ok (CArr f l) -> has b p (enc (CArr f l)) -> c_arraySize fuel (at_ p) = Ok (zlen l).
  Proof.
    intros OK H. destruct (arr_at p f l OK H) as [HD _]. unfold c_arraySize, chd, at_. cbn [cv_buf cv_pos]. rewrite HD. reflexivity.
  Qed.
  Lemma size_loop : forall l q c n, Forall item_plain l -> has b q (flat_map enc l ++ [255]) -> (length l < n)%nat ->
    floop n (size_step fuel b) (q, c) = Ok (c + zlen l).
  Proof.
    induction l as [|x l IH]; intros q c n OK H L; (destruct n as [|n]; [lia|]); rewrite floop_S.
    - cbn [flat_map app] in H. pose proof (has_bound _ _ _ H) as [B0 B1]. change (zlen [255]) with 1 in B1.
      unfold size_step, require. replace (q <? zlen b) with true by lia. rewrite (has_rd _ _ _ _ H). cbn. f_equal. lia.
    - cbn [flat_map length] in *. rewrite <- app_assoc in H. apply has_app in H. destruct H as [H1 H2].
      inversion OK as [|? ? O1 O2]; subst. destruct (first_byte x q (plain_ok _ O1) H1) as (B & c0 & R & N).
      assert (STEP : size_step fuel b (q, c) = Ok (inl (q + zlen (enc x), c + 1))).
      { unfold size_step, require. replace (q <? zlen b) with true by lia. rewrite R. cbn [bind].
        replace (c0 =? 255) with false by lia. rewrite (sk x q O1 H1). reflexivity. }
      rewrite STEP. cbn [bind]. rewrite IH; [|exact O2|exact H2|lia]. rewrite zlen_cons. f_equal. lia.
  Qed.
  Lemma many_fuel {A} (e : A -> bytes) q l : (forall x, In x l -> 1 <= zlen (e x)) -> has b q (flat_map e l ++ [255]) -> (length l < fuel)%nat.
  Proof.
    intros P H. pose proof (has_bound _ _ _ H) as [B0 B1]. rewrite zlen_app in B1. change (zlen [255]) with 1 in B1.
    pose proof (flat_len e l P). unfold zlen in *. lia.
  Qed.
  Theorem size_ind p l : item_plain (CArrI l) -> has b p (enc (CArrI l)) -> c_arraySize fuel (at_ p) = Ok (zlen l).
  Proof.
    intros OK H. destruct (arrI_at p l (plain_ok _ OK) H) as [HD H']. unfold c_arraySize, chd, at_. cbn [cv_buf cv_pos]. rewrite HD.
    cbn [bind require h_major h_indef h_len h_val negb Z.eqb Pos.eqb].
    unfold item_plain in OK. apply item_in_arrI in OK. rewrite (size_loop l (p + 1) 0 fuel OK H'); [reflexivity|].
    rewrite Forall_forall in OK. apply (many_fuel enc (p + 1)); [|exact H']. intros x Hx. apply enc_pos, plain_ok, OK, Hx.
  Qed.

  Theorem idx_def_out p f l i : item_ok (CArr f l) -> has b p (enc (CArr f l)) -> zlen l <= i -> c_idx fuel (at_ p) i = Throw EDeser.
  Proof.
    intros OK H L. destruct (arr_at p f l OK H) as [HD _]. unfold c_idx, chd, at_. cbn [cv_buf cv_pos]. rewrite HD.
    cbn [bind require h_major h_indef h_len h_val negb Z.eqb Pos.eqb]. replace (zlen l <=? i) with true by lia. reflexivity.
  Qed.
  Theorem idx_def p f l1 x l2 : Forall item_plain l1 -> item_ok (CArr f (l1 ++ x :: l2)) -> has b p (enc (CArr f (l1 ++ x :: l2))) ->
    c_idx fuel (at_ p) (zlen l1) = Ok (at_ (p + hlen f + zlen (flat_map enc l1))).
  Proof.
    intros OK1 OK H. destruct (arr_at p f _ OK H) as [HD H']. unfold c_idx, chd, at_. cbn [cv_buf cv_pos]. rewrite HD.
    cbn [bind require h_major h_indef h_len h_val negb Z.eqb Pos.eqb].
    pose proof (zlen_nonneg l1) as PL1. pose proof (zlen_nonneg l2) as PL2.
    replace (zlen (l1 ++ x :: l2) <=? zlen l1) with false by (rewrite zlen_app, zlen_cons; lia).
    rewrite flat_map_app in H'. apply has_app in H'. destruct H' as [H1 _].
    rewrite (times_list enc (skip fuel b) b l1 (p + hlen f) H1); [reflexivity|].
    intros y q' Hy Hh _. rewrite Forall_forall in OK1. apply sk; auto.
  Qed.
  Lemma idx_loop_out idx : forall l q i n, Forall item_plain l -> has b q (flat_map enc l ++ [255]) -> (length l < n)%nat ->
    i + zlen l <= idx -> floop n (idx_step fuel b idx) (q, i) = Ok None.
  Proof.
    induction l as [|x l IH]; intros q i n OK H L I; (destruct n as [|n]; [lia|]); rewrite floop_S.
    - cbn [flat_map app] in H. pose proof (has_bound _ _ _ H) as [B0 B1]. change (zlen [255]) with 1 in B1.
      unfold idx_step, require. replace (q <? zlen b) with true by lia. rewrite (has_rd _ _ _ _ H). reflexivity.
    - cbn [flat_map length] in *. rewrite <- app_assoc in H. apply has_app in H. destruct H as [H1 H2].
      inversion OK as [|? ? O1 O2]; subst. destruct (first_byte x q (plain_ok _ O1) H1) as (B & c0 & R & N).
      rewrite zlen_cons in I. pose proof (zlen_nonneg l).
      assert (STEP : idx_step fuel b idx (q, i) = Ok (inl (q + zlen (enc x), i + 1))).
      { unfold idx_step, require. replace (q <? zlen b) with true by lia. rewrite R. cbn [bind].
        replace (c0 =? 255) with false by lia. replace (i =? idx) with false by lia. rewrite (sk x q O1 H1). reflexivity. }
      rewrite STEP. cbn [bind]. apply IH; auto; lia.
  Qed.
  Lemma idx_loop_in idx x l2 : forall l1 q i n, Forall item_plain l1 -> item_ok x -> has b q (flat_map enc (l1 ++ x :: l2) ++ [255]) ->
    (length l1 < n)%nat -> i + zlen l1 = idx ->
    floop n (idx_step fuel b idx) (q, i) = Ok (Some (at_ (q + zlen (flat_map enc l1)))).
  Proof.
    induction l1 as [|y l IH]; intros q i n OK OX H L I; (destruct n as [|n]; [lia|]); rewrite floop_S.
    - cbn [flat_map app] in *. rewrite <- app_assoc in H. apply has_app in H. destruct H as [H1 _].
      destruct (first_byte x q OX H1) as (B & c0 & R & N). change (zlen (@nil item)) with 0 in I. rewrite zlen_nil.
      unfold idx_step, require. replace (q <? zlen b) with true by lia. rewrite R. cbn [bind].
      replace (c0 =? 255) with false by lia. replace (i =? idx) with true by lia. cbn [bind]. rewrite Z.add_0_r. reflexivity.
    - cbn [flat_map length app] in *. rewrite <- app_assoc in H. apply has_app in H. destruct H as [H1 H2].
      inversion OK as [|? ? O1 O2]; subst. destruct (first_byte y q (plain_ok _ O1) H1) as (B & c0 & R & N).
      rewrite zlen_cons in *. pose proof (zlen_nonneg l).
      assert (STEP : idx_step fuel b (i + (1 + zlen l)) (q, i) = Ok (inl (q + zlen (enc y), i + 1))).
      { unfold idx_step, require. replace (q <? zlen b) with true by lia. rewrite R. cbn [bind].
        replace (c0 =? 255) with false by lia. replace (i =? i + (1 + zlen l)) with false by lia. rewrite (sk y q O1 H1). reflexivity. }
      rewrite STEP. cbn [bind]. rewrite IH; auto; try lia. rewrite zlen_app. do 3 f_equal. lia.
  Qed.
  Theorem idx_ind_out p l i : item_plain (CArrI l) -> has b p (enc (CArrI l)) -> zlen l <= i -> c_idx fuel (at_ p) i = Throw EDeser.
  Proof.
    intros OK H I. destruct (arrI_at p l (plain_ok _ OK) H) as [HD H']. unfold c_idx, chd, at_. cbn [cv_buf cv_pos]. rewrite HD.
    cbn [bind require h_major h_indef h_len h_val negb Z.eqb Pos.eqb].
    unfold item_plain in OK. apply item_in_arrI in OK. rewrite (idx_loop_out i l (p + 1) 0 fuel OK H'); [reflexivity| |lia].
    rewrite Forall_forall in OK. apply (many_fuel enc (p + 1)); [|exact H']. intros x Hx. apply enc_pos, plain_ok, OK, Hx.
  Qed.
  Theorem idx_ind p l1 x l2 : Forall item_plain l1 -> item_ok (CArrI (l1 ++ x :: l2)) -> has b p (enc (CArrI (l1 ++ x :: l2))) ->
    c_idx fuel (at_ p) (zlen l1) = Ok (at_ (p + 1 + zlen (flat_map enc l1))).
  Proof.
    intros OK1 OK H. destruct (arrI_at p _ OK H) as [HD H']. unfold c_idx, chd, at_. cbn [cv_buf cv_pos]. rewrite HD.
    cbn [bind require h_major h_indef h_len h_val negb Z.eqb Pos.eqb].
    unfold item_ok in OK. apply item_in_arrI in OK. rewrite Forall_forall in OK.
    rewrite (idx_loop_in (zlen l1) x l2 l1 (p + 1) 0 fuel OK1); [reflexivity|apply OK, in_or_app; right; now left|exact H'| |lia].
    assert (length (l1 ++ x :: l2) < fuel)%nat as LL.
    { apply (many_fuel enc (p + 1)); [|exact H']. intros y Hy. apply enc_pos, OK, Hy. }
    rewrite app_length in LL. lia.
  Qed.

  (** *** Maps *)
  Lemma map_at p f l : item_ok (CMap f l) -> has b p (enc (CMap f l)) ->
    read_head b p = Ok (mkHead 5 (addl f (zlen l)) (zlen l) (hlen f) false) /\
    k_read_head b p = Ok (mkHead 5 (addl f (zlen l)) (zlen l) (hlen f) false) /\ has b (p + hlen f) (flat_map encp l).
  Proof.
    intros OK H. destruct (item_head _ b p OK H) as [HD HD2]. split; [exact HD|]. split; [exact HD2|].
    cbn [enc] in H. apply has_app in H. rewrite zlen_hdr in H. apply H.
  Qed.
  Lemma mapI_at p l : item_ok (CMapI l) -> has b p (enc (CMapI l)) ->
    read_head b p = Ok (mkHead 5 31 0 1 true) /\ k_read_head b p = Ok (mkHead 5 31 0 1 true) /\
    has b (p + 1) (flat_map encp l ++ [255]).
  Proof.
    intros OK H. destruct (item_head _ b p OK H) as [HD HD2]. split; [exact HD|]. split; [exact HD2|].
    cbn [enc app] in H. apply has_cons in H. apply H.
  Qed.
  Definition pair_ok (Q : item -> Prop) (kx : item * item) : Prop := Q (fst kx) /\ Q (snd kx).

  (** One entry: key and value. *)
  Lemma entry q k x l : item_plain k -> item_plain x -> has b q (flat_map encp ((k, x) :: l)) ->
    has b q (enc k) /\ has b (q + zlen (enc k)) (enc x) /\ has b (q + zlen (enc k) + zlen (enc x)) (flat_map encp l) /\
    c_asString hard fuel (at_ q) = or_throw (text_of k) /\
    skip fuel b q = Ok (q + zlen (enc k)) /\ skip fuel b (q + zlen (enc k)) = Ok (q + zlen (enc k) + zlen (enc x)).
  Proof.
    intros O1 O2 H. cbn [flat_map fst snd] in H. rewrite <- app_assoc in H. apply has_app in H. destruct H as [H1 H2].
    apply has_app in H2. destruct H2 as [H2 H3]. pose proof (has_bound _ _ _ H2) as [_ B2]. pose proof (enc_pos x (plain_ok _ O2)).
    split; [exact H1|]. split; [exact H2|]. split; [exact H3|].
    split; [apply key_text; [now apply plain_ok|exact H1|lia]|]. split; [now apply sk|now apply sk].
  Qed.
  Lemma entry_ok q k x l t : item_ok k -> item_ok x -> has b q (flat_map encp ((k, x) :: l) ++ t) ->
    has b q (enc k) /\ has b (q + zlen (enc k)) (enc x) /\ has b (q + zlen (enc k) + zlen (enc x)) (flat_map encp l ++ t) /\
    c_asString hard fuel (at_ q) = or_throw (text_of k) /\
    k_skip fuel b q = Ok (q + zlen (enc k)) /\ k_skip fuel b (q + zlen (enc k)) = Ok (q + zlen (enc k) + zlen (enc x)).
  Proof.
    intros O1 O2 H. cbn [flat_map fst snd] in H. rewrite <- !app_assoc in H. apply has_app in H. destruct H as [H1 H2].
    apply has_app in H2. destruct H2 as [H2 H3]. pose proof (has_bound _ _ _ H2) as [_ B2]. pose proof (enc_pos x O2).
    split; [exact H1|]. split; [exact H2|]. split; [exact H3|].
    split; [apply key_text; [exact O1|exact H1|lia]|]. split; [now apply ksk|now apply ksk].
  Qed.

  (** Position of the value found by [lookup]. *)
  Fixpoint lookup_at (k : bytes) (q : Z) (l : list (item * item)) : Z :=
    match l with
    | [] => q
    | kx :: l' => match text_of (fst kx) with
                  | Some s => if beq s k then q + zlen (enc (fst kx)) else lookup_at k (q + zlen (encp kx)) l'
                  | None => q
                  end
    end.

  Lemma key_loop_def k : forall l q, Forall (pair_ok item_plain) l -> has b q (flat_map encp l) ->
    nloop (length l) (key_def hard fuel b k) q =
    match lookup k l with
    | None => Throw EDeser
    | Some (Some _) => Ok (inr (at_ (lookup_at k q l)))
    | Some None => Ok (inl (q + zlen (flat_map encp l)))
    end.
  Proof.
    induction l as [|[kk x] l IH]; intros q OK H.
    - cbn [length nloop lookup flat_map]. do 2 f_equal. rewrite zlen_nil. lia.
    - inversion OK as [|? ? [O1 O2] OK']; subst. cbn [fst snd] in O1, O2.
      destruct (entry q kk x l O1 O2 H) as (H1 & H2 & H3 & ES & S1 & S2).
      cbn [length]. rewrite nloop_S. unfold key_def at 1. fold (at_ q). rewrite ES. cbn [lookup lookup_at fst snd].
      destruct (text_of kk) as [s|]; cbn [or_throw bind]; [|reflexivity].
      rewrite S1. cbn [bind]. destruct (beq s k); cbn [bind]; [reflexivity|].
      rewrite S2. cbn [bind]. rewrite IH by assumption. cbn [flat_map fst snd]. rewrite !zlen_app.
      destruct (lookup k l) as [[y|]|]; try reflexivity; do 2 f_equal; [unfold at_; f_equal; f_equal; lia|lia].
  Qed.
  Theorem key_item_def p f l k : item_plain (CMap f l) -> has b p (enc (CMap f l)) ->
    c_key hard fuel (at_ p) k =
    match lookup k l with
    | Some (Some _) => Ok (at_ (lookup_at k (p + hlen f) l))
    | _ => Throw EDeser
    end.
  Proof.
    intros OK H. destruct (map_at p f l (plain_ok _ OK) H) as (HD & _ & H'). unfold c_key, chd, at_. cbn [cv_buf cv_pos]. rewrite HD.
    cbn [bind require h_major h_indef h_len h_val negb Z.eqb Pos.eqb].
    unfold item_plain in OK. apply item_in_map in OK. destruct OK as [_ OK].
    rewrite zloop_nloop. replace (Z.to_nat (zlen l)) with (length l) by (unfold zlen; lia).
    rewrite (key_loop_def k l _ OK H'). destruct (lookup k l) as [[y|]|]; reflexivity.
  Qed.
  Lemma contains_loop_def k : forall l q, Forall (pair_ok item_plain) l -> has b q (flat_map encp l) ->
    nloop (length l) (contains_def hard fuel b k) q =
    match lookup k l with
    | None => Throw EDeser
    | Some (Some _) => Ok (inr true)
    | Some None => Ok (inl (q + zlen (flat_map encp l)))
    end.
  Proof.
    induction l as [|[kk x] l IH]; intros q OK H.
    - cbn [length nloop lookup flat_map]. do 2 f_equal. rewrite zlen_nil. lia.
    - inversion OK as [|? ? [O1 O2] OK']; subst. cbn [fst snd] in O1, O2.
      destruct (entry q kk x l O1 O2 H) as (H1 & H2 & H3 & ES & S1 & S2).
      destruct (item_head kk b q (plain_ok _ O1) H1) as [HD _].
      assert (EQ : (kh <- read_head b q ;;
         (if (h_major kh =? 3) && negb (h_indef kh)
         then a <- addr hard b (q + h_len kh) ;; sv_is b (a, h_val kh) k
         else s <- c_asString hard fuel (at_ q) ;; Ok (beq s k))) = (s <- or_throw (text_of kk) ;; Ok (beq s k))).
      { rewrite HD. cbn [bind]. destruct ((h_major (hd_of kk) =? 3) && negb (h_indef (hd_of kk))) eqn:C; [|now rewrite ES].
        destruct kk; cbn in C; try discriminate. cbn [hd_of h_len h_val text_of or_throw bind].
        cbn [enc] in H1. apply has_app in H1. destruct H1 as [_ H1]. rewrite zlen_hdr in H1.
        cbn [enc] in H2. rewrite zlen_app, zlen_hdr in H2. pose proof (has_bound _ _ _ H1) as [C0 C1]. pose proof (has_bound _ _ _ H2) as [C2 C3].
        pose proof (enc_pos x (plain_ok _ O2)). pose proof (zlen_nonneg s). rewrite addr_room by lia. cbn [bind]. unfold sv_is. cbn [snd].
        destruct (zlen s =? zlen k) eqn:E; [rewrite (has_rd_view _ _ _ H1); reflexivity|].
        rewrite beq_zlen by lia. reflexivity. }
      cbn [length]. rewrite nloop_S.
      assert (STEP : contains_def hard fuel b k q =
        (eq <- (s <- or_throw (text_of kk) ;; Ok (beq s k)) ;; if eq then Ok (inr true) else
         q1 <- skip fuel b q ;; q2 <- skip fuel b q1 ;; Ok (inl q2))).
      { rewrite <- EQ. unfold contains_def. rewrite HD. reflexivity. }
      rewrite STEP. cbn [lookup fst snd].
      destruct (text_of kk) as [s|]; cbn [or_throw bind]; [|reflexivity].
      destruct (beq s k); cbn [bind]; [reflexivity|].
      rewrite S1. cbn [bind]. rewrite S2. cbn [bind]. rewrite IH by assumption. cbn [flat_map fst snd]. rewrite !zlen_app.
      destruct (lookup k l) as [[y|]|]; try reflexivity; do 2 f_equal; lia.
  Qed.
  Theorem contains_item_def p f l k : item_plain (CMap f l) -> has b p (enc (CMap f l)) ->
    c_contains hard fuel (at_ p) k =
    match lookup k l with Some (Some _) => Ok true | Some None => Ok false | None => Throw EDeser end.
  Proof.
    intros OK H. destruct (map_at p f l (plain_ok _ OK) H) as (HD & _ & H'). unfold c_contains, chd, at_. cbn [cv_buf cv_pos]. rewrite HD.
    cbn [bind require h_major h_indef h_len h_val negb Z.eqb Pos.eqb].
    unfold item_plain in OK. apply item_in_map in OK. destruct OK as [_ OK].
    rewrite zloop_nloop. replace (Z.to_nat (zlen l)) with (length l) by (unfold zlen; lia).
    rewrite (contains_loop_def k l _ OK H'). destruct (lookup k l) as [[y|]|]; reflexivity.
  Qed.

  (** Indefinite-length maps *)
  Lemma entryI q k x l : item_plain k -> item_plain x -> has b q (flat_map encp ((k, x) :: l) ++ [255]) ->
    q < zlen b /\ (exists c, rd b q = Ok c /\ c <> 255) /\
    has b (q + zlen (enc k) + zlen (enc x)) (flat_map encp l ++ [255]) /\
    c_asString hard fuel (at_ q) = or_throw (text_of k) /\
    skip fuel b q = Ok (q + zlen (enc k)) /\ skip fuel b (q + zlen (enc k)) = Ok (q + zlen (enc k) + zlen (enc x)).
  Proof.
    intros O1 O2 H. destruct (entry_ok q k x l [255] (plain_ok _ O1) (plain_ok _ O2) H) as (H1 & H2 & H3 & ES & _ & _).
    destruct (first_byte k q (plain_ok _ O1) H1) as (B & C). split; [exact B|]. split; [exact C|]. split; [exact H3|].
    split; [exact ES|]. split; now apply sk.
  Qed.
  Lemma key_loop_ind k : forall l q n, Forall (pair_ok item_plain) l -> has b q (flat_map encp l ++ [255]) -> (length l < n)%nat ->
    floop n (key_ind hard fuel b k) q =
    match lookup k l with
    | None => Throw EDeser
    | Some (Some _) => Ok (Some (at_ (lookup_at k q l)))
    | Some None => Ok None
    end.
  Proof.
    induction l as [|[kk x] l IH]; intros q n OK H L; (destruct n as [|n]; [lia|]); rewrite floop_S.
    - cbn [flat_map app] in H. pose proof (has_bound _ _ _ H) as [B0 B1]. change (zlen [255]) with 1 in B1.
      unfold key_ind, require. replace (q <? zlen b) with true by lia. rewrite (has_rd _ _ _ _ H). reflexivity.
    - inversion OK as [|? ? [O1 O2] OK']; subst. cbn [fst snd] in O1, O2.
      destruct (entryI q kk x l O1 O2 H) as (B & (c & R & N) & H3 & ES & S1 & S2).
      unfold key_ind at 1. unfold require. replace (q <? zlen b) with true by lia. rewrite R. cbn [bind].
      replace (c =? 255) with false by lia. fold (at_ q). rewrite ES. cbn [lookup lookup_at fst snd].
      destruct (text_of kk) as [s|]; cbn [or_throw bind]; [|reflexivity].
      rewrite S1. cbn [bind]. destruct (beq s k); cbn [bind]; [reflexivity|].
      rewrite S2. cbn [bind length] in *. rewrite IH; [|assumption|exact H3|lia]. rewrite zlen_app.
      destruct (lookup k l) as [[y|]|]; try reflexivity; do 2 f_equal. unfold at_. f_equal. f_equal. lia.
  Qed.
  Lemma contains_loop_ind k : forall l q n, Forall (pair_ok item_plain) l -> has b q (flat_map encp l ++ [255]) -> (length l < n)%nat ->
    floop n (contains_ind hard fuel b k) q =
    match lookup k l with None => Throw EDeser | Some (Some _) => Ok true | Some None => Ok false end.
  Proof.
    induction l as [|[kk x] l IH]; intros q n OK H L; (destruct n as [|n]; [lia|]); rewrite floop_S.
    - cbn [flat_map app] in H. pose proof (has_bound _ _ _ H) as [B0 B1]. change (zlen [255]) with 1 in B1.
      unfold contains_ind, require. replace (q <? zlen b) with true by lia. rewrite (has_rd _ _ _ _ H). reflexivity.
    - inversion OK as [|? ? [O1 O2] OK']; subst. cbn [fst snd] in O1, O2.
      destruct (entryI q kk x l O1 O2 H) as (B & (c & R & N) & H3 & ES & S1 & S2).
      unfold contains_ind at 1. unfold require. replace (q <? zlen b) with true by lia. rewrite R. cbn [bind].
      replace (c =? 255) with false by lia. fold (at_ q). rewrite ES. cbn [lookup fst snd].
      destruct (text_of kk) as [s|]; cbn [or_throw bind]; [|reflexivity].
      rewrite S1. cbn [bind]. destruct (beq s k); cbn [bind]; [reflexivity|].
      rewrite S2. cbn [bind length] in *. apply IH; [assumption|exact H3|lia].
  Qed.
  Lemma pairs_fuel l q : Forall (pair_ok item_ok) l -> has b q (flat_map encp l ++ [255]) -> (length l < fuel)%nat.
  Proof.
    intros OK H. rewrite Forall_forall in OK. apply (many_fuel encp q); [|exact H].
    intros x Hx. rewrite zlen_app. destruct (OK x Hx) as [O1 O2]. pose proof (enc_pos _ O1). pose proof (zlen_nonneg (enc (snd x))). lia.
  Qed.
  Lemma pairs_ok l : Forall (pair_ok item_plain) l -> Forall (pair_ok item_ok) l.
  Proof. intros OK. eapply Forall_impl; [|exact OK]. intros kx [A B]. split; now apply plain_ok. Qed.
  Theorem key_item_ind p l k : item_plain (CMapI l) -> has b p (enc (CMapI l)) ->
    c_key hard fuel (at_ p) k =
    match lookup k l with
    | Some (Some _) => Ok (at_ (lookup_at k (p + 1) l))
    | _ => Throw EDeser
    end.
  Proof.
    intros OK H. destruct (mapI_at p l (plain_ok _ OK) H) as (HD & _ & H'). unfold c_key, chd, at_. cbn [cv_buf cv_pos]. rewrite HD.
    cbn [bind require h_major h_indef h_len h_val negb Z.eqb Pos.eqb].
    unfold item_plain in OK. apply item_in_mapI in OK.
    rewrite (key_loop_ind k l _ fuel OK H') by (apply (pairs_fuel l (p + 1)); [now apply pairs_ok|exact H']).
    destruct (lookup k l) as [[y|]|]; reflexivity.
  Qed.
  Theorem contains_item_ind p l k : item_plain (CMapI l) -> has b p (enc (CMapI l)) ->
    c_contains hard fuel (at_ p) k =
    match lookup k l with Some (Some _) => Ok true | Some None => Ok false | None => Throw EDeser end.
  Proof.
    intros OK H. destruct (mapI_at p l (plain_ok _ OK) H) as (HD & _ & H'). unfold c_contains, chd, at_. cbn [cv_buf cv_pos]. rewrite HD.
    cbn [bind require h_major h_indef h_len h_val negb Z.eqb Pos.eqb].
    unfold item_plain in OK. apply item_in_mapI in OK.
    apply (contains_loop_ind k l _ fuel OK H'). apply (pairs_fuel l (p + 1)); [now apply pairs_ok|exact H'].
  Qed.

  (** *** mapKeys *)
  Lemma deref_text k q : item_ok k -> has b q (enc k) -> q + zlen (enc k) < zlen b ->
    k_deref hard fuel b q = or_throw (text_of k).
  Proof.
    intros OK H R. destruct (item_head k b q OK H) as [_ HD]. unfold k_deref. rewrite HD. cbn [bind].
    destruct ((h_major (hd_of k) =? 3) && negb (h_indef (hd_of k))) eqn:C; [|now apply key_text].
    destruct k; cbn in C; try discriminate. cbn [hd_of h_len h_val text_of or_throw].
    cbn [enc] in H, R. apply has_app in H. destruct H as [_ H]. rewrite zlen_hdr in H. rewrite zlen_app, zlen_hdr in R.
    pose proof (has_bound _ _ _ H) as [C0 C1]. pose proof (zlen_nonneg s). rewrite addr_room by lia. cbn [bind]. now apply has_rd_view.
  Qed.
  Lemma pair_step_has kx q : pair_ok item_ok kx -> has b q (encp kx) ->
    (q1 <- k_skip fuel b q ;; k_skip fuel b q1) = Ok (q + zlen (encp kx)).
  Proof.
    intros [O1 O2] H. assert (H' := H). apply has_app in H. destruct H as [H1 H2].
    apply two_steps with (b := b); [exact H'|now apply ksk|now apply ksk].
  Qed.
  Lemma keys_loop_def e : forall l q acc n, Forall (pair_ok item_ok) l -> has b q (flat_map encp l) -> e = q + zlen (flat_map encp l) ->
    (length l < n)%nat ->
    floop n (keys_step hard fuel b false e) (q, zlen l, acc) =
    match keys_of l with Some ks => Ok (rev acc ++ ks) | None => Throw EDeser end.
  Proof.
    induction l as [|[kk x] l IH]; intros q acc n OK H E L; (destruct n as [|n]; [lia|]); rewrite floop_S.
    - cbn [flat_map] in E. rewrite zlen_nil in E. unfold keys_step. replace (q =? e) with true by (subst e; lia). cbn. now rewrite app_nil_r.
    - inversion OK as [|? ? [O1 O2] OK']; subst. cbn [fst snd] in O1, O2.
      rewrite <- (app_nil_r (flat_map _ _)) in H.
      destruct (entry_ok q kk x l [] O1 O2 H) as (H1 & H2 & H3 & _ & S1 & S2). rewrite app_nil_r in H3.
      pose proof (enc_pos _ O1). pose proof (enc_pos _ O2). pose proof (has_bound _ _ _ H2) as [B0 B1].
      pose proof (zlen_nonneg (flat_map encp l)). set (e := q + zlen (flat_map encp ((kk, x) :: l))).
      assert (EE : e = q + zlen (enc kk) + zlen (enc x) + zlen (flat_map encp l)).
      { unfold e. cbn [flat_map fst snd]. rewrite !zlen_app. lia. }
      unfold keys_step at 1. replace (q =? e) with false by lia.
      rewrite (deref_text kk q O1 H1) by lia. cbn [keys_of fst]. destruct (text_of kk) as [s|]; cbn [or_throw bind]; [|reflexivity].
      unfold k_incr. pose proof (zlen_nonneg l). replace (zlen ((kk, x) :: l) =? 0) with false by (rewrite zlen_cons; lia).
      rewrite S1. cbn [bind]. rewrite S2. cbn [bind]. replace (zlen ((kk, x) :: l) - 1) with (zlen l) by (rewrite zlen_cons; lia).
      cbn [length] in L. rewrite IH; [|exact OK'|exact H3|exact EE|lia]. cbn [rev].
      destruct (keys_of l); [|reflexivity]. now rewrite <- app_assoc.
  Qed.
  Theorem keys_item_def p f l : item_ok (CMap f l) -> has b p (enc (CMap f l)) ->
    c_mapKeys hard fuel (at_ p) = or_throw (keys_of l).
  Proof.
    intros OK H. destruct (map_at p f l OK H) as (HD & HD2 & H'). unfold c_mapKeys, k_end, chd, at_. cbn [cv_buf cv_pos]. rewrite HD, HD2.
    cbn [bind require h_major h_indef h_len h_val negb Z.eqb Pos.eqb].
    unfold item_ok in OK. apply item_in_map in OK. destruct OK as [_ OK].
    assert (OKF := OK). rewrite Forall_forall in OKF.
    rewrite (times_list encp _ b l (p + hlen f) H') by (intros kx q' Hx Hh _; apply pair_step_has; [exact (OKF kx Hx)|exact Hh]).
    cbn [bind]. rewrite (keys_loop_def _ l (p + hlen f) [] fuel OK H' eq_refl); [destruct (keys_of l); reflexivity|].
    pose proof (has_bound _ _ _ H') as [B0 B1].
    assert (zlen l <= zlen (flat_map encp l)); [|pose proof (hlen_pos f); unfold zlen in *; lia].
    apply flat_len. intros x Hx. rewrite zlen_app. destruct (OKF x Hx) as [O1 O2]. pose proof (enc_pos _ O1). pose proof (zlen_nonneg (enc (snd x))). lia.
  Qed.
  (** The end iterator of an indefinite-length map lies behind the break byte, where the iterator never
      gets: dereferencing at the break byte throws. *)
  Lemma keys_loop_ind e : forall l q r acc n, Forall (pair_ok item_ok) l -> has b q (flat_map encp l ++ [255]) ->
    e = q + zlen (flat_map encp l) + 1 -> (length l < n)%nat ->
    floop n (keys_step hard fuel b true e) (q, r, acc) = Throw EDeser.
  Proof.
    induction l as [|[kk x] l IH]; intros q r acc n OK H E L; (destruct n as [|n]; [lia|]); rewrite floop_S.
    - cbn [flat_map app] in *. rewrite zlen_nil in E. unfold keys_step. replace (q =? e) with false by lia.
      destruct (head_simple b q 255 [] _ H eq_refl) as [E1 E2]. unfold k_deref. rewrite E2. cbn [bind h_major h_indef negb andb].
      change ((Z.shiftr 255 5 =? 3) && negb true) with false. cbv iota.
      rewrite (no_str hard fuel b q _ E1 eq_refl). reflexivity.
    - inversion OK as [|? ? [O1 O2] OK']; subst. cbn [fst snd] in O1, O2.
      destruct (entry_ok q kk x l [255] O1 O2 H) as (H1 & H2 & H3 & _ & S1 & S2).
      destruct (first_byte kk q O1 H1) as (B & c & R & N).
      pose proof (enc_pos _ O1). pose proof (enc_pos _ O2). pose proof (has_bound _ _ _ H2) as [B0 B1].
      pose proof (zlen_nonneg (flat_map encp l)). set (e := q + zlen (flat_map encp ((kk, x) :: l)) + 1).
      assert (EE : e = q + zlen (enc kk) + zlen (enc x) + zlen (flat_map encp l) + 1).
      { unfold e. cbn [flat_map fst snd]. rewrite !zlen_app. lia. }
      unfold keys_step at 1. replace (q =? e) with false by lia.
      rewrite (deref_text kk q O1 H1) by lia. destruct (text_of kk) as [s|]; cbn [or_throw bind]; [|reflexivity].
      unfold k_incr. rewrite R. cbn [bind]. replace (c =? 255) with false by lia.
      rewrite S1. cbn [bind]. rewrite S2. cbn [bind].
      cbn [length] in L. apply IH; [exact OK'|exact H3|exact EE|lia].
  Qed.
  Theorem keys_item_ind p l : item_ok (CMapI l) -> has b p (enc (CMapI l)) -> c_mapKeys hard fuel (at_ p) = Throw EDeser.
  Proof.
    intros OK H. destruct (mapI_at p l OK H) as (HD & HD2 & H'). unfold c_mapKeys, k_end, chd, at_. cbn [cv_buf cv_pos]. rewrite HD, HD2.
    cbn [bind require h_major h_indef h_len h_val negb Z.eqb Pos.eqb].
    unfold item_ok in OK. apply item_in_mapI in OK. assert (OKF := OK). rewrite Forall_forall in OKF.
    pose proof (has_bound _ _ _ H') as [B0 B1].
    rewrite (until_loop true encp b fuel _ l (p + 1)) with (3 := H');
      [|intros kx Hx; destruct (enc_first _ (proj1 (OKF kx Hx))) as (c & t & -> & Hc); cbn [app]; eauto
       |intros kx q' Hx Hh _; apply pair_step_has; [exact (OKF kx Hx)|exact Hh]|lia].
    cbn [bind]. rewrite (keys_loop_ind _ l (p + 1) 0 [] fuel OK H' eq_refl); [reflexivity|].
    now apply (pairs_fuel l (p + 1)).
  Qed.
End Containers.
