(** Properties_Cbor.v -- C18..C24 and C54: CBOR.

    [hard] says whether span indexing is checked by the standard library (hardened builds); [fuel]
    bounds recursion depth and iterations of every open-ended loop, so a result other than [NoFuel]
    means the C++ code finishes within that many steps of each loop. *)

From Coq Require Import ZArith List Bool Lia.
From Verif Require Import Base BaseFacts Spec SpecFacts FloatModel FloatSpec HalfModel FloatFacts
  Utf8Spec CborModel CborSpec CborFacts CborRead CborMain CborSafe.
Import ListNotations.
Open Scope Z_scope.

Definition cdemo : val :=
  VMap [ ([97], VInt (-5)); ([98], VArr [VNull; VBool true; VUInt 200; VInt 300; VInt (-70000); VUInt (2^63)]);
         ([97], VStr [195; 169]); ([], VBlob []); ([99], VDbl (2^62)) ].
Lemma cdemo_ok : val_ok cdemo. Proof. unfold cdemo. okay. Qed.
Lemma cdemo_utf8 : texts_utf8 cdemo.
Proof.
  assert (K : forall c, 0 <= c < 128 -> is_utf8 [c]).
  { intros c H. exists [c]. split; [apply Forall_cons; [left; lia|apply Forall_nil]|]. cbn. unfold utf8_code. destruct (Z.ltb_spec c 128); [reflexivity|lia]. }
  assert (is_utf8 []) by (exists []; split; constructor).
  assert (is_utf8 [195; 169]) by (exists [233]; split; [apply Forall_cons; [left; lia|apply Forall_nil]|reflexivity]).
  cbn. repeat split; auto; apply K; lia.
Qed.

(** ** C18: round trip

    Full statement: for every value tree v, serialize succeeds and the reader shows v.  Missing: values
    nested deeper than 1024 and text that is not UTF-8, which are rejected (exactly those); on hardened
    builds a message whose last bytes are an empty string or blob.  Integers are observed through [T_cbor]
    (see C23). *)
Theorem C18_cbor_round_trip_partial : forall hard fuel v b, val_ok v ->
  serialize cbor_writer v = Ok b -> zlen b < 2^63 -> zlen b < Z.of_nat fuel ->
  hard = false \/ last_empty v = false ->
  shows (cbor_reader hard fuel) T_cbor (cb_open b) v.
Proof. exact cbor_round_trip. Qed.
Print Assumptions C18_cbor_round_trip_partial.

Theorem C18_cbor_fails_exactly_on_limits : forall v, val_ok v ->
  (texts_utf8 v /\ depth v <= 1024 -> exists b, serialize cbor_writer v = Ok b) /\
  (~ (texts_utf8 v /\ depth v <= 1024) -> serialize cbor_writer v = Throw EThirdParty).
Proof. intros v OK. split; [intros L; eexists; now apply cbor_serialize|now apply cbor_rejects]. Qed.
Print Assumptions C18_cbor_fails_exactly_on_limits.
Example C18_case : val_ok cdemo /\ texts_utf8 cdemo /\ depth cdemo <= 1024 /\ last_empty cdemo = false /\
  exists b, serialize cbor_writer cdemo = Ok b /\ zlen b = 42.
Proof.
  split; [exact cdemo_ok|]. split; [exact cdemo_utf8|]. split; [vm_compute; congruence|]. split; [reflexivity|].
  eexists. split; [vm_compute; reflexivity|reflexivity].
Qed.

(** The numbers in [T_cbor]: exact through the accessors that can hold them, except asInt of uint64
    values from 2^63 on. *)
Theorem C18_cbor_own_sign_exact : forall z iw,
  (is_i64 z -> t_asInt (T_cbor (VInt z)) iw = fits_s iw z) /\
  (is_u64 z -> t_asUInt (T_cbor (VUInt z)) iw = fits_u iw z).
Proof.
  intros z iw. cbn [T_cbor int_tbl t_asInt t_asUInt]. unfold is_i64, is_u64, i64_min, i64_max, u64_max. split; intros H; [|reflexivity].
  destruct (z <? 0) eqn:E; [reflexivity|]. rewrite to_signed_id by lia. reflexivity.
Qed.
Print Assumptions C18_cbor_own_sign_exact.

(** Refutations: the empty string on hardened builds; a Latin-1 string; 1025 nested arrays. *)
Fixpoint nest (n : nat) : val := match n with O => VNull | S k => VArr [nest k] end.
Theorem C18_cbor_round_trip_refuted :
  (exists b, serialize cbor_writer (VStr []) = Ok b /\ forall fuel, r_asString (cbor_reader true fuel) (cb_open b) = UB) /\
  serialize cbor_writer (VStr [233]) = Throw EThirdParty /\
  val_ok (nest 1025) /\ serialize cbor_writer (nest 1025) = Throw EThirdParty.
Proof.
  split; [exists [96]; split; [reflexivity|intros fuel; reflexivity]|]. split; [reflexivity|].
  assert (N : forall n, val_ok (nest n)) by (induction n as [|n IH]; [exact I|apply val_ok_arr; repeat constructor; exact IH]).
  split; [apply N|vm_compute; reflexivity].
Qed.
Print Assumptions C18_cbor_round_trip_refuted.

(** ** C19: skipping is exact

    Every well-formed item -- definite and indefinite, nested, tagged -- at any place in any buffer.  Full
    statement: [item_ok].  Missing in the member skip: one-byte simple values (0xf8 ..), refuted below; the
    key iterator's own skip handles them. *)
Theorem C19_cbor_skip_exact_partial : forall it pre suf fuel, item_plain it ->
  zlen (pre ++ enc it ++ suf) < 2^63 -> zlen (enc it ++ suf) < Z.of_nat fuel ->
  skip fuel (pre ++ enc it ++ suf) (zlen pre) = Ok (zlen (pre ++ enc it)).
Proof.
  intros it pre suf fuel OK HB HF. rewrite zlen_app.
  apply (skipper_enc false _ HB it OK fuel (zlen pre) (has_mid _ _ _)). rewrite zlen_app. lia.
Qed.
Print Assumptions C19_cbor_skip_exact_partial.
Theorem C19_cbor_iterator_skip_exact : forall it pre suf fuel, item_ok it ->
  zlen (pre ++ enc it ++ suf) < 2^63 -> zlen (enc it ++ suf) < Z.of_nat fuel ->
  k_skip fuel (pre ++ enc it ++ suf) (zlen pre) = Ok (zlen (pre ++ enc it)).
Proof.
  intros it pre suf fuel OK HB HF. rewrite zlen_app.
  apply (skipper_enc true _ HB it OK fuel (zlen pre) (has_mid _ _ _)). rewrite zlen_app. lia.
Qed.
Print Assumptions C19_cbor_iterator_skip_exact.
Ltac item_case := repeat (cbn [item_in fst snd]; match goal with
  | |- _ /\ _ => split
  | |- Forall _ [] => constructor
  | |- Forall _ (_ :: _) => constructor
  | |- True => exact I
  | |- is_byte _ => unfold is_byte
  | |- bytes_ok _ => unfold bytes_ok
  | |- chunks_ok _ => unfold chunks_ok
  end); cbn; lia.
Definition citem : item :=
  CArrI [CMap A1 [(CTextI [(A0, [97]); (A8, [98; 99])], CTag A2 1000 (CF16 15360))]; CBytesI []; CNeg A4 7; CSimple 23].
Example C19_case : item_plain citem /\ enc citem =
  [159; 184; 1; 127; 97; 97; 123; 0; 0; 0; 0; 0; 0; 0; 2; 98; 99; 255; 217; 3; 232; 249; 60; 0; 95; 255; 58; 0; 0; 0; 7; 247; 255].
Proof.
  split; [|reflexivity]. unfold citem, item_plain. cbn [item_in]. unfold chunks_ok.
  item_case.
Qed.

(** Indexing and key lookup land exactly on the addressed item, in both encodings. *)
Theorem C19_cbor_index_exact : forall hard fuel b p l1 x l2 it, zlen b < 2^63 -> zlen b < Z.of_nat fuel ->
  (exists f, it = CArr f (l1 ++ x :: l2)) \/ it = CArrI (l1 ++ x :: l2) ->
  item_ok it -> Forall item_plain l1 -> sits hard b p it ->
  exists q, r_idx (cbor_reader hard fuel) (mkCView b p) (zlen l1) = Ok (mkCView b q) /\ sits hard b q x.
Proof. intros. eapply idx_item; eauto. Qed.
Theorem C19_cbor_key_exact : forall hard fuel b p l it k, zlen b < 2^63 -> zlen b < Z.of_nat fuel ->
  (exists f, it = CMap f l) \/ it = CMapI l -> item_plain it -> sits hard b p it ->
  match lookup k l with
  | Some (Some x) => exists q, r_key (cbor_reader hard fuel) (mkCView b p) k = Ok (mkCView b q) /\ sits hard b q x
  | _ => r_key (cbor_reader hard fuel) (mkCView b p) k = Throw EDeser
  end.
Proof. intros. eapply key_item; eauto. Qed.
Theorem C19_cbor_size_exact : forall fuel pre suf l it, (exists f, it = CArr f l) \/ it = CArrI l -> item_plain it ->
  zlen (pre ++ enc it ++ suf) < 2^63 -> zlen (pre ++ enc it ++ suf) < Z.of_nat fuel ->
  c_arraySize fuel (mkCView (pre ++ enc it ++ suf) (zlen pre)) = Ok (zlen l).
Proof.
  intros fuel pre suf l it [[f ->] | ->] OK HB HF.
  - apply (size_def fuel _ _ f); [now apply plain_ok|apply has_mid].
  - apply size_ind; auto. apply has_mid.
Qed.
Print Assumptions C19_cbor_index_exact.
Print Assumptions C19_cbor_key_exact.
Print Assumptions C19_cbor_size_exact.
Example C19_lookup_case : sits true (1 :: enc citem) 1 citem /\
  lookup [97; 98; 99] [(CTextI [(A0, [97]); (A8, [98; 99])], CSimple 22)] = Some (Some (CSimple 22)).
Proof. split; [|reflexivity]. unfold sits. vm_compute. intuition congruence. Qed.

(** The two bytes f8 20 (simple value 32): one byte too many is skipped. *)
Theorem C19_cbor_skip_exact_refuted : exists it, item_ok it /\ enc it = [248; 32] /\
  (forall fuel, skip (S fuel) (enc it ++ [1]) 0 = Ok 3) /\ (forall fuel, skip (S fuel) (enc it) 0 = Throw EDeser).
Proof. exists (CSimple8 32). split; [vm_compute; intuition congruence|]. split; [reflexivity|]. split; intros fuel; reflexivity. Qed.
Print Assumptions C19_cbor_skip_exact_refuted.

(** ** C20: memory safety

    Full statement: for all bytes b and every view reachable from cb_open b every Reader operation is
    [safe].  Refuted below for asDouble, asStringView, asBlob, contains and mapKeys.  What holds on arbitrary
    bytes: type tests, bool and integer accessors are safe; asString, arraySize and both operator[] never
    leave the buffer; asDouble exactly when the payload is there.  On buffers without a 64-bit string
    length of 2^63 or more, asString, asStringView, asBlob, arraySize and operator[] are safe outright. *)
Theorem C20_cbor_scalars_safe : forall b w hard fuel, bytes_ok b -> inside b w ->
  let R := cbor_reader hard fuel in
  safe any (r_isNull R w) /\ safe any (r_isBool R w) /\ safe any (r_isInt R w) /\ safe any (r_isUInt R w) /\
  safe any (r_isFloat R w) /\ safe any (r_isString R w) /\ safe any (r_isBlob R w) /\ safe any (r_isMap R w) /\
  safe any (r_isArray R w) /\ safe any (r_asBool R w) /\
  (forall iw, safe any (r_asInt R iw w)) /\ (forall iw, safe any (r_asUInt R iw w)).
Proof.
  intros b w hard fuel B W R. repeat split; intros; try (apply (is_safe b w B W)).
  - apply (asBool_safe b w B W).
  - apply (asInt_safe b w B W).
  - apply (asUInt_safe b w B W).
Qed.
Print Assumptions C20_cbor_scalars_safe.

Theorem C20_cbor_no_oob_partial : forall b fuel w, bytes_ok b -> zlen b < 2^63 ->
  let R := cbor_reader false fuel in
  reach R (cb_open b) w ->
  inside b w /\ r_asString R w <> UB /\ r_arraySize R w <> UB /\
  (forall i, r_idx R w i <> UB) /\ (forall k, r_key R w k <> UB).
Proof.
  intros b fuel w B HB R RE. assert (W := reach_inside false b fuel w B HB ltac:(discriminate) RE).
  split; [exact W|]. destruct w as [b' p]. destruct W as [E P]. cbn [cv_buf cv_pos] in *. subst b'.
  repeat split; intros; cbn [R cbor_reader r_asString r_arraySize r_idx r_key].
  - eapply out_noub, (out_asString false false b B HB); try discriminate. lia.
  - eapply out_noub, (out_size false false b B HB); try discriminate. lia.
  - eapply out_noub, (out_idx false false b B HB); try discriminate. lia.
  - eapply out_noub, (out_key false false b B HB); try discriminate. lia.
Qed.
Print Assumptions C20_cbor_no_oob_partial.

Theorem C20_cbor_safe_partial : forall b fuel w, bytes_ok b -> zlen b < 2^63 -> no_huge b -> zlen b < Z.of_nat fuel ->
  let R := cbor_reader false fuel in
  reach R (cb_open b) w ->
  safe any (r_asString R w) /\ safe (view_in b) (c_asStringView false w) /\ safe (view_in b) (c_asBlob false w) /\
  safe any (r_arraySize R w) /\ (forall i, safe (inside b) (r_idx R w i)) /\ (forall k, safe (inside b) (r_key R w k)).
Proof.
  intros b fuel w B HB NH HF R RE. assert (W := reach_inside false b fuel w B HB ltac:(discriminate) RE).
  destruct w as [b' p]. destruct W as [E P]. cbn [cv_buf cv_pos] in *. subst b'.
  repeat split; intros; cbn [R cbor_reader r_asString r_arraySize r_idx r_key]; apply out_safe.
  - eapply out_true, (out_asString true false b B HB); auto. lia.
  - apply (out_view true false b B HB (fun _ => NH) fuel (fun _ => HF)); auto; lia.
  - apply (out_view true false b B HB (fun _ => NH) fuel (fun _ => HF)); auto; lia.
  - eapply out_true, (out_size true false b B HB); auto. lia.
  - apply (out_idx true false b B HB); auto. lia.
  - apply (out_key true false b B HB); auto. lia.
Qed.
Print Assumptions C20_cbor_safe_partial.

Theorem C20_cbor_asDouble_exact : forall b p, bytes_ok b -> 0 <= p ->
  (safe any (c_asDouble (mkCView b p)) <->
   forall x n, rd b p = Ok x -> float_size x = Some n -> p + n <= zlen b).
Proof.
  intros b p B P. split; [|now apply asDouble_safe]. intros S x n Ex F.
  destruct (Z_lt_ge_dec (zlen b) (p + n)) as [L|L]; [|lia]. rewrite (asDouble_ub b p x n P Ex F L) in S. destruct S.
Qed.
Print Assumptions C20_cbor_asDouble_exact.
(** A hostile buffer within the hypotheses: an array of maps cut off inside a key. *)
Example C20_case : let b := [155; 255; 255; 255; 255; 255; 255; 255; 255; 161; 122; 0; 0; 255; 0; 97] in
  bytes_ok b /\ no_huge b /\ r_idx (cbor_reader false 100) (cb_open b) 0 = Ok (mkCView b 9) /\
  r_key (cbor_reader false 100) (mkCView b 9) [97] = Throw EDeser.
Proof.
  cbv zeta. split; [repeat constructor; unfold is_byte; lia|]. split; [|split; reflexivity].
  intros p m n P M N H. exfalso.
  assert (K : p < 16).
  { destruct (Z_lt_ge_dec p 16) as [L|L]; [exact L|]. exfalso. unfold slice in H.
    rewrite skipn_all2 in H by (cbn [length]; lia). rewrite firstn_nil in H. discriminate. }
  assert (D : In p (map Z.of_nat (seq 0 16))).
  { apply in_map_iff. exists (Z.to_nat p). split; [lia|]. apply in_seq. lia. }
  assert (H0 := f_equal (fun l => nth 0 l 0) H). cbn [nth app] in H0. clear H.
  cbn in D. repeat (destruct D as [<- |D]; [vm_compute in H0; destruct M as [-> | ->]; discriminate|]). destruct D.
Qed.

(** Out-of-bounds reads: a bare double header; a string length that wraps around 2^64; contains on a
    truncated key; mapKeys on a truncated map. *)
Theorem C20_cbor_reader_unsafe_refuted : forall fuel, (2 <= fuel)%nat -> let R := cbor_reader false fuel in
  r_asDouble R (cb_open [251]) = UB /\
  r_asStringView R (cb_open [123; 255; 255; 255; 255; 255; 255; 255; 247]) = UB /\
  r_asBlob R (cb_open [91; 255; 255; 255; 255; 255; 255; 255; 247]) = UB /\
  r_contains R (cb_open [161; 98; 97]) [97; 98] = UB /\
  r_mapKeys R (cb_open [161]) = UB.
Proof. intros [|[|fuel]] F; [lia|lia|]. repeat split; vm_compute; reflexivity. Qed.
Print Assumptions C20_cbor_reader_unsafe_refuted.

(** ** C21: termination

    Full statement: every operation finishes on every buffer.  Refuted below by a wrapping string length.
    On buffers without one, recursion depth and iterations are bounded by the buffer's length. *)
Theorem C21_cbor_terminates_partial : forall b p fuel, bytes_ok b -> zlen b < 2^63 -> no_huge b -> 0 <= p -> zlen b < Z.of_nat fuel ->
  let R := cbor_reader false fuel in let w := mkCView b p in
  skip fuel b p <> NoFuel /\ r_asString R w <> NoFuel /\ r_arraySize R w <> NoFuel /\
  (forall i, r_idx R w i <> NoFuel) /\ (forall k, r_key R w k <> NoFuel) /\ (forall k, r_contains R w k <> NoFuel).
Proof.
  intros b p fuel B HB NH P HF R w.
  repeat split; intros; cbn [R cbor_reader r_asString r_arraySize r_idx r_key r_contains]; unfold w.
  - eapply out_fuel, (out_skip true true b B HB); auto. intros _. pose proof (zlen_nonneg b). unfold rest. lia.
  - eapply out_fuel, (out_asString true true b B HB); auto.
  - eapply out_fuel, (out_size true true b B HB); auto.
  - eapply out_fuel, (out_idx true true b B HB); auto.
  - eapply out_fuel, (out_key true true b B HB); auto.
  - eapply out_fuel, (out_contains true true b B HB); auto.
Qed.
Print Assumptions C21_cbor_terminates_partial.
(** ... and every skip makes progress and stays inside the buffer. *)
Theorem C21_cbor_skip_advances_partial : forall b p q fuel, bytes_ok b -> zlen b < 2^63 -> no_huge b -> 0 <= p -> zlen b < Z.of_nat fuel ->
  skip fuel b p = Ok q -> p < q <= zlen b.
Proof.
  intros b p q fuel B HB NH P HF E. pose proof (zlen_nonneg b).
  assert (O : outcome true true (lands true b p) (skip fuel b p)).
  { apply (out_skip true true b B HB); auto. intros _. unfold rest. lia. }
  rewrite E in O. destruct O as [O1 O2]. specialize (O2 eq_refl). lia.
Qed.
Print Assumptions C21_cbor_skip_advances_partial.

(** An indefinite array whose only element is a string of 2^64-9 bytes: arraySize never returns. *)
Definition cloop : bytes := [159; 123; 255; 255; 255; 255; 255; 255; 255; 247].
Theorem C21_cbor_terminates_refuted : forall fuel, r_arraySize (cbor_reader false fuel) (cb_open cloop) = NoFuel.
Proof.
  intros fuel. cbn [cbor_reader r_arraySize]. unfold c_arraySize, chd, cb_open, cloop. cbn [cv_buf cv_pos].
  change (read_head _ 0) with (Ok (mkHead 4 31 0 1 true)). cbn [bind require h_major h_indef h_len negb Z.eqb Pos.eqb Z.add].
  destruct fuel as [|f]; [reflexivity|]. assert (K : forall n c, floop n (size_step (S f) cloop) (1, c) = NoFuel); [|apply K].
  induction n as [|n IH]; intros c; [reflexivity|]. rewrite floop_S.
  change (size_step (S f) cloop (1, c)) with (@Ok (Z * Z + Z) (inl (1, c + 1))). cbn [bind]. apply IH.
Qed.
Print Assumptions C21_cbor_terminates_refuted.

(** ** C22: map keys

    Full statement: mapKeys() enumerates the keys for both encodings.  Proved for definite maps (any keys
    that are text, chunked ones included); for indefinite maps mapKeys() always throws. *)
Theorem C22_cbor_definite_keys_partial : forall hard fuel pre suf f l ks, item_ok (CMap f l) -> keys_of l = Some ks ->
  let b := pre ++ enc (CMap f l) ++ suf in
  zlen b < 2^63 -> zlen b < Z.of_nat fuel ->
  r_mapKeys (cbor_reader hard fuel) (mkCView b (zlen pre)) = Ok ks.
Proof.
  intros hard fuel pre suf f l ks OK K b HB HF. cbn [cbor_reader r_mapKeys].
  rewrite (keys_item_def hard fuel b HB HF (zlen pre) f l OK (has_mid _ _ _)), K. reflexivity.
Qed.
Print Assumptions C22_cbor_definite_keys_partial.
(** contains answers membership in those keys, for both encodings. *)
Lemma lookup_keys k : forall l ks, keys_of l = Some ks ->
  match lookup k l with Some (Some _) => existsb (beq k) ks = true | Some None => existsb (beq k) ks = false | None => False end.
Proof.
  induction l as [|[a x] l IH]; intros ks H; cbn [keys_of lookup fst snd] in *; [injection H as <-; reflexivity|].
  destruct (text_of a) as [s|]; [|discriminate]. destruct (keys_of l) as [r|]; [|discriminate]. injection H as <-.
  cbn [existsb]. rewrite (beq_sym k s). destruct (beq s k); [reflexivity|]. cbn [orb]. now apply IH.
Qed.
Theorem C22_cbor_contains_keys : forall hard fuel pre suf it l ks k, (exists f, it = CMap f l) \/ it = CMapI l ->
  item_plain it -> keys_of l = Some ks ->
  let b := pre ++ enc it ++ suf in
  zlen b < 2^63 -> zlen b < Z.of_nat fuel ->
  r_contains (cbor_reader hard fuel) (mkCView b (zlen pre)) k = Ok (existsb (beq k) ks).
Proof.
  intros hard fuel pre suf it l ks k T OK K b HB HF. cbn [cbor_reader r_contains].
  pose proof (lookup_keys k l ks K) as L. assert (H : has b (zlen pre) (enc it)) by apply has_mid.
  destruct T as [[f ->] | ->].
  - rewrite (contains_item_def hard fuel b HB HF (zlen pre) f l k OK H). destruct (lookup k l) as [[x|]|]; [now rewrite L|now rewrite L|destruct L].
  - rewrite (contains_item_ind hard fuel b HB HF (zlen pre) l k OK H). destruct (lookup k l) as [[x|]|]; [now rewrite L|now rewrite L|destruct L].
Qed.
Print Assumptions C22_cbor_contains_keys.
Definition clist : list (item * item) := [(CText A0 [97], CSimple 22); (CTextI [(A0, [98]); (A1, [99])], CArrI [])].
Example C22_case : item_plain (CMap A0 clist) /\ item_plain (CMapI clist) /\ keys_of clist = Some [[97]; [98; 99]].
Proof.
  split; [|split; [|reflexivity]]; unfold clist, item_plain; cbn [item_in]; unfold chunks_ok;
  item_case.
Qed.
Theorem C22_cbor_indefinite_keys_refuted : forall hard fuel pre suf l, item_ok (CMapI l) ->
  let b := pre ++ enc (CMapI l) ++ suf in
  zlen b < 2^63 -> zlen b < Z.of_nat fuel ->
  r_mapKeys (cbor_reader hard fuel) (mkCView b (zlen pre)) = Throw EDeser.
Proof.
  intros hard fuel pre suf l OK b HB HF. cbn [cbor_reader r_mapKeys].
  apply (keys_item_ind hard fuel b HB HF (zlen pre) l OK (has_mid _ _ _)).
Qed.
Print Assumptions C22_cbor_indefinite_keys_refuted.

(** ** C23: integers

    Full statement: asInt returns the stored integer or throws.  Missing: asInt of unsigned values from
    2^63 on, refuted below. *)
Theorem C23_cbor_ints_partial : forall hard fuel f n pre suf iw, 0 <= n < arg_cap f ->
  let R := cbor_reader hard fuel in
  let wu := mkCView (pre ++ enc (CUInt f n) ++ suf) (zlen pre) in
  let wn := mkCView (pre ++ enc (CNeg f n) ++ suf) (zlen pre) in
  r_asUInt R iw wu = or_throw (fits_u iw n) /\ (n < 2^63 -> r_asInt R iw wu = or_throw (fits_s iw n)) /\
  r_asInt R iw wn = or_throw (fits_s iw (-1 - n)) /\ r_asUInt R iw wn = Throw EDeser.
Proof.
  intros hard fuel f n pre suf iw N R wu wn. assert (N' : 0 <= n < 2^64) by (destruct f; cbn [arg_cap] in N; lia).
  destruct (item_head (CUInt f n) (pre ++ enc (CUInt f n) ++ suf) (zlen pre) N (has_mid _ _ _)) as [HU _].
  destruct (item_head (CNeg f n) (pre ++ enc (CNeg f n) ++ suf) (zlen pre) N (has_mid _ _ _)) as [HN _].
  destruct (int_major0 _ _ _ HU iw n eq_refl eq_refl N') as [U1 U2].
  destruct (int_major1 _ _ _ HN iw n eq_refl eq_refl N') as [N1 N2].
  cbn [R cbor_reader r_asInt r_asUInt]. unfold wu, wn. repeat split; auto.
  intros L. rewrite U1, to_signed_id by lia. reflexivity.
Qed.
Print Assumptions C23_cbor_ints_partial.
Example C23_case : 0 <= 300 < arg_cap A2 /\ enc (CNeg A2 300) = [57; 1; 44] /\ fits_s I8 (-1 - 300) = None /\ fits_s I16 (-1 - 300) = Some (-301).
Proof. vm_compute. intuition congruence. Qed.

Theorem C23_cbor_ints_refuted : forall hard fuel, exists b1 b2, let R := cbor_reader hard fuel in
  serialize cbor_writer (VUInt (2^63)) = Ok b1 /\ r_asInt R I64 (cb_open b1) = Ok (-2^63) /\
  serialize cbor_writer (VUInt (2^64 - 1)) = Ok b2 /\ r_asInt R I8 (cb_open b2) = Ok (-1).
Proof. intros hard fuel. exists [27; 128; 0; 0; 0; 0; 0; 0; 0], [27; 255; 255; 255; 255; 255; 255; 255; 255]. vm_compute. auto. Qed.
Print Assumptions C23_cbor_ints_refuted.

(** ** C24: half-precision floats; C54: single-precision floats *)
Lemma asDouble_item hard fuel it pre suf d : item_ok it -> item_table it = ideal (VDbl d) -> ends_empty it = false ->
  zlen (pre ++ enc it ++ suf) < 2^63 -> r_asDouble (cbor_reader hard fuel) (mkCView (pre ++ enc it ++ suf) (zlen pre)) = Ok d.
Proof.
  intros OK T EE HB. assert (NC : is_chunked_text it = false) by (destruct it; try reflexivity; discriminate).
  assert (S : sits hard (pre ++ enc it ++ suf) (zlen pre) it) by (apply has_sits; [apply has_mid|tauto]).
  pose proof (observes_item hard fuel _ _ it HB OK NC S) as O. rewrite T in O.
  destruct O as (_ & _ & _ & _ & _ & _ & _ & _ & _ & _ & _ & _ & O & _). exact O.
Qed.
Theorem C24_cbor_half_exact : forall hard fuel h pre suf, 0 <= h < 2^16 -> zlen (pre ++ [249; h / 256; h mod 256] ++ suf) < 2^63 ->
  exists d, r_asDouble (cbor_reader hard fuel) (mkCView (pre ++ [249; h / 256; h mod 256] ++ suf) (zlen pre)) = Ok d /\
            f64_value d = f16_value h.
Proof.
  intros hard fuel h pre suf H HB. exists (f16_to_f64 h). split; [|rewrite <- decode_f16_spec by lia; now apply half_exact].
  assert (E : [249; h / 256; h mod 256] = enc (CF16 h)).
  { cbn [enc be]. change (256 ^ Z.of_nat 1) with 256. change (256 ^ Z.of_nat 0) with 1.
    rewrite Z.div_1_r, (Z.mod_small (h / 256)); [reflexivity|]. split; [apply Z.div_pos; lia|apply Z.div_lt_upper_bound; lia]. }
  rewrite E in *. now apply asDouble_item.
Qed.
Print Assumptions C24_cbor_half_exact.
Example C24_case : f16_value 1 = Fnum false (2^1050) /\ f16_value 15360 = Fnum false (2^1074) /\ f16_value 64512 = Finf true.
Proof. vm_compute. auto. Qed.
Theorem C54_cbor_single_exact : forall hard fuel x pre suf, 0 <= x < 2^32 -> zlen (pre ++ (250 :: be 4 x) ++ suf) < 2^63 ->
  exists d, r_asDouble (cbor_reader hard fuel) (mkCView (pre ++ (250 :: be 4 x) ++ suf) (zlen pre)) = Ok d /\
            f64_value d = f32_value x.
Proof.
  intros hard fuel x pre suf H HB. exists (f32_to_f64 x). split; [|apply f32_exact].
  change (250 :: be 4 x) with (enc (CF32 x)) in *. now apply asDouble_item.
Qed.
Print Assumptions C54_cbor_single_exact.
Example C54_case : f32_value 1 = Fnum false (2^925) /\ f32_value 1065353216 = Fnum false (2^1074).
Proof. vm_compute. auto. Qed.
