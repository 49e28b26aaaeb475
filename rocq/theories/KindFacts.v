(** KindFacts.v -- type tests and accessors of the five readers, on arbitrary messages. *)

From Coq Require Import ZArith List Bool Lia ZifyBool Permutation.
From Verif Require Import Base BaseFacts Spec SpecFacts NarrowModel KindSpec ZeraModel JsonModel FlexModel.
From Verif Require MsgModel MsgSpec MsgMain CborModel CborSpec.
From Verif Require Import FlexSpec FlexFacts JsonSpec JsonMain TransSpec TransMain NarrowSpec NarrowMain BuildModel BuildSpec BuildFacts.
Import ListNotations.
Open Scope Z_scope.

Lemma float_throws {V} (R : reader V) w : r_asDouble R w = Throw EDeser -> r_asDouble R w = Throw EDeser /\ asFloat R w = Throw EDeser.
Proof. intros E. split; [exact E|]. unfold asFloat. now rewrite E. Qed.
Ltac unread := cbn [zera_reader MsgModel.mp_reader CborModel.cbor_reader json_reader flex_reader r_isNull r_isBool r_isInt r_isUInt r_isFloat r_isString r_isBlob r_isMap r_isArray
  r_asBool r_asInt r_asUInt r_asDouble r_asString r_asStringView r_asBlob r_arraySize r_idx r_key r_contains r_mapKeys test] in *.

(** ** ZERA *)
Lemma zera_guarded w : guarded zera_reader w.
Proof.
  unfold guarded. unread. unfold zv_is, zv_asBool, zv_asInt, zv_asUInt, zv_asInt64, zv_asUInt64, zv_asDouble, zv_asString, zv_asStringView,
    zv_asBlob, zv_arraySize, zv_idx, zv_keys, zv_mapKeys, zv_key, zv_contains.
  destruct (zv_tag w) as [t| | |] eqn:T; cbn [bind]; try (repeat (match goal with |- _ /\ _ => split end); intros H; discriminate H).
  - split; [|split; [|split; [|split; [|split; [|split]]]]]; intros H.
    + injection H as ->. reflexivity.
    + destruct (t =? TI64) eqn:E1; [discriminate|]. injection H as E2. intros iw. rewrite E2. cbn [orb]. split; destruct iw; reflexivity.
    + injection H as E. split; [now rewrite E|]. unfold asFloat. unread. unfold zv_asDouble. rewrite T. cbn [bind]. now rewrite E.
    + injection H as ->. split; reflexivity.
    + rewrite H. reflexivity.
    + injection H as ->. split; reflexivity.
    + injection H as E. unfold zv_is. rewrite T. cbn [bind]. rewrite E. split; [reflexivity|]. intros key. split; reflexivity.
  - split; [|split; [|split; [|split; [|split; [|split]]]]]; intros H; try discriminate H. rewrite H. reflexivity.
  - split; [|split; [|split; [|split; [|split; [|split]]]]]; intros H; try discriminate H. rewrite H. reflexivity.
  - split; [|split; [|split; [|split; [|split; [|split]]]]]; intros H; try discriminate H. rewrite H. reflexivity.
Qed.
Lemma zera_exclusive w : exclusive zera_reader w.
Proof.
  intros k k'. destruct (zv_tag w) as [t| | |] eqn:T.
  - assert (F : forall k, test zera_reader k w = Ok true -> match k with KNull => t = TNull | KBool => t = TBool | KInteger => t = TI64 \/ t = TU64 | KFloat => t = TF64
        | KString => t = TString | KBlob => t = TTyped | KMap => t = TObject | KArray => t = TArray end).
    { intros []; unread; unfold zv_is, zv_isBlob; rewrite T; cbn [bind]; intros H; try (injection H; lia).
      - destruct (t =? TI64) eqn:E1; [lia|injection H; lia].
      - destruct (t =? TTyped) eqn:E1; [lia|discriminate]. }
    intros A B. apply F in A, B. destruct k, k'; try reflexivity; unfold TNull, TBool, TI64, TU64, TF64, TString, TTyped, TObject, TArray in *; lia.
  - intros A _. destruct k; unread; unfold zv_is, zv_isBlob in A; rewrite T in A; discriminate A.
  - intros A _. destruct k; unread; unfold zv_is, zv_isBlob in A; rewrite T in A; discriminate A.
  - intros A _. destruct k; unread; unfold zv_is, zv_isBlob in A; rewrite T in A; discriminate A.
Qed.

(** ** CBOR *)
Lemma cbor_guarded hard fuel w : guarded (CborModel.cbor_reader hard fuel) w.
Proof.
  unfold guarded. unread. unfold CborModel.c_is, CborModel.c_asBool, CborModel.c_asInt, CborModel.c_asUInt, CborModel.c_asInt64, CborModel.c_asUInt64,
    CborModel.c_asString, CborModel.c_asStringView, CborModel.c_asBlob, CborModel.c_view, CborModel.c_arraySize, CborModel.c_idx, CborModel.c_mapKeys, CborModel.c_key, CborModel.c_contains.
  destruct (CborModel.chd w) as [h| | |] eqn:T; cbn [bind]; try (repeat (match goal with |- _ /\ _ => split end); intros H; discriminate H).
  split; [|split; [|split; [|split; [|split; [|split]]]]]; intros H.
  - injection H as ->. reflexivity.
  - destruct (CborModel.p_int h) eqn:E; [discriminate|]. injection H as E2. unfold CborModel.p_major in E2. intros iw. rewrite E2. split; reflexivity.
  - injection H as E. assert (D : CborModel.c_asDouble w = Throw EDeser) by (unfold CborModel.c_asDouble; rewrite T; cbn [bind]; now rewrite E). split; [exact D|]. unfold asFloat. unread. now rewrite D.
  - injection H as E. unfold CborModel.p_major in E. rewrite E. split; reflexivity.
  - injection H as E. unfold CborModel.p_major in E. rewrite E. reflexivity.
  - injection H as E. unfold CborModel.p_major in E. rewrite E. split; reflexivity.
  - injection H as E. unfold CborModel.p_major in E. rewrite E. split; [reflexivity|]. intros key. split; reflexivity.
Qed.
Lemma cbor_exclusive hard fuel w : exclusive (CborModel.cbor_reader hard fuel) w.
Proof.
  intros k k' A B. destruct (CborModel.chd w) as [h| | |] eqn:T;
    try (destruct k; unread; unfold CborModel.c_is in A; rewrite T in A; discriminate A).
  assert (F : forall k, test (CborModel.cbor_reader hard fuel) k w = Ok true -> match k with KNull => CborModel.p_null h | KBool => CborModel.p_bool h
     | KInteger => CborModel.p_int h | KFloat => CborModel.p_float h | KString => CborModel.p_major 3 h | KBlob => CborModel.p_major 2 h
     | KMap => CborModel.p_major 5 h | KArray => CborModel.p_major 4 h end = true).
  { intros []; unread; unfold CborModel.c_is; rewrite T; cbn [bind]; intros H; try (injection H as H; exact H).
    destruct (CborModel.p_int h) eqn:E; [reflexivity|]. injection H as H. unfold CborModel.p_major, CborModel.p_int in *. lia. }
  apply F in A, B. unfold CborModel.p_null, CborModel.p_bool, CborModel.p_int, CborModel.p_float, CborModel.p_major in *.
  destruct k, k'; try reflexivity; lia.
Qed.

(** ** MessagePack *)
Lemma mp_head w : 0 < MsgModel.ms_len w -> forall p, MsgModel.mp_is p w = (m <- MsgModel.sp_at w 0 ;; Ok (p m)).
Proof. intros L p. unfold MsgModel.mp_is, MsgModel.sp_empty. now replace (MsgModel.ms_len w =? 0) with false by lia. Qed.
Lemma msgpack_guarded w : 0 < MsgModel.ms_len w -> guarded MsgModel.mp_reader w.
Proof.
  intros L. pose proof (mp_head w L) as HD. unfold guarded. unread.
  destruct (MsgModel.sp_at w 0) as [m| | |] eqn:M; cbn [bind] in HD; rewrite ?HD; cbn [bind]; try (repeat (match goal with |- _ /\ _ => split end); intros H; discriminate H).
  assert (NE : MsgModel.sp_empty w = false) by (unfold MsgModel.sp_empty; lia).
  split; [|split; [|split; [|split; [|split; [|split]]]]]; intros H.
  - injection H as E. unfold MsgModel.mp_asBool. rewrite HD. cbn [bind]. now rewrite E.
  - assert (E : MsgModel.k_int m = false /\ MsgModel.k_uint m = false) by (destruct (MsgModel.k_int m); [discriminate|]; injection H as ->; auto).
    destruct E as (E1 & E2). unfold MsgModel.k_int, MsgModel.k_uint in *.
    assert (A : MsgModel.mp_asInt64 w = Throw EDeser).
    { unfold MsgModel.mp_asInt64. rewrite NE, M. cbn [negb require bind].
      repeat match goal with |- context [if ?c then _ else _] => let C := fresh in destruct c eqn:C; [exfalso; clear - E1 E2 C; lia|] end. reflexivity. }
    assert (B : MsgModel.mp_asUInt64 w = Throw EDeser).
    { unfold MsgModel.mp_asUInt64. rewrite NE, M. cbn [negb require bind].
      repeat match goal with |- context [if ?c then _ else _] => let C := fresh in destruct c eqn:C; [exfalso; clear - E1 E2 C; lia|] end. now rewrite A. }
    intros iw. unfold MsgModel.mp_asInt, MsgModel.mp_asUInt. rewrite A, B. split; reflexivity.
  - injection H as E. assert (D : MsgModel.mp_asDouble w = Throw EDeser) by (unfold MsgModel.mp_asDouble; rewrite HD; cbn [bind]; now rewrite E). split; [exact D|]. unfold asFloat. unread. now rewrite D.
  - injection H as E. unfold MsgModel.k_string in E. unfold MsgModel.mp_asStringView, MsgModel.str_info. rewrite M. cbn [bind].
    replace (Z.land m 224 =? 160) with false by lia. replace (m =? 217) with false by lia. replace (m =? 218) with false by lia. replace (m =? 219) with false by lia. split; reflexivity.
  - injection H as E. unfold MsgModel.k_blob in E. unfold MsgModel.mp_asBlob, MsgModel.bin_info. rewrite M. cbn [bind].
    replace (m =? 196) with false by lia. replace (m =? 197) with false by lia. replace (m =? 198) with false by lia. reflexivity.
  - injection H as E. unfold MsgModel.k_array in E. unfold MsgModel.mp_arraySize, MsgModel.mp_idx, MsgModel.arr_info. rewrite M. cbn [bind].
    replace (Z.land m 240 =? 144) with false by lia. replace (m =? 220) with false by lia. replace (m =? 221) with false by lia. split; reflexivity.
  - injection H as E. unfold MsgModel.mp_keys, MsgModel.mp_key, MsgModel.mp_contains. rewrite HD. cbn [bind]. rewrite E. split; [reflexivity|]. intros key. split; reflexivity.
Qed.
(** One kind for each marker *)
Definition mp_test (k : kind) : Z -> bool :=
  match k with KNull => MsgModel.k_null | KBool => MsgModel.k_bool | KInteger => fun m => MsgModel.k_int m || MsgModel.k_uint m | KFloat => MsgModel.k_float
  | KString => MsgModel.k_string | KBlob => MsgModel.k_blob | KMap => MsgModel.k_map | KArray => MsgModel.k_array end.
Definition kinds : list kind := [KNull; KBool; KInteger; KFloat; KString; KBlob; KMap; KArray].
Lemma one_kind m : 0 <= m < 256 -> (List.length (filter (fun k => mp_test k m) kinds) <= 1)%nat.
Proof.
  intros M. assert (C : forallb (fun n => Nat.leb (List.length (filter (fun k => mp_test k (Z.of_nat n)) kinds)) 1) (seq 0 256) = true) by (vm_compute; reflexivity).
  rewrite forallb_forall in C. specialize (C (Z.to_nat m)). rewrite Z2Nat.id in C by lia. apply Nat.leb_le, C, in_seq. lia.
Qed.
Lemma in_kinds k : In k kinds.
Proof. destruct k; cbn; tauto. Qed.
Lemma short_eq {A} (l : list A) x y : (List.length l <= 1)%nat -> In x l -> In y l -> x = y.
Proof. destruct l as [|a [|b l]]; cbn; intros L; [tauto| |lia]. intros [->|[]] [->|[]]. reflexivity. Qed.
Lemma msgpack_exclusive w : bytes_ok (MsgModel.ms_buf w) -> exclusive MsgModel.mp_reader w.
Proof.
  intros BO k k' A B.
  assert (F : forall k, test MsgModel.mp_reader k w = Ok true -> exists m, MsgModel.sp_at w 0 = Ok m /\ mp_test k m = true).
  { clear. intros k. assert (G : forall p, MsgModel.mp_is p w = Ok true -> exists m, MsgModel.sp_at w 0 = Ok m /\ p m = true).
    { intros p. unfold MsgModel.mp_is. destruct (MsgModel.sp_empty w); [discriminate|]. destruct (MsgModel.sp_at w 0); try discriminate. cbn [bind]. intros H. injection H as H. eauto. }
    destruct k; unread; try exact (G _). intros H. destruct (MsgModel.mp_is MsgModel.k_int w) as [i| | |] eqn:I; try discriminate. destruct i.
    - destruct (G _ I) as (m & M & T). exists m. split; [exact M|]. cbn [mp_test]. now rewrite T.
    - destruct (G _ H) as (m & M & T). exists m. split; [exact M|]. cbn [mp_test]. rewrite T. apply orb_true_r. }
  destruct (F k A) as (m & M & T), (F k' B) as (m' & M' & T'). rewrite M in M'. injection M' as <-.
  assert (R : 0 <= m < 256).
  { unfold MsgModel.sp_at in M. destruct ((0 <=? 0) && (0 <? MsgModel.ms_len w)); [|discriminate]. exact (rd_byte _ _ _ BO M). }
  apply (short_eq (filter (fun k => mp_test k m) kinds)); [now apply one_kind| |]; apply filter_In; split; auto using in_kinds.
Qed.

(** ** JSON *)
Lemma json_guarded w : guarded json_reader w.
Proof.
  unfold guarded. unread. split; [|split; [|split; [|split; [|split; [|split]]]]]; intros H.
  - destruct w; try discriminate; reflexivity.
  - intros iw. unfold j_asInt, j_asUInt. destruct w; try discriminate; split; reflexivity.
  - apply (float_throws json_reader w). destruct w; try discriminate; reflexivity.
  - destruct w; try discriminate; split; reflexivity.
  - unfold j_asBlob. rewrite H. reflexivity.
  - destruct w; try discriminate; split; reflexivity.
  - destruct w; try discriminate; (split; [reflexivity|]; intros key; split; reflexivity).
Qed.
(** Only blobs satisfy two tests: they are arrays. *)
Lemma json_exclusive w k k' : test json_reader k w = Ok true -> test json_reader k' w = Ok true -> k = k' \/
  (j_isBlob w = Ok true /\ (k = KBlob /\ k' = KArray \/ k = KArray /\ k' = KBlob)).
Proof.
  intros A B. assert (BA : j_isBlob w = Ok true -> j_isArray w = true).
  { unfold j_isBlob. destruct w; try reflexivity; discriminate. }
  destruct k, k'; auto; unread; try (right; auto; fail);
    try (apply BA in A; destruct w; discriminate); try (apply BA in B; destruct w; discriminate); destruct w; discriminate.
Qed.

(** ** FlexBuffers *)
Lemma flex_guarded fuel w : guarded (flex_reader fuel) w.
Proof.
  unfold guarded. unread. split; [|split; [|split; [|split; [|split; [|split]]]]]; intros H.
  - destruct w; try discriminate; reflexivity.
  - intros iw. destruct w; try discriminate; split; reflexivity.
  - apply (float_throws (flex_reader fuel) w). destruct w; try discriminate; reflexivity.
  - destruct w; try discriminate; split; reflexivity.
  - destruct w; try discriminate; reflexivity.
  - destruct w; try discriminate; split; reflexivity.
  - destruct w; try discriminate; (split; [reflexivity|]; intros key; split; reflexivity).
Qed.
Lemma flex_exclusive fuel w : exclusive (flex_reader fuel) w.
Proof. intros k k' A B. destruct k, k', w; try reflexivity; discriminate. Qed.

(** ** What was written passes its own test. *)
Definition in_table (k : kind) (t : table) : bool :=
  match k with KNull => t_null t | KBool => t_bool t | KInteger => t_int t || t_uint t | KFloat => t_float t
  | KString => t_string t | KBlob => t_blob t | KMap => t_map t | KArray => t_array t end.
Lemma test_observed {V} (R : reader V) w t k : observes R w t -> test R k w = Ok (in_table k t).
Proof.
  intros (N & B & Z & U & F & S & BL & M & A & _). destruct k; cbn [test in_table]; auto. rewrite Z. cbn [bind]. destruct (t_int t); [reflexivity|exact U].
Qed.
Lemma kind_in_table P v : is_protocol P -> in_table (kind_of v) (p_table P (p_norm P v)) = true.
Proof.
  intros [| |hard|dbg|dbg srt S|dbg srt S]; cbn [p_table p_norm P_zera P_msgpack P_cbor P_json P_flex P_flexb].
  - destruct v; reflexivity.
  - destruct v; try reflexivity; cbn [MsgSpec.T_mp MsgSpec.int_tbl in_table kind_of t_int t_uint]; lia.
  - destruct v; try reflexivity; cbn [CborSpec.T_cbor CborSpec.int_tbl in_table kind_of t_int t_uint]; lia.
  - destruct v; try reflexivity; cbn [as_json kind_of].
    + destruct (z <? 0); reflexivity.
    + unfold json_table. destruct (blob_text (VArr (map as_json l))); reflexivity.
  - destruct v; reflexivity.
  - destruct v; reflexivity.
Qed.
(** Reading the value at a position, after the protocol's changes *)
Lemma first_entry_map (f : val -> val) k l : first_entry k (map (fun kx => (fst kx, f (snd kx))) l) = option_map f (first_entry k l).
Proof. induction l as [|(k', x) l IH]; [reflexivity|]. cbn [map fst snd first_entry]. now destruct (beq k k'). Qed.
Lemma first_entry_in k l x : NoDup (map fst l) -> first_entry k l = Some x <-> In (k, x) l.
Proof.
  induction l as [|(k', y) l IH]; intros N; cbn [first_entry]; [split; [discriminate|intros []]|]. cbn [map fst] in N. apply NoDup_cons_iff in N. destruct N as (NI & N). destruct (beq k k') eqn:E.
  - apply beq_eq in E. subst k'. split; [intros [= ->]; now left|]. intros [[= ->]|H]; [reflexivity|]. exfalso. apply NI. apply in_map_iff. now exists (k, x).
  - rewrite IH by exact N. split; [now right|]. intros [[= <- _]|H]; [|exact H]. now rewrite beq_refl in E.
Qed.
Lemma first_entry_perm k l l' : Permutation l l' -> NoDup (map fst l) -> first_entry k l' = first_entry k l.
Proof.
  intros PE N. assert (N' : NoDup (map fst l')) by (eapply Permutation_NoDup; [apply Permutation_map; exact PE|exact N]).
  destruct (first_entry k l) as [x|] eqn:E.
  - apply first_entry_in in E; [|exact N]. apply first_entry_in; [exact N'|]. now apply (Permutation_in _ PE).
  - destruct (first_entry k l') as [x|] eqn:E'; [|reflexivity]. apply first_entry_in in E'; [|exact N']. apply Permutation_sym in PE. apply (Permutation_in _ PE) in E'.
    apply (first_entry_in k l x N) in E'. congruence.
Qed.
Lemma at_json p : forall v x, value_at v p = Some x -> value_at (as_json v) p = Some (as_json x).
Proof.
  induction p as [|q p IH]; intros v x H; [cbn [value_at] in *; congruence|]. cbn [value_at] in H.
  destruct q as [i|k], v; try discriminate H; cbn [value_at as_json].
  - destruct (nth_error l i) as [y|] eqn:E; [|discriminate]. rewrite (map_nth_error _ _ _ E). auto.
  - rewrite first_entry_map. destruct (first_entry k l); [|discriminate]. cbn [option_map]. auto.
Qed.
Lemma first_entry_some k l x : first_entry k l = Some x -> In (k, x) l.
Proof. induction l as [|(k', y) l IH]; cbn [first_entry]; [discriminate|]. destruct (beq k k') eqn:E; [apply beq_eq in E; intros [= ->]; subst; now left|right; auto]. Qed.
Lemma at_flex p : forall v x, flex_ok v -> value_at v p = Some x -> value_at (in_key_order v) p = Some (in_key_order x).
Proof.
  induction p as [|q p IH]; intros v x OK H; [cbn [value_at] in *; congruence|]. cbn [value_at] in H.
  destruct q as [i|k], v; try discriminate H; cbn [value_at in_key_order].
  - destruct (nth_error l i) as [y|] eqn:E; [|discriminate]. rewrite (map_nth_error _ _ _ E). apply every_arr in OK. destruct OK as [_ OK]. rewrite Forall_forall in OK.
    apply IH; [|exact H]. apply OK. eapply nth_error_In; eassumption.
  - apply every_map in OK. destruct OK as [(N & _) OK]. erewrite first_entry_perm; [|apply Permutation_sym, by_key_perm|rewrite map_map; exact N].
    rewrite first_entry_map. destruct (first_entry k l) as [y|] eqn:E; [|discriminate]. cbn [option_map]. apply IH; [|exact H]. rewrite Forall_forall in OK. exact (OK (k, y) (first_entry_some _ _ _ E)).
Qed.
Lemma at_norm P p v x : is_protocol P -> p_ok P v -> value_at v p = Some x -> value_at (p_norm P v) p = Some (p_norm P x).
Proof.
  intros [| |hard|dbg|dbg srt S|dbg srt S]; cbn [p_ok p_norm P_zera P_msgpack P_cbor P_json P_flex P_flexb]; intros OK H; auto using at_json; now apply at_flex.
Qed.
Lemma val_ok_at p : forall v x, value_at v p = Some x -> val_ok v -> val_ok x.
Proof.
  induction p as [|q p IH]; intros v x H OK; [cbn [value_at] in *; congruence|]. cbn [value_at] in H. destruct q as [i|k], v; try discriminate H.
  - destruct (nth_error l i) as [y|] eqn:E; [|discriminate]. apply val_ok_arr in OK. rewrite Forall_forall in OK. apply (IH y x H), OK. eapply nth_error_In; eassumption.
  - destruct (first_entry k l) as [y|] eqn:E; [|discriminate]. apply val_ok_map in OK. rewrite Forall_forall in OK. apply (IH y x H). exact (proj2 (OK (k, y) (first_entry_some _ _ _ E))).
Qed.
Theorem written_kinds P e v : is_protocol P -> denotes e v -> val_ok v -> p_ok P v ->
  exists b w n, build (p_writer P) e = Ok b /\ p_open P b = Ok w /\ forall fuel, (n <= fuel)%nat ->
    forall p x, value_at v p = Some x ->
    exists w', view_at (p_reader P fuel) w p = Ok w' /\ test (p_reader P fuel) (kind_of x) w' = Ok true /\
      (forall z, x = VInt z -> (P = P_msgpack -> z < 128) -> r_isInt (p_reader P fuel) w' = Ok true) /\ (forall z, x = VUInt z -> r_isUInt (p_reader P fuel) w' = Ok true).
Proof.
  intros IP D V OK. rewrite (build_serialize e v _ _ _ D). destruct (protocol_round_trip P v IP V OK) as (b & w & n & S & O & SH).
  exists b, w, n. split; [exact S|]. split; [exact O|]. intros fuel F p x E0. pose proof (at_norm P p v x IP OK E0) as E. destruct (shows_at _ _ p _ _ _ (SH fuel F) E) as (w' & A & B).
  exists w'. split; [exact A|]. apply shows_observes in B. split; [rewrite (test_observed _ _ _ _ B); f_equal; now apply kind_in_table|].
  destruct B as (_ & _ & I & U & _). rewrite I, U. split.
  - intros z -> L. f_equal. clear - IP L. destruct IP; try reflexivity.
    + cbn [p_table p_norm P_msgpack MsgSpec.T_mp MsgSpec.int_tbl t_int]. specialize (L eq_refl). lia.
    + cbn [p_table p_norm P_json as_json]. destruct (z <? 0); reflexivity.
  - intros z ->. f_equal. assert (Z : 0 <= z) by (apply (val_ok_at p) in E0; [unfold val_ok in E0; unfold is_u64 in E0; lia|exact V]). clear - IP Z. destruct IP; try reflexivity.
    + cbn [p_table p_norm P_msgpack MsgSpec.T_mp MsgSpec.int_tbl t_uint]. lia.
    + cbn [p_table p_norm P_cbor CborSpec.T_cbor CborSpec.int_tbl t_uint]. lia.
Qed.

Lemma msgpack_signed z : 128 <= z <= i64_max ->
  exists b, serialize MsgModel.mp_writer (VInt z) = Ok b /\
    r_isInt MsgModel.mp_reader (MsgModel.mp_open b) = Ok false /\ r_asInt MsgModel.mp_reader I64 (MsgModel.mp_open b) = Ok z.
Proof.
  intros Z. assert (V : val_ok (VInt z)) by (cbn; unfold is_i64, i64_min, i64_max in *; lia).
  destruct (MsgMain.mp_round_trip (VInt z) V I) as (b & E & SH). exists b. split; [exact E|]. apply shows_observes in SH.
  destruct SH as (_ & _ & I & _ & _ & _ & _ & _ & _ & _ & A & _). rewrite I, A. cbn [MsgSpec.T_mp MsgSpec.int_tbl t_int t_asInt].
  split; [f_equal; lia|]. rewrite to_signed_small by (unfold i64_max in Z; lia). unfold fits_s, smin, smax. cbn [ibits].
  replace ((- 2 ^ (64 - 1) <=? z) && (z <=? 2 ^ (64 - 1) - 1)) with true by (unfold i64_max in Z; lia). reflexivity.
Qed.
