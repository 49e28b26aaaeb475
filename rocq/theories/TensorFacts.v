(** TensorFacts.v -- reading tensors from any view that shows one. *)

From Coq Require Import ZArith List Bool Lia ZifyBool ZifyNat Permutation.
From Verif Require Import Base BaseFacts Spec SpecFacts FloatSpec B64Spec Utf8Spec.
From Verif Require Import ZeraModel ZeraSpec JsonModel JsonSpec JsonFacts JsonMain FlexModel FlexSpec FlexFacts.
From Verif Require MsgModel MsgSpec MsgFacts CborModel CborSpec CborMain.
From Verif Require Import TransModel TransSpec TransFacts TransMain TransAll BuildModel BuildSpec BuildFacts TensorModel TensorSpec.
Import ListNotations.
Open Scope Z_scope.

(** ** Leaf observations in every protocol *)
Lemma norm_arr P l : is_protocol P -> p_norm P (VArr l) = VArr (map (p_norm P) l).
Proof. intros [| |hard|dbg|dbg srt S|dbg srt S]; cbn [p_norm P_zera P_msgpack P_cbor P_json P_flex P_flexb as_json in_key_order]; rewrite ?map_id; reflexivity. Qed.
Lemma array_leaf P l : is_protocol P -> t_array (p_table P (VArr l)) = true.
Proof.
  intros [| |hard|dbg|dbg srt S|dbg srt S]; cbn [p_table P_zera P_msgpack P_cbor P_json P_flex P_flexb]; try reflexivity. unfold json_table. destruct (blob_text (VArr l)); reflexivity.
Qed.
Lemma signed_small n z : - 2 ^ 7 <= z < 2 ^ 7 -> 8 <= n -> to_signed n z = z.
Proof.
  intros H N. unfold to_signed. assert (P : 2 ^ n = 2 * 2 ^ (n - 1)) by (rewrite <- Z.pow_succ_r by lia; f_equal; lia).
  assert (Q : 2 ^ 7 <= 2 ^ (n - 1)) by (apply Z.pow_le_mono_r; lia). change (2 ^ 7) with 128 in *. set (h := 2 ^ (n - 1)) in *. clearbody h. rewrite P.
  destruct (Z_lt_le_dec z 0).
  - replace (z mod (2 * h)) with (z + 2 * h); [destruct (z + 2 * h <? h) eqn:E; lia|]. symmetry. rewrite <- (Z_mod_plus_full z 1). rewrite Z.mod_small; lia.
  - rewrite Z.mod_small by lia. destruct (z <? h) eqn:E; lia.
Qed.
Lemma dtype_leaf P z : is_protocol P -> -1 <= z <= 14 ->
  let t := p_table P (p_norm P (VInt z)) in t_int t = true /\ t_asInt t I8 = Some z /\ t_asInt t I32 = Some z.
Proof.
  intros IP H. assert (F8 : fits_s I8 z = Some z) by (unfold fits_s, smin, smax, ibits; replace (_ && _) with true by lia; reflexivity).
  assert (F32 : fits_s I32 z = Some z) by (unfold fits_s, smin, smax, ibits; replace (_ && _) with true by lia; reflexivity).
  destruct IP as [| |hard|dbg|dbg srt S|dbg srt S]; cbn [p_norm p_table P_zera P_msgpack P_cbor P_json P_flex P_flexb].
  - cbn. auto.
  - cbn [MsgSpec.T_mp MsgSpec.int_tbl t_int t_asInt]. rewrite (signed_small 64) by lia. repeat split; auto. lia.
  - cbn [CborSpec.T_cbor CborSpec.int_tbl t_int t_asInt]. rewrite (signed_small 64) by lia. destruct (z <? 0); auto.
  - cbn [as_json]. destruct (z <? 0); cbn [json_table t_int t_asInt ibits]; rewrite !signed_small by lia; auto.
  - cbn [in_key_order flex_table t_int t_asInt ibits]. rewrite !signed_small by lia. auto.
  - cbn [in_key_order flex_table t_int t_asInt ibits]. rewrite !signed_small by lia. auto.
Qed.
Lemma dim_leaf P d x : is_protocol P -> 0 <= d < 2 ^ 32 -> x = VUInt d \/ x = VInt d ->
  let t := p_table P (p_norm P x) in
  t_uint t = true /\ t_asUInt t I64 = Some d \/ t_uint t = false /\ t_int t = true /\ t_asInt t I64 = Some d.
Proof.
  intros IP H X. assert (FU : fits_u I64 d = Some d) by (unfold fits_u, umax, ibits; replace (_ && _) with true by lia; reflexivity).
  assert (FS : fits_s I64 d = Some d) by (unfold fits_s, smin, smax, ibits; replace (_ && _) with true by lia; reflexivity).
  assert (M : d mod 2 ^ 64 = d) by (apply Z.mod_small; lia). assert (TS : to_signed 64 d = d) by (apply MsgFacts.to_signed64_id; lia).
  destruct IP as [| |hard|dbg|dbg srt S|dbg srt S]; cbn [p_norm p_table P_zera P_msgpack P_cbor P_json P_flex P_flexb].
  - destruct X as [-> | ->]; cbn [ideal t_uint t_int t_asUInt t_asInt]; auto.
  - destruct X as [-> | ->]; cbn [MsgSpec.T_mp MsgSpec.int_tbl t_int t_uint t_asUInt]; rewrite M; left; split; auto; lia.
  - destruct X as [-> | ->]; cbn [CborSpec.T_cbor CborSpec.int_tbl t_int t_uint t_asUInt]; left; split; auto; lia.
  - assert (as_json x = VUInt d) by (destruct X as [-> | ->]; cbn [as_json]; [reflexivity|]; destruct (d <? 0) eqn:E; [lia|reflexivity]). rewrite H0. cbn [json_table t_uint t_asUInt ibits]. rewrite M. auto.
  - destruct X as [-> | ->]; cbn [in_key_order flex_table t_uint t_int t_asUInt t_asInt ibits]; rewrite ?M, ?TS; auto.
  - destruct X as [-> | ->]; cbn [in_key_order flex_table t_uint t_int t_asUInt t_asInt ibits]; rewrite ?M, ?TS; auto.
Qed.
Lemma blob_leaf P b : is_protocol P -> bytes_ok b -> let t := p_table P (p_norm P (VBlob b)) in t_blob t = true /\ t_asBlob t = Some b.
Proof.
  intros IP B. destruct IP as [| |hard|dbg|dbg srt S|dbg srt S]; cbn [p_norm p_table P_zera P_msgpack P_cbor P_json P_flex P_flexb]; try (cbn; auto; fail).
  cbn [as_json]. unfold json_table. cbn [blob_text]. change (beq tag_text tag_text) with true. change (beq enc_text enc_text) with true. cbn [andb t_blob t_asBlob]. split; [reflexivity|]. now apply unb64_rfc.
Qed.

(** ** Reading the three parts *)
Lemma obs_of {V} (R : reader V) T w v : shows R T w v -> observes R w (T v).
Proof. destruct v; intros [O _]; exact O. Qed.
Section Reading.
Variables (P : protocol) (fuel : nat).
Hypothesis IP : is_protocol P.
Let R := p_reader P fuel.
Let shown w v := shows R (p_table P) w (p_norm P v).

Lemma arr_parts w l : shown w (VArr l) -> r_isArray R w = Ok true /\ r_arraySize R w = Ok (zlen l) /\
  forall i x, nth_error l i = Some x -> exists w', r_idx R w (Z.of_nat i) = Ok w' /\ shown w' x.
Proof.
  unfold shown. rewrite (norm_arr P l IP). intros H. pose proof (obs_of _ _ _ _ H) as O. apply shows_arr in H. destruct H as (_ & SZ & _ & E & _).
  split; [|split].
  - destruct O as (_ & _ & _ & _ & _ & _ & _ & _ & A & _). rewrite A. now rewrite array_leaf.
  - rewrite SZ. unfold zlen. now rewrite map_length.
  - assert (G : forall l' j, elems_ok R (p_table P) w j (map (p_norm P) l') -> forall i x, nth_error l' i = Some x -> exists w', r_idx R w (j + Z.of_nat i) = Ok w' /\ shows R (p_table P) w' (p_norm P x)).
    { clear. induction l' as [|y l' IH]; intros j E i x N; [destruct i; discriminate|]. cbn [map elems_ok] in E. destruct E as [(w' & EI & SW) E]. destruct i as [|i]; cbn [nth_error] in N.
      - injection N as <-. rewrite Z.add_0_r. eauto.
      - destruct (IH (j + 1) E i x N) as (w2 & A & B). exists w2. replace (j + Z.of_nat (S i)) with (j + 1 + Z.of_nat i) by lia. auto. }
    intros i x N. destruct (G l 0 E i x N) as (w' & A & B). exists w'. auto.
Qed.
Lemma read_dim_ok w d x : shown w x -> 0 <= d < 2 ^ 32 -> x = VUInt d \/ x = VInt d -> read_dim R w = Ok d.
Proof.
  intros S D X. pose proof (dim_leaf P d x IP D X) as L. apply obs_of in S. destruct S as (_ & _ & OI & OU & _ & _ & _ & _ & _ & _ & AI & AU & _). cbv zeta in L. unfold read_dim.
  assert (Q1 : (u32_max <? d) = false) by (unfold u32_max; lia). assert (Q2 : (d <? 0) = false) by lia.
  destruct L as [[U A]|(U & I & A)].
  - rewrite OU, U. cbn [bind]. rewrite AU, A. cbn [or_throw bind]. rewrite Q1. f_equal. now apply Z.mod_small.
  - rewrite OU, U. cbn [bind]. rewrite OI, I. cbn [bind]. rewrite AI, A. cbn [or_throw bind]. rewrite Q1, Q2. f_equal. now apply Z.mod_small.
Qed.
Lemma dims_loop w l : (forall i x, nth_error l i = Some x -> exists w', r_idx R w (Z.of_nat i) = Ok w' /\ shown w' x) ->
  forall rest shape pre k, l = pre ++ rest -> k = List.length rest -> dims_ok shape -> Forall2 (fun d x => x = VUInt d \/ x = VInt d) shape rest -> forall acc,
  nloop k (read_dims R w) (zlen pre, acc) = Ok (inl (zlen l, acc ++ shape)).
Proof.
  intros A. induction rest as [|x rest IH]; intros shape pre k E -> D F acc; cbn [List.length nloop]; inversion F; subst.
  - rewrite !app_nil_r. reflexivity.
  - rename x0 into d, l0 into shape. inversion D; subst. destruct (A (List.length pre) x) as (w' & EI & S). { rewrite nth_error_app2, Nat.sub_diag; [reflexivity|lia]. }
    unfold read_dims at 1. unfold zlen at 1. rewrite EI. cbn [bind]. rewrite (read_dim_ok w' d x S H1 H2). cbn [bind].
    replace (zlen pre + 1) with (zlen (pre ++ [x])) by (unfold zlen; rewrite app_length; cbn; lia).
    rewrite (IH shape (pre ++ [x]) _ ltac:(now rewrite <- app_assoc) eq_refl H4 H3). now rewrite <- app_assoc.
Qed.
Lemma read_shape w l shape : shown w (VArr l) -> dims_ok shape -> zlen shape < 2 ^ 60 -> Forall2 (fun d x => x = VUInt d \/ x = VInt d) shape l -> tensor_shape R w = Ok shape.
Proof.
  intros S D Z F. destruct (arr_parts w l S) as (IA & SZ & EL). unfold tensor_shape. rewrite IA. cbn [bind negb]. rewrite SZ. cbn [bind].
  assert (L : zlen shape = zlen l) by (unfold zlen; f_equal; clear - F; induction F; cbn; congruence). replace (2 ^ 61 - 1 <? zlen l) with false by lia.
  rewrite zloop_nloop. change 0 with (zlen (@nil val)) at 1. unfold zlen at 1. rewrite Nat2Z.id. rewrite (dims_loop w l EL l shape [] _ eq_refl eq_refl D F []). reflexivity.
Qed.

Definition three (t : elt) w w0 w1 w2 data : Prop :=
  r_isArray R w = Ok true /\ r_arraySize R w = Ok 3 /\ r_idx R w 0 = Ok w0 /\ r_idx R w 1 = Ok w1 /\ r_idx R w 2 = Ok w2 /\
  r_isInt R w0 = Ok true /\ r_asInt R I8 w0 = Ok (dtype_index t) /\ r_asInt R I32 w0 = Ok (dtype_index t) /\ r_isArray R w1 = Ok true /\
  r_isBlob R w2 = Ok true /\ r_asBlob R w2 = Ok data.
Lemma dtype_range t : -1 <= dtype_index t <= 14.
Proof. destruct t; cbn; lia. Qed.
Lemma read_three t shape data v w : tensor_form (dtype_index t) shape data v -> bytes_ok data -> dims_ok shape -> zlen shape < 2 ^ 60 -> shown w v ->
  exists w0 w1 w2, three t w w0 w1 w2 data /\ tensor_shape R w1 = Ok shape.
Proof.
  intros (l & -> & F) B D Z S. destruct (arr_parts w _ S) as (IA & SZ & EL).
  destruct (EL 0%nat _ eq_refl) as (w0 & E0 & S0). destruct (EL 1%nat _ eq_refl) as (w1 & E1 & S1). destruct (EL 2%nat _ eq_refl) as (w2 & E2 & S2).
  exists w0, w1, w2. pose proof (read_shape w1 l shape S1 D Z F) as SH. destruct (arr_parts w1 l S1) as (IA1 & _ & _).
  pose proof (dtype_leaf P _ IP (dtype_range t)) as (DI & D8 & D32). pose proof (blob_leaf P data IP B) as (BB & BA).
  apply obs_of in S0, S2. destruct S0 as (_ & _ & OI & _ & _ & _ & _ & _ & _ & _ & AI & _). destruct S2 as (_ & _ & _ & _ & _ & _ & OB & _ & _ & _ & _ & _ & _ & _ & _ & AB).
  split; [|exact SH]. unfold three. rewrite OI, !AI, OB, AB, DI, D8, D32, BB, BA. repeat split; auto.
Qed.
Lemma three_is_tensor t w w0 w1 w2 data : three t w w0 w1 w2 data -> is_tensor R t w = Ok true.
Proof.
  intros (A & N & E0 & E1 & E2 & I & I8 & I32 & A1 & B & _). unfold is_tensor. rewrite A. cbn [bind negb]. rewrite N. cbn [bind]. change (3 <? 3) with false. cbv iota.
  rewrite E0. cbn [bind]. rewrite I. cbn [bind negb]. rewrite I8. cbn [bind]. rewrite Z.eqb_refl. cbn [negb]. rewrite E1. cbn [bind]. rewrite A1. cbn [bind negb]. rewrite E2. cbn [bind]. exact B.
Qed.
Lemma three_not_tensor t t' w w0 w1 w2 data : three t w w0 w1 w2 data -> dtype_index t' <> dtype_index t -> is_tensor R t' w = Ok false.
Proof.
  intros (A & N & E0 & E1 & E2 & I & I8 & I32 & A1 & B & _) NE. unfold is_tensor. rewrite A. cbn [bind negb]. rewrite N. cbn [bind]. change (3 <? 3) with false. cbv iota.
  rewrite E0. cbn [bind]. rewrite I. cbn [bind negb]. rewrite I8. cbn [bind]. replace (dtype_index t =? dtype_index t') with false by lia. reflexivity.
Qed.
(** What is left once the parts are read. *)
Definition settle (blob_at : p_view P -> bool * Z) (t : elt) (D : option Z) (shape : list Z) (data : bytes) (w2 : p_view P) : res xview :=
  if match D with Some d => negb (zlen shape =? d) | None => false end then Throw EDeser else
  count <- checked_element_count shape ;;
  if negb (zlen data =? wrap64 (count * elt_size t)) then Throw EDeser else
  let (is_span, addr) := blob_at w2 in
  if negb is_span then
    out <- make_array shape (elt_size t) data ;;
    Ok (mkXV t (mkInfo false RNotSpanBacked (elt_align t) addr (zlen data)) (Some out) [] shape count)
  else if negb (addr mod elt_align t =? 0) then
    out <- make_array shape (elt_size t) data ;;
    Ok (mkXV t (mkInfo false RMisaligned (elt_align t) addr (zlen data)) (Some out) [] shape count)
  else Ok (mkXV t (mkInfo true ROk (elt_align t) addr (zlen data)) None data shape count).
Lemma three_view blob_at t D w w0 w1 w2 data shape : three t w w0 w1 w2 data -> tensor_shape R w1 = Ok shape ->
  as_xtensor_view R blob_at t D w = settle blob_at t D shape data w2.
Proof.
  intros H S. unfold as_xtensor_view. rewrite (three_is_tensor _ _ _ _ _ _ H). cbn [bind negb]. destruct H as (A & N & E0 & E1 & E2 & I & I8 & I32 & A1 & B & BA).
  rewrite E0. cbn [bind]. rewrite I32. cbn [bind]. rewrite Z.eqb_refl. cbn [negb]. rewrite E1. cbn [bind]. rewrite S. cbn [bind]. rewrite E2. cbn [bind]. rewrite BA. cbn [bind]. reflexivity.
Qed.
Definition settle_m (blob_at : p_view P -> bool * Z) (t : elt) (nr nc : option Z) (rm : bool) (shape : list Z) (data : bytes) (w2 : p_view P) : res eview :=
  match shape with
  | [rows; cols] =>
      if match nr with Some n => negb (rows =? n) | None => false end then Throw EDeser else
      if match nc with Some n => negb (cols =? n) | None => false end then Throw EDeser else
      if negb (zlen data =? wrap64 (wrap64 (rows * cols) * elt_size t)) then Throw EDeser else
      let (is_span, addr) := blob_at w2 in
      if negb is_span then
        out <- make_matrix (both_fixed nr nc) rows cols (elt_size t) data ;;
        Ok (mkEV t rm (mkInfo false RNotSpanBacked (elt_align t) addr (zlen data)) (Some out) [] rows cols)
      else if negb (addr mod elt_align t =? 0) then
        out <- make_matrix (both_fixed nr nc) rows cols (elt_size t) data ;;
        Ok (mkEV t rm (mkInfo false RMisaligned (elt_align t) addr (zlen data)) (Some out) [] rows cols)
      else Ok (mkEV t rm (mkInfo true ROk (elt_align t) addr (zlen data)) None data rows cols)
  | _ => Throw EDeser
  end.
Lemma three_eigen blob_at t nr nc rm w w0 w1 w2 data shape : three t w w0 w1 w2 data -> tensor_shape R w1 = Ok shape ->
  as_eigen_view R blob_at t nr nc rm w = settle_m blob_at t nr nc rm shape data w2.
Proof.
  intros H S. unfold as_eigen_view. rewrite (three_is_tensor _ _ _ _ _ _ H). cbn [bind negb]. destruct H as (A & N & E0 & E1 & E2 & I & I8 & I32 & A1 & B & BA).
  rewrite E0. cbn [bind]. rewrite I32. cbn [bind]. rewrite Z.eqb_refl. cbn [negb]. rewrite E1. cbn [bind]. rewrite S. cbn [bind]. unfold settle_m. rewrite E2. cbn [bind]. rewrite BA. cbn [bind]. reflexivity.
Qed.
End Reading.

(** ** Counting elements *)
Lemma prod_nonneg shape : Forall (fun d => 0 <= d) shape -> 0 <= prod shape.
Proof. induction 1 as [|d l D F IH]; cbn [prod fold_right]; [lia|]. fold (prod l). nia. Qed.
Lemma dims_nonneg shape : dims_ok shape -> Forall (fun d => 0 <= d) shape.
Proof. intros H. eapply Forall_impl; [|exact H]. cbn. intros; lia. Qed.
Lemma wrap_id z : 0 <= z < 2 ^ 64 -> wrap64 z = z.
Proof. apply Z.mod_small. Qed.
(** The checked product is the product, or an exception. *)
Lemma element_count_spec shape : dims_ok shape -> forall c, 0 <= c < 2 ^ 64 ->
  match element_count c shape with Ok n => n = c * prod shape /\ 0 <= n < 2 ^ 64 | Throw EDeser => 2 ^ 64 <= c * prod (filter (fun d => negb (d =? 0)) shape) | _ => False end.
Proof.
  induction shape as [|d shape IH]; intros D c C; cbn [element_count]; [cbn; lia|]. inversion D as [|? ? D1 D2]; subst. cbn [prod fold_right filter]. fold (prod shape). destruct (d =? 0) eqn:E0.
  - assert (d = 0) by lia. subst d. rewrite Z.mul_0_l, Z.mul_0_r. lia.
  - cbn [negb]. cbn [prod fold_right]. fold (prod (filter (fun d => negb (d =? 0)) shape)).
    assert (PP : 1 <= prod (filter (fun d => negb (d =? 0)) shape)).
    { clear - D2. induction D2 as [|x l X F IH]; cbn [filter prod fold_right]; [lia|]. destruct (x =? 0) eqn:E; cbn [negb prod fold_right]; [exact IH|]. fold (prod (filter (fun d => negb (d =? 0)) l)). nia. }
    destruct (u64_max / d <? c) eqn:Q.
    + assert (X : 2 ^ 64 <= c * d). { apply Z.ltb_lt in Q. pose proof (Z.mul_succ_div_gt u64_max d ltac:(lia)) as Y. unfold u64_max in *. nia. } nia.
    + assert (X : c * d < 2 ^ 64). { apply Z.ltb_ge in Q. pose proof (Z.mul_div_le u64_max d ltac:(lia)) as Y. unfold u64_max in *. nia. }
      assert (W : wrap64 (c * d) = c * d) by (apply wrap_id; nia). rewrite W. specialize (IH D2 (c * d) ltac:(nia)). destruct (element_count (c * d) shape) as [n|[]| |]; try exact IH.
      * split; [|apply IH]. destruct IH as [-> _]. ring.
      * rewrite Z.mul_assoc. exact IH.
Qed.
Lemma count_small shape : dims_ok shape -> prod (filter (fun d => negb (d =? 0)) shape) < 2 ^ 64 -> checked_element_count shape = Ok (prod shape).
Proof.
  intros D H. unfold checked_element_count. pose proof (element_count_spec shape D 1 ltac:(lia)) as E. destruct (element_count 1 shape) as [n|[]| |]; try contradiction; [|lia]. destruct E as [-> _]. f_equal. lia.
Qed.
(** Row-major offsets of valid indices. *)
Lemma dot_range shape : forall idx, in_range idx shape -> 0 <= dot idx (row_major shape) < prod shape.
Proof.
  induction shape as [|d shape IH]; intros idx H; inversion H as [|i ? is' ? I F]; subst; cbn [dot row_major prod fold_right]; [lia|]. fold (prod shape). specialize (IH is' F). destruct (d =? 1) eqn:E; [assert (d = 1) by lia; subst d; nia|nia].
Qed.
Lemma elem_in mem sz n k : zlen mem = n * sz -> 0 < sz -> 0 <= k < n -> elem_at mem sz k = Ok (slice mem (k * sz) sz).
Proof. intros L S K. unfold elem_at, rd_view. cbn [fst snd]. replace (_ && _) with true; [reflexivity|]. assert (k * sz + sz <= zlen mem) by nia. assert (0 <= k * sz) by nia. lia. Qed.
Lemma size_pos t : sized t -> 0 < elt_size t.
Proof. destruct t; cbn; lia. Qed.
Lemma whole_elem t : container t -> forall idx, in_range idx (x_shape t) -> exists c, x_elem t idx = Ok c.
Proof.
  intros (S & _ & _ & ST & OF & _ & L & _) idx I. unfold x_elem. rewrite ST, OF. eexists. apply (elem_in _ _ (prod (x_shape t))); [exact L|now apply size_pos|]. pose proof (dot_range _ _ I). lia.
Qed.

(** ** Accepted views, from any reader *)
Lemma bind_ok {A B} (m : res A) (k : A -> res B) b : bind m k = Ok b -> exists a, m = Ok a /\ k a = Ok b.
Proof. destruct m; cbn [bind]; try discriminate. eauto. Qed.
Ltac step H := let x := fresh "x" in let E := fresh "E" in apply bind_ok in H; destruct H as (x & E & H).
Lemma read_dim_range {V} (R : reader V) x d : read_dim R x = Ok d -> 0 <= d < 2 ^ 32.
Proof.
  unfold read_dim. intros H. step H. destruct x0.
  - step H. destruct (u32_max <? x0); [discriminate|]. injection H as <-. apply Z.mod_pos_bound. lia.
  - step H. destruct x0; [|discriminate]. step H. destruct (x0 <? 0); [discriminate|]. destruct (u32_max <? x0); [discriminate|]. injection H as <-. apply Z.mod_pos_bound. lia.
Qed.
Lemma shape_range {V} (R : reader V) d shape : tensor_shape R d = Ok shape -> dims_ok shape.
Proof.
  unfold tensor_shape. intros H. step H. destruct (negb x); [discriminate|]. step H. destruct (2 ^ 61 - 1 <? x0); [discriminate|].
  assert (G : forall k i acc r, dims_ok acc -> nloop k (read_dims R d) (i, acc) = Ok r -> match r with inl (_, s) => dims_ok s | inr _ => True end).
  { induction k as [|k IH]; intros i acc r A N; cbn [nloop] in N; [injection N as <-; exact A|]. step N. unfold read_dims in E1. step E1. step E1. injection E1 as <-. apply (IH _ _ _) in N; [exact N|].
    apply Forall_app. split; [exact A|]. constructor; [|constructor]. eapply read_dim_range; eauto. }
  step H. rewrite zloop_nloop in E1. apply G in E1; [|constructor]. destruct x1 as [[i s]|]; [|discriminate]. injection H as <-. exact E1.
Qed.
Lemma copy_into_id n sz src out : copy_into n sz src = Ok out -> out = src /\ zlen src <= n * sz < 2 ^ 63.
Proof. unfold copy_into. destruct (2 ^ 63 <=? n * sz) eqn:A; [discriminate|]. destruct (zlen src <=? n * sz) eqn:B; [|discriminate]. intros E. injection E as <-. split; [reflexivity|lia]. Qed.

(** Everything there is to say about an accepted view. *)
Theorem accepted {V} (R : reader V) blob_at t D buf v : as_xtensor_view R blob_at t D buf = Ok v -> exists w2 data,
  r_idx R buf 2 = Ok w2 /\ r_asBlob R w2 = Ok data /\ xv_type v = t /\ dims_ok (xv_shape v) /\ match D with Some d => zlen (xv_shape v) = d | None => True end /\
  xv_count v = prod (xv_shape v) /\ prod (xv_shape v) < 2 ^ 64 /\ zlen data = wrap64 (prod (xv_shape v) * elt_size t) /\
  x_mem (xv_tensor v) = data /\
  xv_info v = (let (sp, addr) := blob_at w2 in mkInfo (sp && (addr mod elt_align t =? 0)) (if negb sp then RNotSpanBacked else if addr mod elt_align t =? 0 then ROk else RMisaligned) (elt_align t) addr (zlen data)) /\
  (xv_owned v = None <-> zero_copy (xv_info v) = true) /\
  (forall m, xv_owned v = Some m -> zlen data <= prod (xv_shape v) * elt_size t < 2 ^ 63).
Proof.
  unfold as_xtensor_view. intros H. step H. destruct (negb x); [discriminate|]. step H. step H. destruct (negb (x1 =? dtype_index t)); [discriminate|]. step H. step H. rename x3 into shape.
  destruct (match D with Some d => negb (zlen shape =? d) | None => false end) eqn:DD; [discriminate|]. step H. rename x3 into w2. step H. rename x3 into data. step H. rename x3 into count.
  destruct (negb (zlen data =? wrap64 (count * elt_size t))) eqn:L; [discriminate|]. pose proof (shape_range _ _ _ E3) as DS. pose proof (element_count_spec shape DS 1 ltac:(lia)) as C. unfold checked_element_count in E6. rewrite E6 in C. destruct C as [C1 C2].
  rewrite Z.mul_1_l in C1. subst count.
  assert (RK : match D with Some d => zlen shape = d | None => True end) by (destruct D; [lia|exact I]).
  assert (LEN : zlen data = wrap64 (prod shape * elt_size t)) by lia.
  exists w2, data. split; [exact E4|]. split; [exact E5|]. destruct (blob_at w2) as [sp addr]. destruct sp; cbn [negb andb] in *.
  - destruct (addr mod elt_align t =? 0) eqn:AL; cbn [negb] in H.
    + injection H as <-. cbn [xv_type xv_shape xv_count xv_info xv_owned xv_tensor x_mem zero_copy xv_bytes]. repeat split; auto; try lia; discriminate.
    + step H. injection H as <-. unfold make_array in E7. apply copy_into_id in E7. destruct E7 as [-> E7]. unfold x_size in E7. rewrite wrap_id in E7 by lia.
      cbn [xv_type xv_shape xv_count xv_info xv_owned xv_tensor x_mem zero_copy]. repeat split; auto; try lia; discriminate.
  - step H. injection H as <-. unfold make_array in E7. apply copy_into_id in E7. destruct E7 as [-> E7]. unfold x_size in E7. rewrite wrap_id in E7 by lia.
    cbn [xv_type xv_shape xv_count xv_info xv_owned xv_tensor x_mem zero_copy]. repeat split; auto; try lia; discriminate.
Qed.
Lemma in_elems t shape data : sized t -> zlen data = prod shape * elt_size t -> forall idx, in_range idx shape -> exists c, x_elem (mkX t shape (row_major shape) 0 data) idx = Ok c.
Proof.
  intros S L idx I. unfold x_elem. cbn [x_mem x_type x_offset x_strides]. eexists. apply (elem_in _ _ (prod shape)); [exact L|now apply size_pos|]. pose proof (dot_range _ _ I). lia.
Qed.
Lemma prod_dims shape : dims_ok shape -> 0 <= prod shape.
Proof. intros D. apply prod_nonneg, dims_nonneg, D. Qed.
Theorem accepted_view_elems {V} (R : reader V) blob_at t D buf v : sized t -> as_xtensor_view R blob_at t D buf = Ok v ->
  prod (xv_shape v) * elt_size t < 2 ^ 64 \/ zero_copy (xv_info v) = false ->
  zlen (x_mem (xv_tensor v)) = prod (xv_shape v) * elt_size t /\ forall idx, in_range idx (xv_shape v) -> exists c, x_elem (xv_tensor v) idx = Ok c.
Proof.
  intros S H B. destruct (accepted _ _ _ _ _ _ H) as (w2 & data & _ & _ & T & DS & _ & _ & _ & L & M & _ & OW & CP).
  pose proof (prod_dims _ DS) as NN. pose proof (size_pos _ S) as SP.
  assert (X : prod (xv_shape v) * elt_size t < 2 ^ 64).
  { destruct B as [B|B]; [exact B|]. destruct (xv_owned v) as [m|] eqn:O; [specialize (CP m eq_refl); lia|]. assert (zero_copy (xv_info v) = true) by (now apply OW). congruence. }
  assert (Y : zlen data = prod (xv_shape v) * elt_size t) by (rewrite L; apply wrap_id; nia).
  rewrite M. split; [exact Y|]. intros idx I. destruct (in_elems t (xv_shape v) data S Y idx I) as (c & C). exists c. unfold xv_tensor in *. cbn [x_mem] in M. rewrite M, T. exact C.
Qed.
Theorem accepted_array_elems {V} (R : reader V) blob_at t D buf a : sized t -> as_xtensor R blob_at t D buf = Ok a ->
  x_type a = t /\ dims_ok (x_shape a) /\ (exists w2, r_idx R buf 2 = Ok w2 /\ r_asBlob R w2 = Ok (x_mem a)) /\
  zlen (x_mem a) = prod (x_shape a) * elt_size t /\ forall idx, in_range idx (x_shape a) -> exists c, x_elem a idx = Ok c.
Proof.
  intros S H. unfold as_xtensor in H. step H. rename x into v. destruct (accepted _ _ _ _ _ _ E) as (w2 & data & E2 & EB & T & DS & _ & _ & PL & L & M & _ & OW & CP).
  pose proof (prod_dims _ DS) as NN. pose proof (size_pos _ S) as SP. unfold xv_array in H. step H. injection H as <-. cbn [x_type x_shape x_mem].
  assert (Q : x = data /\ zlen data = prod (xv_shape v) * elt_size t).
  { unfold xv_tensor in M. cbn [x_mem] in M. destruct (xv_owned v) as [m|] eqn:O.
    - injection E0 as <-. split; [exact M|]. specialize (CP m eq_refl). rewrite L. apply wrap_id. nia.
    - rewrite M, T in E0. unfold make_array in E0. apply copy_into_id in E0. destruct E0 as [-> B]. split; [reflexivity|]. unfold x_size in B. rewrite wrap_id in B by lia. rewrite L. apply wrap_id. nia. }
  destruct Q as [-> Q]. repeat split; auto; [eauto|]. intros idx I. rewrite T. now apply in_elems.
Qed.
