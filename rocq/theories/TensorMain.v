(** TensorMain.v -- tensors through every protocol. *)

From Coq Require Import ZArith List Bool Lia ZifyBool ZifyNat.
From Verif Require Import Base BaseFacts Spec SpecFacts.
From Verif Require Import FloatSpec B64Spec Utf8Spec JsonModel JsonSpec FlexModel FlexSpec.
From Verif Require ZeraSpec MsgSpec CborSpec CborFacts CborMain.
From Verif Require Import TransModel TransSpec TransFacts TransMain TransAll BuildModel BuildSpec BuildFacts TensorModel TensorSpec TensorFacts.
Import ListNotations.
Open Scope Z_scope.

Lemma build_denotes dt dims data : denotes (BVec [BInt dt; BSeq (map BUInt dims); BBytes data]) (VArr [VInt dt; VArr (map VUInt dims); VBlob data]).
Proof.
  apply d_vec. constructor; [constructor|]. constructor; [|constructor; [constructor|constructor]]. apply d_seq. induction dims; cbn [map]; constructor; [constructor|assumption].
Qed.
Lemma form_of t dims data : tensor_form (dtype_index t) dims data (tensor_value t dims data).
Proof. exists (map VUInt dims). split; [reflexivity|]. induction dims; cbn [map]; constructor; auto. Qed.
Lemma value_ok t dims data : Forall (fun d => 0 <= d < 2 ^ 64) dims -> bytes_ok data -> val_ok (tensor_value t dims data).
Proof.
  intros D B. unfold tensor_value. apply val_ok_arr. constructor; [|constructor; [|constructor; [exact B|constructor]]].
  - cbn [val_ok]. unfold is_i64, i64_min, i64_max. pose proof (dtype_range t). lia.
  - apply val_ok_arr. apply Forall_map. eapply Forall_impl; [|exact D]. cbn [val_ok]. unfold is_u64, u64_max. intros; lia.
Qed.
Lemma wrap32_dims shape : dims_ok shape -> map wrap32 shape = shape.
Proof. intros D. rewrite <- (map_id shape) at 2. apply map_ext_in. intros d I. unfold dims_ok in D. rewrite Forall_forall in D. apply Z.mod_small. apply D, I. Qed.
Lemma full_span mem n : zlen mem = n -> 0 <= n < 2 ^ 64 -> rd_view mem (0, wrap64 n) = Ok mem.
Proof. intros L H. rewrite wrap_id by exact H. unfold rd_view. cbn [fst snd]. replace (_ && _) with true by lia. subst n. now rewrite slice_full. Qed.
Lemma container_serialize t : container t -> xt_serialize t = Ok (BVec [BInt (dtype_index (x_type t)); BSeq (map BUInt (map wrap32 (x_shape t))); BBytes (x_mem t)]).
Proof.
  intros (S & D & _ & _ & _ & _ & L & LT). unfold xt_serialize, span_from_data_of, x_size. pose proof (size_pos _ S) as SP. pose proof (zlen_nonneg (x_mem t)).
  assert (0 <= prod (x_shape t)) by (apply prod_nonneg; eapply Forall_impl; [|exact D]; cbn; intros; lia). assert (prod (x_shape t) < 2 ^ 63) by nia. rewrite (wrap_id (prod _)) by lia.
  rewrite (full_span _ _ L) by lia. reflexivity.
Qed.
Lemma make_container t shape data : sized t -> dims_ok shape -> zlen data = prod shape * elt_size t -> zlen data < 2 ^ 63 -> make_array shape (elt_size t) data = Ok data.
Proof.
  intros S D L LT. unfold make_array, copy_into, x_size. pose proof (size_pos _ S). pose proof (prod_dims _ D). rewrite wrap_id by nia. rewrite <- L. replace (2 ^ 63 <=? zlen data) with false by lia. replace (zlen data <=? zlen data) with true by lia. reflexivity.
Qed.
Definition nonzero (d : Z) : bool := negb (d =? 0).
(** Any view that shows the tensor is read back. *)
Theorem read_tensor P fuel t shape data v w blob_at D : is_protocol P -> tensor_form (dtype_index t) shape data v -> sized t -> bytes_ok data -> dims_ok shape -> zlen shape < 2 ^ 60 ->
  prod (filter nonzero shape) < 2 ^ 64 -> zlen data = prod shape * elt_size t -> zlen data < 2 ^ 63 -> match D with Some d => d = zlen shape | None => True end ->
  shows (p_reader P fuel) (p_table P) w (p_norm P v) ->
  exists x, as_xtensor_view (p_reader P fuel) blob_at t D w = Ok x /\ xv_tensor x = mkX t shape (row_major shape) 0 data /\ xv_array x = Ok (mkX t shape (row_major shape) 0 data).
Proof.
  intros IP F S B DS RK NZ L LT DD SH. destruct (read_three P fuel IP t shape data v w F B DS RK SH) as (w0 & w1 & w2 & T3 & TS). rewrite (three_view P fuel blob_at t D w w0 w1 w2 data shape T3 TS). unfold settle.
  replace (match D with Some d => negb (zlen shape =? d) | None => false end) with false by (destruct D; [lia|reflexivity]). rewrite (count_small shape DS NZ). cbn [bind].
  pose proof (size_pos _ S) as SP. pose proof (prod_dims _ DS). pose proof (zlen_nonneg data). rewrite (wrap_id (prod shape * elt_size t)) by lia. replace (zlen data =? prod shape * elt_size t) with true by lia. cbn [negb].
  pose proof (make_container t shape data S DS L LT) as MC. destruct (blob_at w2) as [sp addr]. destruct sp; cbn [negb].
  - destruct (negb (addr mod elt_align t =? 0)); [rewrite MC; cbn [bind]|]; (eexists; split; [reflexivity|]; split; [reflexivity|]); unfold xv_array; cbn [xv_owned xv_shape xv_type xv_bytes bind]; [reflexivity|]. now rewrite MC.
  - rewrite MC. cbn [bind]. eexists. split; [reflexivity|]. split; reflexivity.
Qed.
Lemma same_container t shape data : container t -> x_shape t = shape -> x_mem t = data -> same_tensor (mkX (x_type t) shape (row_major shape) 0 data) t.
Proof.
  intros C <- <-. split; [reflexivity|]. split; [reflexivity|]. intros idx I. destruct (whole_elem t C idx I) as (c & E). exists c. split; [|exact E]. rewrite <- E. destruct C as (_ & _ & _ & ST & OF & _). unfold x_elem. cbn [x_mem x_type x_offset x_strides]. now rewrite ST, OF.
Qed.
Theorem xtensor_round_trip P t : is_protocol P -> container t -> dims_ok (x_shape t) -> prod (filter nonzero (x_shape t)) < 2 ^ 64 ->
  p_ok P (tensor_value (x_type t) (x_shape t) (x_mem t)) ->
  exists e b w n, xt_serialize t = Ok e /\ build (p_writer P) e = Ok b /\ p_open P b = Ok w /\
    forall fuel blob_at D, (n <= fuel)%nat -> D = None \/ D = Some (zlen (x_shape t)) ->
      exists x a, as_xtensor_view (p_reader P fuel) blob_at (x_type t) D w = Ok x /\ same_tensor (xv_tensor x) t /\
                  as_xtensor (p_reader P fuel) blob_at (x_type t) D w = Ok a /\ same_tensor a t.
Proof.
  intros IP C DS NZ OK. pose proof C as (S & DR & RK & ST & OF & B & L & LT).
  assert (VO : val_ok (tensor_value (x_type t) (x_shape t) (x_mem t))) by (now apply value_ok).
  destruct (protocol_round_trip P _ IP VO OK) as (b & w & n & E & O & SH). eexists _, b, w, n. split; [exact (container_serialize t C)|]. split; [|split; [exact O|]].
  - rewrite <- E. rewrite wrap32_dims by exact DS. apply build_serialize. apply build_denotes.
  - intros fuel blob_at D F DD. destruct (read_tensor P fuel (x_type t) (x_shape t) (x_mem t) _ w blob_at D IP (form_of _ _ _) S B DS RK NZ L LT) as (x & EX & XT & XA).
    { destruct DD as [-> | ->]; [exact I|reflexivity]. } { apply SH, F. }
    exists x. eexists. split; [exact EX|]. split; [rewrite XT; now apply same_container|]. split; [unfold as_xtensor; rewrite EX; cbn [bind]; exact XA|]. now apply same_container.
Qed.

(** ** Eigen *)
Lemma matrix_serialize m : is_matrix m -> eig_serialize m = Ok (BVec [BInt (dtype_index (m_type m)); BSeq (map BUInt [m_rows m; m_cols m]); BBytes (m_mem m)]).
Proof.
  intros (S & R & C & RC & B & L & LT). unfold eig_serialize, span_from_data_of. pose proof (size_pos _ S). pose proof (zlen_nonneg (m_mem m)). rewrite (wrap_id (m_rows m * m_cols m)) by nia. rewrite (full_span _ _ L) by lia. reflexivity.
Qed.
Lemma matrix_elem m r c : is_matrix m -> 0 <= r < m_rows m -> 0 <= c < m_cols m -> exists e, m_elem m r c = Ok e.
Proof.
  intros (S & R & C & RC & B & L & LT) HR HC. pose proof (size_pos _ S). unfold m_elem. eexists. apply (elem_in _ _ (m_rows m * m_cols m)); [exact L|assumption|]. destruct (m_rowmajor m); nia.
Qed.
Theorem read_matrix P fuel t rows cols data v w blob_at nr nc rm : is_protocol P -> tensor_form (dtype_index t) [rows; cols] data v -> sized t -> bytes_ok data -> dims_ok [rows; cols] ->
  zlen data = rows * cols * elt_size t -> zlen data < 2 ^ 63 -> nr = None \/ nr = Some rows -> nc = None \/ nc = Some cols ->
  shows (p_reader P fuel) (p_table P) w (p_norm P v) ->
  exists x, as_eigen_view (p_reader P fuel) blob_at t nr nc rm w = Ok x /\ ev_map x = mkM t rows cols rm data /\ ev_matrix (both_fixed nr nc) x = Ok (mkM t rows cols rm data).
Proof.
  intros IP F S B DS L LT HR HC SH. destruct (read_three P fuel IP t [rows; cols] data v w F B DS ltac:(cbn; lia) SH) as (w0 & w1 & w2 & T3 & TS). rewrite (three_eigen P fuel blob_at t nr nc rm w w0 w1 w2 data _ T3 TS). unfold settle_m.
  inversion DS as [|? ? D1 DS2]; subst. inversion DS2 as [|? ? D2 _]; subst.
  replace (match nr with Some n => negb (rows =? n) | None => false end) with false by (destruct HR as [-> | ->]; [reflexivity|]; now rewrite Z.eqb_refl).
  replace (match nc with Some n => negb (cols =? n) | None => false end) with false by (destruct HC as [-> | ->]; [reflexivity|]; now rewrite Z.eqb_refl).
  pose proof (size_pos _ S) as SP. pose proof (zlen_nonneg data). rewrite (wrap_id (rows * cols)) by nia. rewrite (wrap_id (rows * cols * elt_size t)) by lia. replace (zlen data =? rows * cols * elt_size t) with true by lia. cbn [negb].
  assert (MC : forall fx, make_matrix fx rows cols (elt_size t) data = Ok data).
  { intros fx. unfold make_matrix, copy_into. rewrite <- L. replace (2 ^ 63 <=? zlen data) with false by lia. replace (zlen data <=? zlen data) with true by lia. now destruct fx. }
  destruct (blob_at w2) as [sp addr]. destruct sp; cbn [negb].
  - destruct (negb (addr mod elt_align t =? 0)); [rewrite MC; cbn [bind]|]; (eexists; split; [reflexivity|]; split; [reflexivity|]); unfold ev_matrix; cbn [ev_owned ev_rows ev_cols ev_type ev_bytes ev_rowmajor bind]; [reflexivity|]. now rewrite MC.
  - rewrite MC. cbn [bind]. eexists. split; [reflexivity|]. split; reflexivity.
Qed.
Lemma same_mat m : is_matrix m -> same_matrix (mkM (m_type m) (m_rows m) (m_cols m) (m_rowmajor m) (m_mem m)) m.
Proof. intros M. repeat split. intros r c HR HC. destruct (matrix_elem m r c M HR HC) as (e & E). exists e. split; exact E. Qed.
Theorem eigen_round_trip P m : is_protocol P -> is_matrix m -> m_rows m < 2 ^ 32 -> m_cols m < 2 ^ 32 -> p_ok P (tensor_value (m_type m) [m_rows m; m_cols m] (m_mem m)) ->
  exists e b w n, eig_serialize m = Ok e /\ build (p_writer P) e = Ok b /\ p_open P b = Ok w /\
    forall fuel blob_at nr nc, (n <= fuel)%nat -> nr = None \/ nr = Some (m_rows m) -> nc = None \/ nc = Some (m_cols m) ->
      exists x a, as_eigen_view (p_reader P fuel) blob_at (m_type m) nr nc (m_rowmajor m) w = Ok x /\ same_matrix (ev_map x) m /\
                  as_eigen (p_reader P fuel) blob_at (m_type m) nr nc (m_rowmajor m) w = Ok a /\ same_matrix a m.
Proof.
  intros IP M RB CB OK. pose proof M as (S & R & C & RC & B & L & LT). assert (DS : dims_ok [m_rows m; m_cols m]) by (repeat constructor; lia).
  assert (VO : val_ok (tensor_value (m_type m) [m_rows m; m_cols m] (m_mem m))) by (apply value_ok; [repeat constructor; lia|exact B]).
  destruct (protocol_round_trip P _ IP VO OK) as (b & w & n & E & O & SH). eexists _, b, w, n. split; [exact (matrix_serialize m M)|]. split; [|split; [exact O|]].
  - rewrite <- E. apply build_serialize. apply build_denotes.
  - intros fuel blob_at nr nc F HR HC. destruct (read_matrix P fuel (m_type m) (m_rows m) (m_cols m) (m_mem m) _ w blob_at nr nc (m_rowmajor m) IP (form_of _ _ _) S B DS L LT HR HC) as (x & EX & XM & XA). { apply SH, F. }
    exists x. eexists. split; [exact EX|]. split; [rewrite XM; now apply same_mat|]. split; [unfold as_eigen; rewrite EX; cbn [bind]; exact XA|]. now apply same_mat.
Qed.
(** Accepted matrices, from any reader. *)
Theorem accepted_matrix {V} (R : reader V) blob_at t nr nc rm buf v : as_eigen_view R blob_at t nr nc rm buf = Ok v -> exists w2 data,
  r_idx R buf 2 = Ok w2 /\ r_asBlob R w2 = Ok data /\ ev_type v = t /\ ev_rowmajor v = rm /\ dims_ok [ev_rows v; ev_cols v] /\
  match nr with Some n => ev_rows v = n | None => True end /\ match nc with Some n => ev_cols v = n | None => True end /\
  zlen data = wrap64 (ev_rows v * ev_cols v * elt_size t) /\ m_mem (ev_map v) = data /\
  ev_info v = (let (sp, addr) := blob_at w2 in mkInfo (sp && (addr mod elt_align t =? 0)) (if negb sp then RNotSpanBacked else if addr mod elt_align t =? 0 then ROk else RMisaligned) (elt_align t) addr (zlen data)) /\
  (ev_owned v = None <-> zero_copy (ev_info v) = true) /\
  (forall m, ev_owned v = Some m -> zlen data <= ev_rows v * ev_cols v * elt_size t /\ (both_fixed nr nc = false -> ev_rows v * ev_cols v * elt_size t < 2 ^ 63)).
Proof.
  unfold as_eigen_view. intros H. step H. destruct (negb x); [discriminate|]. step H. step H. destruct (negb (x1 =? dtype_index t)); [discriminate|]. step H. step H. rename x3 into shape.
  destruct shape as [|rows [|cols [|? ?]]]; try discriminate. pose proof (shape_range _ _ _ E3) as DS. inversion DS as [|? ? D1 DS2]; subst. inversion DS2 as [|? ? D2 _]; subst.
  destruct (match nr with Some n => negb (rows =? n) | None => false end) eqn:NR; [discriminate|]. destruct (match nc with Some n => negb (cols =? n) | None => false end) eqn:NC; [discriminate|].
  step H. rename x3 into w2. step H. rename x3 into data. destruct (negb (zlen data =? wrap64 (wrap64 (rows * cols) * elt_size t))) eqn:L; [discriminate|].
  rewrite (wrap_id (rows * cols)) in L by nia.
  assert (NR' : match nr with Some n => rows = n | None => True end) by (destruct nr; [lia|exact I]). assert (NC' : match nc with Some n => cols = n | None => True end) by (destruct nc; [lia|exact I]).
  assert (LEN : zlen data = wrap64 (rows * cols * elt_size t)) by lia.
  assert (MM : forall out, make_matrix (both_fixed nr nc) rows cols (elt_size t) data = Ok out -> out = data /\ zlen data <= rows * cols * elt_size t /\ (both_fixed nr nc = false -> rows * cols * elt_size t < 2 ^ 63)).
  { unfold make_matrix. intros out M. destruct (both_fixed nr nc).
    - destruct (zlen data <=? rows * cols * elt_size t) eqn:Q; [|discriminate]. injection M as <-. repeat split; [lia|discriminate].
    - apply copy_into_id in M. destruct M as [-> M]. repeat split; lia. }
  exists w2, data. split; [exact E4|]. split; [exact E5|]. destruct (blob_at w2) as [sp addr]. destruct sp; cbn [negb andb] in *.
  - destruct (addr mod elt_align t =? 0) eqn:AL; cbn [negb] in H.
    + injection H as <-. cbn [ev_type ev_rows ev_cols ev_info ev_owned ev_map m_mem zero_copy ev_bytes ev_rowmajor]. repeat split; auto; try discriminate.
    + step H. injection H as <-. apply MM in E6. destruct E6 as [-> E6]. cbn [ev_type ev_rows ev_cols ev_info ev_owned ev_map m_mem zero_copy ev_bytes ev_rowmajor]. repeat split; auto; try discriminate; apply E6.
  - step H. injection H as <-. apply MM in E6. destruct E6 as [-> E6]. cbn [ev_type ev_rows ev_cols ev_info ev_owned ev_map m_mem zero_copy ev_bytes ev_rowmajor]. repeat split; auto; try discriminate; apply E6.
Qed.
(** An owning matrix has exactly its elements' bytes (for a fixed-size type of less than 2^63 bytes). *)
Theorem accepted_matrix_elems {V} (R : reader V) blob_at t nr nc rm buf a : sized t -> as_eigen R blob_at t nr nc rm buf = Ok a ->
  match nr, nc with Some r, Some c => r * c * elt_size t < 2 ^ 63 | _, _ => True end ->
  m_type a = t /\ (exists w2, r_idx R buf 2 = Ok w2 /\ r_asBlob R w2 = Ok (m_mem a)) /\
  zlen (m_mem a) = m_rows a * m_cols a * elt_size t /\ forall r c, 0 <= r < m_rows a -> 0 <= c < m_cols a -> exists e, m_elem a r c = Ok e.
Proof.
  intros S H FX. unfold as_eigen in H. step H. rename x into v. destruct (accepted_matrix _ _ _ _ _ _ _ _ E) as (w2 & data & E2 & EB & T & RM & DS & NR & NC & L & M & _ & OW & CP).
  apply Forall_cons_iff in DS. destruct DS as [D1 DS]. apply Forall_cons_iff in DS. destruct DS as [D2 _]. subst t. pose proof (size_pos _ S) as SP.
  unfold ev_matrix in H. step H. injection H as <-. cbn [m_type m_rows m_cols m_mem]. unfold ev_map in M. cbn [m_mem] in M. assert (NN : 0 <= ev_rows v * ev_cols v * elt_size (ev_type v)) by nia.
  assert (B : both_fixed nr nc = true -> ev_rows v * ev_cols v * elt_size (ev_type v) < 2 ^ 63) by (destruct nr, nc; cbn [both_fixed]; try discriminate; rewrite NR, NC; auto).
  assert (Q : x = data /\ zlen data = ev_rows v * ev_cols v * elt_size (ev_type v)).
  { unfold ev_map in L. destruct (ev_owned v) as [o|] eqn:O.
    - injection E0 as <-. split; [exact M|]. specialize (CP o eq_refl). rewrite L. apply wrap_id. destruct (both_fixed nr nc) eqn:BF; [specialize (B eq_refl)|destruct CP as [_ CP]; specialize (CP eq_refl)]; lia.
    - rewrite M in E0. unfold make_matrix in E0. destruct (both_fixed nr nc) eqn:BF.
      + destruct (zlen data <=? _) eqn:Q; [|discriminate]. injection E0 as <-. split; [reflexivity|]. rewrite L. apply wrap_id. specialize (B eq_refl). lia.
      + apply copy_into_id in E0. destruct E0 as [-> Q]. split; [reflexivity|]. rewrite L. apply wrap_id. lia. }
  destruct Q as [-> Q]. repeat split; auto; [exists w2; split; [exact E2|]; rewrite EB; reflexivity|]. intros r c HR HC. unfold m_elem. cbn [m_mem m_type m_rowmajor m_cols m_rows]. eexists. apply (elem_in _ _ (ev_rows v * ev_cols v)); [exact Q|exact SP|]. destruct (ev_rowmajor v); nia.
Qed.
(** ** Tensors that every protocol can carry *)
Lemma every_uints (Q : val -> Prop) t dims data : Q (tensor_value t dims data) -> Q (VInt (dtype_index t)) -> Q (VArr (map VUInt dims)) -> (forall d, In d dims -> Q (VUInt d)) -> Q (VBlob data) ->
  every Q (tensor_value t dims data).
Proof.
  intros A B C D E. unfold tensor_value. apply every_arr. split; [exact A|]. constructor; [split; [exact B|exact I]|]. constructor; [|constructor; [split; [exact E|exact I]|constructor]].
  apply every_arr. split; [exact C|]. rewrite Forall_map. apply Forall_forall. intros d H. split; [now apply D|exact I].
Qed.
Lemma uints_need dims : fold_right (fun x n => ZeraSpec.env_need x + n) 0 (map VUInt dims) = 0.
Proof. induction dims; [reflexivity|exact IHdims]. Qed.
Lemma uints_arena thr dims : forall a, fold_left (ZeraSpec.arena_after thr) (map VUInt dims) a = a.
Proof. induction dims; intros a'; [reflexivity|]. cbn [map fold_left ZeraSpec.arena_after]. apply IHdims. Qed.
Lemma uints_keys dims : fold_right (fun x P => ZeraSpec.keys_ok x /\ P) True (map VUInt dims).
Proof. induction dims; [exact I|split; [exact I|exact IHdims]]. Qed.
Lemma uints_lengths lim dims : (fix go l := match l with [] => True | x :: l' => MsgSpec.lengths_below lim x /\ go l' end) (map VUInt dims).
Proof. induction dims; [exact I|split; [exact I|exact IHdims]]. Qed.
Lemma uints_depth dims : fold_right Z.max 0 (map CborSpec.depth (map VUInt dims)) = 0.
Proof. induction dims; [reflexivity|]. cbn [map fold_right CborSpec.depth]. rewrite IHdims. reflexivity. Qed.
Lemma zlen_map' {A B} (f : A -> B) l : zlen (map f l) = zlen l.
Proof. unfold zlen. now rewrite map_length. Qed.
Lemma hdr_small m f z : zlen (CborSpec.hdr m f z) <= 9.
Proof. rewrite CborFacts.zlen_hdr. destruct f; cbn; lia. Qed.
Lemma uints_enc dims : zlen (flat_map CborSpec.enc (map CborMain.item_of (map VUInt dims))) <= 9 * zlen dims.
Proof.
  induction dims; [cbn; lia|]. cbn [map flat_map CborMain.item_of CborSpec.enc]. rewrite zlen_app, zlen_cons. pose proof (hdr_small 0 (CborMain.arg_of a) a). lia.
Qed.
Lemma uints_utf8 dims : texts_utf8 (VArr (map VUInt dims)).
Proof. cbn [texts_utf8]. induction dims; [exact I|split; [exact I|exact IHdims]]. Qed.
Theorem tensor_fits P t dims data : is_protocol P -> Forall (fun d => 0 <= d < 2 ^ 64) dims -> bytes_ok data -> zlen dims <= 2 ^ 20 -> zlen data < 2 ^ 32 - 5 -> data <> [] ->
  p_ok P (tensor_value t dims data).
Proof.
  intros IP D B RK L NE. pose proof (zlen_nonneg dims). pose proof (value_ok t dims data D B) as VO. destruct IP as [| |hard|dbg|dbg srt S|dbg srt S]; cbn [p_ok P_zera P_msgpack P_cbor P_json P_flex P_flexb].
  - unfold tensor_value, ZeraSpec.zera_fits. split; [cbn [ZeraSpec.keys_ok fold_right]; split; [exact I|]; split; [apply uints_keys|]; split; exact I|].
    unfold ZeraSpec.arena_ofs_of, ZeraSpec.env_size_of, ZeraSpec.arena_size_of. cbn [ZeraSpec.env_need ZeraSpec.arena_after fold_right fold_left]. rewrite uints_need, uints_arena, zlen_map'.
    change (zlen [VInt (dtype_index t); VArr (map VUInt dims); VBlob data]) with 3. change (ZeraSpec.up16 0) with 0. unfold ZeraSpec.up16, u32_max. split; [|lia]. clear - RK H. lia.
  - unfold tensor_value. cbn [MsgSpec.lengths_below]. rewrite zlen_map'. change (zlen [VInt (dtype_index t); VArr (map VUInt dims); VBlob data]) with 3. repeat split; try lia. apply uints_lengths.
  - assert (U : texts_utf8 (tensor_value t dims data)) by (split; [exact I|split; [apply uints_utf8|split; exact I]]).
    assert (DP : CborSpec.depth (tensor_value t dims data) <= 1024) by (unfold tensor_value; cbn [CborSpec.depth map fold_right]; rewrite uints_depth; lia).
    split; [exact U|]. split; [exact DP|]. split; [right; cbn; destruct data; [congruence|reflexivity]|]. intros b E. rewrite (CborMain.cbor_serialize _ VO (conj U DP)) in E. injection E as <-.
    unfold tensor_value. cbn [CborMain.item_of map CborSpec.enc flat_map]. rewrite zlen_cons, !zlen_app, zlen_nil.
    assert (zlen (CborSpec.enc (CborMain.int_item (dtype_index t))) <= 9) by (unfold CborMain.int_item; destruct (0 <=? dtype_index t); cbn [CborSpec.enc]; apply hdr_small).
    pose proof (uints_enc dims). pose proof (hdr_small 4 (CborMain.arg_of (zlen (map VUInt dims))) (zlen (map CborMain.item_of (map VUInt dims)))).
    pose proof (hdr_small 2 (CborMain.arg_of (zlen data)) (zlen data)).
    lia.
  - split; [|split].
    + apply every_uints; intros; exact I.
    + split; [exact I|split; [apply uints_utf8|split; exact I]].
    + apply every_uints; intros; exact I.
  - apply every_uints; intros; exact I.
  - split; [apply every_uints; intros; exact I|]. unfold tensor_value. cbn [FlexBSpec.room fold_right].
    assert (Q : forall l, fold_right (fun x n => FlexBSpec.room x + n) 0 (map VUInt l) = 17 * zlen l) by (induction l as [|x l IH]; [reflexivity|]; cbn [map fold_right FlexBSpec.room]; rewrite IH, zlen_cons; lia).
    rewrite Q. lia.
Qed.

(** ** Translating tensors *)
Lemma copy_how P v : is_protocol P -> val_ok v -> p_exact P v -> exists g, (g = g_id \/ g = g_mp \/ g = g_int) /\ copy P v = Some (leafmap g (first_wins (p_order P v))) /\
  val_ok (leafmap g (first_wins (p_order P v))) /\ val_ok (first_wins (p_order P v)).
Proof.
  intros [| |hard|dbg|dbg srt S|dbg srt S] V E; unfold copy; cbn [p_table p_norm p_exact p_order P_zera P_msgpack P_cbor P_json P_flex P_flexb] in *.
  - exists g_id. split; [auto|]. split; [now apply seen_zera|]. rewrite leafmap_id. split; now apply val_ok_first.
  - exists g_mp. split; [auto|]. split; [now apply seen_msgpack|]. split; [apply val_ok_mp|]; now apply val_ok_first.
  - exists g_int. split; [auto|]. split; [now apply seen_cbor|]. split; [apply val_ok_int; [now apply small_first|]|]; now apply val_ok_first.
  - destruct E as [E1 E2]. exists g_int. split; [auto|]. split; [now apply seen_json|]. split; [apply val_ok_int; [now apply small_first|]|]; now apply val_ok_first.
  - exists g_id. split; [auto|]. split; [apply seen_flex; now apply val_ok_order|]. rewrite leafmap_id. split; apply val_ok_first; now apply val_ok_order.
  - exists g_id. split; [auto|]. split; [apply seen_flex; now apply val_ok_order|]. rewrite leafmap_id. split; apply val_ok_first; now apply val_ok_order.
Qed.
Lemma value_exact P t dims data : is_protocol P -> Forall (fun d => 0 <= d < 2 ^ 63) dims -> p_exact P (tensor_value t dims data).
Proof.
  intros IP D. assert (SU : small_uints (tensor_value t dims data)) by (rewrite Forall_forall in D; apply every_uints; try exact I; intros d H; now apply D).
  destruct IP; cbn [p_exact P_zera P_msgpack P_cbor P_json P_flex P_flexb]; try exact I; [exact SU|]. split; [exact SU|]. apply every_uints; try reflexivity. destruct dims as [|a [|b [|c [|? ?]]]]; reflexivity.
Qed.
Lemma value_distinct t dims data : distinct_keys (tensor_value t dims data).
Proof. apply every_uints; intros; exact I. Qed.
Lemma value_order P t dims data : is_protocol P -> p_order P (tensor_value t dims data) = tensor_value t dims data.
Proof.
  intros []; try reflexivity; cbn [p_order P_flex P_flexb]; unfold tensor_value; cbn [in_key_order map]; do 3 f_equal; f_equal; rewrite map_map; apply map_ext; reflexivity.
Qed.
Lemma leafmap_form g t dims data : g = g_id \/ g = g_mp \/ g = g_int -> tensor_form (dtype_index t) dims data (leafmap g (tensor_value t dims data)).
Proof.
  intros G. pose proof (dtype_range t). exists (map (leafmap g) (map VUInt dims)). split.
  - unfold tensor_value. cbn [leafmap map]. destruct G as [-> |[-> | ->]]; cbn [g_id g_mp g_int]; try reflexivity. replace (dtype_index t <? 128) with true by lia. reflexivity.
  - induction dims as [|d l IH]; cbn [map]; constructor; [|exact IH]. cbn [leafmap]. destruct G as [-> |[-> | ->]]; cbn [g_id g_mp g_int]; auto. destruct (d <? 128); auto.
Qed.
Lemma form_numeric g : g = g_id \/ g = g_mp \/ g = g_int -> numeric g.
Proof. intros [-> |[-> | ->]]; [apply numeric_id|apply numeric_mp|apply numeric_int]. Qed.
Theorem tensor_translates P Q t : is_protocol P -> is_protocol Q -> container t -> dims_ok (x_shape t) -> prod (filter nonzero (x_shape t)) < 2 ^ 64 ->
  p_ok P (tensor_value (x_type t) (x_shape t) (x_mem t)) -> p_ok Q (tensor_value (x_type t) (x_shape t) (x_mem t)) ->
  exists e b w w' n, xt_serialize t = Ok e /\ build (p_writer P) e = Ok b /\ p_open P b = Ok w /\
    forall fuel blob_at D, (n <= fuel)%nat -> D = None \/ D = Some (zlen (x_shape t)) ->
      translate (p_reader P fuel) (p_writer Q) (p_open Q) fuel w = Ok w' /\
      exists a, as_xtensor (p_reader Q fuel) blob_at (x_type t) D w' = Ok a /\ same_tensor a t.
Proof.
  intros IP IQ C DS NZ OP OQ. pose proof C as (S & DR & RK & ST & OF & B & L & LT). set (v := tensor_value (x_type t) (x_shape t) (x_mem t)) in *.
  assert (VO : val_ok v) by (now apply value_ok).
  assert (PE : p_exact P v) by (apply value_exact; [exact IP|]; eapply Forall_impl; [|exact DS]; cbn; intros; lia).
  destruct (copy_how P v IP VO PE) as (g & G & CP & VG & _). assert (PO : first_wins (p_order P v) = v) by (unfold v; rewrite value_order by exact IP; apply first_wins_distinct, value_distinct). rewrite PO in CP, VG.
  destruct (translate_reserializes P Q v _ IP VO OP CP) as (b & w & n & E & O & TR).
  assert (QX : p_ok Q (leafmap g v)) by (apply p_ok_F; auto using form_numeric). destruct (protocol_round_trip Q _ IQ VG QX) as (b' & w' & n' & E' & O' & SH').
  eexists _, b, w, w', (Nat.max n n'). split; [exact (container_serialize t C)|]. split; [|split; [exact O|]].
  { rewrite <- E. rewrite wrap32_dims by exact DS. apply build_serialize. apply build_denotes. }
  intros fuel blob_at D F DD. split. { rewrite TR by lia. rewrite E'. exact O'. }
  destruct (read_tensor Q fuel (x_type t) (x_shape t) (x_mem t) _ w' blob_at D IQ (leafmap_form g _ _ _ G) S B DS RK NZ L LT) as (x & EX & XT & XA).
  { destruct DD as [-> | ->]; [exact I|reflexivity]. } { apply SH'. lia. }
  eexists. split; [unfold as_xtensor; rewrite EX; cbn [bind]; exact XA|]. now apply same_container.
Qed.
Theorem matrix_translates P Q m : is_protocol P -> is_protocol Q -> is_matrix m -> m_rows m < 2 ^ 32 -> m_cols m < 2 ^ 32 ->
  p_ok P (tensor_value (m_type m) [m_rows m; m_cols m] (m_mem m)) -> p_ok Q (tensor_value (m_type m) [m_rows m; m_cols m] (m_mem m)) ->
  exists e b w w' n, eig_serialize m = Ok e /\ build (p_writer P) e = Ok b /\ p_open P b = Ok w /\
    forall fuel blob_at nr nc, (n <= fuel)%nat -> nr = None \/ nr = Some (m_rows m) -> nc = None \/ nc = Some (m_cols m) ->
      translate (p_reader P fuel) (p_writer Q) (p_open Q) fuel w = Ok w' /\
      exists a, as_eigen (p_reader Q fuel) blob_at (m_type m) nr nc (m_rowmajor m) w' = Ok a /\ same_matrix a m.
Proof.
  intros IP IQ M RB CB OP OQ. pose proof M as (S & R & C & RC & B & L & LT). assert (DS : dims_ok [m_rows m; m_cols m]) by (repeat constructor; lia). set (v := tensor_value (m_type m) [m_rows m; m_cols m] (m_mem m)) in *.
  assert (VO : val_ok v) by (apply value_ok; [repeat constructor; lia|exact B]).
  assert (PE : p_exact P v) by (apply value_exact; [exact IP|]; repeat constructor; lia).
  destruct (copy_how P v IP VO PE) as (g & G & CP & VG & _). assert (PO : first_wins (p_order P v) = v) by (unfold v; rewrite value_order by exact IP; apply first_wins_distinct, value_distinct). rewrite PO in CP, VG.
  destruct (translate_reserializes P Q v _ IP VO OP CP) as (b & w & n & E & O & TR).
  assert (QX : p_ok Q (leafmap g v)) by (apply p_ok_F; auto using form_numeric). destruct (protocol_round_trip Q _ IQ VG QX) as (b' & w' & n' & E' & O' & SH').
  eexists _, b, w, w', (Nat.max n n'). split; [exact (matrix_serialize m M)|]. split; [|split; [exact O|]].
  { rewrite <- E. apply build_serialize. apply build_denotes. }
  intros fuel blob_at nr nc F HR HC. split. { rewrite TR by lia. rewrite E'. exact O'. }
  destruct (read_matrix Q fuel (m_type m) (m_rows m) (m_cols m) (m_mem m) _ w' blob_at nr nc (m_rowmajor m) IQ (leafmap_form g _ _ _ G) S B DS L LT HR HC) as (x & EX & XM & XA). { apply SH'. lia. }
  eexists. split; [unfold as_eigen; rewrite EX; cbn [bind]; exact XA|]. now apply same_mat.
Qed.

(** ** What the properties say *)
Lemma info_facts (sp : bool) addr t n i : i = mkInfo (sp && (addr mod elt_align t =? 0)) (if negb sp then RNotSpanBacked else if addr mod elt_align t =? 0 then ROk else RMisaligned) (elt_align t) addr n ->
  (zero_copy i = true <-> sp = true /\ addr mod elt_align t = 0) /\ (why i = ROk <-> zero_copy i = true) /\ (why i = RNotSpanBacked <-> sp = false) /\
  required_alignment i = elt_align t /\ address i = addr /\ byte_size i = n.
Proof.
  intros ->. cbn [zero_copy why required_alignment address byte_size]. destruct sp, (addr mod elt_align t =? 0) eqn:E; cbn [andb negb]; repeat split; try discriminate; try tauto; try lia; intros [? ?]; first [discriminate|lia].
Qed.
Theorem tensor_zero_copy {V} (R : reader V) blob_at t D buf v : as_xtensor_view R blob_at t D buf = Ok v ->
  exists w2 data, r_idx R buf 2 = Ok w2 /\ r_asBlob R w2 = Ok data /\ x_mem (xv_tensor v) = data /\
    (zero_copy (xv_info v) = true <-> fst (blob_at w2) = true /\ snd (blob_at w2) mod elt_align t = 0) /\
    (why (xv_info v) = ROk <-> zero_copy (xv_info v) = true) /\ (why (xv_info v) = RNotSpanBacked <-> fst (blob_at w2) = false) /\
    required_alignment (xv_info v) = elt_align t /\ address (xv_info v) = snd (blob_at w2) /\ byte_size (xv_info v) = zlen data /\
    (xv_owned v = None <-> zero_copy (xv_info v) = true).
Proof.
  intros H. destruct (accepted _ _ _ _ _ _ H) as (w2 & data & E2 & EB & _ & _ & _ & _ & _ & _ & M & I & OW & _). exists w2, data. split; [exact E2|]. split; [exact EB|]. split; [exact M|].
  destruct (blob_at w2) as [sp addr]. cbn [fst snd]. destruct (info_facts sp addr t (zlen data) _ I) as (A & B & C & D' & E & F). auto 10.
Qed.
Theorem matrix_zero_copy {V} (R : reader V) blob_at t nr nc rm buf v : as_eigen_view R blob_at t nr nc rm buf = Ok v ->
  exists w2 data, r_idx R buf 2 = Ok w2 /\ r_asBlob R w2 = Ok data /\ m_mem (ev_map v) = data /\
    (zero_copy (ev_info v) = true <-> fst (blob_at w2) = true /\ snd (blob_at w2) mod elt_align t = 0) /\
    (why (ev_info v) = ROk <-> zero_copy (ev_info v) = true) /\ (why (ev_info v) = RNotSpanBacked <-> fst (blob_at w2) = false) /\
    required_alignment (ev_info v) = elt_align t /\ address (ev_info v) = snd (blob_at w2) /\ byte_size (ev_info v) = zlen data /\
    (ev_owned v = None <-> zero_copy (ev_info v) = true).
Proof.
  intros H. destruct (accepted_matrix _ _ _ _ _ _ _ _ H) as (w2 & data & E2 & EB & _ & _ & _ & _ & _ & _ & M & I & OW & _). exists w2, data. split; [exact E2|]. split; [exact EB|]. split; [exact M|].
  destruct (blob_at w2) as [sp addr]. cbn [fst snd]. destruct (info_facts sp addr t (zlen data) _ I) as (A & B & C & D' & E & F). auto 10.
Qed.
Theorem accepted_matrix_view {V} (R : reader V) blob_at t nr nc rm buf v : sized t -> as_eigen_view R blob_at t nr nc rm buf = Ok v ->
  ev_rows v * ev_cols v * elt_size t < 2 ^ 64 ->
  zlen (m_mem (ev_map v)) = ev_rows v * ev_cols v * elt_size t /\
  forall r c, 0 <= r < ev_rows v -> 0 <= c < ev_cols v -> exists e, m_elem (ev_map v) r c = Ok e.
Proof.
  intros S H LT. destruct (accepted_matrix _ _ _ _ _ _ _ _ H) as (w2 & data & _ & _ & T & _ & DS & _ & _ & L & M & _). apply Forall_cons_iff in DS. destruct DS as [D1 DS]. apply Forall_cons_iff in DS. destruct DS as [D2 _]. pose proof (size_pos _ S) as SP.
  assert (Q : zlen (m_mem (ev_map v)) = ev_rows v * ev_cols v * elt_size t) by (rewrite M, L; apply wrap_id; nia). split; [exact Q|]. intros r c HR HC. unfold m_elem. cbn [ev_map m_type m_rowmajor m_cols m_rows] in *. rewrite T.
  eexists. apply (elem_in _ _ (ev_rows v * ev_cols v)); [exact Q|exact SP|]. destruct (ev_rowmajor v); nia.
Qed.
Theorem shape_written t : container t ->
  exists e shape, xt_serialize t = Ok e /\ denotes e (tensor_value (x_type t) shape (x_mem t)) /\ (shape = x_shape t <-> dims_ok (x_shape t)).
Proof.
  intros C. eexists _, _. split; [exact (container_serialize t C)|]. split; [apply build_denotes|]. split; [|apply wrap32_dims]. intros E. unfold dims_ok. rewrite <- E. apply Forall_map, Forall_forall. intros d _. unfold wrap32. apply Z.mod_pos_bound. lia.
Qed.
Lemma dtype_inj t u : supported t -> dtype_index u = dtype_index t -> u = t.
Proof. destruct t, u; cbn; intros S E; try reflexivity; try discriminate; contradiction. Qed.
Theorem element_type P t u : is_protocol P -> container t -> dims_ok (x_shape t) -> supported (x_type t) -> u <> x_type t ->
  p_ok P (tensor_value (x_type t) (x_shape t) (x_mem t)) ->
  exists e b w n, xt_serialize t = Ok e /\ build (p_writer P) e = Ok b /\ p_open P b = Ok w /\
    forall fuel blob_at, (n <= fuel)%nat -> is_tensor (p_reader P fuel) (x_type t) w = Ok true /\ is_tensor (p_reader P fuel) u w = Ok false /\
      (forall D, as_xtensor_view (p_reader P fuel) blob_at u D w = Throw EDeser) /\
      (forall nr nc rm, as_eigen_view (p_reader P fuel) blob_at u nr nc rm w = Throw EDeser).
Proof.
  intros IP C DS SU NE OK. pose proof C as (S & DR & RK & ST & OF & B & L & LT).
  assert (VO : val_ok (tensor_value (x_type t) (x_shape t) (x_mem t))) by (now apply value_ok).
  destruct (protocol_round_trip P _ IP VO OK) as (b & w & n & E & O & SH). eexists _, b, w, n. split; [exact (container_serialize t C)|]. split; [|split; [exact O|]].
  - rewrite <- E. rewrite wrap32_dims by exact DS. apply build_serialize. apply build_denotes.
  - intros fuel blob_at F. destruct (read_three P fuel IP (x_type t) (x_shape t) (x_mem t) _ w (form_of _ _ _) B DS RK (SH fuel F)) as (w0 & w1 & w2 & T3 & TS).
    assert (NI : dtype_index u <> dtype_index (x_type t)) by (intros EQ; apply NE; now apply dtype_inj).
    pose proof (three_not_tensor P fuel _ _ _ _ _ _ _ T3 NI) as NT. split; [exact (three_is_tensor P fuel _ _ _ _ _ _ T3)|]. split; [exact NT|]. split; intros; [unfold as_xtensor_view|unfold as_eigen_view]; rewrite NT; reflexivity.
Qed.
