(** AlignFacts.v -- tensor views of ZERA messages at aligned addresses are zero-copy. *)

From Coq Require Import ZArith List Bool Lia ZifyBool.
From Verif Require Import Base BaseFacts Spec SpecFacts ZeraModel ZeraSpec ZeraTheorems ZeraHist AlignModel.
From Verif Require Import TransSpec TransMain BuildModel BuildSpec BuildFacts TensorModel TensorSpec TensorFacts TensorMain.
Import ListNotations.
Open Scope Z_scope.

Lemma align_16 t : supported t -> 16 mod elt_align t = 0 /\ 0 < elt_align t.
Proof. destruct t; cbn; intros H; try contradiction; split; reflexivity. Qed.
Lemma aligned_sum base o a : 0 < a -> 16 mod a = 0 -> base mod a = 0 -> o mod 16 = 0 -> (base + o) mod a = 0.
Proof.
  intros A D B O. apply Z.mod_divide in D; [|lia]. apply Z.mod_divide in B; [|lia]. apply Z.mod_divide in O; [|lia].
  apply Z.mod_divide; [lia|]. apply Z.divide_add_r; [exact B|]. exact (Z.divide_trans _ _ _ D O).
Qed.
(** The blob of any view of a written message *)
Lemma blob_aligned es s outs b w w' i w2 base t data : Forall ev_ok es -> run_catch zera_writer zw_init es = (s, outs) -> snd (zw_finish s) = Ok b ->
  zera_open b = Ok w -> reach zera_reader w w' -> 0 <= i < 2^64 -> r_idx zera_reader w' i = Ok w2 -> r_asBlob zera_reader w2 = Ok data ->
  0 < elt_align t -> 16 mod elt_align t = 0 -> base mod elt_align t = 0 ->
  fst (zera_blob_at base w2) = true /\ snd (zera_blob_at base w2) mod elt_align t = 0.
Proof.
  intros EO R F O RE Hi I D A1 A2 A3. split; [reflexivity|]. cbn [snd zera_blob_at].
  cbn [r_asBlob zera_reader] in D. destruct (zv_asBlob w2) as [(o, n)| | |] eqn:AB; try discriminate D.
  apply aligned_sum; auto. apply (history_blob es s outs b w w2 o n EO R F O); [|exact AB]. eapply reach_idx; eassumption.
Qed.
Theorem zera_tensor_zero_copy es s outs b w w' base t D v : Forall ev_ok es -> run_catch zera_writer zw_init es = (s, outs) -> snd (zw_finish s) = Ok b ->
  zera_open b = Ok w -> reach zera_reader w w' -> supported t -> base mod elt_align t = 0 ->
  as_xtensor_view zera_reader (zera_blob_at base) t D w' = Ok v -> zero_copy (xv_info v) = true /\ why (xv_info v) = ROk /\ xv_owned v = None.
Proof.
  intros EO R F O RE SU BA E. destruct (align_16 t SU) as (A & P). destruct (tensor_zero_copy _ _ _ _ _ _ E) as (w2 & data & I & DA & _ & ZC & WH & _ & _ & _ & _ & OW).
  assert (Z : zero_copy (xv_info v) = true).
  { apply ZC. apply (blob_aligned es s outs b w w' 2 w2 base t data); auto; lia. }
  split; [exact Z|]. split; [now apply WH|now apply OW].
Qed.
Theorem zera_matrix_zero_copy es s outs b w w' base t nr nc rm v : Forall ev_ok es -> run_catch zera_writer zw_init es = (s, outs) -> snd (zw_finish s) = Ok b ->
  zera_open b = Ok w -> reach zera_reader w w' -> supported t -> base mod elt_align t = 0 ->
  as_eigen_view zera_reader (zera_blob_at base) t nr nc rm w' = Ok v -> zero_copy (ev_info v) = true /\ why (ev_info v) = ROk /\ ev_owned v = None.
Proof.
  intros EO R F O RE SU BA E. destruct (align_16 t SU) as (A & P). destruct (matrix_zero_copy _ _ _ _ _ _ _ _ E) as (w2 & data & I & DA & _ & ZC & WH & _ & _ & _ & _ & OW).
  assert (Z : zero_copy (ev_info v) = true).
  { apply ZC. apply (blob_aligned es s outs b w w' 2 w2 base t data); auto; lia. }
  split; [exact Z|]. split; [now apply WH|now apply OW].
Qed.

Lemma run_catch_ok {S O} (W : writer S O) es : forall s s', run W s es = (s', Ok tt) -> exists outs, run_catch W s es = (s', outs).
Proof.
  induction es as [|e es IH]; intros s s' R; cbn in *; [injection R as ->; eauto|].
  destruct (w_step W s e) as (s1, [[]| | |]) eqn:E; try discriminate. destruct (IH s1 s' R) as (outs & ->). eauto.
Qed.
Lemma serialize_history {S O} (W : writer S O) v b : serialize W v = Ok b -> exists s outs, run_catch W (w_init W) (events v) = (s, outs) /\ snd (w_finish W s) = Ok b.
Proof.
  unfold serialize. intros E. destruct (run W (w_init W) (events v)) as (s, [[]| | |]) eqn:R; try discriminate. destruct (run_catch_ok W _ _ _ R) as (outs & C). eauto.
Qed.
(** Written and read back without a copy *)
Theorem zera_tensor_round_trip t base : container t -> supported (x_type t) -> dims_ok (x_shape t) -> prod (filter nonzero (x_shape t)) < 2 ^ 64 ->
  zera_fits (tensor_value (x_type t) (x_shape t) (x_mem t)) -> base mod elt_align (x_type t) = 0 ->
  exists e b w x, xt_serialize t = Ok e /\ build zera_writer e = Ok b /\ zera_open b = Ok w /\
    as_xtensor_view zera_reader (zera_blob_at base) (x_type t) None w = Ok x /\ same_tensor (xv_tensor x) t /\
    zero_copy (xv_info x) = true /\ xv_owned x = None.
Proof.
  intros C SU DS PR FT BA. destruct (xtensor_round_trip P_zera t is_zera C DS PR FT) as (e & b & w & n & E & B & O & H).
  destruct (H n (zera_blob_at base) None ltac:(lia) (or_introl eq_refl)) as (x & a & X & SX & _). cbn [p_reader P_zera p_writer p_open] in *.
  exists e, b, w, x. split; [exact E|]. split; [exact B|]. split; [exact O|]. split; [exact X|]. split; [exact SX|].
  rewrite (container_serialize t C), wrap32_dims in E by exact DS. injection E as <-.
  rewrite (build_serialize _ _ _ _ _ (build_denotes _ _ _)) in B. destruct (serialize_history _ _ _ B) as (s & outs & R & F).
  assert (EV : Forall ev_ok (events (VArr [VInt (dtype_index (x_type t)); VArr (map VUInt (x_shape t)); VBlob (x_mem t)]))).
  { apply events_ev_ok. apply value_ok; apply C. }
  destruct (zera_tensor_zero_copy _ s outs b w w base (x_type t) None x EV R F O (reach_here _ _) SU BA X) as (A1 & _ & A2). auto.
Qed.
Theorem zera_matrix_round_trip m base : is_matrix m -> supported (m_type m) -> m_rows m < 2 ^ 32 -> m_cols m < 2 ^ 32 ->
  zera_fits (tensor_value (m_type m) [m_rows m; m_cols m] (m_mem m)) -> base mod elt_align (m_type m) = 0 ->
  exists e b w x, eig_serialize m = Ok e /\ build zera_writer e = Ok b /\ zera_open b = Ok w /\
    as_eigen_view zera_reader (zera_blob_at base) (m_type m) None None (m_rowmajor m) w = Ok x /\ same_matrix (ev_map x) m /\
    zero_copy (ev_info x) = true /\ ev_owned x = None.
Proof.
  intros M SU RB CB FT BA. destruct (eigen_round_trip P_zera m is_zera M RB CB FT) as (e & b & w & n & E & B & O & H).
  destruct (H n (zera_blob_at base) None None ltac:(lia) (or_introl eq_refl) (or_introl eq_refl)) as (x & a & X & SX & _). cbn [p_reader P_zera p_writer p_open] in *.
  exists e, b, w, x. split; [exact E|]. split; [exact B|]. split; [exact O|]. split; [exact X|]. split; [exact SX|].
  rewrite (matrix_serialize m M) in E. apply (f_equal (fun r => match r with Ok x => x | _ => BNull end)) in E. cbv beta iota in E. subst e.
  rewrite (build_serialize _ _ _ _ _ (build_denotes _ _ _)) in B. destruct (serialize_history _ _ _ B) as (s & outs & R & F).
  assert (EV : Forall ev_ok (events (tensor_value (m_type m) [m_rows m; m_cols m] (m_mem m)))).
  { apply events_ev_ok. destruct M as (_ & ? & ? & _ & BO & _). apply value_ok; [repeat constructor; lia|exact BO]. }
  destruct (zera_matrix_zero_copy _ s outs b w w base (m_type m) None None (m_rowmajor m) x EV R F O (reach_here _ _) SU BA X) as (A1 & _ & A2). auto.
Qed.
