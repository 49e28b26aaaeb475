(** Properties_Align.v -- C67: tensors in aligned ZERA messages are viewed without copying.

    Vocabulary: [zera_blob_at] in AlignModel.v; [container], [is_matrix], [supported], [same_tensor] in TensorSpec.v;
    [zera_fits] in ZeraSpec.v; [reach] in Spec.v. *)

From Coq Require Import ZArith List Bool Lia ZifyBool.
From Verif Require Import Base BaseFacts Spec SpecFacts ZeraModel ZeraSpec AlignModel AlignFacts.
From Verif Require Import TransSpec TransMain BuildModel BuildSpec TensorModel TensorSpec TensorFacts TensorMain.
From Verif Require MsgModel.
Import ListNotations.
Open Scope Z_scope.

(** ** C67

    Whatever was written, with or without caught exceptions, and wherever in the message the tensor is: a view that is
    accepted is zero-copy as soon as the message is aligned for the element type. *)
Theorem C67_zera_tensor_views : forall es s outs b w w' base t D v, Forall ev_ok es ->
  run_catch zera_writer zw_init es = (s, outs) -> snd (zw_finish s) = Ok b ->
  zera_open b = Ok w -> reach zera_reader w w' -> supported t -> base mod elt_align t = 0 ->
  as_xtensor_view zera_reader (zera_blob_at base) t D w' = Ok v -> zero_copy (xv_info v) = true /\ why (xv_info v) = ROk /\ xv_owned v = None.
Proof. exact zera_tensor_zero_copy. Qed.
Print Assumptions C67_zera_tensor_views.
Theorem C67_zera_matrix_views : forall es s outs b w w' base t nr nc rm v, Forall ev_ok es ->
  run_catch zera_writer zw_init es = (s, outs) -> snd (zw_finish s) = Ok b ->
  zera_open b = Ok w -> reach zera_reader w w' -> supported t -> base mod elt_align t = 0 ->
  as_eigen_view zera_reader (zera_blob_at base) t nr nc rm w' = Ok v -> zero_copy (ev_info v) = true /\ why (ev_info v) = ROk /\ ev_owned v = None.
Proof. exact zera_matrix_zero_copy. Qed.
Print Assumptions C67_zera_matrix_views.

(** 16 bytes suffice for all element types. *)
Theorem C67_sixteen : forall t base, supported t -> base mod 16 = 0 -> base mod elt_align t = 0.
Proof. intros t base SU B. destruct (align_16 t SU) as (A & P). exact (aligned_sum 0 base (elt_align t) P A (Zmod_0_l _) B). Qed.
Print Assumptions C67_sixteen.

(** A written tensor or matrix is accepted, shows the same elements, and is not copied. *)
Theorem C67_tensor_round_trip : forall t base, container t -> supported (x_type t) -> dims_ok (x_shape t) -> prod (filter nonzero (x_shape t)) < 2 ^ 64 ->
  zera_fits (tensor_value (x_type t) (x_shape t) (x_mem t)) -> base mod elt_align (x_type t) = 0 ->
  exists e b w x, xt_serialize t = Ok e /\ build zera_writer e = Ok b /\ zera_open b = Ok w /\
    as_xtensor_view zera_reader (zera_blob_at base) (x_type t) None w = Ok x /\ same_tensor (xv_tensor x) t /\
    zero_copy (xv_info x) = true /\ xv_owned x = None.
Proof. exact zera_tensor_round_trip. Qed.
Print Assumptions C67_tensor_round_trip.
Theorem C67_matrix_round_trip : forall m base, is_matrix m -> supported (m_type m) -> m_rows m < 2 ^ 32 -> m_cols m < 2 ^ 32 ->
  zera_fits (tensor_value (m_type m) [m_rows m; m_cols m] (m_mem m)) -> base mod elt_align (m_type m) = 0 ->
  exists e b w x, eig_serialize m = Ok e /\ build zera_writer e = Ok b /\ zera_open b = Ok w /\
    as_eigen_view zera_reader (zera_blob_at base) (m_type m) None None (m_rowmajor m) w = Ok x /\ same_matrix (ev_map x) m /\
    zero_copy (ev_info x) = true /\ ev_owned x = None.
Proof. exact zera_matrix_round_trip. Qed.
Print Assumptions C67_matrix_round_trip.

(** A tensor of two doubles in a map after a 3-byte blob, the message at address 4096 *)
Definition two : val := tensor_value TF64 [2] [0; 0; 0; 0; 0; 0; 240; 63; 0; 0; 0; 0; 0; 0; 0; 64].
Definition two_es : list ev := events (VMap [([98], VBlob [1; 2; 3]); ([116], two)]).
Example C67_case : Forall ev_ok two_es /\ exists b w w' v, serialize zera_writer (VMap [([98], VBlob [1; 2; 3]); ([116], two)]) = Ok b /\
  zera_open b = Ok w /\ zv_key w [116] = Ok w' /\
  as_xtensor_view zera_reader (zera_blob_at 4096) TF64 None w' = Ok v /\ xv_info v = mkInfo true ROk 8 4304 16 /\
  x_elem (xv_tensor v) [1] = Ok [0; 0; 0; 0; 0; 0; 0; 64].
Proof.
  split; [apply events_ev_ok; okay; unfold i64_min, i64_max, u64_max; lia|].
  do 4 eexists. split; [vm_compute; reflexivity|]. split; [vm_compute; reflexivity|]. split; [vm_compute; reflexivity|]. split; [vm_compute; reflexivity|]. split; vm_compute; reflexivity.
Qed.
(** The alignment is needed, and MessagePack does not provide it: its blob starts at offset 6 here. *)
Example C67_misaligned_case : exists v b w,
  serialize zera_writer two = Ok b /\ zera_open b = Ok w /\ as_xtensor_view zera_reader (zera_blob_at 4100) TF64 None w = Ok v /\ zero_copy (xv_info v) = false /\
  MsgModel.mp_asBlob (MsgModel.mkSpan (match serialize MsgModel.mp_writer two with Ok b => b | _ => [] end) 4 18) = Ok (6, 16).
Proof. do 3 eexists. split; [vm_compute; reflexivity|]. split; [vm_compute; reflexivity|]. split; [vm_compute; reflexivity|]. split; vm_compute; reflexivity. Qed.
