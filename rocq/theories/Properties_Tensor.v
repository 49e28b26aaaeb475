(** Properties_Tensor.v -- C40 to C44 and C58 to C60: xtensor and Eigen tensors. *)

From Coq Require Import ZArith List Bool Lia ZifyBool.
From Verif Require Import Base BaseFacts Spec SpecFacts.
From Verif Require Import TransModel TransSpec TransMain TransAll BuildModel BuildSpec BuildFacts.
From Verif Require Import TensorModel TensorSpec TensorFacts TensorMain TensorSafe.
From Verif Require JsonModel ZeraModel MsgModel MsgSpec MsgSafe CborModel CborSpec.
Import ListNotations.
Open Scope Z_scope.

(** A 2x3 tensor of int16 *)
Definition six : xtensor := mkX TI16 [2; 3] [3; 1] 0 [1; 0; 2; 0; 3; 0; 4; 0; 5; 0; 6; 255].
Lemma six_container : container six.
Proof. split; [exact I|]. repeat split; try reflexivity; try lia; try (repeat constructor; lia). Qed.

(** ** C40: xtensor round trip through every protocol

    Full statement: for every xtensor container, view or adaptor with dimensions below 2^32, asXTensorView and asXTensor
    of the serialized value return the same shape and elements.  Missing: column-major containers and strided views
    (data() is written from its start in memory order), and tensors without elements whose other dimensions multiply to
    2^64 or more; all three refuted below.  The protocol must be able to carry the value ([p_ok]: message size limits);
    [C40_fits] says when. *)
Theorem C40_xtensor_round_trip_partial : forall P t, is_protocol P -> container t -> dims_ok (x_shape t) ->
  prod (filter nonzero (x_shape t)) < 2 ^ 64 -> p_ok P (tensor_value (x_type t) (x_shape t) (x_mem t)) ->
  exists e b w n, xt_serialize t = Ok e /\ build (p_writer P) e = Ok b /\ p_open P b = Ok w /\
    forall fuel blob_at D, (n <= fuel)%nat -> D = None \/ D = Some (zlen (x_shape t)) ->
      exists x a, as_xtensor_view (p_reader P fuel) blob_at (x_type t) D w = Ok x /\ same_tensor (xv_tensor x) t /\
                  as_xtensor (p_reader P fuel) blob_at (x_type t) D w = Ok a /\ same_tensor a t.
Proof. exact xtensor_round_trip. Qed.
Print Assumptions C40_xtensor_round_trip_partial.

(** Every protocol carries tensors of 1 to 2^32-6 bytes and up to 2^20 dimensions. *)
Theorem C40_fits : forall P t dims data, is_protocol P -> Forall (fun d => 0 <= d < 2 ^ 64) dims -> bytes_ok data ->
  zlen dims <= 2 ^ 20 -> zlen data < 2 ^ 32 - 5 -> data <> [] -> p_ok P (tensor_value t dims data).
Proof. exact tensor_fits. Qed.
Print Assumptions C40_fits.

(** A tensor anywhere in a message (inside maps, arrays, after a translation): wherever a view shows the triple. *)
Theorem C40_nested_partial : forall P fuel t shape data v w blob_at D, is_protocol P -> tensor_form (dtype_index t) shape data v ->
  sized t -> bytes_ok data -> dims_ok shape -> zlen shape < 2 ^ 60 -> prod (filter nonzero shape) < 2 ^ 64 ->
  zlen data = prod shape * elt_size t -> zlen data < 2 ^ 63 -> match D with Some d => d = zlen shape | None => True end ->
  shows (p_reader P fuel) (p_table P) w (p_norm P v) ->
  exists x, as_xtensor_view (p_reader P fuel) blob_at t D w = Ok x /\ xv_tensor x = mkX t shape (row_major shape) 0 data /\
            xv_array x = Ok (mkX t shape (row_major shape) 0 data).
Proof. exact read_tensor. Qed.
Print Assumptions C40_nested_partial.

Example C40_case : container six /\ dims_ok (x_shape six) /\ prod (filter nonzero (x_shape six)) < 2 ^ 64 /\
  (forall P, is_protocol P -> p_ok P (tensor_value (x_type six) (x_shape six) (x_mem six))) /\
  x_elem six [1; 2] = Ok [6; 255] /\ in_range [1; 2] (x_shape six).
Proof.
  split; [exact six_container|]. split; [repeat constructor; lia|]. split; [reflexivity|]. split; [|split; [reflexivity|repeat constructor; lia]].
  intros P IP. apply tensor_fits; [exact IP|repeat constructor; lia|apply six_container|vm_compute; congruence|vm_compute; reflexivity|discriminate].
Qed.

(** A column-major 2x3 array: element (0,1) comes back as another one. *)
Definition colmajor : xtensor := mkX TU8 [2; 3] (col_major 1 [2; 3]) 0 [1; 2; 3; 4; 5; 6].
Theorem C40_column_major_refuted : exists e b w a, xt_serialize colmajor = Ok e /\ build ZeraModel.zera_writer e = Ok b /\ ZeraModel.zera_open b = Ok w /\
  as_xtensor ZeraModel.zera_reader (fun _ => (true, 0)) TU8 None w = Ok a /\
  x_shape a = x_shape colmajor /\ x_elem colmajor [0; 1] = Ok [3] /\ x_elem a [0; 1] = Ok [2].
Proof. do 4 eexists. repeat (split; [vm_compute; reflexivity|]). vm_compute. reflexivity. Qed.
Print Assumptions C40_column_major_refuted.

(** The second column of a 2x3 array as a strided view: its first element is 1 element into data(). *)
Definition column : xtensor := mkX TU8 [2] [3] 1 [1; 2; 3; 4; 5; 6].
Theorem C40_strided_view_refuted : exists e b w a, xt_serialize column = Ok e /\ build ZeraModel.zera_writer e = Ok b /\ ZeraModel.zera_open b = Ok w /\
  as_xtensor ZeraModel.zera_reader (fun _ => (true, 0)) TU8 None w = Ok a /\ x_shape a = x_shape column /\
  x_elem column [0] = Ok [2] /\ x_elem a [0] = Ok [1] /\ x_elem column [1] = Ok [5] /\ x_elem a [1] = Ok [2].
Proof. do 4 eexists. repeat (split; [vm_compute; reflexivity|]). vm_compute. reflexivity. Qed.
Print Assumptions C40_strided_view_refuted.

(** No elements, but the element count overflows before the 0 is met: rejected. *)
Definition hollow : xtensor := mkX TU8 [2 ^ 31; 2 ^ 31; 2 ^ 31; 0] (row_major [2 ^ 31; 2 ^ 31; 2 ^ 31; 0]) 0 [].
Theorem C40_hollow_refuted : container hollow /\ dims_ok (x_shape hollow) /\
  exists e b w, xt_serialize hollow = Ok e /\ build ZeraModel.zera_writer e = Ok b /\ ZeraModel.zera_open b = Ok w /\
  as_xtensor ZeraModel.zera_reader (fun _ => (true, 0)) TU8 None w = Throw EDeser.
Proof.
  split; [split; [exact I|]; repeat split; try reflexivity; try (repeat constructor; lia)|]. split; [repeat constructor; lia|].
  do 3 eexists. repeat (split; [vm_compute; reflexivity|]). vm_compute. reflexivity.
Qed.
Print Assumptions C40_hollow_refuted.

(** ** C41: accepted tensors have exactly the bytes their shape requires

    Full statement: whatever the message, an accepted view's memory is exactly product(shape) * sizeof(T) bytes and every
    element is inside.  For the owning results of asXTensor and asEigenMatrix this holds; for the views it is missing when
    the product reaches 2^64 (refuted below). *)
Theorem C41_owning_tensors : forall V (R : reader V) blob_at t D buf a, sized t -> as_xtensor R blob_at t D buf = Ok a ->
  x_type a = t /\ dims_ok (x_shape a) /\ (exists w2, r_idx R buf 2 = Ok w2 /\ r_asBlob R w2 = Ok (x_mem a)) /\
  zlen (x_mem a) = prod (x_shape a) * elt_size t /\ forall idx, in_range idx (x_shape a) -> exists c, x_elem a idx = Ok c.
Proof. exact @accepted_array_elems. Qed.
Print Assumptions C41_owning_tensors.
Theorem C41_tensor_views_partial : forall V (R : reader V) blob_at t D buf v, sized t -> as_xtensor_view R blob_at t D buf = Ok v ->
  prod (xv_shape v) * elt_size t < 2 ^ 64 \/ zero_copy (xv_info v) = false ->
  zlen (x_mem (xv_tensor v)) = prod (xv_shape v) * elt_size t /\ forall idx, in_range idx (xv_shape v) -> exists c, x_elem (xv_tensor v) idx = Ok c.
Proof. exact @accepted_view_elems. Qed.
Print Assumptions C41_tensor_views_partial.
(** Fixed-size matrix types have less than 2^63 bytes. *)
Theorem C41_owning_matrices : forall V (R : reader V) blob_at t nr nc rm buf a, sized t -> as_eigen R blob_at t nr nc rm buf = Ok a ->
  match nr, nc with Some r, Some c => r * c * elt_size t < 2 ^ 63 | _, _ => True end ->
  m_type a = t /\ (exists w2, r_idx R buf 2 = Ok w2 /\ r_asBlob R w2 = Ok (m_mem a)) /\
  zlen (m_mem a) = m_rows a * m_cols a * elt_size t /\ forall r c, 0 <= r < m_rows a -> 0 <= c < m_cols a -> exists e, m_elem a r c = Ok e.
Proof. exact @accepted_matrix_elems. Qed.
Print Assumptions C41_owning_matrices.
Theorem C41_matrix_views_partial : forall V (R : reader V) blob_at t nr nc rm buf v, sized t -> as_eigen_view R blob_at t nr nc rm buf = Ok v ->
  ev_rows v * ev_cols v * elt_size t < 2 ^ 64 ->
  zlen (m_mem (ev_map v)) = ev_rows v * ev_cols v * elt_size t /\
  forall r c, 0 <= r < ev_rows v -> 0 <= c < ev_cols v -> exists e, m_elem (ev_map v) r c = Ok e.
Proof. exact @accepted_matrix_view. Qed.
Print Assumptions C41_matrix_views_partial.

(** 15 bytes of MsgPack: shape 2147483648 x 1073741824 of doubles, no data. *)
Definition overflow : bytes := [147; 11; 146; 206; 128; 0; 0; 0; 206; 64; 0; 0; 0; 196; 0].
Theorem C41_views_refuted : exists v m,
  as_xtensor_view MsgModel.mp_reader (fun _ => (true, 8)) TF64 None (MsgModel.mp_open overflow) = Ok v /\
  xv_shape v = [2 ^ 31; 2 ^ 30] /\ x_mem (xv_tensor v) = [] /\ x_elem (xv_tensor v) [0; 0] = UB /\
  as_eigen_view MsgModel.mp_reader (fun _ => (true, 8)) TF64 None None false (MsgModel.mp_open overflow) = Ok m /\
  ev_rows m = 2 ^ 31 /\ ev_cols m = 2 ^ 30 /\ m_mem (ev_map m) = [] /\ m_elem (ev_map m) 0 0 = UB.
Proof. do 2 eexists. repeat (split; [vm_compute; reflexivity|]). vm_compute. reflexivity. Qed.
Print Assumptions C41_views_refuted.
(** An arbitrary message that is accepted, and one that is one byte short. *)
Example C41_case : (exists a, as_xtensor MsgModel.mp_reader (fun _ => (true, 8)) TU16 None (MsgModel.mp_open [147; 5; 145; 2; 196; 4; 1; 2; 3; 4]) = Ok a /\ x_elem a [1] = Ok [3; 4]) /\
  as_xtensor MsgModel.mp_reader (fun _ => (true, 8)) TU16 None (MsgModel.mp_open [147; 5; 145; 2; 196; 3; 1; 2; 3]) = Throw EDeser.
Proof. split; [eexists; split; vm_compute; reflexivity|vm_compute; reflexivity]. Qed.

(** ** C42: zero-copy is reported truthfully

    Whatever the message: zero_copy iff the blob is a span at an aligned address; the reason, address and size are the
    blob's; an owning copy exists exactly when not zero_copy; and the elements are the blob's bytes. *)
Theorem C42_tensor_zero_copy : forall V (R : reader V) blob_at t D buf v, as_xtensor_view R blob_at t D buf = Ok v ->
  exists w2 data, r_idx R buf 2 = Ok w2 /\ r_asBlob R w2 = Ok data /\ x_mem (xv_tensor v) = data /\
    (zero_copy (xv_info v) = true <-> fst (blob_at w2) = true /\ snd (blob_at w2) mod elt_align t = 0) /\
    (why (xv_info v) = ROk <-> zero_copy (xv_info v) = true) /\ (why (xv_info v) = RNotSpanBacked <-> fst (blob_at w2) = false) /\
    required_alignment (xv_info v) = elt_align t /\ address (xv_info v) = snd (blob_at w2) /\ byte_size (xv_info v) = zlen data /\
    (xv_owned v = None <-> zero_copy (xv_info v) = true).
Proof. exact @tensor_zero_copy. Qed.
Print Assumptions C42_tensor_zero_copy.
Theorem C42_matrix_zero_copy : forall V (R : reader V) blob_at t nr nc rm buf v, as_eigen_view R blob_at t nr nc rm buf = Ok v ->
  exists w2 data, r_idx R buf 2 = Ok w2 /\ r_asBlob R w2 = Ok data /\ m_mem (ev_map v) = data /\
    (zero_copy (ev_info v) = true <-> fst (blob_at w2) = true /\ snd (blob_at w2) mod elt_align t = 0) /\
    (why (ev_info v) = ROk <-> zero_copy (ev_info v) = true) /\ (why (ev_info v) = RNotSpanBacked <-> fst (blob_at w2) = false) /\
    required_alignment (ev_info v) = elt_align t /\ address (ev_info v) = snd (blob_at w2) /\ byte_size (ev_info v) = zlen data /\
    (ev_owned v = None <-> zero_copy (ev_info v) = true).
Proof. exact @matrix_zero_copy. Qed.
Print Assumptions C42_matrix_zero_copy.
Example C42_case : exists v u, let m := MsgModel.mp_open [147; 5; 145; 2; 196; 4; 1; 2; 3; 4] in
  as_xtensor_view MsgModel.mp_reader (fun _ => (true, 8)) TU16 None m = Ok v /\ zero_copy (xv_info v) = true /\
  as_xtensor_view MsgModel.mp_reader (fun _ => (true, 9)) TU16 None m = Ok u /\ xv_info u = mkInfo false RMisaligned 2 9 4 /\ xv_owned u = Some [1; 2; 3; 4].
Proof. do 2 eexists. cbv zeta. repeat (split; [vm_compute; reflexivity|]). vm_compute. reflexivity. Qed.

(** ** C43: tensor shapes are written losslessly

    Full statement: the written shape is the tensor's.  For xtensor that holds exactly when all dimensions are below 2^32;
    for Eigen always. *)
Theorem C43_tensor_shape_partial : forall t, container t ->
  exists e shape, xt_serialize t = Ok e /\ denotes e (tensor_value (x_type t) shape (x_mem t)) /\ (shape = x_shape t <-> dims_ok (x_shape t)).
Proof. exact shape_written. Qed.
Print Assumptions C43_tensor_shape_partial.
Theorem C43_matrix_shape : forall m, is_matrix m ->
  exists e, eig_serialize m = Ok e /\ denotes e (tensor_value (m_type m) [m_rows m; m_cols m] (m_mem m)).
Proof. intros m M. eexists. split; [exact (matrix_serialize m M)|apply build_denotes]. Qed.
Print Assumptions C43_matrix_shape.
Definition wide : xtensor := mkX TU8 [2 ^ 32 + 5; 0] (row_major [2 ^ 32 + 5; 0]) 0 [].
Theorem C43_wide_shape_refuted : container wide /\ exists e, xt_serialize wide = Ok e /\ denotes e (tensor_value TU8 [5; 0] []).
Proof. split; [split; [exact I|]; repeat split; try reflexivity; try (repeat constructor; lia)|]. eexists. split; [vm_compute; reflexivity|]. exact (build_denotes 4 [5; 0] []). Qed.
Print Assumptions C43_wide_shape_refuted.
Example C43_case : container six /\ dims_ok (x_shape six).
Proof. split; [exact six_container|repeat constructor; lia]. Qed.

(** ** C44: Eigen matrix round trip

    Full statement: for both storage orders on either side.  Missing: reading with a storage order other than the one
    written (refuted), dimensions from 2^32 on. *)
Theorem C44_eigen_round_trip_partial : forall P m, is_protocol P -> is_matrix m -> m_rows m < 2 ^ 32 -> m_cols m < 2 ^ 32 ->
  p_ok P (tensor_value (m_type m) [m_rows m; m_cols m] (m_mem m)) ->
  exists e b w n, eig_serialize m = Ok e /\ build (p_writer P) e = Ok b /\ p_open P b = Ok w /\
    forall fuel blob_at nr nc, (n <= fuel)%nat -> nr = None \/ nr = Some (m_rows m) -> nc = None \/ nc = Some (m_cols m) ->
      exists x a, as_eigen_view (p_reader P fuel) blob_at (m_type m) nr nc (m_rowmajor m) w = Ok x /\ same_matrix (ev_map x) m /\
                  as_eigen (p_reader P fuel) blob_at (m_type m) nr nc (m_rowmajor m) w = Ok a /\ same_matrix a m.
Proof. exact eigen_round_trip. Qed.
Print Assumptions C44_eigen_round_trip_partial.
Definition mat : matrix := mkM TU8 2 3 true [1; 2; 3; 4; 5; 6].
Example C44_case : is_matrix mat /\ m_rows mat < 2 ^ 32 /\ m_cols mat < 2 ^ 32 /\
  (forall P, is_protocol P -> p_ok P (tensor_value (m_type mat) [m_rows mat; m_cols mat] (m_mem mat))) /\ m_elem mat 1 0 = Ok [4].
Proof.
  split; [split; [exact I|]; repeat split; try reflexivity; try (vm_compute; congruence); okay|]. split; [reflexivity|]. split; [reflexivity|]. split; [|reflexivity].
  intros P IP. apply tensor_fits; [exact IP|repeat constructor; vm_compute; congruence|okay|vm_compute; congruence|vm_compute; reflexivity|discriminate].
Qed.
(** A row-major matrix read with the default options, and an xtensor array read as an Eigen matrix. *)
Theorem C44_storage_order_refuted : exists e b w a, eig_serialize mat = Ok e /\ build ZeraModel.zera_writer e = Ok b /\ ZeraModel.zera_open b = Ok w /\
  as_eigen ZeraModel.zera_reader (fun _ => (true, 0)) TU8 None None false w = Ok a /\ m_elem mat 1 0 = Ok [4] /\ m_elem a 1 0 = Ok [2].
Proof. do 4 eexists. repeat (split; [vm_compute; reflexivity|]). vm_compute. reflexivity. Qed.
Print Assumptions C44_storage_order_refuted.
Theorem C44_xtensor_as_eigen_refuted : exists e b w a, xt_serialize six = Ok e /\ build ZeraModel.zera_writer e = Ok b /\ ZeraModel.zera_open b = Ok w /\
  as_eigen ZeraModel.zera_reader (fun _ => (true, 0)) TI16 None None false w = Ok a /\ x_elem six [1; 0] = Ok [4; 0] /\ m_elem a 1 0 = Ok [2; 0].
Proof. do 4 eexists. repeat (split; [vm_compute; reflexivity|]). vm_compute. reflexivity. Qed.
Print Assumptions C44_xtensor_as_eigen_refuted.

(** ** C58: a tensor is read only as the element type it was written with

    Full statement: for all element types T and U, a tensor of T is a tensor for isTensor<U> and readable as U only if
    T = U; and only the codes of utils.hpp:14-28 are accepted.  Missing: types outside the table, which all share code -1, and,
    in JSON, codes that are not in the table but agree with one in their low 32 bits (refuted). *)
Theorem C58_element_type_partial : forall P t u, is_protocol P -> container t -> dims_ok (x_shape t) -> supported (x_type t) -> u <> x_type t ->
  p_ok P (tensor_value (x_type t) (x_shape t) (x_mem t)) ->
  exists e b w n, xt_serialize t = Ok e /\ build (p_writer P) e = Ok b /\ p_open P b = Ok w /\
    forall fuel blob_at, (n <= fuel)%nat -> is_tensor (p_reader P fuel) (x_type t) w = Ok true /\ is_tensor (p_reader P fuel) u w = Ok false /\
      (forall D, as_xtensor_view (p_reader P fuel) blob_at u D w = Throw EDeser) /\
      (forall nr nc rm, as_eigen_view (p_reader P fuel) blob_at u nr nc rm w = Throw EDeser).
Proof. exact element_type. Qed.
Print Assumptions C58_element_type_partial.
Example C58_case : container six /\ supported (x_type six) /\ TU16 <> x_type six.
Proof. split; [exact six_container|]. split; [exact I|discriminate]. Qed.
Theorem C58_unsupported_types_refuted : exists e b w a, xt_serialize (mkX (TOther 1 1) [4] [1] 0 [1; 0; 1; 1]) = Ok e /\
  build ZeraModel.zera_writer e = Ok b /\ ZeraModel.zera_open b = Ok w /\
  as_xtensor ZeraModel.zera_reader (fun _ => (true, 0)) (TOther 4 4) None w = Throw EDeser /\
  as_xtensor ZeraModel.zera_reader (fun _ => (true, 0)) (TOther 1 1) None w = Ok a /\ TOther 1 1 <> TOther 4 4 /\
  is_tensor ZeraModel.zera_reader (TOther 4 4) w = Ok true.
Proof. do 4 eexists. repeat (split; [vm_compute; reflexivity|]). split; [discriminate|]. vm_compute. reflexivity. Qed.
Print Assumptions C58_unsupported_types_refuted.
(** 2^32 + 4 is no element type, yet the JSON document [4294967300, [1], ["~b", "Bw==", "base64"]] is a tensor of uint8. *)
Theorem C58_json_codes_refuted : exists w a,
  JsonModel.json_open (VArr [VUInt (2 ^ 32 + 4); VArr [VUInt 1]; VArr [VStr JsonModel.blobTag; VStr [66; 119; 61; 61]; VStr JsonModel.blobEncoding]]) = Ok w /\
  as_xtensor JsonModel.json_reader (fun _ => (false, 0)) TU8 None w = Ok a /\ x_mem a = [7].
Proof. do 2 eexists. repeat (split; [vm_compute; reflexivity|]). vm_compute. reflexivity. Qed.
Print Assumptions C58_json_codes_refuted.
(** isTensor throws, instead of answering, for MsgPack [300, nil, nil]. *)
Theorem C58_isTensor_throws_refuted : is_tensor MsgModel.mp_reader TU8 (MsgModel.mp_open [147; 209; 1; 44; 192; 192]) = Throw EDeser.
Proof. vm_compute. reflexivity. Qed.
Print Assumptions C58_isTensor_throws_refuted.

(** ** C59: tensors survive translation between any two protocols *)
Theorem C59_tensor_translates_partial : forall P Q t, is_protocol P -> is_protocol Q -> container t -> dims_ok (x_shape t) ->
  prod (filter nonzero (x_shape t)) < 2 ^ 64 ->
  p_ok P (tensor_value (x_type t) (x_shape t) (x_mem t)) -> p_ok Q (tensor_value (x_type t) (x_shape t) (x_mem t)) ->
  exists e b w w' n, xt_serialize t = Ok e /\ build (p_writer P) e = Ok b /\ p_open P b = Ok w /\
    forall fuel blob_at D, (n <= fuel)%nat -> D = None \/ D = Some (zlen (x_shape t)) ->
      translate (p_reader P fuel) (p_writer Q) (p_open Q) fuel w = Ok w' /\
      exists a, as_xtensor (p_reader Q fuel) blob_at (x_type t) D w' = Ok a /\ same_tensor a t.
Proof. exact tensor_translates. Qed.
Print Assumptions C59_tensor_translates_partial.
Theorem C59_matrix_translates_partial : forall P Q m, is_protocol P -> is_protocol Q -> is_matrix m -> m_rows m < 2 ^ 32 -> m_cols m < 2 ^ 32 ->
  p_ok P (tensor_value (m_type m) [m_rows m; m_cols m] (m_mem m)) -> p_ok Q (tensor_value (m_type m) [m_rows m; m_cols m] (m_mem m)) ->
  exists e b w w' n, eig_serialize m = Ok e /\ build (p_writer P) e = Ok b /\ p_open P b = Ok w /\
    forall fuel blob_at nr nc, (n <= fuel)%nat -> nr = None \/ nr = Some (m_rows m) -> nc = None \/ nc = Some (m_cols m) ->
      translate (p_reader P fuel) (p_writer Q) (p_open Q) fuel w = Ok w' /\
      exists a, as_eigen (p_reader Q fuel) blob_at (m_type m) nr nc (m_rowmajor m) w' = Ok a /\ same_matrix a m.
Proof. exact matrix_translates. Qed.
Print Assumptions C59_matrix_translates_partial.
(** The hypotheses are those of [C40_case] and [C44_case], for any two protocols. *)
Example C59_case : container six /\ dims_ok (x_shape six) /\ is_protocol P_zera /\ is_protocol P_msgpack /\ is_protocol (P_json false) /\
  p_ok P_zera (tensor_value (x_type six) (x_shape six) (x_mem six)) /\ p_ok (P_json false) (tensor_value (x_type six) (x_shape six) (x_mem six)).
Proof. destruct C40_case as (A & B & _ & C & _). split; [exact A|]. split; [exact B|]. split; [constructor|]. split; [constructor|]. split; [constructor|]. split; apply C; constructor. Qed.

(** ** C60: reading tensors from arbitrary messages

    Whatever the message says, tensor reading adds no failure to those of the reader underneath: where that returns or
    throws DeserializationError, so does isTensor, and so do the tensor readers, or they fail to allocate. *)
Theorem C60_tensor_layer_safe : forall V (R : reader V) blob_at t w, sized t -> steady R w ->
  safe any (is_tensor R t w) /\ (forall D, orderly (as_xtensor_view R blob_at t D w)) /\ (forall D, orderly (as_xtensor R blob_at t D w)) /\
  (forall nr nc rm, orderly (as_eigen_view R blob_at t nr nc rm w)) /\ (forall nr nc rm, orderly (as_eigen R blob_at t nr nc rm w)).
Proof.
  intros V R blob_at t w S H. split; [now apply is_tensor_safe|]. split; [intros; now apply view_orderly|]. split; [intros; now apply array_orderly|]. split; intros; [now apply eview_orderly|now apply eigen_orderly].
Qed.
Print Assumptions C60_tensor_layer_safe.
(** The readers underneath: zera and JSON messages; MsgPack behind a complete item; CBOR without huge lengths (C06, C16, C20). *)
Theorem C60_zera_steady_partial : forall b w, bytes_ok b -> zlen b < 2 ^ 32 - 20 -> ZeraModel.zera_open b = Ok w -> steady ZeraModel.zera_reader w.
Proof. exact zera_steady. Qed.
Print Assumptions C60_zera_steady_partial.
Theorem C60_json_steady : forall v, val_ok v -> steady JsonModel.json_reader v.
Proof. exact json_steady. Qed.
Print Assumptions C60_json_steady.
Theorem C60_msgpack_steady_partial : forall b s, bytes_ok b -> MsgSpec.no_huge b -> MsgModel.skip (MsgModel.mp_open b) = Ok s -> s <= zlen b ->
  steady MsgModel.mp_reader (MsgModel.mp_open b).
Proof. intros b s B NH SK L. apply (msgpack_steady b). exact (MsgSafe.root_safe b s B NH SK L). Qed.
Print Assumptions C60_msgpack_steady_partial.
Theorem C60_cbor_steady_partial : forall b fuel, bytes_ok b -> zlen b < 2 ^ 63 -> CborSpec.no_huge b -> zlen b < Z.of_nat fuel ->
  steady (CborModel.cbor_reader false fuel) (CborModel.cb_open b).
Proof. exact cbor_steady. Qed.
Print Assumptions C60_cbor_steady_partial.
(** A message of another element type, and one that asks for more memory than there is *)
Example C60_case : val_ok (VArr [VInt 4; VArr [VNull]; VBlob []]) /\
  as_xtensor MsgModel.mp_reader (fun _ => (true, 1)) TU64 None (MsgModel.mp_open overflow) = Throw EDeser /\
  as_xtensor MsgModel.mp_reader (fun _ => (true, 1)) TF64 None (MsgModel.mp_open overflow) = Throw EBadAlloc.
Proof. split; [okay|]. split; vm_compute; reflexivity. Qed.
