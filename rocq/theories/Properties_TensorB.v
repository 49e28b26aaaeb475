(** Properties_TensorB.v -- C90: asXTensor of rank 2 and asEigenMatrix of free size do the same on every message.

    [agree P x y] (TensorBoth): both calls return, with results related by [P], or both throw the same exception.
    [same_elements]: element type, dimensions and bytes are the same, and so are all elements if the matrix is row-major
    or a single row or column; in a column-major matrix the tensor's elements stand in the order of the bytes. *)

From Coq Require Import ZArith List Bool Lia ZifyBool.
From Verif Require Import Base BaseFacts Spec TensorModel TensorSpec TensorBoth.
From Verif Require MsgModel.
Import ListNotations.
Open Scope Z_scope.

(** For any reader at all; [rm]: Eigen::RowMajor. *)
Theorem C90_tensors_and_matrices_partial : forall V (R : reader V) blob_at t rm buf,
  agree (fun a m => same_elements a m /\ m_rowmajor m = rm) (as_xtensor R blob_at t (Some 2) buf) (as_eigen R blob_at t None None rm buf).
Proof. exact @owned_same. Qed.
(** The views also agree on whether, and why not, they are zero-copy. *)
Theorem C90_views_partial : forall V (R : reader V) blob_at t rm buf,
  agree (fun x y => same_elements (xv_tensor x) (ev_map y) /\ xv_info x = ev_info y) (as_xtensor_view R blob_at t (Some 2) buf) (as_eigen_view R blob_at t None None rm buf).
Proof.
  intros V R blob_at t rm buf. pose proof (views_same R blob_at t rm buf) as H. destruct (as_xtensor_view R blob_at t (Some 2) buf), (as_eigen_view R blob_at t None None rm buf); cbn [agree] in *; try exact H. destruct H as (A & B & _). split; assumption.
Qed.
Print Assumptions C90_tensors_and_matrices_partial.
Print Assumptions C90_views_partial.

(** Matrices of fixed size ([Some n]; [None]: Eigen::Dynamic): of the tensors asXTensor accepts, just those with these
    dimensions are accepted, the others refused with a DeserializationError; nothing else is accepted, but that a fixed
    matrix needs no allocation. *)
Theorem C90_fixed_matrices_partial : forall V (R : reader V) blob_at t nr nc rm buf a, as_xtensor R blob_at t (Some 2) buf = Ok a ->
  exists rows cols, x_shape a = [rows; cols] /\
  if size_fits nr rows && size_fits nc cols then exists m, as_eigen R blob_at t nr nc rm buf = Ok m /\ same_elements a m /\ m_rowmajor m = rm
  else as_eigen R blob_at t nr nc rm buf = Throw EDeser.
Proof. exact @fixed_same. Qed.
Theorem C90_fixed_views_partial : forall V (R : reader V) blob_at t nr nc rm buf x, as_xtensor_view R blob_at t (Some 2) buf = Ok x ->
  exists rows cols, xv_shape x = [rows; cols] /\
  if size_fits nr rows && size_fits nc cols then exists y, as_eigen_view R blob_at t nr nc rm buf = Ok y /\ same_elements (xv_tensor x) (ev_map y) /\ xv_info x = ev_info y
  else as_eigen_view R blob_at t nr nc rm buf = Throw EDeser.
Proof. exact @fixed_views. Qed.
Theorem C90_fixed_accepted_partial : forall V (R : reader V) blob_at t nr nc rm buf m, as_eigen R blob_at t nr nc rm buf = Ok m ->
  size_fits nr (m_rows m) = true /\ size_fits nc (m_cols m) = true /\ m_rowmajor m = rm /\
  ((exists a, as_xtensor R blob_at t (Some 2) buf = Ok a /\ same_elements a m) \/ as_xtensor R blob_at t (Some 2) buf = Throw EBadAlloc).
Proof. exact @fixed_back. Qed.
Print Assumptions C90_fixed_matrices_partial.
Print Assumptions C90_fixed_views_partial.
Print Assumptions C90_fixed_accepted_partial.

(** With the default storage order of Eigen, column-major, the elements differ: both accept the 2 x 2 tensor 1 2 / 3 4. *)
Definition two_by_two : bytes := [147; 5; 146; 2; 2; 196; 8; 1; 0; 2; 0; 3; 0; 4; 0].
Theorem C90_column_major_refuted : exists a m,
  as_xtensor MsgModel.mp_reader (fun _ => (true, 8)) TU16 (Some 2) (MsgModel.mp_open two_by_two) = Ok a /\
  as_eigen MsgModel.mp_reader (fun _ => (true, 8)) TU16 None None false (MsgModel.mp_open two_by_two) = Ok m /\
  x_shape a = [m_rows m; m_cols m] /\ x_elem a [0; 1] = Ok [2; 0] /\ m_elem m 0 1 = Ok [3; 0].
Proof. do 2 eexists. split; [vm_compute; reflexivity|]. split; [vm_compute; reflexivity|]. repeat split; vm_compute; reflexivity. Qed.
Print Assumptions C90_column_major_refuted.

(** Read as row-major, element (0, 1) is the same; a tensor of rank 1 is refused by both. *)
Example C90_case :
  (exists a m, as_xtensor MsgModel.mp_reader (fun _ => (true, 8)) TU16 (Some 2) (MsgModel.mp_open two_by_two) = Ok a /\
    as_eigen MsgModel.mp_reader (fun _ => (true, 8)) TU16 None None true (MsgModel.mp_open two_by_two) = Ok m /\ x_elem a [0; 1] = Ok [2; 0] /\ m_elem m 0 1 = Ok [2; 0]) /\
  (let b := MsgModel.mp_open [147; 5; 145; 2; 196; 4; 1; 0; 2; 0] in as_xtensor MsgModel.mp_reader (fun _ => (true, 8)) TU16 (Some 2) b = Throw EDeser /\
    as_eigen MsgModel.mp_reader (fun _ => (true, 8)) TU16 None None true b = Throw EDeser).
Proof. split; [do 2 eexists; repeat split; vm_compute; reflexivity|]. split; vm_compute; reflexivity. Qed.
(** Column-major: place 2 of the bytes is element (1, 0) of the tensor and element (0, 1) of the matrix; a row of two is
    read alike. *)
Example C90_column_case :
  (exists a m, as_xtensor MsgModel.mp_reader (fun _ => (true, 8)) TU16 (Some 2) (MsgModel.mp_open two_by_two) = Ok a /\
    as_eigen MsgModel.mp_reader (fun _ => (true, 8)) TU16 None None false (MsgModel.mp_open two_by_two) = Ok m /\ x_elem a [1; 0] = Ok [3; 0] /\ m_elem m 0 1 = Ok [3; 0]) /\
  (let b := MsgModel.mp_open [147; 5; 146; 1; 2; 196; 4; 1; 0; 2; 0] in exists a m, as_xtensor MsgModel.mp_reader (fun _ => (true, 8)) TU16 (Some 2) b = Ok a /\
    as_eigen MsgModel.mp_reader (fun _ => (true, 8)) TU16 None None false b = Ok m /\ x_elem a [0; 1] = Ok [2; 0] /\ m_elem m 0 1 = Ok [2; 0]).
Proof. split; do 2 eexists; repeat split; vm_compute; reflexivity. Qed.
(** The 2 x 2 tensor is read as a fixed 2 x 2 matrix and as one of two columns, and is refused as one of three columns. *)
Example C90_fixed_case : let e nr nc := as_eigen MsgModel.mp_reader (fun _ => (true, 8)) TU16 nr nc true (MsgModel.mp_open two_by_two) in
  (exists m, e (Some 2) (Some 2) = Ok m /\ m_elem m 1 0 = Ok [3; 0]) /\ (exists m, e None (Some 2) = Ok m /\ m_elem m 1 0 = Ok [3; 0]) /\ e (Some 2) (Some 3) = Throw EDeser.
Proof. cbv zeta. split; [eexists; split; vm_compute; reflexivity|]. split; [eexists; split; vm_compute; reflexivity|]. vm_compute. reflexivity. Qed.
