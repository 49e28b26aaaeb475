(** TensorSpec.v -- tensors as values; valid indices and containers. *)

From Coq Require Import ZArith List Bool.
From Verif Require Import Base Spec TensorModel.
Import ListNotations.
Open Scope Z_scope.

(** One index per dimension, each below it. *)
Definition in_range (idx shape : list Z) : Prop := Forall2 (fun i d => 0 <= i < d) idx shape.
(** Dimensions of a readable tensor. *)
Definition dims_ok (shape : list Z) : Prop := Forall (fun d => 0 <= d < 2 ^ 32) shape.
(** Element types of positive size; supported: in the table of utils.hpp. *)
Definition sized (t : elt) : Prop := match t with TOther s a => 0 < s /\ 0 < a | _ => True end.
Definition supported (t : elt) : Prop := match t with TOther _ _ => False | _ => True end.

(** An xarray or xtensor in the default layout: memory for exactly its elements, in row-major order. *)
Definition container (t : xtensor) : Prop :=
  sized (x_type t) /\ Forall (fun d => 0 <= d < 2 ^ 64) (x_shape t) /\ zlen (x_shape t) < 2 ^ 60 /\ x_strides t = row_major (x_shape t) /\ x_offset t = 0 /\
  bytes_ok (x_mem t) /\ zlen (x_mem t) = prod (x_shape t) * elt_size (x_type t) /\ zlen (x_mem t) < 2 ^ 63.
(** An Eigen matrix *)
Definition is_matrix (m : matrix) : Prop :=
  sized (m_type m) /\ 0 <= m_rows m < 2 ^ 63 /\ 0 <= m_cols m < 2 ^ 63 /\ m_rows m * m_cols m < 2 ^ 63 /\
  bytes_ok (m_mem m) /\ zlen (m_mem m) = m_rows m * m_cols m * elt_size (m_type m) /\ zlen (m_mem m) < 2 ^ 63.

(** [dtype, [dimensions], bytes]; dimensions may be signed or unsigned. *)
Definition tensor_form (dtype : Z) (shape : list Z) (data : bytes) (v : val) : Prop :=
  exists l, v = VArr [VInt dtype; VArr l; VBlob data] /\ Forall2 (fun d x => x = VUInt d \/ x = VInt d) shape l.
Definition tensor_value (t : elt) (shape : list Z) (data : bytes) : val :=
  VArr [VInt (dtype_index t); VArr (map VUInt shape); VBlob data].

(** The same shape and the same elements at all indices. *)
Definition same_tensor (a b : xtensor) : Prop :=
  x_type a = x_type b /\ x_shape a = x_shape b /\ forall idx, in_range idx (x_shape b) -> exists c, x_elem a idx = Ok c /\ x_elem b idx = Ok c.
Definition same_matrix (a b : matrix) : Prop :=
  m_type a = m_type b /\ m_rows a = m_rows b /\ m_cols a = m_cols b /\
  forall r c, 0 <= r < m_rows b -> 0 <= c < m_cols b -> exists e, m_elem a r c = Ok e /\ m_elem b r c = Ok e.

(** Every operation tensor reading uses returns or throws DeserializationError, on everything reachable from [w]. *)
Definition steady {V} (R : reader V) (w : V) : Prop := forall w', reach R w w' ->
  safe any (r_isArray R w') /\ safe any (r_arraySize R w') /\ (forall i, 0 <= i < 2 ^ 64 -> safe any (r_idx R w' i)) /\
  safe any (r_isInt R w') /\ (forall iw, safe any (r_asInt R iw w')) /\ safe any (r_isUInt R w') /\ (forall iw, safe any (r_asUInt R iw w')) /\
  safe any (r_isBlob R w') /\ safe any (r_asBlob R w').
(** A result, DeserializationError, or the allocator's length_error / bad_alloc. *)
Definition orderly {A} (r : res A) : Prop :=
  match r with Ok _ | Throw EDeser | Throw ELength | Throw EBadAlloc => True | _ => False end.
