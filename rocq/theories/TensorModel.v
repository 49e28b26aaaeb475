(** TensorModel.v -- transcription of include/zerialize/tensor/utils.hpp, xtensor.hpp, eigen.hpp and view_info.hpp.

    Definitions only, no proofs.  Reading is generic over the [reader] record of Spec.v.
    Not modelled: the TensorIsMap = true variants (isTensor initializes a std::set from mapKeys(), whose result type in
    every protocol is a KeysView, so they do not compile); error message texts; allocation failure below 2^63 bytes.
    xtensor and Eigen are third-party: containers are a shape, strides and memory, as documented there. *)

From Coq Require Import ZArith List Bool.
From Verif Require Import Base Spec BuildModel.
Import ListNotations.
Open Scope Z_scope.

(** ** Element types, utils.hpp:14-28; [TOther]: any other type, given by its size and alignment *)
Inductive elt : Type := TI8 | TI16 | TI32 | TI64 | TU8 | TU16 | TU32 | TU64 | TF32 | TF64 | TC64 | TC128 | TF16 | TOther (size align : Z).
Definition dtype_index (t : elt) : Z :=
  match t with
  | TI8 => 0 | TI16 => 1 | TI32 => 2 | TI64 => 3 | TU8 => 4 | TU16 => 5 | TU32 => 6 | TU64 => 7
  | TF32 => 10 | TF64 => 11 | TC64 => 12 | TC128 => 13 | TF16 => 14 | TOther _ _ => -1
  end.
(** sizeof and alignof (x86-64) *)
Definition elt_size (t : elt) : Z :=
  match t with
  | TI8 | TU8 => 1 | TI16 | TU16 | TF16 => 2 | TI32 | TU32 | TF32 => 4 | TI64 | TU64 | TF64 | TC64 => 8 | TC128 => 16 | TOther s _ => s
  end.
Definition elt_align (t : elt) : Z :=
  match t with
  | TI8 | TU8 => 1 | TI16 | TU16 | TF16 => 2 | TI32 | TU32 | TF32 | TC64 => 4 | TI64 | TU64 | TF64 | TC128 => 8 | TOther _ a => a
  end.

(** ** xtensor containers and views: [x_mem] is the memory from data() on; the first element is [x_offset] elements
    into it (0 for containers, data_offset() for strided views). *)
Record xtensor : Type := mkX { x_type : elt; x_shape : list Z; x_strides : list Z; x_offset : Z; x_mem : bytes }.
Definition prod (shape : list Z) : Z := fold_right Z.mul 1 shape.
(** compute_strides for the default, row-major layout and for the column-major one; 0 for dimensions of size 1 *)
Fixpoint row_major (shape : list Z) : list Z :=
  match shape with [] => [] | d :: ds => (if d =? 1 then 0 else prod ds) :: row_major ds end.
Fixpoint col_major (before : Z) (shape : list Z) : list Z :=
  match shape with [] => [] | d :: ds => (if d =? 1 then 0 else before) :: col_major (before * d) ds end.
(** t(i, j, ...) *)
Fixpoint dot (idx strides : list Z) : Z := match idx, strides with i :: is', s :: ss => i * s + dot is' ss | _, _ => 0 end.
Definition elem_at (mem : bytes) (sz k : Z) : res bytes := rd_view mem (k * sz, sz).
Definition x_elem (t : xtensor) (idx : list Z) : res bytes :=
  elem_at (x_mem t) (elt_size (x_type t)) (x_offset t + dot idx (x_strides t)).
(** size(): compute_size(shape) *)
Definition x_size (shape : list Z) : Z := wrap64 (prod shape).

(** span_from_data_of, utils.hpp:121-128: reading the span reads size() * sizeof(T) bytes from data() *)
Definition span_from_data_of (mem : bytes) (size sz : Z) : res bytes := rd_view mem (0, wrap64 (size * sz)).
(** shape_of_sizet, utils.hpp:77-83 *)
Definition shape_of_sizet (shape : list Z) : list Z := map wrap32 shape.
(** serialize(const X&, W&), xtensor.hpp:22-30 *)
Definition xt_serialize (t : xtensor) : res bexp :=
  data <- span_from_data_of (x_mem t) (x_size (x_shape t)) (elt_size (x_type t)) ;;
  Ok (BVec [BInt (dtype_index (x_type t)); BSeq (map BUInt (shape_of_sizet (x_shape t))); BBytes data]).

(** ** Reading *)

(** One dimension, utils.hpp:92-110, with its static_cast to uint32_t *)
Definition read_dim {V} (R : reader V) (x : V) : res Z :=
  u <- r_isUInt R x ;;
  if (u : bool) then v <- r_asUInt R I64 x ;; if u32_max <? v then Throw EDeser else Ok (wrap32 v)
  else i <- r_isInt R x ;;
    if (i : bool) then v <- r_asInt R I64 x ;; if v <? 0 then Throw EDeser else if u32_max <? v then Throw EDeser else Ok (wrap32 v)
    else Throw EDeser.
Definition read_dims {V} (R : reader V) (d : V) (st : Z * list Z) : res ((Z * list Z) + unit) :=
  let '(i, acc) := st in x <- r_idx R d i ;; v <- read_dim R x ;; Ok (inl (i + 1, acc ++ [v])).
(** tensor_shape, utils.hpp:85-113.  reserve throws length_error beyond max_size().  arraySize() is asked again
    before every iteration; its answer does not change. *)
Definition tensor_shape {V} (R : reader V) (d : V) : res (list Z) :=
  a <- r_isArray R d ;;
  if negb a then Throw EDeser else
  n <- r_arraySize R d ;;
  if 2 ^ 61 - 1 <? n then Throw ELength else
  x <- zloop n (read_dims R d) (0, []) ;;
  match x with inl (_, shape) => Ok shape | inr _ => UB end.

(** isTensor<T>, utils.hpp:138-155 *)
Definition is_tensor {V} (R : reader V) (t : elt) (buf : V) : res bool :=
  a <- r_isArray R buf ;; if negb a then Ok false else
  n <- r_arraySize R buf ;; if n <? 3 then Ok false else
  x0 <- r_idx R buf 0 ;; i <- r_isInt R x0 ;; if negb i then Ok false else
  x0' <- r_idx R buf 0 ;; z <- r_asInt R I8 x0' ;; if negb (z =? dtype_index t) then Ok false else
  x1 <- r_idx R buf 1 ;; a1 <- r_isArray R x1 ;; if negb a1 then Ok false else
  x2 <- r_idx R buf 2 ;; r_isBlob R x2.

(** checked_element_count, xtensor.hpp:94-105 *)
Fixpoint element_count (count : Z) (shape : list Z) : res Z :=
  match shape with
  | [] => Ok count
  | dim :: shape' =>
      if dim =? 0 then Ok 0
      else if u64_max / dim <? count then Throw EDeser
      else element_count (wrap64 (count * dim)) shape'
  end.
Definition checked_element_count (shape : list Z) : res Z := element_count 1 shape.

(** TensorViewInfo, view_info.hpp:9-24 *)
Inductive reason : Type := ROk | RNotSpanBacked | RMisaligned.
Record info : Type := mkInfo { zero_copy : bool; why : reason; required_alignment : Z; address : Z; byte_size : Z }.

(** Allocating [n] elements and copying [src] over them: the elements not copied over stay uninitialized, and are
    treated as not there.  new T[n] throws bad_array_new_length or bad_alloc. *)
Definition copy_into (n sz : Z) (src : bytes) : res bytes :=
  if 2 ^ 63 <=? n * sz then Throw EBadAlloc else if zlen src <=? n * sz then Ok src else UB.
(** xarray::from_shape(shape), then memcpy *)
Definition make_array (shape : list Z) (sz : Z) (src : bytes) : res bytes := copy_into (x_size shape) sz src.

(** XTensorView<T>, xtensor.hpp:47-90 *)
Record xview : Type := mkXV { xv_type : elt; xv_info : info; xv_owned : option bytes; xv_bytes : bytes; xv_shape : list Z; xv_count : Z }.

(** asXTensorView<T, D>, xtensor.hpp:119-203.  [blob_at x]: whether asBlob() of [x] is a span (in JSON it is a vector),
    and the address of its bytes. *)
Definition as_xtensor_view {V} (R : reader V) (blob_at : V -> bool * Z) (t : elt) (D : option Z) (buf : V) : res xview :=
  ok <- is_tensor R t buf ;; if negb ok then Throw EDeser else
  dtype_ref <- r_idx R buf 0 ;; dtype <- r_asInt R I32 dtype_ref ;;
  if negb (dtype =? dtype_index t) then Throw EDeser else
  shape_ref <- r_idx R buf 1 ;; vshape <- tensor_shape R shape_ref ;;
  if match D with Some d => negb (zlen vshape =? d) | None => false end then Throw EDeser else
  data_ref <- r_idx R buf 2 ;; data <- r_asBlob R data_ref ;;
  count <- checked_element_count vshape ;;
  if negb (zlen data =? wrap64 (count * elt_size t)) then Throw EDeser else
  let (is_span, addr) := blob_at data_ref in
  if negb is_span then
    out <- make_array vshape (elt_size t) data ;;
    Ok (mkXV t (mkInfo false RNotSpanBacked (elt_align t) addr (zlen data)) (Some out) [] vshape count)
  else if negb (addr mod elt_align t =? 0) then
    out <- make_array vshape (elt_size t) data ;;
    Ok (mkXV t (mkInfo false RMisaligned (elt_align t) addr (zlen data)) (Some out) [] vshape count)
  else Ok (mkXV t (mkInfo true ROk (elt_align t) addr (zlen data)) None data vshape count).

(** tensor(), xtensor.hpp:64-67 *)
Definition xv_tensor (v : xview) : xtensor :=
  mkX (xv_type v) (xv_shape v) (row_major (xv_shape v)) 0 (match xv_owned v with Some m => m | None => xv_bytes v end).
(** array(), xtensor.hpp:70-75 *)
Definition xv_array (v : xview) : res xtensor :=
  mem <- match xv_owned v with Some m => Ok m | None => make_array (xv_shape v) (elt_size (xv_type v)) (xv_bytes v) end ;;
  Ok (mkX (xv_type v) (xv_shape v) (row_major (xv_shape v)) 0 mem).
(** asXTensor<T, D>, xtensor.hpp:206-209 *)
Definition as_xtensor {V} (R : reader V) (blob_at : V -> bool * Z) (t : elt) (D : option Z) (buf : V) : res xtensor :=
  v <- as_xtensor_view R blob_at t D buf ;; xv_array v.

(** ** Eigen matrices; [m_rowmajor] is the RowMajor bit of the Options template parameter *)
Record matrix : Type := mkM { m_type : elt; m_rows : Z; m_cols : Z; m_rowmajor : bool; m_mem : bytes }.
Definition m_elem (m : matrix) (r c : Z) : res bytes :=
  elem_at (m_mem m) (elt_size (m_type m)) (if m_rowmajor m then r * m_cols m + c else c * m_rows m + r).
(** serialize(const Eigen::Matrix&, W&), eigen.hpp:17-29 *)
Definition eig_serialize (m : matrix) : res bexp :=
  data <- span_from_data_of (m_mem m) (wrap64 (m_rows m * m_cols m)) (elt_size (m_type m)) ;;
  Ok (BVec [BInt (dtype_index (m_type m)); BSeq [BUInt (m_rows m); BUInt (m_cols m)]; BBytes data]).

(** EigenMatrixView, eigen.hpp:49-103 *)
Record eview : Type := mkEV { ev_type : elt; ev_rowmajor : bool; ev_info : info; ev_owned : option bytes; ev_bytes : bytes; ev_rows : Z; ev_cols : Z }.
(** A fixed-size matrix needs no allocation. *)
Definition make_matrix (fixed : bool) (rows cols sz : Z) (src : bytes) : res bytes :=
  if fixed then if zlen src <=? rows * cols * sz then Ok src else UB
  else copy_into (rows * cols) sz src.
Definition both_fixed (nr nc : option Z) : bool := match nr, nc with Some _, Some _ => true | _, _ => false end.

(** asEigenMatrixView<T, NRows, NCols, false, Options>, eigen.hpp:105-208; [None]: Eigen::Dynamic *)
Definition as_eigen_view {V} (R : reader V) (blob_at : V -> bool * Z) (t : elt) (nr nc : option Z) (rm : bool) (buf : V) : res eview :=
  ok <- is_tensor R t buf ;; if negb ok then Throw EDeser else
  dtype_ref <- r_idx R buf 0 ;; dtype <- r_asInt R I32 dtype_ref ;;
  if negb (dtype =? dtype_index t) then Throw EDeser else
  shape_ref <- r_idx R buf 1 ;; vshape <- tensor_shape R shape_ref ;;
  match vshape with
  | [rows; cols] =>
      if match nr with Some n => negb (rows =? n) | None => false end then Throw EDeser else
      if match nc with Some n => negb (cols =? n) | None => false end then Throw EDeser else
      data_ref <- r_idx R buf 2 ;; data <- r_asBlob R data_ref ;;
      if negb (zlen data =? wrap64 (wrap64 (rows * cols) * elt_size t)) then Throw EDeser else
      let (is_span, addr) := blob_at data_ref in
      if negb is_span then
        out <- make_matrix (both_fixed nr nc) rows cols (elt_size t) data ;;
        Ok (mkEV t rm (mkInfo false RNotSpanBacked (elt_align t) addr (zlen data)) (Some out) [] rows cols)
      else if negb (addr mod elt_align t =? 0) then
        out <- make_matrix (both_fixed nr nc) rows cols (elt_size t) data ;;
        Ok (mkEV t rm (mkInfo false RMisaligned (elt_align t) addr (zlen data)) (Some out) [] rows cols)
      else Ok (mkEV t rm (mkInfo true ROk (elt_align t) addr (zlen data)) None data rows cols)
  | _ => Throw EDeser
  end.
(** map(), eigen.hpp:69-75 *)
Definition ev_map (v : eview) : matrix :=
  mkM (ev_type v) (ev_rows v) (ev_cols v) (ev_rowmajor v) (match ev_owned v with Some m => m | None => ev_bytes v end).
(** matrix(), eigen.hpp:78-89, and asEigenMatrix, eigen.hpp:211-216 *)
Definition ev_matrix (fixed : bool) (v : eview) : res matrix :=
  mem <- match ev_owned v with Some m => Ok m | None => make_matrix fixed (ev_rows v) (ev_cols v) (elt_size (ev_type v)) (ev_bytes v) end ;;
  Ok (mkM (ev_type v) (ev_rows v) (ev_cols v) (ev_rowmajor v) mem).
Definition as_eigen {V} (R : reader V) (blob_at : V -> bool * Z) (t : elt) (nr nc : option Z) (rm : bool) (buf : V) : res matrix :=
  v <- as_eigen_view R blob_at t nr nc rm buf ;; ev_matrix (both_fixed nr nc) v.
