(** SaysSpec.v -- the value that a view of an arbitrary message stands for, as far as its answers tell. *)

From Coq Require Import ZArith List Bool.
From Verif Require Import Base Spec FlexModel.
Import ListNotations.
Open Scope Z_scope.

(** The type questions in the order of the Reader concept (concepts.hpp). *)
Definition questions {V} (R : reader V) : list (V -> res bool) :=
  [r_isNull R; r_isBool R; r_isInt R; r_isUInt R; r_isFloat R; r_isString R; r_isBlob R; r_isMap R; r_isArray R].
(** Question number [n] is the first one answered with yes. *)
Definition first_yes {V} (R : reader V) (w : V) (n : nat) : Prop :=
  (exists q, nth_error (questions R) n = Some q /\ q w = Ok true) /\
  forall m q, (m < n)%nat -> nth_error (questions R) m = Some q -> q w = Ok false.

(** Reading everything at [w] gives [v]: type questions, the accessor of that type, all elements by index, all entries by key. *)
Fixpoint says {V} (R : reader V) (w : V) (v : val) {struct v} : Prop :=
  match v with
  | VNull => first_yes R w 0
  | VBool b => first_yes R w 1 /\ r_asBool R w = Ok b
  | VInt z => first_yes R w 2 /\ r_asInt R I64 w = Ok z
  | VUInt z => first_yes R w 3 /\ r_asUInt R I64 w = Ok z
  | VDbl d => first_yes R w 4 /\ r_asDouble R w = Ok d
  | VStr s => first_yes R w 5 /\ r_asStringView R w = Ok s
  | VBlob b => first_yes R w 6 /\ r_asBlob R w = Ok b
  | VMap l => first_yes R w 7 /\ r_mapKeys R w = Ok (map fst l) /\
      (fix go l := match l with [] => True | (k, x) :: l' => (exists w', r_key R w k = Ok w' /\ says R w' x) /\ go l' end) l
  | VArr l => first_yes R w 8 /\ r_arraySize R w = Ok (zlen l) /\
      (fix go i l := match l with [] => True | x :: l' => (exists w', r_idx R w i = Ok w' /\ says R w' x) /\ go (i + 1) l' end) 0 l
  end.

(** Results have the range of their C++ types: int64_t, uint64_t, double, bytes, size_t. *)
Definition typed {V} (R : reader V) (w : V) : Prop :=
  (forall z, r_asInt R I64 w = Ok z -> is_i64 z) /\ (forall z, r_asUInt R I64 w = Ok z -> is_u64 z) /\ (forall d, r_asDouble R w = Ok d -> is_u64 d) /\
  (forall s, r_asStringView R w = Ok s -> bytes_ok s) /\ (forall b, r_asBlob R w = Ok b -> bytes_ok b) /\
  (forall n, r_arraySize R w = Ok n -> 0 <= n) /\ (forall ks, r_mapKeys R w = Ok ks -> Forall bytes_ok ks).
(** Views reached from [w] by any indices and keys. *)
Inductive leads {V} (R : reader V) (w : V) : V -> Prop :=
| leads_here : leads R w w
| leads_idx w1 i w2 : leads R w w1 -> r_idx R w1 i = Ok w2 -> leads R w w2
| leads_key w1 k w2 : leads R w w1 -> r_key R w1 k = Ok w2 -> leads R w w2.
Definition well_typed {V} (R : reader V) (w : V) : Prop := forall w', leads R w w' -> typed R w'.

(** A FlexBuffers tree whose doubles, strings and keys consist of 64 bits and of bytes. *)
Fixpoint fx_ok (x : fx) : Prop :=
  match x with
  | XNull | XBool _ | XInt _ | XUInt _ => True
  | XDbl d => is_u64 d
  | XStr s | XBlob s | XKey s => bytes_ok s
  | XVec l | XTyped l => (fix go l := match l with [] => True | y :: l' => fx_ok y /\ go l' end) l
  | XMap l => (fix go l := match l with [] => True | (k, y) :: l' => bytes_ok k /\ fx_ok y /\ go l' end) l
  end.
