(** Spec.v -- the specification vocabulary shared by all protocols.

    Nothing in this file mentions an encoding: values, writer calls,
    the Reader interface and what it means for a reader to show a value. *)

From Coq Require Import ZArith List Bool.
From Verif Require Import Base.
Import ListNotations.
Open Scope Z_scope.

(** ** Values *)
Inductive val : Type :=
| VNull
| VBool (b : bool)
| VInt (z : Z)          (* written with int64() *)
| VUInt (z : Z)         (* written with uint64() *)
| VDbl (bits : Z)       (* IEEE 754 binary64 bit pattern *)
| VStr (s : bytes)
| VBlob (b : bytes)
| VArr (l : list val)
| VMap (l : list (bytes * val)).

(** The C++ argument types: int64_t, uint64_t, double, bytes. *)
Fixpoint val_ok (v : val) : Prop :=
  match v with
  | VNull | VBool _ => True
  | VInt z => is_i64 z
  | VUInt z => is_u64 z
  | VDbl b => is_u64 b
  | VStr s => bytes_ok s
  | VBlob b => bytes_ok b
  | VArr l => (fix go l := match l with [] => True | x :: l' => val_ok x /\ go l' end) l
  | VMap l => (fix go l := match l with
                           | [] => True
                           | (k, x) :: l' => bytes_ok k /\ val_ok x /\ go l'
                           end) l
  end.

(** ** Calls on a Writer (concepts.hpp:133-158) *)
Inductive ev : Type :=
| ENull
| EBool (b : bool)
| EInt (z : Z)
| EUInt (z : Z)
| EDbl (bits : Z)
| EStr (s : bytes)
| EBin (b : bytes)
| EKey (k : bytes)
| EBeginArr (n : Z)
| EEndArr
| EBeginMap (n : Z)
| EEndMap.

(** The call sequence that describes one value. *)
Fixpoint events (v : val) : list ev :=
  match v with
  | VNull => [ENull]
  | VBool b => [EBool b]
  | VInt z => [EInt z]
  | VUInt z => [EUInt z]
  | VDbl b => [EDbl b]
  | VStr s => [EStr s]
  | VBlob b => [EBin b]
  | VArr l => EBeginArr (zlen l) :: flat_map events l ++ [EEndArr]
  | VMap l => EBeginMap (zlen l) ::
              flat_map (fun kx => EKey (fst kx) :: events (snd kx)) l ++ [EEndMap]
  end.

(** The call sequences that describe a value, with arbitrary size hints. *)
Inductive calls : val -> list ev -> Prop :=
| calls_null : calls VNull [ENull]
| calls_bool b : calls (VBool b) [EBool b]
| calls_int z : calls (VInt z) [EInt z]
| calls_uint z : calls (VUInt z) [EUInt z]
| calls_dbl z : calls (VDbl z) [EDbl z]
| calls_str s : calls (VStr s) [EStr s]
| calls_blob b : calls (VBlob b) [EBin b]
| calls_arr n l es : calls_list l es -> calls (VArr l) (EBeginArr n :: es ++ [EEndArr])
| calls_map n l es : calls_entries l es -> calls (VMap l) (EBeginMap n :: es ++ [EEndMap])
with calls_list : list val -> list ev -> Prop :=
| calls_nil : calls_list [] []
| calls_cons x l es1 es2 : calls x es1 -> calls_list l es2 -> calls_list (x :: l) (es1 ++ es2)
with calls_entries : list (bytes * val) -> list ev -> Prop :=
| calls_enil : calls_entries [] []
| calls_econs k x l es1 es2 : calls x es1 -> calls_entries l es2 ->
    calls_entries ((k, x) :: l) (EKey k :: es1 ++ es2).

(** ** Writers: one call = one step; the state after a throw is kept.  [O] is the output of finish():
    bytes, or the document they denote where the byte format is a third party's. *)
Record writer (S O : Type) : Type := mkWriter {
  w_init : S;
  w_step : S -> ev -> S * res unit;
  w_finish : S -> S * res O
}.
Arguments mkWriter {S O}.
Arguments w_init {S O}.
Arguments w_step {S O}.
Arguments w_finish {S O}.

(** Running calls until the first one that does not return normally. *)
Fixpoint run {S O} (W : writer S O) (s : S) (es : list ev) : S * res unit :=
  match es with
  | [] => (s, Ok tt)
  | e :: es' =>
      match w_step W s e with
      | (s', Ok _) => run W s' es'
      | (s', r) => (s', r)
      end
  end.

(** Running calls where the caller catches every exception and carries on;
    the list of outcomes is returned. *)
Fixpoint run_catch {S O} (W : writer S O) (s : S) (es : list ev) : S * list (res unit) :=
  match es with
  | [] => (s, [])
  | e :: es' =>
      let (s1, r) := w_step W s e in
      let (s2, rs) := run_catch W s1 es' in
      (s2, r :: rs)
  end.

(** serialize<P>(v): serialize.hpp:47-66. *)
Definition serialize {S O} (W : writer S O) (v : val) : res O :=
  match run W (w_init W) (events v) with
  | (s, Ok _) => snd (w_finish W s)
  | (_, Throw e) => Throw e
  | (_, UB) => UB
  | (_, NoFuel) => NoFuel
  end.

(** ** Readers (concepts.hpp:80-126)

    Strings and blobs are observed through their contents. [asFloat] is
    in NarrowModel.v.  [r_mapKeys] is the whole range iterated with a range-for. *)
Inductive iwidth : Type := I8 | I16 | I32 | I64.
Definition ibits (w : iwidth) : Z :=
  match w with I8 => 8 | I16 => 16 | I32 => 32 | I64 => 64 end.
Definition smin (w : iwidth) : Z := - 2 ^ (ibits w - 1).
Definition smax (w : iwidth) : Z := 2 ^ (ibits w - 1) - 1.
Definition umax (w : iwidth) : Z := 2 ^ ibits w - 1.

Record reader (V : Type) : Type := mkReader {
  r_isNull : V -> res bool;
  r_isBool : V -> res bool;
  r_isInt : V -> res bool;
  r_isUInt : V -> res bool;
  r_isFloat : V -> res bool;
  r_isString : V -> res bool;
  r_isBlob : V -> res bool;
  r_isMap : V -> res bool;
  r_isArray : V -> res bool;
  r_asBool : V -> res bool;
  r_asInt : iwidth -> V -> res Z;      (* asInt8 / 16 / 32 / 64 *)
  r_asUInt : iwidth -> V -> res Z;     (* asUInt8 / 16 / 32 / 64 *)
  r_asDouble : V -> res Z;             (* bit pattern *)
  r_asString : V -> res bytes;
  r_asStringView : V -> res bytes;
  r_asBlob : V -> res bytes;
  r_arraySize : V -> res Z;
  r_idx : V -> Z -> res V;             (* operator[](size_t) *)
  r_key : V -> bytes -> res V;         (* operator[](string_view) *)
  r_contains : V -> bytes -> res bool;
  r_mapKeys : V -> res (list bytes)
}.
Arguments mkReader {V}.
Arguments r_isNull {V}. Arguments r_isBool {V}. Arguments r_isInt {V}. Arguments r_isUInt {V}.
Arguments r_isFloat {V}. Arguments r_isString {V}. Arguments r_isBlob {V}. Arguments r_isMap {V}.
Arguments r_isArray {V}. Arguments r_asBool {V}. Arguments r_asInt {V}. Arguments r_asUInt {V}.
Arguments r_asDouble {V}. Arguments r_asString {V}. Arguments r_asStringView {V}.
Arguments r_asBlob {V}. Arguments r_arraySize {V}. Arguments r_idx {V}. Arguments r_key {V}.
Arguments r_contains {V}. Arguments r_mapKeys {V}.

(** ** Tables of leaf observations

    What the non-recursive part of the Reader interface answers on one value.
    [None] in an accessor column means "throws DeserializationError". *)
Record table : Type := mkTable {
  t_null : bool; t_bool : bool; t_int : bool; t_uint : bool; t_float : bool;
  t_string : bool; t_blob : bool; t_map : bool; t_array : bool;
  t_asBool : option bool;
  t_asInt : iwidth -> option Z;
  t_asUInt : iwidth -> option Z;
  t_asDouble : option Z;
  t_asString : option bytes;
  t_asBlob : option bytes
}.

Definition or_throw {A} (o : option A) : res A :=
  match o with Some a => Ok a | None => Throw EDeser end.

Definition observes {V} (R : reader V) (w : V) (t : table) : Prop :=
  r_isNull R w = Ok (t_null t) /\ r_isBool R w = Ok (t_bool t) /\
  r_isInt R w = Ok (t_int t) /\ r_isUInt R w = Ok (t_uint t) /\
  r_isFloat R w = Ok (t_float t) /\ r_isString R w = Ok (t_string t) /\
  r_isBlob R w = Ok (t_blob t) /\ r_isMap R w = Ok (t_map t) /\
  r_isArray R w = Ok (t_array t) /\
  r_asBool R w = or_throw (t_asBool t) /\
  (forall iw, r_asInt R iw w = or_throw (t_asInt t iw)) /\
  (forall iw, r_asUInt R iw w = or_throw (t_asUInt t iw)) /\
  r_asDouble R w = or_throw (t_asDouble t) /\
  r_asString R w = or_throw (t_asString t) /\
  r_asStringView R w = or_throw (t_asString t) /\
  r_asBlob R w = or_throw (t_asBlob t).

(** ** [shows R T w v]: the view [w] behaves like the value [v].

    [T] gives the leaf observations of each value for the protocol at hand.
    Arrays: size, every element, and DeserializationError for every other
    index.  Maps: keys in order, contains exactly the keys, the first entry
    of every key, DeserializationError for absent keys.  Everything else:
    container operations throw, [contains] is false. *)
Fixpoint shows {V} (R : reader V) (T : val -> table) (w : V) (v : val) {struct v} : Prop :=
  observes R w (T v) /\
  match v with
  | VArr l =>
      r_arraySize R w = Ok (zlen l) /\
      (forall i, zlen l <= i < 2^64 -> r_idx R w i = Throw EDeser) /\
      (fix go (i : Z) (l : list val) : Prop :=
         match l with
         | [] => True
         | x :: l' => (exists w', r_idx R w i = Ok w' /\ shows R T w' x) /\ go (i + 1) l'
         end) 0 l /\
      (forall k, r_key R w k = Throw EDeser) /\
      (forall k, r_contains R w k = Ok false) /\
      r_mapKeys R w = Throw EDeser
  | VMap l =>
      r_mapKeys R w = Ok (map fst l) /\
      (forall k, bytes_ok k -> r_contains R w k = Ok (existsb (beq k) (map fst l))) /\
      (forall k, bytes_ok k -> existsb (beq k) (map fst l) = false -> r_key R w k = Throw EDeser) /\
      (fix go (seen : list bytes) (l : list (bytes * val)) : Prop :=
         match l with
         | [] => True
         | (k, x) :: l' =>
             (existsb (beq k) seen = false ->
              exists w', r_key R w k = Ok w' /\ shows R T w' x) /\
             go (k :: seen) l'
         end) [] l /\
      r_arraySize R w = Throw EDeser /\
      (forall i, 0 <= i < 2^64 -> r_idx R w i = Throw EDeser)
  | _ =>
      r_arraySize R w = Throw EDeser /\
      (forall i, 0 <= i < 2^64 -> r_idx R w i = Throw EDeser) /\
      (forall k, r_key R w k = Throw EDeser) /\
      (forall k, r_contains R w k = Ok false) /\
      r_mapKeys R w = Throw EDeser
  end.

(** ** The ideal table: every accessor returns the number or throws. *)
Definition fits_s (iw : iwidth) (z : Z) : option Z :=
  if (smin iw <=? z) && (z <=? smax iw) then Some z else None.
Definition fits_u (iw : iwidth) (z : Z) : option Z :=
  if (0 <=? z) && (z <=? umax iw) then Some z else None.

Definition blank : table :=
  mkTable false false false false false false false false false
          None (fun _ => None) (fun _ => None) None None None.

Definition ideal (v : val) : table :=
  match v with
  | VNull => mkTable true false false false false false false false false
                     None (fun _ => None) (fun _ => None) None None None
  | VBool b => mkTable false true false false false false false false false
                     (Some b) (fun _ => None) (fun _ => None) None None None
  | VInt z => mkTable false false true false false false false false false
                     None (fun iw => fits_s iw z) (fun iw => fits_u iw z) None None None
  | VUInt z => mkTable false false false true false false false false false
                     None (fun iw => fits_s iw z) (fun iw => fits_u iw z) None None None
  | VDbl b => mkTable false false false false true false false false false
                     None (fun _ => None) (fun _ => None) (Some b) None None
  | VStr s => mkTable false false false false false true false false false
                     None (fun _ => None) (fun _ => None) None (Some s) None
  | VBlob b => mkTable false false false false false false true false false
                     None (fun _ => None) (fun _ => None) None None (Some b)
  | VArr _ => mkTable false false false false false false false false true
                     None (fun _ => None) (fun _ => None) None None None
  | VMap _ => mkTable false false false false false false false true false
                     None (fun _ => None) (fun _ => None) None None None
  end.

(** ** Navigation: the views obtained by any sequence of operator[] calls. *)
Inductive reach {V} (R : reader V) (w : V) : V -> Prop :=
| reach_here : reach R w w
| reach_idx w1 i w2 : reach R w w1 -> 0 <= i < 2^64 -> r_idx R w1 i = Ok w2 -> reach R w w2
| reach_key w1 k w2 : reach R w w1 -> bytes_ok k -> r_key R w1 k = Ok w2 -> reach R w w2.

(** ** Safe outcomes: a result satisfying [P], or a DeserializationError. *)
Definition safe {A} (P : A -> Prop) (r : res A) : Prop :=
  match r with Ok a => P a | Throw EDeser => True | _ => False end.
Definition any {A} (_ : A) : Prop := True.

(** ** [P] holds of a value and of everything inside it. *)
Fixpoint every (P : val -> Prop) (v : val) : Prop :=
  P v /\
  match v with
  | VArr l => (fix go l := match l with [] => True | x :: l' => every P x /\ go l' end) l
  | VMap l => (fix go l := match l with [] => True | (_, x) :: l' => every P x /\ go l' end) l
  | _ => True
  end.

(** ** Writer calls with arguments in the range of their C++ types. *)
Definition ev_ok (e : ev) : Prop :=
  match e with
  | EInt z => is_i64 z
  | EUInt z => is_u64 z
  | EDbl z => is_u64 z
  | EStr s => bytes_ok s
  | EBin b => bytes_ok b
  | EKey k => bytes_ok k
  | EBeginArr n | EBeginMap n => 0 <= n
  | _ => True
  end.
