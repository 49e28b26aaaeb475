(** KindSpec.v -- kinds of values, the type tests for them and the accessors they guard. *)

From Coq Require Import ZArith List Bool.
From Verif Require Import Base Spec NarrowModel.
Import ListNotations.
Open Scope Z_scope.

Inductive kind : Type := KNull | KBool | KInteger | KFloat | KString | KBlob | KMap | KArray.
Definition kind_of (v : val) : kind :=
  match v with
  | VNull => KNull | VBool _ => KBool | VInt _ | VUInt _ => KInteger | VDbl _ => KFloat
  | VStr _ => KString | VBlob _ => KBlob | VArr _ => KArray | VMap _ => KMap
  end.

(** isNull(), isBool(), isInt() || isUInt(), ... *)
Definition test {V} (R : reader V) (k : kind) (w : V) : res bool :=
  match k with
  | KNull => r_isNull R w | KBool => r_isBool R w
  | KInteger => i <- r_isInt R w ;; if (i : bool) then Ok true else r_isUInt R w
  | KFloat => r_isFloat R w | KString => r_isString R w | KBlob => r_isBlob R w | KMap => r_isMap R w | KArray => r_isArray R w
  end.

(** At most one test succeeds. *)
Definition exclusive {V} (R : reader V) (w : V) : Prop :=
  forall k k', test R k w = Ok true -> test R k' w = Ok true -> k = k'.

(** Where the test of a kind is false, the accessors of that kind throw DeserializationError (contains() is false). *)
Definition guarded {V} (R : reader V) (w : V) : Prop :=
  (test R KBool w = Ok false -> r_asBool R w = Throw EDeser) /\
  (test R KInteger w = Ok false -> forall iw, r_asInt R iw w = Throw EDeser /\ r_asUInt R iw w = Throw EDeser) /\
  (test R KFloat w = Ok false -> r_asDouble R w = Throw EDeser /\ asFloat R w = Throw EDeser) /\
  (test R KString w = Ok false -> r_asString R w = Throw EDeser /\ r_asStringView R w = Throw EDeser) /\
  (test R KBlob w = Ok false -> r_asBlob R w = Throw EDeser) /\
  (test R KArray w = Ok false -> r_arraySize R w = Throw EDeser /\ forall i, r_idx R w i = Throw EDeser) /\
  (test R KMap w = Ok false -> r_mapKeys R w = Throw EDeser /\ forall key, r_key R w key = Throw EDeser /\ r_contains R w key = Ok false).
