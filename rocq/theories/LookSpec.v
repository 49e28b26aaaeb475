(** LookSpec.v -- what it means that lookups agree with mapKeys() and indices with arraySize(). *)

From Coq Require Import ZArith List Bool.
From Verif Require Import Base Spec.
Import ListNotations.
Open Scope Z_scope.

(** contains(key) answers whether [key] is listed; operator[](key) returns a view for the listed keys and throws
    DeserializationError for all others. *)
Definition lookups_agree {V} (R : reader V) (w : V) : Prop :=
  forall ks key, bytes_ok key -> r_mapKeys R w = Ok ks ->
    r_contains R w key = Ok (existsb (beq key) ks) /\
    if existsb (beq key) ks then exists x, r_key R w key = Ok x else r_key R w key = Throw EDeser.

(** operator[](i) returns a view for the indices below arraySize() and throws DeserializationError for all others. *)
Definition indices_agree {V} (R : reader V) (w : V) : Prop :=
  forall n i, r_arraySize R w = Ok n -> 0 <= i < 2^64 ->
    if i <? n then exists x, r_idx R w i = Ok x else r_idx R w i = Throw EDeser.
