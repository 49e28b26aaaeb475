(** SoundSpec.v -- CBOR messages for which the reader's answers determine an item of RFC 8949. *)

From Coq Require Import ZArith List Bool.
From Verif Require Import Base Spec CborSpec.
Import ListNotations.
Open Scope Z_scope.

(** Nowhere in [b], not even inside a string, do the nine bytes of an item head with an argument of 2^63 or more stand. *)
Definition no_large (b : bytes) : Prop :=
  forall p m n, 0 <= p -> 0 <= m < 7 -> 0 <= n < 2^64 -> slice b p 9 = (32 * m + 27) :: be 8 n -> n < 2^63.

(** The bytes of a byte string, in one piece or chunked. *)
Definition blob_of (it : item) : option bytes :=
  match it with
  | CBytes _ s => Some s
  | CBytesI l => Some (flat_map snd l)
  | _ => None
  end.
