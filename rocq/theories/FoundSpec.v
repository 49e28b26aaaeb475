(** FoundSpec.v -- the integer a MessagePack object is. *)

From Coq Require Import ZArith.
From Verif Require Import Base MsgSpec.
Open Scope Z_scope.

Definition number_of (it : item) : option Z :=
  match it with MFixInt z | MUInt _ z | MSInt _ z => Some z | _ => None end.
