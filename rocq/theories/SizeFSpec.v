(** SizeFSpec.v -- the size of a value when the text of its keys is not counted. *)

From Coq Require Import ZArith List.
From Verif Require Import Base Spec SizeSpec.
Import ListNotations.
Open Scope Z_scope.

(** One for every node and every key, and the length of every string and blob. *)
Fixpoint bulk (v : val) : Z :=
  match v with
  | VStr s | VBlob s => 1 + zlen s
  | VArr l => 1 + total bulk l
  | VMap l => 1 + total (fun kx => 1 + bulk (snd kx)) l
  | _ => 1
  end.
