(** CallSpec.v -- which sequences of writer calls describe exactly one value when the announced lengths are taken at
    their word and the end calls are ignored (C81).  Independent of the writers. *)

From Coq Require Import ZArith List Bool.
From Verif Require Import Base Spec.
Import ListNotations.
Open Scope Z_scope.

Definition is_end (e : ev) : bool := match e with EEndArr | EEndMap => true | _ => false end.
Definition is_leaf (e : ev) : bool := match e with EEndArr | EEndMap | EBeginArr _ | EBeginMap _ => false | _ => true end.
Definition drop_ends (es : list ev) : list ev := filter (fun e => negb (is_end e)) es.

(** One thing: a scalar, string or key; an array of [n] things; a map of [2 * n] things. *)
Inductive whole : list ev -> Prop :=
| whole_leaf e : is_leaf e = true -> whole [e]
| whole_arr n es : wholes n es -> whole (EBeginArr n :: es)
| whole_map n es : wholes (2 * n) es -> whole (EBeginMap n :: es)
with wholes : Z -> list ev -> Prop :=
| wholes_nil : wholes 0 []
| wholes_cons n a b : whole a -> wholes n b -> wholes (n + 1) (a ++ b).

(** Lengths of strings and announced lengths below [lim]. *)
Definition sized (lim : Z) (e : ev) : Prop :=
  match e with
  | EStr s | EBin s | EKey s => zlen s < lim
  | EBeginArr n | EBeginMap n => n < lim
  | _ => True
  end.
