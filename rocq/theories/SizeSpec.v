(** SizeSpec.v -- how big a value is. *)

From Coq Require Import ZArith List.
From Verif Require Import Base Spec.
Import ListNotations.
Open Scope Z_scope.

Definition total {A} (f : A -> Z) : list A -> Z := fold_right (fun x n => f x + n) 0.
(** One for every node and every key, and [len] of every string, blob and key. *)
Fixpoint size (len : bytes -> Z) (v : val) : Z :=
  match v with
  | VStr s | VBlob s => 1 + len s
  | VArr l => 1 + total (size len) l
  | VMap l => 1 + total (fun kx => 1 + len (fst kx) + size len (snd kx)) l
  | _ => 1
  end.
Definition nodes : val -> Z := size (fun _ => 0).
Definition weight : val -> Z := size zlen.
