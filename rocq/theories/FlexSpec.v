(** FlexSpec.v -- FlexBuffers: key order and what each node shows, independent of the code. *)

From Coq Require Import ZArith List Bool Permutation Sorted.
From Verif Require Import Base Spec FlexModel.
Import ListNotations.
Open Scope Z_scope.

(** Lexicographic order of byte strings. *)
Fixpoint lex (a b : bytes) : comparison :=
  match a, b with
  | [], [] => Eq
  | [], _ :: _ => Lt
  | _ :: _, [] => Gt
  | x :: a', y :: b' => match x ?= y with Eq => lex a' b' | c => c end
  end.
Definition key_lt (a b : bytes) : Prop := lex a b = Lt.
Definition key_le (a b : bytes) : Prop := lex a b <> Gt.
(** Strictly increasing keys. *)
Definition ordered (ks : list bytes) : Prop := StronglySorted key_lt ks.

(** What std::sort guarantees when sorting by key; the order of equal keys is left open. *)
Definition sorts {A} (srt : list (bytes * A) -> list (bytes * A)) : Prop :=
  forall l, Permutation (srt l) l /\ StronglySorted (fun a b => key_le (fst a) (fst b)) (srt l).

(** The value with the entries of every map in key order. *)
Fixpoint insert {A} (kx : bytes * A) (l : list (bytes * A)) : list (bytes * A) :=
  match l with
  | [] => [kx]
  | ky :: l' => match lex (fst kx) (fst ky) with Gt => ky :: insert kx l' | _ => kx :: l end
  end.
Definition by_key {A} (l : list (bytes * A)) : list (bytes * A) := fold_right insert [] l.
Fixpoint in_key_order (v : val) : val :=
  match v with
  | VArr l => VArr (map in_key_order l)
  | VMap l => VMap (by_key (map (fun kx => (fst kx, in_key_order (snd kx))) l))
  | _ => v
  end.

(** Every map inside [v] has distinct keys without NUL, and fewer than 2^63 entries. *)
Definition flex_ok : val -> Prop := every (fun v =>
  match v with
  | VMap l => NoDup (map fst l) /\ Forall (fun kx => ~ In 0 (fst kx)) l /\ zlen l < 2^63
  | _ => True
  end).

(** Leaf observations: integers answer only accessors of their own signedness, which keep the low bits. *)
Definition flex_table (v : val) : table :=
  match v with
  | VInt z => mkTable false false true false false false false false false
                None (fun iw => Some (to_signed (ibits iw) z)) (fun _ => None) None None None
  | VUInt z => mkTable false false false true false false false false false
                None (fun _ => None) (fun iw => Some (z mod 2 ^ ibits iw)) None None None
  | _ => ideal v
  end.
