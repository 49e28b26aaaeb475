(** B64Spec.v -- RFC 4648 section 4, by 24-bit groups. *)

From Coq Require Import ZArith List Bool String.
From Verif Require Import Base.
Import ListNotations.
Open Scope Z_scope.

(** The alphabet: A-Z, a-z, 0-9, +, /. *)
Definition alpha (n : Z) : Z :=
  if n <? 26 then 65 + n else if n <? 52 then 97 + (n - 26) else if n <? 62 then 48 + (n - 52)
  else if n =? 62 then 43 else 47.
Definition in_alphabet (c : Z) : bool :=
  ((65 <=? c) && (c <=? 90)) || ((97 <=? c) && (c <=? 122)) || ((48 <=? c) && (c <=? 57)) || (c =? 43) || (c =? 47).

Fixpoint rfc4648 (l : bytes) : bytes :=
  match l with
  | [] => []
  | [a] => [alpha (a / 4); alpha (a mod 4 * 16); 61; 61]
  | [a; b] => [alpha (a / 4); alpha (a mod 4 * 16 + b / 16); alpha (b mod 16 * 4); 61]
  | a :: b :: c :: l' =>
      alpha (a / 4) :: alpha (a mod 4 * 16 + b / 16) :: alpha (b mod 16 * 4 + c / 64) :: alpha (c mod 64) :: rfc4648 l'
  end.

(** The characters before the first '='. *)
Fixpoint before_pad (s : bytes) : bytes :=
  match s with [] => [] | c :: s' => if c =? 61 then [] else c :: before_pad s' end.

(** The sextet of an alphabet character, and the number a sextet string spells (big-endian). *)
Definition sextet (c : Z) : Z :=
  if (65 <=? c) && (c <=? 90) then c - 65 else if (97 <=? c) && (c <=? 122) then c - 97 + 26
  else if (48 <=? c) && (c <=? 57) then c - 48 + 52 else if c =? 43 then 62 else 63.
Definition spelled (s : bytes) : Z := fold_left (fun n c => 64 * n + sextet c) s 0.
