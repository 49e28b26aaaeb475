(** Utf8Spec.v -- UTF-8, and values all of whose texts (strings and keys) are UTF-8. *)

From Coq Require Import ZArith List Bool.
From Verif Require Import Base Spec.
Import ListNotations.
Open Scope Z_scope.

(** UTF-8 (Unicode table 3-7): the encodings of code points other than surrogates. *)
Definition utf8_code (c : Z) : bytes :=
  if c <? 128 then [c]
  else if c <? 2048 then [192 + c / 64; 128 + c mod 64]
  else if c <? 65536 then [224 + c / 4096; 128 + c / 64 mod 64; 128 + c mod 64]
  else [240 + c / 262144; 128 + c / 4096 mod 64; 128 + c / 64 mod 64; 128 + c mod 64].
Definition scalar (c : Z) : Prop := 0 <= c < 55296 \/ 57344 <= c < 1114112.
Definition is_utf8 (s : bytes) : Prop := exists cs, Forall scalar cs /\ s = flat_map utf8_code cs.
Fixpoint texts_utf8 (v : val) : Prop :=
  match v with
  | VStr s => is_utf8 s
  | VArr l => (fix go l := match l with [] => True | x :: l' => texts_utf8 x /\ go l' end) l
  | VMap l => (fix go l := match l with
                           | [] => True
                           | (k, x) :: l' => is_utf8 k /\ texts_utf8 x /\ go l'
                           end) l
  | _ => True
  end.
