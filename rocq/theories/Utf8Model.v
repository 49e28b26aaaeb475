(** Utf8Model.v -- UTF-8 validation as done by jsoncons (unicode_traits::validate) and by yyjson when
    it writes a string: Unicode table 3-7, no overlong forms, no surrogates, at most U+10FFFF.
    Third-party behaviour, transcribed from the libraries' documented rules. *)

From Coq Require Import ZArith List Bool.
From Verif Require Import Base.
Import ListNotations.
Open Scope Z_scope.

Definition cont (lo hi x : Z) : bool := (lo <=? x) && (x <=? hi).
Fixpoint utf8_valid (s : bytes) : bool :=
  match s with
  | [] => true
  | a :: s1 =>
    if a <=? 127 then utf8_valid s1
    else if cont 194 223 a then
      match s1 with b :: s2 => cont 128 191 b && utf8_valid s2 | _ => false end
    else if cont 224 239 a then
      match s1 with
      | b :: c :: s3 =>
          cont (if a =? 224 then 160 else 128) (if a =? 237 then 159 else 191) b &&
          cont 128 191 c && utf8_valid s3
      | _ => false
      end
    else if cont 240 244 a then
      match s1 with
      | b :: c :: d :: s4 =>
          cont (if a =? 240 then 144 else 128) (if a =? 244 then 143 else 191) b &&
          cont 128 191 c && cont 128 191 d && utf8_valid s4
      | _ => false
      end
    else false
  end.
