(** JTextSpec.v -- the grammar of JSON texts, RFC 8259, with the meaning of each production.

    Independent of the code.  [value t l]: the bytes [l] are a JSON value with syntax tree [t]. *)

From Coq Require Import ZArith List Bool.
From Verif Require Import Base Spec Utf8Spec.
Import ListNotations.
Open Scope Z_scope.

(** Section 2: insignificant white space. *)
Definition ws (l : bytes) : Prop := Forall (fun c => c = 32 \/ c = 9 \/ c = 10 \/ c = 13) l.

(** Section 6: numbers. *)
Definition digit (c : Z) : Prop := 48 <= c <= 57.
Fixpoint decimal (l : bytes) : Z :=            (* the number its digits spell *)
  match l with [] => 0 | c :: l' => (c - 48) * 10 ^ zlen l' + decimal l' end.
Definition int_part (l : bytes) : Prop :=
  l = [48] \/ exists c l', l = c :: l' /\ 49 <= c <= 57 /\ Forall digit l'.
Definition fraction (f l : bytes) : Prop := f = [] /\ l = [] \/ f <> [] /\ Forall digit f /\ l = 46 :: f.
Definition exponent (x : option Z) (l : bytes) : Prop :=
  x = None /\ l = [] \/
  exists c sign d, (c = 101 \/ c = 69) /\ d <> [] /\ Forall digit d /\ l = c :: sign ++ d /\
    (sign = [] /\ x = Some (decimal d) \/ sign = [43] /\ x = Some (decimal d) \/ sign = [45] /\ x = Some (- decimal d)).

(** Section 7: strings.  [chars s l]: the characters [l] between the quotes spell the bytes [s]. *)
Definition short_escape (e c : Z) : Prop :=
  In (e, c) [(34, 34); (92, 92); (47, 47); (98, 8); (102, 12); (110, 10); (114, 13); (116, 9)].
Inductive hex : Z -> Z -> Prop :=
  | hex_09 c : 48 <= c <= 57 -> hex c (c - 48)
  | hex_AF c : 65 <= c <= 70 -> hex c (c - 55)
  | hex_af c : 97 <= c <= 102 -> hex c (c - 87).
Definition hex4 (u : Z) (l : bytes) : Prop :=
  exists a b c d a' b' c' d', l = [a; b; c; d] /\ hex a a' /\ hex b b' /\ hex c c' /\ hex d d' /\
    u = 4096 * a' + 256 * b' + 16 * c' + d'.
Inductive chars : bytes -> bytes -> Prop :=
  | ch_nil : chars [] []
  | ch_plain c s l : 32 <= c -> c <> 34 -> c <> 92 -> chars s l -> chars (c :: s) (c :: l)
  | ch_short e c s l : short_escape e c -> chars s l -> chars (c :: s) (92 :: e :: l)
  | ch_unicode u h s l : hex4 u h -> scalar u -> chars s l -> chars (utf8_code u ++ s) (92 :: 117 :: h ++ l)
  | ch_pair hi lo h1 h2 s l : hex4 hi h1 -> hex4 lo h2 -> 55296 <= hi < 56320 -> 56320 <= lo < 57344 -> chars s l ->
      chars (utf8_code (65536 + (hi - 55296) * 1024 + (lo - 56320)) ++ s) (92 :: 117 :: h1 ++ 92 :: 117 :: h2 ++ l).

Section Grammar.
(** [real neg m e]: the double a decimal (-1)^neg * m * 10^e stands for. *)
Variable real : bool -> Z -> Z -> Z.

(** Sections 3-5. *)
Inductive value : val -> bytes -> Prop :=
  | v_null : value VNull [110; 117; 108; 108]
  | v_true : value (VBool true) [116; 114; 117; 101]
  | v_false : value (VBool false) [102; 97; 108; 115; 101]
  | v_uint l : int_part l -> value (VUInt (decimal l)) l
  | v_int l : int_part l -> value (VInt (- decimal l)) (45 :: l)
  | v_real neg sign i f x lf lx :
      neg = false /\ sign = [] \/ neg = true /\ sign = [45] ->
      int_part i -> fraction f lf -> exponent x lx -> (f <> [] \/ x <> None) ->
      value (VDbl (real neg (decimal (i ++ f)) (match x with Some x => x | None => 0 end - zlen f))) (sign ++ i ++ lf ++ lx)
  | v_str s l : chars s l -> value (VStr s) (34 :: l ++ [34])
  | v_arr0 w : ws w -> value (VArr []) (91 :: w ++ [93])
  | v_arr w xs l : ws w -> elems xs l -> value (VArr xs) (91 :: w ++ l)
  | v_map0 w : ws w -> value (VMap []) (123 :: w ++ [125])
  | v_map w xs l : ws w -> members xs l -> value (VMap xs) (123 :: w ++ l)
with elems : list val -> bytes -> Prop :=
  | e_last x l w : value x l -> ws w -> elems [x] (l ++ w ++ [93])
  | e_more x l w1 w2 xs r : value x l -> ws w1 -> ws w2 -> elems xs r -> elems (x :: xs) (l ++ w1 ++ 44 :: w2 ++ r)
with members : list (bytes * val) -> bytes -> Prop :=
  | m_last k lk x l w1 w2 w3 : chars k lk -> value x l -> ws w1 -> ws w2 -> ws w3 ->
      members [(k, x)] (34 :: lk ++ 34 :: w1 ++ 58 :: w2 ++ l ++ w3 ++ [125])
  | m_more k lk x l w1 w2 w3 w4 xs r : chars k lk -> value x l -> ws w1 -> ws w2 -> ws w3 -> ws w4 -> members xs r ->
      members ((k, x) :: xs) (34 :: lk ++ 34 :: w1 ++ 58 :: w2 ++ l ++ w3 ++ 44 :: w4 ++ r).

(** A JSON text: a value with white space around it. *)
Definition text (b : bytes) (t : val) : Prop :=
  exists w1 l w2, b = w1 ++ l ++ w2 /\ ws w1 /\ value t l /\ ws w2.

(** Each double inside [v] is printed as a number that stands for that double. *)
Definition spells_doubles (dtext : Z -> bytes) : val -> Prop :=
  every (fun v => match v with VDbl d => value (VDbl d) (dtext d) | _ => True end).
End Grammar.

Definition is_number (t : val) : Prop := match t with VInt _ | VUInt _ | VDbl _ => True | _ => False end.
