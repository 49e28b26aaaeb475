(** TextSpec.v -- what to_string() should say about a value, independent of the code.

    Text is a list of byte values.  Decimal notation is that of the standard library's [Z.to_int].  The
    text of a double ([fl]) is left open: it is whatever [std::ostream] prints. *)

From Coq Require Import ZArith List Bool String Ascii.
From Verif Require Import Base Spec.
Import ListNotations.
Open Scope Z_scope.

Definition txt (s : string) : bytes := map (fun c => Z.of_N (N_of_ascii c)) (list_ascii_of_string s).

Fixpoint digits (u : Decimal.uint) : bytes :=
  match u with
  | Decimal.Nil => []
  | Decimal.D0 u => 48 :: digits u | Decimal.D1 u => 49 :: digits u | Decimal.D2 u => 50 :: digits u
  | Decimal.D3 u => 51 :: digits u | Decimal.D4 u => 52 :: digits u | Decimal.D5 u => 53 :: digits u
  | Decimal.D6 u => 54 :: digits u | Decimal.D7 u => 55 :: digits u | Decimal.D8 u => 56 :: digits u
  | Decimal.D9 u => 57 :: digits u
  end.
(** Decimal notation of an integer. *)
Definition dec (z : Z) : bytes :=
  match Z.to_int z with Decimal.Pos u => digits u | Decimal.Neg u => 45 :: digits u end.

Definition nl : bytes := [10].
Definition comma : bytes := [44].
Definition quote : bytes := [34].
Definition spaces (n : Z) : bytes := repeat 32 (Z.to_nat n).

(** One row per line, separated by commas. *)
Fixpoint rows (ls : list bytes) : bytes :=
  match ls with
  | [] => []
  | [x] => x ++ nl
  | x :: r => x ++ comma ++ nl ++ rows r
  end.

(** The layout: scalars by [leaf], strings and keys between quotes through [q], containers one entry per
    line, two more spaces per level. *)
Fixpoint pretty (leaf : val -> bytes) (q : bytes -> bytes) (pad : Z) (v : val) : bytes :=
  match v with
  | VArr l => txt "arr [" ++ nl ++
      rows (map (fun x => spaces (pad + 2) ++ pretty leaf q (pad + 2) x) l) ++ spaces pad ++ txt "]"
  | VMap l => txt "map {" ++ nl ++
      rows (map (fun kx => spaces (pad + 2) ++ quote ++ q (fst kx) ++ quote ++ txt ": " ++
                           pretty leaf q (pad + 2) (snd kx)) l) ++ spaces pad ++ txt "}"
  | _ => leaf v
  end.

Definition truth (b : bool) : bytes := if b then txt "true" else txt "false".

(** Scalars in a MessagePack dump: "type: value"; integers below 128 are int, the others uint. *)
Definition colon_leaf (fl : Z -> bytes) (q : bytes -> bytes) (v : val) : bytes :=
  match v with
  | VNull => txt "null: null"
  | VBool b => txt "bool: " ++ truth b
  | VInt z | VUInt z => txt (if z <? 128 then "int: " else "uint: ") ++ dec z
  | VDbl d => txt "float: " ++ fl d
  | VStr s => txt "str: " ++ quote ++ q s ++ quote
  | VBlob b => txt "bin[size=" ++ dec (zlen b) ++ txt "]"
  | _ => []
  end.

(** Scalars in a FlexBuffers or CBOR dump: "type|value"; [sgn] decides between int and uint. *)
Definition bar_leaf (fl : Z -> bytes) (sgn : val -> bool) (q : bytes -> bytes) (v : val) : bytes :=
  match v with
  | VNull => txt "null|null"
  | VBool b => txt "bool| " ++ truth b
  | VInt z | VUInt z => txt (if sgn v then "int|" else "uint|") ++ dec z
  | VDbl d => txt "float|" ++ fl d
  | VStr s => txt "str|" ++ quote ++ q s ++ quote
  | VBlob b => txt "blob[size=" ++ dec (zlen b) ++ txt "]"
  | _ => []
  end.
(** FlexBuffers keeps the type an integer was written with; CBOR has one negative and one non-negative
    major type. *)
Definition as_written (v : val) : bool := match v with VInt _ => true | _ => false end.
Definition by_sign (v : val) : bool := match v with VInt z | VUInt z => z <? 0 | _ => false end.

(** JSON string escapes (RFC 8259, section 7): two-character escapes, and \u00xx with lower-case digits
    for the other control characters. *)
Definition hexdigit (n : Z) : Z := if n <? 10 then 48 + n else 87 + n.
Definition short_escape (c : Z) : option Z :=
  match c with 34 => Some 34 | 92 => Some 92 | 8 => Some 98 | 12 => Some 102 | 10 => Some 110 | 13 => Some 114 | 9 => Some 116
  | _ => None end.
Definition escape1 (c : Z) : bytes :=
  match short_escape c with
  | Some e => [92; e]
  | None => if c <? 32 then txt "\u00" ++ [hexdigit (c / 16); hexdigit (c mod 16)] else [c]
  end.
Definition escaped (s : bytes) : bytes := flat_map escape1 s.

(** A decoder for the contents of a JSON string literal; [None] where the text is not one. *)
Definition hexval (c : Z) : option Z :=
  if (48 <=? c) && (c <=? 57) then Some (c - 48)
  else if (97 <=? c) && (c <=? 102) then Some (c - 87)
  else if (65 <=? c) && (c <=? 70) then Some (c - 55) else None.
Fixpoint json_unescape (t : bytes) : option bytes :=
  match t with
  | [] => Some []
  | 92 :: 117 :: 48 :: 48 :: a :: b :: t' =>
      match hexval a, hexval b, json_unescape t' with
      | Some x, Some y, Some r => Some (16 * x + y :: r)
      | _, _, _ => None
      end
  | 92 :: e :: t' =>
      match (match e with 34 => Some 34 | 92 => Some 92 | 47 => Some 47 | 98 => Some 8 | 102 => Some 12 | 110 => Some 10
             | 114 => Some 13 | 116 => Some 9 | _ => None end), json_unescape t' with
      | Some c, Some r => Some (c :: r)
      | _, _ => None
      end
  | c :: t' => if (c <? 32) || (c =? 34) || (c =? 92) then None else option_map (cons c) (json_unescape t')
  end.

(** The two values a dump cannot tell apart: it names an integer's value but not the call it was written
    with, and a blob's size but not its contents. *)
Fixpoint alike (a b : val) : Prop :=
  match a, b with
  | VNull, VNull => True
  | VBool x, VBool y => x = y
  | (VInt x | VUInt x), (VInt y | VUInt y) => x = y
  | VStr x, VStr y => x = y
  | VBlob x, VBlob y => zlen x = zlen y
  | VArr l, VArr m => (fix go l m := match l, m with
                                     | [], [] => True | x :: l', y :: m' => alike x y /\ go l' m' | _, _ => False end) l m
  | VMap l, VMap m => (fix go l m := match l, m with
                                     | [], [] => True
                                     | (k, x) :: l', (j, y) :: m' => k = j /\ alike x y /\ go l' m'
                                     | _, _ => False end) l m
  | _, _ => False
  end.
(** No double anywhere (their text is rounded to six digits, so it does not determine them). *)
Definition no_doubles : val -> Prop := every (fun v => match v with VDbl _ => False | _ => True end).

(** The one-line summary ZERA prints. *)
Definition summary (fl : Z -> bytes) (v : val) : bytes :=
  txt "Zera(" ++
  match v with
  | VNull => txt "null"
  | VBool b => truth b
  | VInt z | VUInt z => dec z
  | VDbl d => fl d
  | VStr s => txt "str[len=" ++ dec (zlen s) ++ txt "]"
  | VBlob b => txt "blob[len=" ++ dec (zlen b) ++ txt "]"
  | VArr l => txt "arr[n=" ++ dec (zlen l) ++ txt "]"
  | VMap _ => txt "map"
  end ++ txt ")".

(** Strings printed as they are. *)
Definition plain (s : bytes) : bytes := s.
(** An array somewhere in the value. *)
Fixpoint has_array (v : val) : bool :=
  match v with
  | VArr _ => true
  | VMap l => existsb (fun kx => has_array (snd kx)) l
  | _ => false
  end.
(** Values without empty maps in which, if the value is an array, every array inside has its length. *)
Definition dumpable (root : val) : val -> Prop := every (fun v =>
  match v with
  | VMap l => l <> []
  | VArr l => forall m, root = VArr m -> zlen l = zlen m
  | _ => True
  end).
