(** FlexModel.v -- transcription of include/zerialize/protocols/flex.hpp.

    Line numbers refer to that file unless another one is named.  Definitions only, no proofs.

    FlexBuffers is a third-party library; its messages are modelled as trees ([fx]), and the builder as a
    stack of trees; FlexBModel.v has the bytes (C86).  Not modelled here: the byte layout, messages that are not well-formed FlexBuffers,
    the debugging namespace, null string_view data pointers.  Builder::Key and
    Builder::String copy one byte past the view they are given (expected to be a NUL); here that byte is
    taken to be a NUL.  to_string is in TextModel.v, asFloat in NarrowModel.v.  [dbg] is the build without NDEBUG, in which FLATBUFFERS_ASSERT aborts. *)

From Coq Require Import ZArith List Bool.
From Verif Require Import Base Spec.
Import ListNotations.
Open Scope Z_scope.

(** A flexbuffers::Reference: FBT_INT and FBT_INDIRECT_INT are both [XInt], likewise [XUInt] and [XDbl]
    (numbers are stored in the smallest width that holds them exactly); [XTyped] are the typed and
    fixed-size typed vectors; maps have a sorted vector of NUL-terminated keys. *)
Inductive fx : Type :=
| XNull
| XBool (b : bool)
| XInt (z : Z)
| XUInt (z : Z)
| XDbl (d : Z)
| XStr (s : bytes)
| XBlob (b : bytes)
| XKey (k : bytes)
| XVec (l : list fx)
| XTyped (l : list fx)
| XMap (l : list (bytes * fx)).

(** ** Writer *)

(** RootSerializer, lines 19-31: [fs_stack] is Builder::stack_ (bottom first), [fs_st] the containers
    (innermost first; [true] = Obj) with the stack height at their start. *)
Record fst_ : Type := mkFst {
  fs_stack : list fx;
  fs_st : list (bool * Z);
  fs_wrote : bool;
  fs_finished : bool
}.
Definition fs_init : fst_ := mkFst [] [] false false.

(** Lines 52-63 *)
Definition f_push (x : fx) (s : fst_) : fst_ * res unit :=
  (mkFst (fs_stack s ++ [x]) (fs_st s) true (fs_finished s), Ok tt).
(** Lines 66-70 and 79-83; StartVector / StartMap return the stack height. *)
Definition f_begin (obj : bool) (s : fst_) : fst_ * res unit :=
  (mkFst (fs_stack s) ((obj, zlen (fs_stack s)) :: fs_st s) true (fs_finished s), Ok tt).
(** key, lines 91-94 *)
Definition f_key (k : bytes) (s : fst_) : fst_ * res unit :=
  (mkFst (fs_stack s ++ [XKey k]) (fs_st s) (fs_wrote s) (fs_finished s), Ok tt).

(** end_array, lines 71-77; Builder::EndVector *)
Definition f_end_array (s : fst_) : fst_ * res unit :=
  match fs_st s with
  | (false, start) :: st =>
      let n := Z.to_nat start in
      (mkFst (firstn n (fs_stack s) ++ [XVec (skipn n (fs_stack s))]) st (fs_wrote s) (fs_finished s), Ok tt)
  | _ => (s, Throw ELogic)
  end.

(** The interleaved keys and values of Builder::EndMap: asserts that their number is even and that the
    keys are keys.  Without asserts an odd last entry is ignored, and comparing entries that are not keys
    reads buf_ at an arbitrary offset. *)
Fixpoint f_pairs (dbg : bool) (l : list fx) : res (list (bytes * fx)) :=
  match l with
  | [] => Ok []
  | [_] => if dbg then Throw ETerminate else Ok []
  | XKey k :: x :: l' => r <- f_pairs dbg l' ;; Ok ((c_str k, x) :: r)
  | _ :: _ :: _ => if dbg then Throw ETerminate else UB
  end.

(** end_map, lines 84-89; [srt] is the std::sort by strcmp of Builder::EndMap. *)
Definition f_end_map (dbg : bool) (srt : list (bytes * fx) -> list (bytes * fx)) (s : fst_) : fst_ * res unit :=
  match fs_st s with
  | (true, start) :: st =>
      let n := Z.to_nat start in
      match f_pairs dbg (skipn n (fs_stack s)) with
      | Ok l => (mkFst (firstn n (fs_stack s) ++ [XMap (srt l)]) st (fs_wrote s) (fs_finished s), Ok tt)
      | Throw e => (s, Throw e) | UB => (s, UB) | NoFuel => (s, NoFuel)
      end
  | _ => (s, Throw ELogic)
  end.

Definition f_step (dbg : bool) (srt : list (bytes * fx) -> list (bytes * fx)) (s : fst_) (e : ev) : fst_ * res unit :=
  match e with
  | ENull => f_push XNull s
  | EBool b => f_push (XBool b) s
  | EInt z => f_push (XInt z) s
  | EUInt z => f_push (XUInt z) s
  | EDbl d => f_push (XDbl d) s
  | EStr t => f_push (XStr t) s
  | EBin b => f_push (XBlob b) s
  | EKey k => f_key k s
  | EBeginArr _ => f_begin false s
  | EEndArr => f_end_array s
  | EBeginMap _ => f_begin true s
  | EEndMap => f_end_map dbg srt s
  end.

(** Builder::Finish: asserts exactly one value on the stack and writes the bottom one. *)
Definition f_root (dbg : bool) (stack : list fx) : res fx :=
  match stack with
  | [x] => Ok x
  | x :: _ => if dbg then Throw ETerminate else Ok x
  | [] => if dbg then Throw ETerminate else UB
  end.
(** finish, lines 33-43.  The buffer is moved out; [None] is the empty buffer a second finish() returns
    (scalars written in between stay on the
    builder's stack; the bytes strings and containers would leave in the buffer are not modelled). *)
Definition f_finish (dbg : bool) (s : fst_) : fst_ * res (option fx) :=
  if fs_finished s then (s, Ok None)
  else
    let stack := if fs_wrote s then fs_stack s else fs_stack s ++ [XNull] in
    (mkFst stack (fs_st s) (fs_wrote s) true, x <- f_root dbg stack ;; Ok (Some x)).

Definition flex_writer (dbg : bool) (srt : list (bytes * fx) -> list (bytes * fx)) : writer fst_ (option fx) :=
  mkWriter fs_init (f_step dbg srt) (f_finish dbg).

(** ** Reader *)

(** Constructors, lines 368-387: the empty buffer is a null reference. *)
Definition flex_open (b : option fx) : fx := match b with Some x => x | None => XNull end.

(** Lines 214-222; IsAnyVector includes maps, typed and fixed typed vectors. *)
Definition x_isMap (x : fx) : bool := match x with XMap _ => true | _ => false end.
Definition x_isArray (x : fx) : bool := match x with XVec _ | XTyped _ => true | _ => false end.

(** asInt8 .. asInt64, lines 225-228: AsInt8 etc. are casts of AsInt64. *)
Definition x_asInt (iw : iwidth) (x : fx) : res Z :=
  match x with XInt z => Ok (to_signed (ibits iw) z) | _ => Throw EDeser end.
(** asUInt8 .. asUInt64, lines 230-233 *)
Definition x_asUInt (iw : iwidth) (x : fx) : res Z :=
  match x with XUInt z => Ok (z mod 2 ^ ibits iw) | _ => Throw EDeser end.
(** Lines 236-247 *)
Definition x_asDouble (x : fx) : res Z := match x with XDbl d => Ok d | _ => Throw EDeser end.
Definition x_asBool (x : fx) : res bool := match x with XBool b => Ok b | _ => Throw EDeser end.
Definition x_asString (x : fx) : res bytes := match x with XStr s => Ok s | _ => Throw EDeser end.
Definition x_asBlob (x : fx) : res bytes := match x with XBlob b => Ok b | _ => Throw EDeser end.

(** Reference::AsVector: a map's values, or the elements of an untyped vector; for anything else --
    typed vectors included -- the empty vector. *)
Definition AsVector (x : fx) : list fx :=
  match x with XVec l => l | XMap l => map snd l | _ => [] end.
(** Vector::operator[]: past the end a null reference. *)
Definition vec_at (l : list fx) (i : Z) : fx := match get l i with Some x => x | None => XNull end.
(** AsMap().Keys() and AsMap().Values() *)
Definition map_keys (x : fx) : list bytes := match x with XMap l => map fst l | _ => [] end.
Definition map_vals (x : fx) : list fx := match x with XMap l => map snd l | _ => [] end.
(** keys[mid].AsString(): its size is strlen of the key; past the end the empty string. *)
Definition key_at (ks : list bytes) (i : Z) : bytes := match get ks i with Some k => k | None => [] end.

(** std::char_traits<char>::compare(a, b, n) on the first n bytes (unsigned): negative, zero, positive. *)
Fixpoint memcmp (a b : bytes) (n : nat) : Z :=
  match n with
  | O => 0
  | S n' =>
      match a, b with
      | x :: a', y :: b' => if x <? y then -1 else if y <? x then 1 else memcmp a' b' n'
      | _, _ => 0
      end
  end.

(** The binary search of contains and operator[], lines 283-297 and 330-344: the position found, if any. *)
Fixpoint x_search (fuel : nat) (ks : list bytes) (key : bytes) (lo hi : Z) : res (option Z) :=
  match fuel with
  | O => NoFuel
  | S f =>
      if lo <? hi then
        let mid := wrap64 (lo + hi) / 2 in
        let sv := key_at ks mid in
        let n := if zlen sv <? zlen key then zlen sv else zlen key in
        let cmp := memcmp sv key (Z.to_nat n) in
        if cmp <? 0 then x_search f ks key (mid + 1) hi
        else if 0 <? cmp then x_search f ks key lo mid
        else if zlen sv <? zlen key then x_search f ks key (mid + 1) hi
        else if zlen key <? zlen sv then x_search f ks key lo mid
        else Ok (Some mid)
      else Ok None
  end.

(** contains, lines 279-299 *)
Definition x_contains (fuel : nat) (x : fx) (key : bytes) : res bool :=
  if negb (x_isMap x) then Ok false
  else
    r <- x_search fuel (map_keys x) key 0 (zlen (map_keys x)) ;;
    Ok (match r with Some _ => true | None => false end).
(** operator[](string_view), lines 325-346 *)
Definition x_key (fuel : nat) (x : fx) (key : bytes) : res fx :=
  require (x_isMap x) EDeser ;;;
  r <- x_search fuel (map_keys x) key 0 (zlen (map_keys x)) ;;
  match r with Some mid => Ok (vec_at (map_vals x) mid) | None => Throw EDeser end.
(** mapKeys and KeysView, lines 250-277 *)
Definition x_mapKeys (x : fx) : res (list bytes) :=
  require (x_isMap x) EDeser ;;; Ok (map_keys x).
(** arraySize, lines 301-304 *)
Definition x_arraySize (x : fx) : res Z :=
  require (x_isArray x) EDeser ;;; Ok (zlen (AsVector x)).
(** operator[](size_t), lines 348-353 *)
Definition x_idx (x : fx) (i : Z) : res fx :=
  require (x_isArray x) EDeser ;;;
  require (i <? zlen (AsVector x)) EDeser ;;;
  Ok (vec_at (AsVector x) i).

Definition flex_reader (fuel : nat) : reader fx := {|
  r_isNull := fun x => Ok (match x with XNull => true | _ => false end);
  r_isBool := fun x => Ok (match x with XBool _ => true | _ => false end);
  r_isInt := fun x => Ok (match x with XInt _ => true | _ => false end);
  r_isUInt := fun x => Ok (match x with XUInt _ => true | _ => false end);
  r_isFloat := fun x => Ok (match x with XDbl _ => true | _ => false end);
  r_isString := fun x => Ok (match x with XStr _ => true | _ => false end);
  r_isBlob := fun x => Ok (match x with XBlob _ => true | _ => false end);
  r_isMap := fun x => Ok (x_isMap x);
  r_isArray := fun x => Ok (x_isArray x);
  r_asBool := x_asBool;
  r_asInt := x_asInt;
  r_asUInt := x_asUInt;
  r_asDouble := x_asDouble;
  r_asString := x_asString;
  r_asStringView := x_asString;
  r_asBlob := x_asBlob;
  r_arraySize := x_arraySize;
  r_idx := x_idx;
  r_key := x_key fuel;
  r_contains := x_contains fuel;
  r_mapKeys := x_mapKeys
|}.
