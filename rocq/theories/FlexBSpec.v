(** FlexBSpec.v -- when two readers give the same answers, and sorting functions.  Independent of the code. *)

From Coq Require Import ZArith List Bool.
From Verif Require Import Base Spec FlexSpec.
Import ListNotations.
Open Scope Z_scope.

(** The same outcome; results related by [P]. *)
Definition alike {A B} (P : A -> B -> Prop) (a : res A) (b : res B) : Prop :=
  match a, b with
  | Ok x, Ok y => P x y
  | Throw e, Throw f => e = f
  | UB, UB | NoFuel, NoFuel => True
  | _, _ => False
  end.

(** Every accessor answers alike on [w1] and [w2], and on everything reached from them in fewer than [n] steps. *)
Fixpoint same {V1 V2} (n : nat) (R1 : reader V1) (R2 : reader V2) (w1 : V1) (w2 : V2) : Prop :=
  match n with
  | O => True
  | S n =>
      r_isNull R1 w1 = r_isNull R2 w2 /\ r_isBool R1 w1 = r_isBool R2 w2 /\
      r_isInt R1 w1 = r_isInt R2 w2 /\ r_isUInt R1 w1 = r_isUInt R2 w2 /\
      r_isFloat R1 w1 = r_isFloat R2 w2 /\ r_isString R1 w1 = r_isString R2 w2 /\
      r_isBlob R1 w1 = r_isBlob R2 w2 /\ r_isMap R1 w1 = r_isMap R2 w2 /\
      r_isArray R1 w1 = r_isArray R2 w2 /\
      r_asBool R1 w1 = r_asBool R2 w2 /\
      (forall iw, r_asInt R1 iw w1 = r_asInt R2 iw w2) /\
      (forall iw, r_asUInt R1 iw w1 = r_asUInt R2 iw w2) /\
      r_asDouble R1 w1 = r_asDouble R2 w2 /\ r_asString R1 w1 = r_asString R2 w2 /\
      r_asStringView R1 w1 = r_asStringView R2 w2 /\ r_asBlob R1 w1 = r_asBlob R2 w2 /\
      r_arraySize R1 w1 = r_arraySize R2 w2 /\
      (forall k, r_contains R1 w1 k = r_contains R2 w2 k) /\
      r_mapKeys R1 w1 = r_mapKeys R2 w2 /\
      (forall i, 0 <= i -> alike (same n R1 R2) (r_idx R1 w1 i) (r_idx R2 w2 i)) /\
      (forall k, alike (same n R1 R2) (r_key R1 w1 k) (r_key R2 w2 k))
  end.

(** Room in bytes that suffices for a call, and for a value, in a FlexBuffers message: 8 bytes for a number, an offset or a
    length, at most 7 for alignment, 1 for a type, 1 for the end of a string; 24 in front of a map. *)
Definition ev_room (e : ev) : Z :=
  match e with
  | ENull | EBool _ | EInt _ | EUInt _ | EDbl _ => 17
  | EStr s | EBin s => 33 + zlen s
  | EKey k => 18 + zlen k
  | EBeginArr _ | EBeginMap _ => 0
  | EEndArr => 32
  | EEndMap => 63
  end.
Definition evs_room (es : list ev) : Z := fold_right (fun e n => ev_room e + n) 0 es.
Fixpoint room (v : val) : Z :=
  match v with
  | VNull | VBool _ | VInt _ | VUInt _ | VDbl _ => 17
  | VStr s | VBlob s => 33 + zlen s
  | VArr l => 32 + fold_right (fun x n => room x + n) 0 l
  | VMap l => 63 + fold_right (fun kx n => 18 + zlen (fst kx) + room (snd kx) + n) 0 l
  end.

(** A sort by key that looks at the keys only (std::sort sees entries through the comparison alone). *)
Definition key_sort (srt : forall A, list (bytes * A) -> list (bytes * A)) : Prop :=
  (forall A, sorts (srt A)) /\
  forall A B (f : A -> B) l, srt B (map (fun kx => (fst kx, f (snd kx))) l) = map (fun kx => (fst kx, f (snd kx))) (srt A l).
