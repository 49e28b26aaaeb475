(** MsgSpec.v -- the MessagePack format (msgpack.org spec.md, without extension types),
    independent of the code. *)

From Coq Require Import ZArith List Bool.
From Verif Require Import Base Spec FloatModel.
Import ListNotations.
Open Scope Z_scope.

(** [n] big-endian bytes of [v]. *)
Fixpoint be (n : nat) (v : Z) : bytes :=
  match n with O => [] | S k => (v / 256 ^ Z.of_nat k) mod 256 :: be k v end.

(** How a length is stored: in the marker, or in 1, 2, 4 bytes. *)
Inductive fmt : Type := FFix | F8 | F16 | F32.

(** One object in one particular encoding.  Map keys are arbitrary objects. *)
Inductive item : Type :=
| MNil
| MBool (b : bool)
| MFixInt (z : Z)                 (* positive / negative fixint *)
| MUInt (w : iwidth) (z : Z)      (* uint 8/16/32/64 *)
| MSInt (w : iwidth) (z : Z)      (* int 8/16/32/64 *)
| MF32 (bits : Z)
| MF64 (bits : Z)
| MStr (f : fmt) (s : bytes)
| MBin (f : fmt) (b : bytes)
| MArr (f : fmt) (l : list item)
| MMap (f : fmt) (l : list (item * item)).

Definition ibytes (w : iwidth) : nat := match w with I8 => 1 | I16 => 2 | I32 => 4 | I64 => 8 end.
Definition wsel (w : iwidth) (m : Z) : Z := match w with I8 => m | I16 => m + 1 | I32 => m + 2 | I64 => m + 3 end.

Definition str_hdr (f : fmt) (n : Z) : bytes :=
  match f with FFix => [160 + n] | F8 => 217 :: be 1 n | F16 => 218 :: be 2 n | F32 => 219 :: be 4 n end.
Definition bin_hdr (f : fmt) (n : Z) : bytes :=
  match f with FFix => [] | F8 => 196 :: be 1 n | F16 => 197 :: be 2 n | F32 => 198 :: be 4 n end.
Definition arr_hdr (f : fmt) (n : Z) : bytes :=
  match f with FFix => [144 + n] | F8 => [] | F16 => 220 :: be 2 n | F32 => 221 :: be 4 n end.
Definition map_hdr (f : fmt) (n : Z) : bytes :=
  match f with FFix => [128 + n] | F8 => [] | F16 => 222 :: be 2 n | F32 => 223 :: be 4 n end.

Fixpoint enc (it : item) : bytes :=
  match it with
  | MNil => [192]
  | MBool b => [if b then 195 else 194]
  | MFixInt z => [z mod 256]
  | MUInt w z => wsel w 204 :: be (ibytes w) z
  | MSInt w z => wsel w 208 :: be (ibytes w) (z mod 2 ^ ibits w)
  | MF32 x => 202 :: be 4 x
  | MF64 x => 203 :: be 8 x
  | MStr f s => str_hdr f (zlen s) ++ s
  | MBin f b => bin_hdr f (zlen b) ++ b
  | MArr f l => arr_hdr f (zlen l) ++ flat_map enc l
  | MMap f l => map_hdr f (zlen l) ++ flat_map (fun kx => enc (fst kx) ++ enc (snd kx)) l
  end.

(** The lengths a format can hold; [lim] bounds 32-bit string/binary lengths. *)
Definition str_cap (lim : Z) (f : fmt) : Z := match f with FFix => 32 | F8 => 256 | F16 => 65536 | F32 => lim end.
Definition bin_cap (lim : Z) (f : fmt) : Z := match f with FFix => 0 | F8 => 256 | F16 => 65536 | F32 => lim end.
Definition seq_cap (f : fmt) : Z := match f with FFix => 16 | F8 => 0 | F16 => 65536 | F32 => 2^32 end.

Fixpoint item_in (lim : Z) (it : item) : Prop :=
  match it with
  | MNil | MBool _ => True
  | MFixInt z => -32 <= z < 128
  | MUInt w z => 0 <= z <= umax w
  | MSInt w z => smin w <= z <= smax w
  | MF32 x => 0 <= x < 2^32
  | MF64 x => 0 <= x < 2^64
  | MStr f s => bytes_ok s /\ zlen s < str_cap lim f
  | MBin f b => bytes_ok b /\ zlen b < bin_cap lim f
  | MArr f l => zlen l < seq_cap f /\
      (fix go l := match l with [] => True | x :: l' => item_in lim x /\ go l' end) l
  | MMap f l => zlen l < seq_cap f /\
      (fix go l := match l with
                   | [] => True
                   | (k, x) :: l' => item_in lim k /\ item_in lim x /\ go l'
                   end) l
  end.
(** A well-formed object, and one without strings/blobs within 5 bytes of 4 GiB. *)
Definition item_ok : item -> Prop := item_in (2^32).
Definition item_small : item -> Prop := item_in (2^32 - 5).

(** What the leaf part of the Reader interface answers on an object.  Integers: asInt64
    is the number modulo 2^64 as signed, asUInt64 as unsigned; the narrow accessors check the range of those. *)
Definition no_int : iwidth -> option Z := fun _ => None.
Definition int_tbl (is_s is_u : bool) (z : Z) : table :=
  mkTable false false is_s is_u false false false false false
          None (fun iw => fits_s iw (to_signed 64 z)) (fun iw => fits_u iw (z mod 2^64)) None None None.
Definition item_table (it : item) : table :=
  match it with
  | MNil => ideal VNull
  | MBool b => ideal (VBool b)
  | MFixInt z => int_tbl true (0 <=? z) z
  | MUInt w z => int_tbl false true z
  | MSInt w z => int_tbl true false z
  | MF32 x => ideal (VDbl (f32_to_f64 x))
  | MF64 x => ideal (VDbl x)
  | MStr _ s => ideal (VStr s)
  | MBin _ b => ideal (VBlob b)
  | MArr _ _ => ideal (VArr [])
  | MMap _ _ => ideal (VMap [])
  end.

(** The string key of a map entry, if its key is a string. *)
Definition key_of (kx : item * item) : option bytes :=
  match fst kx with MStr _ s => Some s | _ => None end.
Definition key_is (k : bytes) (kx : item * item) : bool :=
  match key_of kx with Some s => beq s k | None => false end.
(** All keys, if all are strings. *)
Fixpoint keys_of (l : list (item * item)) : option (list bytes) :=
  match l with
  | [] => Some []
  | kx :: l' => match key_of kx, keys_of l' with Some k, Some r => Some (k :: r) | _, _ => None end
  end.

(** ** Values written by the library *)

(** What the reader answers on a written value: the ideal table, except that small
    non-negative integers answer to both isInt and isUInt, integers of 128 and more only to
    isUInt, and the 64-bit accessors of the other sign wrap. *)
Definition T_mp (v : val) : table :=
  match v with
  | VInt z | VUInt z => int_tbl (z <? 128) (0 <=? z) z
  | _ => ideal v
  end.

(** Strings, blobs and keys shorter than [lim]; fewer than 2^32 elements. *)
Fixpoint lengths_below (lim : Z) (v : val) : Prop :=
  match v with
  | VStr s => zlen s < lim
  | VBlob b => zlen b < lim
  | VArr l => zlen l < 2^32 /\
      (fix go l := match l with [] => True | x :: l' => lengths_below lim x /\ go l' end) l
  | VMap l => zlen l < 2^32 /\
      (fix go l := match l with
                   | [] => True
                   | (k, x) :: l' => zlen k < lim /\ lengths_below lim x /\ go l'
                   end) l
  | _ => True
  end.

(** No str32/bin32 header in [b] announces a length within 5 of 2^32. *)
Definition no_huge (b : bytes) : Prop :=
  forall p m n, 0 <= p -> m = 219 \/ m = 198 -> 0 <= n < 2^32 ->
    slice b p 5 = m :: be 4 n -> n < 2^32 - 5.
