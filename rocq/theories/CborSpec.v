(** CborSpec.v -- the CBOR format (RFC 8949), independent of the code. *)

From Coq Require Import ZArith List Bool.
From Verif Require Import Base Spec FloatModel FloatSpec.
Import ListNotations.
Open Scope Z_scope.

(** [n] big-endian bytes of [v]. *)
Fixpoint be (n : nat) (v : Z) : bytes :=
  match n with O => [] | S k => (v / 256 ^ Z.of_nat k) mod 256 :: be k v end.

(** Where the argument of an initial byte is stored: in it, or in the 1, 2, 4, 8 bytes after it. *)
Inductive arg : Type := A0 | A1 | A2 | A4 | A8.
Definition arg_cap (f : arg) : Z :=
  match f with A0 => 24 | A1 => 2^8 | A2 => 2^16 | A4 => 2^32 | A8 => 2^64 end.
Definition hdr (m : Z) (f : arg) (n : Z) : bytes :=
  match f with
  | A0 => [32 * m + n]
  | A1 => (32 * m + 24) :: be 1 n
  | A2 => (32 * m + 25) :: be 2 n
  | A4 => (32 * m + 26) :: be 4 n
  | A8 => (32 * m + 27) :: be 8 n
  end.

(** One data item in one particular encoding (not necessarily the shortest); the [..I] forms have
    indefinite length. *)
Inductive item : Type :=
| CUInt (f : arg) (n : Z)
| CNeg (f : arg) (n : Z)                         (* the number -1 - n *)
| CBytes (f : arg) (b : bytes)
| CBytesI (chunks : list (arg * bytes))
| CText (f : arg) (s : bytes)
| CTextI (chunks : list (arg * bytes))
| CArr (f : arg) (l : list item)
| CArrI (l : list item)
| CMap (f : arg) (l : list (item * item))
| CMapI (l : list (item * item))
| CTag (f : arg) (n : Z) (x : item)
| CSimple (n : Z)                                (* 20 false, 21 true, 22 null, 23 undefined *)
| CSimple8 (n : Z)                               (* one-byte simple value *)
| CF16 (x : Z)
| CF32 (x : Z)
| CF64 (x : Z).

Definition chunk (m : Z) (c : arg * bytes) : bytes := hdr m (fst c) (zlen (snd c)) ++ snd c.
Fixpoint enc (it : item) : bytes :=
  match it with
  | CUInt f n => hdr 0 f n
  | CNeg f n => hdr 1 f n
  | CBytes f b => hdr 2 f (zlen b) ++ b
  | CBytesI l => [95] ++ flat_map (chunk 2) l ++ [255]
  | CText f s => hdr 3 f (zlen s) ++ s
  | CTextI l => [127] ++ flat_map (chunk 3) l ++ [255]
  | CArr f l => hdr 4 f (zlen l) ++ flat_map enc l
  | CArrI l => [159] ++ flat_map enc l ++ [255]
  | CMap f l => hdr 5 f (zlen l) ++ flat_map (fun kx => enc (fst kx) ++ enc (snd kx)) l
  | CMapI l => [191] ++ flat_map (fun kx => enc (fst kx) ++ enc (snd kx)) l ++ [255]
  | CTag f n x => hdr 6 f n ++ enc x
  | CSimple n => [224 + n]
  | CSimple8 n => [248; n]
  | CF16 x => 249 :: be 2 x
  | CF32 x => 250 :: be 4 x
  | CF64 x => 251 :: be 8 x
  end.

Definition chunks_ok (l : list (arg * bytes)) : Prop :=
  Forall (fun c => bytes_ok (snd c) /\ zlen (snd c) < arg_cap (fst c)) l.

(** Well-formed items; [s8] says whether one-byte simple values (0xf8 ..) may occur. *)
Fixpoint item_in (s8 : bool) (it : item) : Prop :=
  match it with
  | CUInt f n | CNeg f n => 0 <= n < arg_cap f
  | CBytes f b => bytes_ok b /\ zlen b < arg_cap f
  | CText f s => bytes_ok s /\ zlen s < arg_cap f
  | CBytesI l | CTextI l => chunks_ok l
  | CArr f l => zlen l < arg_cap f /\
      (fix go l := match l with [] => True | x :: l' => item_in s8 x /\ go l' end) l
  | CArrI l => (fix go l := match l with [] => True | x :: l' => item_in s8 x /\ go l' end) l
  | CMap f l => zlen l < arg_cap f /\
      (fix go l := match l with
                   | [] => True
                   | (k, x) :: l' => item_in s8 k /\ item_in s8 x /\ go l'
                   end) l
  | CMapI l =>
      (fix go l := match l with
                   | [] => True
                   | (k, x) :: l' => item_in s8 k /\ item_in s8 x /\ go l'
                   end) l
  | CTag f n x => 0 <= n < arg_cap f /\ item_in s8 x
  | CSimple n => 0 <= n < 24
  | CSimple8 n => s8 = true /\ 32 <= n < 256
  | CF16 x => 0 <= x < 2^16
  | CF32 x => 0 <= x < 2^32
  | CF64 x => 0 <= x < 2^64
  end.
Definition item_ok : item -> Prop := item_in true.
Definition item_plain : item -> Prop := item_in false.

(** What the leaf part of the Reader interface answers on an item.  Both signs answer isInt; asInt64 of
    a non-negative integer is that number modulo 2^64 as signed. *)
Definition int_tbl (z : Z) : table :=
  mkTable false false true (0 <=? z) false false false false false
          None (fun iw => if z <? 0 then fits_s iw z else fits_s iw (to_signed 64 z))
          (fun iw => fits_u iw z) None None None.

(** Chunked strings are only available through asString(): asStringView() and asBlob() throw. *)
Definition item_table (it : item) : table :=
  match it with
  | CUInt _ n => int_tbl n
  | CNeg _ n => int_tbl (-1 - n)
  | CBytes _ b => ideal (VBlob b)
  | CBytesI _ => mkTable false false false false false false true false false
                         None (fun _ => None) (fun _ => None) None None None
  | CText _ s => ideal (VStr s)
  | CTextI _ => mkTable false false false false false true false false false
                        None (fun _ => None) (fun _ => None) None None None
  | CArr _ _ | CArrI _ => ideal (VArr [])
  | CMap _ _ | CMapI _ => ideal (VMap [])
  | CTag _ _ _ | CSimple8 _ => blank
  | CSimple n => if n =? 20 then ideal (VBool false) else if n =? 21 then ideal (VBool true)
                 else if n =? 22 then ideal VNull else blank
  | CF16 x => ideal (VDbl (f16_to_f64 x))
  | CF32 x => ideal (VDbl (f32_to_f64 x))
  | CF64 x => ideal (VDbl x)
  end.
Definition is_chunked_text (it : item) : bool := match it with CTextI _ => true | _ => false end.

(** The text of a text string, in one piece or chunked. *)
Definition text_of (it : item) : option bytes :=
  match it with
  | CText _ s => Some s
  | CTextI l => Some (flat_map snd l)
  | _ => None
  end.
(** All keys, if all are text strings. *)
Fixpoint keys_of (l : list (item * item)) : option (list bytes) :=
  match l with
  | [] => Some []
  | kx :: l' => match text_of (fst kx), keys_of l' with Some k, Some r => Some (k :: r) | _, _ => None end
  end.
(** Looking for key [k] from the front: [Some (Some x)] found, [Some None] absent, [None] when a key that
    is not a text string comes first. *)
Fixpoint lookup (k : bytes) (l : list (item * item)) : option (option item) :=
  match l with
  | [] => Some None
  | kx :: l' =>
      match text_of (fst kx) with
      | None => None
      | Some s => if beq s k then Some (Some (snd kx)) else lookup k l'
      end
  end.

(** The encoding ends with the header of an empty text or byte string. *)
Fixpoint ends_empty (it : item) : bool :=
  match it with
  | CBytes _ [] | CText _ [] => true
  | CArr _ l => (fix go l := match l with [] => false | [x] => ends_empty x | _ :: l' => go l' end) l
  | CMap _ l => (fix go l := match l with [] => false | [(_, x)] => ends_empty x | _ :: l' => go l' end) l
  | CTag _ _ x => ends_empty x
  | _ => false
  end.
(** [it] is encoded at [p] in [b], and ([hard]: for hardened spans) not with an empty string at the very
    end of the buffer. *)
Definition sits (hard : bool) (b : bytes) (p : Z) (it : item) : Prop :=
  0 <= p /\ slice b p (zlen (enc it)) = enc it /\ p + zlen (enc it) <= zlen b /\
  (hard = false \/ ends_empty it = false \/ p + zlen (enc it) < zlen b).

(** ** Values written by the library *)
Definition T_cbor (v : val) : table :=
  match v with
  | VInt z | VUInt z => int_tbl z
  | _ => ideal v
  end.

(** Nesting depth of arrays and maps. *)
Fixpoint depth (v : val) : Z :=
  match v with
  | VArr l => 1 + fold_right Z.max 0 (map depth l)
  | VMap l => 1 + fold_right Z.max 0 (map (fun kx => depth (snd kx)) l)
  | _ => 0
  end.

(** The value is, or ends with, an empty string or blob. *)
Fixpoint last_empty (v : val) : bool :=
  match v with
  | VStr [] | VBlob [] => true
  | VArr l => (fix go l := match l with [] => false | [x] => last_empty x | _ :: l' => go l' end) l
  | VMap l => (fix go l := match l with [] => false | [(_, x)] => last_empty x | _ :: l' => go l' end) l
  | _ => false
  end.

(** No string header in [b] announces 2^63 bytes or more. *)
Definition no_huge (b : bytes) : Prop :=
  forall p m n, 0 <= p -> m = 91 \/ m = 123 -> 0 <= n < 2^64 ->
    slice b p 9 = m :: be 8 n -> n < 2^63.

(** A float item needs its whole payload; [x] is the initial byte. *)
Definition float_size (x : Z) : option Z :=
  if x =? 249 then Some 3 else if x =? 250 then Some 5 else if x =? 251 then Some 9 else None.
