(** MeanCSpec.v -- the value that a CBOR data item stands for. *)

From Coq Require Import ZArith List Bool.
From Verif Require Import Base Spec FloatModel FloatSpec TransSpec MeanSpec CborSpec.
Import ListNotations.
Open Scope Z_scope.

(** RFC 8949 in terms of the value type of this library.  Items without a value: integers below -2^63, tags, simple values other than
    false, true and null, maps with a key that is not a text string, and whatever contains one.  Integers are [VInt] as long as
    they are below 2^63.  Where a key is repeated, its first value counts. *)
Fixpoint cb_meaning (it : item) : option val :=
  match it with
  | CUInt _ n => Some (if n <? 2^63 then VInt n else VUInt n)
  | CNeg _ n => if n <? 2^63 then Some (VInt (-1 - n)) else None
  | CBytes _ b => Some (VBlob b)
  | CBytesI l => Some (VBlob (flat_map snd l))
  | CText _ s => Some (VStr s)
  | CTextI l => Some (VStr (flat_map snd l))
  | CArr _ l | CArrI l => option_map VArr (all_some (map cb_meaning l))
  | CMap _ l | CMapI l => match keys_of l with
      | None => None
      | Some ks => option_map VMap (all_entries (firsts (combine ks (map (fun kx => cb_meaning (snd kx)) l))))
      end
  | CTag _ _ _ | CSimple8 _ => None
  | CSimple n => if n =? 20 then Some (VBool false) else if n =? 21 then Some (VBool true) else if n =? 22 then Some VNull else None
  | CF16 x => Some (VDbl (f16_to_f64 x))
  | CF32 x => Some (VDbl (f32_to_f64 x))
  | CF64 x => Some (VDbl x)
  end.

(** No integers from 2^63 on, no strings in chunks except as keys, no maps of indefinite length.  Arrays of indefinite length may occur, and
    inside tags and keys anything. *)
Fixpoint cb_common (it : item) : Prop :=
  match it with
  | CUInt _ n => n < 2^63
  | CBytesI _ | CTextI _ | CMapI _ => False
  | CArr _ l | CArrI l => (fix go l := match l with [] => True | x :: l' => cb_common x /\ go l' end) l
  | CMap _ l => (fix go l := match l with [] => True | kx :: l' => cb_common (snd kx) /\ go l' end) l
  | _ => True
  end.
