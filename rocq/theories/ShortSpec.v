(** ShortSpec.v -- values for which no shorter encoding of a number exists than the one the writers know. *)

From Coq Require Import ZArith List Bool.
From Verif Require Import Base Spec FloatModel FloatSpec MsgSpec.
From Verif Require CborSpec.
Import ListNotations.
Open Scope Z_scope.

(** No double inside [v] is a binary32 number (MessagePack could store those in 5 bytes instead of 9). *)
Definition no_f32 : val -> Prop := every (fun v => match v with VDbl x => forall y, 0 <= y < 2^32 -> f32_to_f64 y <> x | _ => True end).
(** No double inside [v] is a binary16 number, and none is a NaN that binary32 has too (CBOR could store those in 3 instead of 5 or 9, and in 5
    instead of 9 bytes). *)
Definition no_f16 : val -> Prop := every (fun v => match v with
  | VDbl x => (forall y, 0 <= y < 2^16 -> f16_to_f64 y <> x) /\ (f64_value x = Fnan -> forall y, 0 <= y < 2^32 -> f32_to_f64 y <> x)
  | _ => True
  end).

(** CBOR: no item of indefinite length, *)
Fixpoint definite (it : CborSpec.item) : Prop :=
  match it with
  | CborSpec.CBytesI _ | CborSpec.CTextI _ | CborSpec.CArrI _ | CborSpec.CMapI _ => False
  | CborSpec.CArr _ l => (fix go l := match l with [] => True | x :: l' => definite x /\ go l' end) l
  | CborSpec.CMap _ l => (fix go l := match l with [] => True | (k, x) :: l' => definite k /\ definite x /\ go l' end) l
  | CborSpec.CTag _ _ x => definite x
  | _ => True
  end.
(** or no array and no map with 256 or more entries, and no text or blob of 4 GiB or more: below that, indefinite lengths do not save anything. *)
Definition compact : val -> Prop := every (fun v => match v with
  | VStr s | VBlob s => zlen s < 2^32
  | VArr l => zlen l < 256
  | VMap l => zlen l < 256 /\ Forall (fun kx => zlen (fst kx) < 2^32) l
  | _ => True
  end).
