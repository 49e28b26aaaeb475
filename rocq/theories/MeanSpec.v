(** MeanSpec.v -- the value that a MessagePack object stands for. *)

From Coq Require Import ZArith List Bool.
From Verif Require Import Base Spec FloatModel TransSpec MsgSpec.
Import ListNotations.
Open Scope Z_scope.

(** All entries, if each of them has a value. *)
Fixpoint all_entries (l : list (bytes * option val)) : option (list (bytes * val)) :=
  match l with
  | [] => Some []
  | (k, Some x) :: l' => option_map (cons (k, x)) (all_entries l')
  | (_, None) :: _ => None
  end.

(** msgpack.org spec.md in terms of the value type of this library.  Objects without a value: maps with a key that is
    not a string, and whatever contains one (extension types are no objects of MsgSpec.v at all).  Where a key is
    repeated, its first value counts. *)
Fixpoint mp_meaning (it : item) : option val :=
  match it with
  | MNil => Some VNull
  | MBool b => Some (VBool b)
  | MFixInt z | MSInt _ z => Some (VInt z)
  | MUInt _ z => Some (VUInt z)
  | MF32 x => Some (VDbl (f32_to_f64 x))
  | MF64 x => Some (VDbl x)
  | MStr _ s => Some (VStr s)
  | MBin _ b => Some (VBlob b)
  | MArr _ l => option_map VArr (all_some (map mp_meaning l))
  | MMap _ l => match keys_of l with
      | None => None
      | Some ks => option_map VMap (all_entries (firsts (combine ks (map (fun kx => mp_meaning (snd kx)) l))))
      end
  end.
