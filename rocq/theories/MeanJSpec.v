(** MeanJSpec.v -- the value that a JSON text stands for, independent of the code. *)

From Coq Require Import ZArith List Bool.
From Verif Require Import Base Spec TransSpec Utf8Spec JsonSpec MeanSpec JTextSpec.
Import ListNotations.
Open Scope Z_scope.

Section Meaning.
(** [real neg m e]: the double a decimal (-1)^neg * m * 10^e stands for. *)
Variable real : bool -> Z -> Z -> Z.

(** An integer is an int64_t if it is in that range, else a uint64_t, else a double. *)
Definition int_value (z : Z) : val :=
  if (- 2 ^ 63 <=? z) && (z <? 2 ^ 63) then VInt z
  else if (2 ^ 63 <=? z) && (z <? 2 ^ 64) then VUInt z
  else VDbl (real (z <? 0) (Z.abs z) 0).

(** The syntax tree of a JSON text in terms of the value type of this library: ["~b", text, "base64"] is a blob, and has no
    value if the text is not base64; where a key is repeated, its first value counts. *)
Fixpoint json_value (t : val) : option val :=
  match t with
  | VInt z | VUInt z => Some (int_value z)
  | VBlob _ => None
  | VArr l => match blob_text t with
      | Some s => option_map VBlob (unb64 s)
      | None => option_map VArr (all_some (map json_value l))
      end
  | VMap l => option_map VMap (all_entries (firsts (map (fun kx => (fst kx, json_value (snd kx))) l)))
  | _ => Some t
  end.

(** No number is out of the range of a double. *)
Definition numbers_finite : val -> Prop := every (fun v =>
  match v with
  | VDbl d => finite d
  | VInt z | VUInt z => match int_value z with VDbl d => finite d | _ => True end
  | _ => True
  end).

(** The bytes are a JSON text, its strings and keys are UTF-8, its numbers finite, and [x] is its value. *)
Definition json_stands_for (b : bytes) (x : val) : Prop :=
  exists t, text real b t /\ texts_utf8 t /\ numbers_finite t /\ json_value t = Some x.

(** No integer in the text is one that only uint64_t has. *)
Definition no_large_ints (b : bytes) : Prop := forall t, text real b t ->
  every (fun v => match v with VInt z | VUInt z => ~ (2 ^ 63 <= z < 2 ^ 64) | _ => True end) t.
End Meaning.
