(** FlexTextSpec.v -- what debugging::dump_flex should print for a value; independent of the code.

    Like JSON, one entry per line, two more spaces per level.  Strings and keys between quotes, quotes and backslashes in
    them after a backslash; blobs by their size.  [fl]: the text of a double, left open. *)

From Coq Require Import ZArith List Bool String.
From Verif Require Import Base Spec TextSpec.
Import ListNotations.
Open Scope Z_scope.

Definition protect (c : Z) : bytes := match c with 34 => [92; 34] | 92 => [92; 92] | _ => [c] end.
Definition quoted (s : bytes) : bytes := quote ++ flat_map protect s ++ quote.
Fixpoint listing (fl : Z -> bytes) (pad : Z) (v : val) : bytes :=
  match v with
  | VNull => txt "null"
  | VBool b => truth b
  | VInt z | VUInt z => dec z
  | VDbl d => fl d
  | VStr s => quoted s
  | VBlob b => txt "<blob:" ++ dec (zlen b) ++ txt " bytes>"
  | VArr l => txt "[" ++ nl ++
      rows (map (fun x => spaces (pad + 2) ++ listing fl (pad + 2) x) l) ++ spaces pad ++ txt "]"
  | VMap l => txt "{" ++ nl ++
      rows (map (fun kx => spaces (pad + 2) ++ quoted (fst kx) ++ txt ": " ++ listing fl (pad + 2) (snd kx)) l)
      ++ spaces pad ++ txt "}"
  end.
