(** ZbufSpec.v -- resources over histories of buffer operations; hexdump text. *)

From Coq Require Import ZArith List Bool.
From Verif Require Import Base ZbufModel.
Import ListNotations.
Open Scope Z_scope.

(** ** Resources *)

(** Buffer [n] holds pointer [p] together with the user's deleter [id]. *)
Definition holds (w : world) (n : nat) (p id : Z) : Prop :=
  exists d c, slots w n = Some (SPtr (Some p) d c) /\ (d = DUser id \/ d = DWrap (Some id)).

(** The part of a trace that concerns pointer [p]. *)
Definition concerns (p : Z) (e : tev) : bool := match e with TAdopt q _ | TDelete q _ => q =? p end.
Definition of_ptr (p : Z) (l : list tev) : list tev := filter (concerns p) l.
(** Every adoption was followed by one call of the deleter it came with. *)
Inductive released (p : Z) : list tev -> Prop :=
| rel_nil : released p []
| rel_more l id : released p l -> released p (l ++ [TAdopt p id; TDelete p id]).

(** The caller passes a deleter with every pointer. *)
Definition has_deleter (o : zop) : Prop := match o with OPointer _ _ (Some _) _ None => False | _ => True end.
(** The caller does not hand over a pointer that some buffer still holds. *)
Definition fresh (w : world) (o : zop) : Prop :=
  match o with OPointer _ _ (Some p) _ _ => forall m id, ~ holds w m p id | _ => True end.
Fixpoint polite (w : world) (ops : list zop) : Prop :=
  match ops with [] => True | o :: ops' => fresh w o /\ forall w', zstep w o = Ok w' -> polite w' ops' end.

(** ** Contents

    [blk p]: the bytes at pointer [p].  Each variable: absent, holding given bytes, or moved from ([Some None]). *)
Definition contents : Type := nat -> option (option bytes).
Definition cset (f : contents) (n : nat) (x : option (option bytes)) : contents := fun m => if Nat.eqb m n then x else f m.
Definition is_null (ptr : option Z) : bool := match ptr with None => true | _ => false end.
Definition cstep (blk : Z -> bytes) (c : contents) (o : zop) : contents :=
  match o with
  | ODefault n => match c n with None => cset c n (Some (Some [])) | _ => c end
  | OVector n b => match c n with None => cset c n (Some (Some b)) | _ => c end
  | OPointer n k ptr size del =>
      match c n with
      | None =>
          if (0 <? size) && is_null ptr then c                                          (* rejected *)
          else if match k, del with KU8, None => true | _, _ => false end then c        (* rejected *)
          else cset c n (Some (Some match ptr with Some p => firstn (Z.to_nat size) (blk p) | None => [] end))
      | _ => c
      end
  | OMove n m => match c n, c m with None, Some x => cset (cset c m (Some None)) n (Some x) | _, _ => c end
  | OAssign n m =>
      match c n, c m with
      | Some _, Some x => if Nat.eqb n m then cset c n (Some None) else cset (cset c m (Some None)) n (Some x)
      | _, _ => c
      end
  | ODestroy n => cset c n None
  end.
Definition crun (blk : Z -> bytes) (ops : list zop) : contents := fold_left (cstep blk) ops (fun _ => None).
(** Sizes are sizes of the memory passed. *)
Definition honest (blk : Z -> bytes) (o : zop) : Prop :=
  match o with OPointer _ _ ptr size _ => 0 <= size /\ match ptr with Some p => size <= zlen (blk p) | None => True end | _ => True end.
(** Memory: a pointer is readable until its deleter has been called. *)
Definition dead (p : Z) (l : list tev) : bool := match rev (of_ptr p l) with TDelete _ _ :: _ => true | _ => false end.
Definition mem_of (blk : Z -> bytes) (w : world) (p : Z) : option bytes := if dead p (trace w) then None else Some (blk p).

(** ** hexdump *)
Definition digit_value (c : Z) : option Z :=
  if (48 <=? c) && (c <=? 57) then Some (c - 48) else if (97 <=? c) && (c <=? 102) then Some (c - 87) else None.
Fixpoint hex_value (acc : Z) (s : bytes) : option Z :=
  match s with [] => Some acc | c :: s' => match digit_value c with Some d => hex_value (16 * acc + d) s' | None => None end end.
(** [s] writes [z] in hexadecimal with at least [w] digits and no more leading zeros than needed for that. *)
Definition hex_text (w z : Z) (s : bytes) : Prop := hex_value 0 s = Some z /\ w <= zlen s /\ (w < zlen s -> hd 48 s <> 48).
(** One row: offset, [w] cells with a gap after the eighth, printable characters. *)
Inductive cells (chunk : bytes) : nat -> nat -> bytes -> Prop :=
| cells_nil j : cells chunk j O []
| cells_byte j k c h out : nth_error chunk j = Some c -> hex_text 2 c h -> cells chunk (S j) k out ->
    cells chunk j (S k) (h ++ [32] ++ (if Nat.eqb j 7 then [32] else []) ++ out)
| cells_pad j k out : nth_error chunk j = None -> cells chunk (S j) k out ->
    cells chunk j (S k) ([32; 32; 32] ++ (if Nat.eqb j 7 then [32] else []) ++ out).
Definition shown (c : Z) : Z := if (32 <=? c) && (c <=? 126) then c else 46.
Definition row_text (w : nat) (ofs : Z) (chunk : bytes) (r : bytes) : Prop :=
  exists o h, hex_text 8 ofs o /\ cells chunk O w h /\ r = o ++ [32; 32] ++ h ++ [32; 124] ++ map shown chunk ++ [124; 10].
