(** MeanZSpec.v -- the value that a ZERA message stands for, after ZERA.md. *)

From Coq Require Import ZArith List Bool.
From Verif Require Import Base Spec ZeraSpec.
Import ListNotations.
Open Scope Z_scope.

(** Entries of an object payload from offset [p] on: keys and offsets of the values ("Objects": key_len, reserved, key bytes,
    ValueRef16).  The reserved field may hold anything. *)
Inductive obj_entries (env : bytes) : Z -> list (bytes * Z) -> Prop :=
| oe_nil p : obj_entries env p []
| oe_cons p l : p + 4 + u16_at env p + 16 <= zlen env -> obj_entries env (p + 4 + u16_at env p + 16) l ->
    obj_entries env p ((slice env (p + 4) (u16_at env p), p + 4 + u16_at env p) :: l).

(** The ValueRef16 at offset [p] of the envelope stands for [x].  [tag; flags] in the first two bytes, [aux] in the next two, then
    [a], [b], [c].  Flags of null and padding are not looked at.  Where a key is repeated, its first value counts. *)
Fixpoint denotes (env arena : bytes) (p : Z) (x : val) {struct x} : Prop :=
  let aux := u16_at env (p + 2) in let a := u32_at env (p + 4) in let b := u32_at env (p + 8) in let c := u32_at env (p + 12) in
  0 <= p /\ p + 16 <= zlen env /\
  match x with
  | VNull => slice env p 1 = [0]
  | VBool v => slice env p 2 = [1; 0] /\ aux = (if v then 1 else 0)
  | VInt z => slice env p 2 = [2; 0] /\ (let u := le_val (slice env (p + 4) 8) in z = if u <? 2^63 then u else u - 2^64)
  | VUInt z => slice env p 2 = [8; 0] /\ z = le_val (slice env (p + 4) 8)
  | VDbl z => slice env p 2 = [3; 0] /\ z = le_val (slice env (p + 4) 8)
  | VStr s => slice env p 2 = [4; 1] /\ aux <= 12 /\ s = slice env (p + 4) aux \/
              slice env p 2 = [4; 0] /\ a + b <= zlen arena /\ s = slice arena a b
  | VBlob s => slice env p 2 = [7; 0] /\ aux = 2 /\ c + 12 <= zlen env /\ u32_at env c = 1 /\ le_val (slice env (c + 4) 8) = b /\
               a + b <= zlen arena /\ s = slice arena a b
  | VArr l => slice env p 2 = [5; 0] /\ a + 4 + 16 * zlen l <= zlen env /\ u32_at env a = zlen l /\
              (fix go q l := match l with [] => True | y :: l' => denotes env arena q y /\ go (q + 16) l' end) (a + 4) l
  | VMap l => slice env p 2 = [6; 0] /\ a + 4 <= zlen env /\
              exists es, obj_entries env (a + 4) es /\ zlen es = u32_at env a /\ map fst l = map fst es /\
              (fix go l := match l with
                           | [] => True
                           | (k, y) :: l' => (exists e, find (fun e => beq (fst e) k) es = Some e /\ denotes env arena (snd e) y) /\ go l'
                           end) l
  end.

(** The message as a whole: header, envelope, arena. *)
Definition zera_stands_for (b : bytes) (x : val) : Prop :=
  header_ok b /\ denotes (slice b 20 (u32_at b 12)) (slice b (u32_at b 16) (zlen b - u32_at b 16)) (u32_at b 8) x.
