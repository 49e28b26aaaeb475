(** ZeraSpec.v -- what the ZERA writer is supposed to do, on values.

    A stack machine over [val] with the size accounting of ZERA.md (ValueRef =
    16 bytes, array = 4 + 16 n, object entry = 4 + key + 16, blob shape = 12,
    arena strings unaligned, arena blobs aligned to 16).  No bytes, no offsets. *)

From Coq Require Import ZArith List Bool.
From Verif Require Import Base Spec.
Import ListNotations.
Open Scope Z_scope.

Definition up16 (n : Z) : Z := (n + 15) / 16 * 16.

Inductive frame : Type :=
| FArr (vs : list val)                                  (* elements so far *)
| FMap (es : list (bytes * val)) (pend : option bytes)  (* entries so far, key awaiting its value *)
| FStuck.                                               (* map ended with a dangling key *)

Record ast : Type := mkA {
  a_fr : list frame;          (* open containers, innermost first *)
  a_root : option val;
  a_env : Z;                  (* envelope bytes so far *)
  a_arena : Z;                (* arena bytes so far *)
  a_thr : Z                   (* inline string threshold *)
}.

Definition a_init : ast := mkA [] None 0 0 12.

Definition a_push (a : ast) (f : frame) : ast := mkA (f :: a_fr a) (a_root a) (a_env a) (a_arena a) (a_thr a).
Definition a_set (a : ast) (fr : list frame) : ast := mkA fr (a_root a) (a_env a) (a_arena a) (a_thr a).
Definition a_grow (a : ast) (de da : Z) : ast :=
  mkA (a_fr a) (a_root a) (a_env a + de) (a_arena a + da) (a_thr a).

(** A complete value arrives. *)
Definition adeliver (v : val) (a : ast) : ast * res unit :=
  match a_fr a with
  | [] => match a_root a with
          | Some _ => (a, Throw ESer)
          | None => if u32_max <? a_env a then (a, Throw ESer)
                    else (mkA [] (Some v) (a_env a + 16) (a_arena a) (a_thr a), Ok tt)
          end
  | FArr vs :: fr => (a_set a (FArr (vs ++ [v]) :: fr), Ok tt)
  | FMap es (Some k) :: fr => (a_set a (FMap (es ++ [(k, v)]) None :: fr), Ok tt)
  | FMap es None :: fr => (a, Throw ESer)
  | FStuck :: fr => (a, Throw ESer)
  end.

Definition map_size (es : list (bytes * val)) : Z :=
  4 + fold_right (fun kx n => 4 + zlen (fst kx) + 16 + n) 0 es.

Definition astep (a : ast) (e : ev) : ast * res unit :=
  match e with
  | ENull => adeliver VNull a
  | EBool b => adeliver (VBool b) a
  | EInt z => adeliver (VInt z) a
  | EUInt z => adeliver (VUInt z) a
  | EDbl z => adeliver (VDbl z) a
  | EStr s =>
      if zlen s <=? Z.min (a_thr a) 12 then adeliver (VStr s) a
      else if u32_max <? zlen s then (a, Throw ESer)
      else let a' := a_grow a 0 (zlen s) in
           if u32_max <? a_arena a then (a', Throw ESer) else adeliver (VStr s) a'
  | EBin b =>
      if u32_max <? zlen b then (a, Throw ESer)
      else let a' := a_grow a 0 (up16 (a_arena a) - a_arena a + zlen b) in
           if u32_max <? up16 (a_arena a) then (a', Throw ESer)
           else if u32_max <? a_env a then (a', Throw ESer)
           else adeliver (VBlob b) (a_grow a' 12 0)
  | EKey k =>
      match a_fr a with
      | FMap es None :: fr =>
          if 65535 <? zlen k then (a, Throw ESer) else (a_set a (FMap es (Some k) :: fr), Ok tt)
      | _ => (a, Throw ESer)
      end
  | EBeginArr n => if wrap64 (4 + wrap64 (n * 16)) <=? i64_max
                   then (a_push a (FArr []), Ok tt) else (a, Throw ELength)
  | EEndArr =>
      match a_fr a with
      | FArr vs :: fr =>
          let a1 := a_set a fr in
          if u32_max <? a_env a then (a1, Throw ESer)
          else adeliver (VArr vs) (a_grow a1 (4 + 16 * zlen vs) 0)
      | _ => (a, Throw ESer)
      end
  | EBeginMap n => if wrap64 (4 + wrap64 (n * 28)) <=? i64_max
                   then (a_push a (FMap [] None), Ok tt) else (a, Throw ELength)
  | EEndMap =>
      match a_fr a with
      | FMap es None :: fr =>
          let a1 := a_set a fr in
          if u32_max <? a_env a then (a1, Throw ESer)
          else adeliver (VMap es) (a_grow a1 (map_size es) 0)
      | FMap es (Some k) :: fr => (a_set a (FStuck :: fr), Throw ESer)
      | _ => (a, Throw ESer)
      end
  end.

(** finish(): the value of the message. *)
Definition afinish (a : ast) : ast * res val :=
  match a_fr a with
  | _ :: _ => (a, Throw ESer)
  | [] =>
      let '(a1, r) := match a_root a with
                      | Some v => (a, Ok v)
                      | None => match adeliver VNull a with
                                | (a', Ok _) => (a', Ok VNull)
                                | (a', _) => (a', Throw ESer)
                                end
                      end in
      match r with
      | Ok v => if (a_env a1 <=? u32_max) && (a_arena a1 <=? u32_max) &&
                   (up16 (20 + a_env a1) <=? u32_max)
                then (a1, Ok v) else (a1, Throw ESer)
      | _ => (a1, Throw ESer)
      end
  end.

Fixpoint arun_catch (a : ast) (es : list ev) : ast * list (res unit) :=
  match es with
  | [] => (a, [])
  | e :: es' =>
      let (a1, r) := astep a e in
      let (a2, rs) := arun_catch a1 es' in
      (a2, r :: rs)
  end.

(** The documented message layout (ZERA.md): 20-byte header, envelope, zero padding to
    a multiple of 16, arena. *)
Definition le_bytes (n : nat) (z : Z) : bytes :=
  map (fun i => z / 256 ^ Z.of_nat i mod 256) (seq 0 n).
Definition arena_ofs_of (env_size : Z) : Z := up16 (20 + env_size).
Definition zera_layout (root : Z) (env arena : bytes) : bytes :=
  [90; 69; 78; 86] ++ le_bytes 2 1 ++ le_bytes 2 1 ++ le_bytes 4 root ++
  le_bytes 4 (zlen env) ++ le_bytes 4 (arena_ofs_of (zlen env)) ++
  env ++ repeat 0 (Z.to_nat (arena_ofs_of (zlen env) - 20 - zlen env)) ++ arena.

(** ** Size accounting of one value *)

(** Envelope bytes a value needs besides its own 16-byte ValueRef. *)
Fixpoint env_need (v : val) : Z :=
  match v with
  | VBlob _ => 12
  | VArr l => 4 + 16 * zlen l + fold_right (fun x n => env_need x + n) 0 l
  | VMap l => map_size l + fold_right (fun kx n => env_need (snd kx) + n) 0 l
  | _ => 0
  end.

(** Arena size after writing [v], starting from an arena of [a] bytes: strings longer
    than the inline threshold are appended, blobs are appended at the next multiple of 16. *)
Fixpoint arena_after (thr a : Z) (v : val) : Z :=
  match v with
  | VStr s => if zlen s <=? Z.min thr 12 then a else a + zlen s
  | VBlob b => up16 a + zlen b
  | VArr l => fold_left (arena_after thr) l a
  | VMap l => fold_left (fun a kx => arena_after thr a (snd kx)) l a
  | _ => a
  end.

(** Every key of every map inside [v] has at most 65535 bytes. *)
Fixpoint keys_ok (v : val) : Prop :=
  match v with
  | VArr l => fold_right (fun x P => keys_ok x /\ P) True l
  | VMap l => fold_right (fun kx P => zlen (fst kx) <= 65535 /\ keys_ok (snd kx) /\ P) True l
  | _ => True
  end.

(** The size of the envelope / arena of the message for [v] (default threshold). *)
Definition env_size_of (v : val) : Z := env_need v + 16.
Definition arena_size_of (v : val) : Z := arena_after 12 0 v.

(** The documented limits: 16-bit key lengths, 32-bit envelope offset, arena size. *)
Definition zera_fits (v : val) : Prop :=
  keys_ok v /\ arena_ofs_of (env_size_of v) <= u32_max /\ arena_size_of v <= u32_max.

(** ** Arbitrary buffers *)

(** The number a little-endian byte string denotes. *)
Definition le_val (l : bytes) : Z := fold_right (fun b n => b + 256 * n) 0 l.

(** The integer stored in the ValueRef at offset [p]: tag 2 is a signed, tag 8 an
    unsigned 64-bit little-endian number in bytes 4..11; flags must be 0. *)
Definition stored_int (b : bytes) (p : Z) : option Z :=
  match slice b p 2 with
  | [2; 0] => let u := le_val (slice b (p + 4) 8) in Some (if u <? 2^63 then u else u - 2^64)
  | [8; 0] => Some (le_val (slice b (p + 4) 8))
  | _ => None
  end.

(** The header fields at their documented offsets. *)
Definition u32_at (b : bytes) (p : Z) : Z := le_val (slice b p 4).
Definition u16_at (b : bytes) (p : Z) : Z := le_val (slice b p 2).

Record header_ok (b : bytes) : Prop := {
  ho_len : 20 <= zlen b;
  ho_magic : slice b 0 4 = [90; 69; 78; 86];                     (* "ZENV" *)
  ho_version : u16_at b 4 = 1;
  ho_flags : u16_at b 6 = 1;
  ho_root : u32_at b 8 + 16 <= u32_at b 12;                      (* root ValueRef inside the envelope *)
  ho_env : 20 + u32_at b 12 <= u32_at b 16;                      (* envelope before the arena *)
  ho_align : u32_at b 16 mod 16 = 0;
  ho_arena : u32_at b 16 <= zlen b
}.
