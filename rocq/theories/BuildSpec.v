(** BuildSpec.v -- the value tree a serializable C++ expression stands for. *)

From Coq Require Import ZArith List Bool.
From Verif Require Import Base Spec FloatModel BuildModel.
Import ListNotations.
Open Scope Z_scope.

Inductive denotes : bexp -> val -> Prop :=
| d_null : denotes BNull VNull
| d_bool b : denotes (BBool b) (VBool b)
| d_char z : denotes (BChar z) (VInt z)
| d_int z : denotes (BInt z) (VInt z)
| d_uint z : denotes (BUInt z) (VUInt z)
| d_float x : denotes (BFloat x) (VDbl (f32_to_f64 x))
| d_double x : denotes (BDouble x) (VDbl x)
| d_cstr s rest : ~ In 0 s -> denotes (BCStr (s ++ 0 :: rest)) (VStr s)
| d_text s : denotes (BText s) (VStr s)
| d_bytes b : denotes (BBytes b) (VBlob b)
| d_seq l vs : Forall2 denotes l vs -> denotes (BSeq l) (VArr vs)
| d_assoc l vs : Forall2 (fun kx ky => fst kx = fst ky /\ denotes (snd kx) (snd ky)) l vs -> denotes (BAssoc l) (VMap vs)
| d_vec l vs : Forall2 denotes l vs -> denotes (BVec l) (VArr vs)
| d_zmap l vs : Forall2 (fun kx ky => fst kx = fst ky ++ [0] /\ denotes (snd kx) (snd ky)) l vs -> denotes (BZmap l) (VMap vs)
| d_dyn d v : denotes_dyn d v -> denotes (BDyn d) v
| d_user v : denotes (BUser (events v)) v
with denotes_dyn : dyn -> val -> Prop :=
| dd_null : denotes_dyn DNull VNull
| dd_bool b : denotes_dyn (DBool b) (VBool b)
| dd_int z : denotes_dyn (DInt z) (VInt z)
| dd_uint z : denotes_dyn (DUInt z) (VUInt z)
| dd_dbl x : denotes_dyn (DDbl x) (VDbl x)
| dd_str s : denotes_dyn (DStr s) (VStr s)
| dd_blob b : denotes_dyn (DBlob b) (VBlob b)
| dd_arr l vs : Forall2 denotes_dyn l vs -> denotes_dyn (DArr l) (VArr vs)
| dd_map l vs : Forall2 (fun kx ky => fst kx = fst ky /\ denotes_dyn (snd kx) (snd ky)) l vs -> denotes_dyn (DMap l) (VMap vs)
| dd_ser e v : denotes e v -> denotes_dyn (DSer e) v.

(** The equivalent expression without dynamic values on the outside. *)
Fixpoint static (d : dyn) : bexp :=
  match d with
  | DNull => BNull
  | DBool b => BBool b
  | DInt z => BInt z
  | DUInt z => BUInt z
  | DDbl x => BDouble x
  | DStr s => BText s
  | DBlob b => BBytes b
  | DArr l => BVec (map static l)
  | DMap l => BZmap (map (fun kx => (fst kx ++ [0], static (snd kx))) l)
  | DSer e => e
  end.

(** C strings have a terminator, literals end in NUL, user overloads emit one value. *)
Fixpoint sound (e : bexp) : Prop :=
  match e with
  | BCStr mem => In 0 mem
  | BSeq l | BVec l => (fix go l := match l with [] => True | x :: l' => sound x /\ go l' end) l
  | BAssoc l => (fix go l := match l with [] => True | (_, x) :: l' => sound x /\ go l' end) l
  | BZmap l => (fix go l := match l with [] => True | (k, x) :: l' => (exists s, k = s ++ [0]) /\ sound x /\ go l' end) l
  | BDyn d => sound_dyn d
  | BUser es => exists v, es = events v
  | _ => True
  end
with sound_dyn (d : dyn) : Prop :=
  match d with
  | DArr l => (fix go l := match l with [] => True | x :: l' => sound_dyn x /\ go l' end) l
  | DMap l => (fix go l := match l with [] => True | (_, x) :: l' => sound_dyn x /\ go l' end) l
  | DSer e => sound e
  | _ => True
  end.
