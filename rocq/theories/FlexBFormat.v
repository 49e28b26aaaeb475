(** FlexBFormat.v -- the FlexBuffers format: when bytes lay out a value.  Independent of the code; after the format's
    description ("FlatBuffers Internals", section FlexBuffers).

    A slot is a place [p] of [w] bytes together with a type byte [4 * type + e]; numbers are in the slot itself, for
    everything else the slot is the distance back to where it is, and numbers there have 2^e bytes.  Left out: keys as
    values, vectors of strings or keys, typed vectors of fixed length, floating point numbers of two bytes. *)

From Coq Require Import ZArith List Bool.
From Verif Require Import Base Spec FloatModel FlexSpec.
Import ListNotations.
Open Scope Z_scope.

(** The bytes [l] are found in [B] from offset [p] on. *)
Definition lies (B : bytes) (p : Z) (l : bytes) : Prop := exists pre post, B = pre ++ l ++ post /\ zlen pre = p.
(** Little-endian *)
Fixpoint little (l : bytes) : Z := match l with [] => 0 | b :: l' => b + 256 * little l' end.

(** Where a number of [w] bytes may be: at a multiple of [w], or anywhere. *)
Definition aligned (p w : Z) : Prop := p mod w = 0.
Definition anywhere (p w : Z) : Prop := True.

Section Format.
Variable al : Z -> Z -> Prop.
Variable B : bytes.

Definition number (p w n : Z) : Prop := In w [1; 2; 4; 8] /\ al p w /\ exists l, lies B p l /\ zlen l = w /\ little l = n.
(** Two's complement; IEEE single (widened) or double, as the bits of a double; distance back *)
Definition signed (p w z : Z) : Prop := - 2 ^ (8 * w - 1) <= z < 2 ^ (8 * w - 1) /\ number p w (z mod 2 ^ (8 * w)).
Definition real (p w d : Z) : Prop := w = 8 /\ number p 8 d \/ w = 4 /\ exists f, number p 4 f /\ d = f32_to_f64 f.
Definition offset (p w q : Z) : Prop := exists n, number p w n /\ q = p - n.

(** The keys of a map: [n] offsets of [kw] bytes at [kq], each to a string that ends with its first zero byte *)
Definition keys_at (kq kw : Z) (ks : list bytes) : Prop :=
  number (kq - kw) kw (zlen ks) /\
  forall i k, get ks i = Some k -> exists kp, offset (kq + i * kw) kw kp /\ lies B kp (k ++ [0]) /\ ~ In 0 k.

(** [typed]: with typed vectors of numbers *)
(** [far]: numbers may be out of line; [typed]: typed vectors may occur *)
Inductive lays (far typed : bool) : Z -> Z -> Z -> val -> Prop :=
| lays_null p w e : 0 <= e <= 3 -> lays far typed p w (4 * 0 + e) VNull
| lays_bool p w e n : 0 <= e <= 3 -> number p w n -> lays far typed p w (4 * 26 + e) (VBool (negb (n =? 0)))
| lays_int p w e z : 0 <= e <= 3 -> signed p w z -> lays far typed p w (4 * 1 + e) (VInt z)
| lays_uint p w e n : 0 <= e <= 3 -> number p w n -> lays far typed p w (4 * 2 + e) (VUInt n)
| lays_dbl p w e d : 0 <= e <= 3 -> real p w d -> lays far typed p w (4 * 3 + e) (VDbl d)
| lays_indirect_int p w e q z : 0 <= e <= 3 -> far = true -> offset p w q -> signed q (2 ^ e) z -> lays far typed p w (4 * 6 + e) (VInt z)
| lays_indirect_uint p w e q n : 0 <= e <= 3 -> far = true -> offset p w q -> number q (2 ^ e) n -> lays far typed p w (4 * 7 + e) (VUInt n)
| lays_indirect_dbl p w e q d : 0 <= e <= 3 -> far = true -> offset p w q -> real q (2 ^ e) d -> lays far typed p w (4 * 8 + e) (VDbl d)
| lays_str p w e q s : 0 <= e <= 3 -> offset p w q -> number (q - 2 ^ e) (2 ^ e) (zlen s) -> lies B q (s ++ [0]) ->
    lays far typed p w (4 * 5 + e) (VStr s)
| lays_blob p w e q s : 0 <= e <= 3 -> offset p w q -> number (q - 2 ^ e) (2 ^ e) (zlen s) -> lies B q s ->
    lays far typed p w (4 * 25 + e) (VBlob s)
| lays_arr p w e q (t : Z -> Z) l : 0 <= e <= 3 -> offset p w q -> number (q - 2 ^ e) (2 ^ e) (zlen l) ->
    (forall i x, get l i = Some x -> lies B (q + zlen l * 2 ^ e + i) [t i]) ->
    (forall i x, get l i = Some x -> lays far typed (q + i * 2 ^ e) (2 ^ e) (t i) x) ->
    lays far typed p w (4 * 10 + e) (VArr l)
| lays_map p w e q kq kw (t : Z -> Z) l : 0 <= e <= 3 -> offset p w q -> number (q - 2 ^ e) (2 ^ e) (zlen l) ->
    offset (q - 3 * 2 ^ e) (2 ^ e) kq -> number (q - 2 * 2 ^ e) (2 ^ e) kw ->
    keys_at kq kw (map fst l) -> ordered (map fst l) ->
    (forall i kx, get l i = Some kx -> lies B (q + zlen l * 2 ^ e + i) [t i]) ->
    (forall i kx, get l i = Some kx -> lays far typed (q + i * 2 ^ e) (2 ^ e) (t i) (snd kx)) ->
    lays far typed p w (4 * 9 + e) (VMap l)
| lays_typed p w e q t u l : typed = true -> In (t, u) [(11, 1); (12, 2); (13, 3); (36, 26)] ->
    0 <= e <= 3 -> offset p w q -> number (q - 2 ^ e) (2 ^ e) (zlen l) ->
    (forall i x, get l i = Some x -> lays far typed (q + i * 2 ^ e) (2 ^ e) (4 * u) x) ->
    lays far typed p w (4 * t + e) (VArr l).

(** A message: the last byte is the width of the root slot, the one before its type, the slot is in front of them. *)
Definition message (far typed : bool) (v : val) : Prop :=
  exists w t, lies B (zlen B - 2) [t; w] /\ lays far typed (zlen B - 2 - w) w t v.
End Format.
