(** NarrowSpec.v -- rounding to the nearest float, ties to even, stated on the values of FloatSpec.v. *)

From Coq Require Import ZArith List Bool.
From Verif Require Import Base Spec FloatModel FloatSpec.
Import ListNotations.
Open Scope Z_scope.

Definition is_f32 (x : Z) : Prop := 0 <= x < 2^32.
Definition is_nan (f : fval) : Prop := f = Fnan.
Definition negative (f : fval) : bool := match f with Fnan => false | Finf s | Fnum s _ => s end.
(** Magnitude in units of 2^-1074; for the choice of the nearest float, infinity stands for 2^128. *)
Definition magnitude (f : fval) : Z := match f with Fnum _ u => u | Finf _ => 2^1202 | Fnan => 0 end.

(** [r] is the float nearest to the finite value [d]: same sign, no float of that sign is closer, and if another one is
    equally close the last bit of [r] is 0. *)
Definition nearest (d : fval) (r : Z) : Prop :=
  let dist y := Z.abs (magnitude d - magnitude (f32_value y)) in
  is_f32 r /\ ~ is_nan (f32_value r) /\ negative (f32_value r) = negative d /\
  forall y, is_f32 y -> ~ is_nan (f32_value y) -> negative (f32_value y) = negative d ->
    dist r <= dist y /\ (dist r = dist y -> y <> r -> r mod 2 = 0).

(** ** Positions in a value, and the views a reader gives for them *)
Inductive pos : Type := Elem (i : nat) | Entry (k : bytes).
Fixpoint first_entry (k : bytes) (l : list (bytes * val)) : option val :=
  match l with [] => None | (k', x) :: l' => if beq k k' then Some x else first_entry k l' end.
Fixpoint value_at (v : val) (p : list pos) : option val :=
  match p with
  | [] => Some v
  | q :: p' =>
      match (match q, v with Elem i, VArr l => nth_error l i | Entry k, VMap l => first_entry k l | _, _ => None end) with
      | Some x => value_at x p'
      | None => None
      end
  end.
Fixpoint view_at {V} (R : reader V) (w : V) (p : list pos) : res V :=
  match p with
  | [] => Ok w
  | Elem i :: p' => w' <- r_idx R w (Z.of_nat i) ;; view_at R w' p'
  | Entry k :: p' => w' <- r_key R w k ;; view_at R w' p'
  end.
