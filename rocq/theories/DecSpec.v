(** DecSpec.v -- the double nearest to a decimal number, without real numbers.

    A finite double is a whole number of units 2^-1074 (FloatSpec.v); m * 10^e is [fst (units m e) / snd (units m e)]
    units. *)

From Coq Require Import ZArith Bool.
From Verif Require Import FloatSpec.
Open Scope Z_scope.

Definition units (m e : Z) : Z * Z := (m * 10 ^ Z.max e 0 * 2 ^ 1074, 10 ^ Z.max (- e) 0).

(** [d] is the rounding of (-1)^neg * m * 10^e: no double is nearer, of two equally near ones it is the one
    with the even mantissa; infinity from half a unit above the largest double on. *)
Definition nearest_double (neg : bool) (m e d : Z) : Prop :=
  let '(n, k) := units m e in
  let limit := (2 ^ 54 - 1) * 2 ^ 2044 in
  0 <= d < 2 ^ 64 /\
  (limit * k <= n /\ f64_value d = Finf neg \/
   n < limit * k /\ exists u, f64_value d = Fnum neg u /\
     forall d' s' u', f64_value d' = Fnum s' u' ->
       u' = u \/ Z.abs (n - u * k) < Z.abs (n - u' * k) \/
       Z.abs (n - u * k) = Z.abs (n - u' * k) /\ Z.even d = true).

(** IEEE 754 rounding of decimals. *)
Definition ieee_rounding (real : bool -> Z -> Z -> Z) : Prop :=
  forall neg m e, 0 <= m -> nearest_double neg m e (real neg m e).
