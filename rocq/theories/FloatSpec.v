(** FloatSpec.v -- what an IEEE 754 bit pattern means, without real numbers: a finite value is an
    integer multiple of 2^-1074 (every binary16, binary32 and binary64 number is one). *)

From Coq Require Import ZArith Bool.
From Verif Require Import FloatModel.
Open Scope Z_scope.

Inductive fval : Type :=
| Fnan
| Finf (negative : bool)
| Fnum (negative : bool) (units : Z).     (* (-1)^negative * units * 2^-1074 *)

(** [mb] mantissa bits, [eb] exponent bits: value (2^mb + m) * 2^(e - bias - mb), or
    m * 2^(1 - bias - mb) when the exponent field is 0; [ulp] is 1074 + 1 - bias - mb. *)
Definition ieee (mb eb ulp : Z) (x : Z) : fval :=
  let s := negb (x / 2^(mb + eb) mod 2 =? 0) in
  let e := x / 2^mb mod 2^eb in
  let m := x mod 2^mb in
  if e =? 2^eb - 1 then (if m =? 0 then Finf s else Fnan)
  else if e =? 0 then Fnum s (m * 2^ulp)
  else Fnum s ((2^mb + m) * 2^(ulp + e - 1)).

Definition f16_value (x : Z) : fval := ieee 10 5 1050 x.     (* smallest unit 2^-24 *)
Definition f32_value (x : Z) : fval := ieee 23 8 925 x.      (* 2^-149 *)
Definition f64_value (x : Z) : fval := ieee 52 11 0 x.       (* 2^-1074 *)

(** The binary64 pattern of a half-precision number; every NaN is the default quiet NaN. *)
Definition f16_to_f64 (x : Z) : Z :=
  let s := x / 2^15 mod 2 in let e := x / 2^10 mod 2^5 in let m := x mod 2^10 in
  if e =? 31 then (if m =? 0 then mk64 s 2047 0 else mk64 0 2047 (2^51))
  else if e =? 0 then
    (if m =? 0 then mk64 s 0 0
     else let k := Z.log2 m in mk64 s (k - 24 + 1023) ((m - 2^k) * 2^(52 - k)))
  else mk64 s (e + 1008) (m * 2^42).
