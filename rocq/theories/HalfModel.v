(** HalfModel.v -- decode_f16, include/zerialize/protocols/cbor.hpp:190-205.

    The double arithmetic is the axiom-free IEEE 754 specification of the standard library
    (Coq.Floats.SpecFloat) for binary64, round to nearest even.  Definitions only. *)

From Coq Require Import ZArith Bool.
From Coq Require Import Floats.SpecFloat.
From Verif Require Import FloatModel.
Open Scope Z_scope.

Definition prec : Z := 53.
Definition emax : Z := 1024.

(** static_cast<double>(int) *)
Definition of_int (z : Z) : spec_float := binary_normalize prec emax z 0 false.
Definition d_add := SFadd prec emax.
Definition d_mul := SFmul prec emax.
Definition d_div := SFdiv prec emax.
Definition d_ldexp := SFldexp prec emax.

Definition h_sign (h : Z) : Z := Z.land (Z.shiftr h 15) 1.
Definition h_exp (h : Z) : Z := Z.land (Z.shiftr h 10) 31.
Definition h_frac (h : Z) : Z := Z.land h 1023.

Definition decode_f16_sf (h : Z) : spec_float :=
  let sign := negb (h_sign h =? 0) in
  let exp := h_exp h in
  let frac := h_frac h in
  if exp =? 0 then
    if frac =? 0 then S754_zero sign
    else d_mul (of_int (if sign then -1 else 1)) (d_ldexp (of_int frac) (-24))
  else if exp =? 31 then
    if negb (frac =? 0) then S754_nan else S754_infinity sign
  else
    let mant := d_add (of_int 1) (d_div (of_int frac) (of_int 1024)) in
    let v := d_ldexp mant (exp - 15) in
    if sign then SFopp v else v.

(** The binary64 bit pattern of a double; the NaN is the default quiet NaN. *)
Definition to_bits (f : spec_float) : Z :=
  match f with
  | S754_zero s => mk64 (if s then 1 else 0) 0 0
  | S754_infinity s => mk64 (if s then 1 else 0) 2047 0
  | S754_nan => mk64 0 2047 (2^51)
  | S754_finite s m e =>
      if Zpos m <? 2^52 then mk64 (if s then 1 else 0) 0 (Zpos m)
      else mk64 (if s then 1 else 0) (e + 1075) (Zpos m - 2^52)
  end.

Definition decode_f16 (h : Z) : Z := to_bits (decode_f16_sf h).
