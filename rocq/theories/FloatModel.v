(** FloatModel.v -- IEEE 754 conversions on bit patterns, as performed by the hardware for
    [double(f)].  Definitions only. *)

From Coq Require Import ZArith Bool.
Open Scope Z_scope.

(** Fields of a binary32 / binary64 bit pattern. *)
Definition f32_sign (x : Z) : Z := x / 2^31 mod 2.
Definition f32_exp (x : Z) : Z := x / 2^23 mod 2^8.
Definition f32_man (x : Z) : Z := x mod 2^23.
Definition f64_sign (x : Z) : Z := x / 2^63 mod 2.
Definition f64_exp (x : Z) : Z := x / 2^52 mod 2^11.
Definition f64_man (x : Z) : Z := x mod 2^52.
Definition mk64 (s e m : Z) : Z := s * 2^63 + e * 2^52 + m.

(** Conversion of binary32 to binary64 (exact; a signalling NaN becomes quiet). *)
Definition f32_to_f64 (x : Z) : Z :=
  let s := f32_sign x in let e := f32_exp x in let m := f32_man x in
  if e =? 255 then
    if m =? 0 then mk64 s 2047 0 else mk64 s 2047 (Z.lor (m * 2^29) (2^51))
  else if e =? 0 then
    if m =? 0 then mk64 s 0 0
    else let k := Z.log2 m in                       (* m = 2^k + low, value 2^(k-149) * ... *)
         mk64 s (k - 149 + 1023) ((m - 2^k) * 2^(52 - k))
  else mk64 s (e + 896) (m * 2^29).

(** [(float)val] when [(double)(float)val == val]: the binary32 pattern of a binary64 value
    that binary32 represents exactly; [None] for all other values and for NaNs. *)
Definition mk32 (s e m : Z) : Z := s * 2^31 + e * 2^23 + m.
Definition f64_to_f32 (x : Z) : option Z :=
  let s := f64_sign x in let e := f64_exp x in let m := f64_man x in
  if e =? 2047 then (if m =? 0 then Some (mk32 s 255 0) else None)
  else if e =? 0 then (if m =? 0 then Some (mk32 s 0 0) else None)
  else if (897 <=? e) && (e <=? 1150) then
    (if m mod 2^29 =? 0 then Some (mk32 s (e - 896) (m / 2^29)) else None)
  else if (874 <=? e) && (e <=? 896) then
    let d := 2^(926 - e) in                         (* units of 2^-149 *)
    (if (2^52 + m) mod d =? 0 then Some (mk32 s 0 ((2^52 + m) / d)) else None)
  else None.
