(** NarrowModel.v -- [static_cast<float>(double)] and the asFloat() members.  Definitions only.

    asFloat: zera.hpp 269, msgpack.hpp 345-347, cbor.hpp 259, json.hpp 169 and flex.hpp 235 (where FlexBuffers' AsFloat is
    [static_cast<float>(AsDouble())]) all check for a float and narrow what asDouble() returns. *)

From Coq Require Import ZArith Bool.
From Verif Require Import Base Spec FloatModel.
Open Scope Z_scope.

(** a / d to the nearest integer, ties to even *)
Definition rne (a d : Z) : Z :=
  let q := a / d in let r := a mod d in
  if 2 * r <? d then q else if d <? 2 * r then q + 1 else if Z.even q then q else q + 1.

(** The conversion instruction, in the default rounding mode: NaNs become quiet and keep the upper payload bits; finite
    values are rounded to 24 significant bits, but no finer than 2^-149; too large values become infinite.  A finite
    double is [u] units of 2^-1074. *)
Definition narrow (x : Z) : Z :=
  let s := f64_sign x in let e := f64_exp x in let m := f64_man x in
  if e =? 2047 then
    if m =? 0 then mk32 s 255 0 else mk32 s 255 (Z.lor (m / 2^29) (2^22))
  else
    let u := if e =? 0 then m else (2^52 + m) * 2^(e - 1) in
    let k := Z.max 925 (Z.log2 u - 23) in
    mk32 s 0 0 + Z.min (255 * 2^23) ((k - 925) * 2^23 + rne u (2^k)).

Definition asFloat {V} (R : reader V) (v : V) : res Z := d <- r_asDouble R v ;; Ok (narrow d).
