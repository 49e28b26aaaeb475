(** AlignModel.v -- where asBlob() of a ZERA view points.  Definitions only.

    zera.hpp:323-337: the span points into the buffer the reader was opened on, whose first byte is at address [base]. *)

From Coq Require Import ZArith.
From Verif Require Import Base Spec ZeraModel.
Open Scope Z_scope.

(** A span ([true]) at its offset in the message; if asBlob() throws, the answer is not used. *)
Definition zera_blob_at (base : Z) (w : zview) : bool * Z :=
  (true, match zv_asBlob w with Ok (o, _) => base + o | _ => base end).
