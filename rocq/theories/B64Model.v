(** B64Model.v -- transcription of include/zerialize/internals/base64.hpp.
    Definitions only.  Characters are their ASCII codes. *)

From Coq Require Import ZArith List Bool String Ascii.
From Verif Require Import Base.
Import ListNotations.
Open Scope Z_scope.

(** ASCII codes of a string literal. *)
Definition codes (s : string) : bytes := map (fun c => Z.of_N (N_of_ascii c)) (list_ascii_of_string s).

(** base64_chars, base64.hpp:26-27 *)
Definition base64_chars : bytes :=
  codes "ABCDEFGHIJKLMNOPQRSTUVWXYZabcdefghijklmnopqrstuvwxyz0123456789+/".

(** [while (bits >= 6) { ... }], base64.hpp:43-46 *)
Fixpoint enc_emit (fuel : nat) (value bits : Z) (out : bytes) : res (Z * bytes) :=
  match fuel with
  | O => NoFuel
  | S f =>
      if 6 <=? bits then
        let bits' := bits - 6 in
        c <- rd base64_chars (Z.land (Z.shiftr value bits') 63) ;;
        enc_emit f value bits' (out ++ [c])
      else Ok (bits, out)
  end.

(** the main loop, base64.hpp:36-50.  [value] is uint32_t. *)
Fixpoint enc_loop (data : bytes) (value bits : Z) (out : bytes) : res (Z * Z * bytes) :=
  match data with
  | [] => Ok (value, bits, out)
  | x :: data' =>
      let value1 := Z.lor (wrap32 (Z.shiftl value 8)) x in
      let bits1 := bits + 8 in
      '(bits2, out2) <- enc_emit 4 value1 bits1 out ;;
      let value2 := if 0 <? bits2 then Z.land value1 (Z.shiftl 1 bits2 - 1) else value1 in
      enc_loop data' value2 bits2 out2
  end.

(** [while (encoded.size() % 4 != 0) encoded += '=';], base64.hpp:58-60 *)
Fixpoint enc_pad (fuel : nat) (out : bytes) : res bytes :=
  match fuel with
  | O => NoFuel
  | S f => if negb (zlen out mod 4 =? 0) then enc_pad f (out ++ [61]) else Ok out
  end.

(** base64Encode, base64.hpp:25-63 *)
Definition base64Encode (data : bytes) : res bytes :=
  '(value, bits, out) <- enc_loop data 0 0 [] ;;
  out1 <- (if 0 <? bits
           then c <- rd base64_chars (Z.land (wrap32 (Z.shiftl value (6 - bits))) 63) ;; Ok (out ++ [c])
           else Ok out) ;;
  enc_pad 4 out1.

(** lookup[256], base64.hpp:78-87 *)
Definition row64 : bytes := repeat 64 32.
Definition lookup : bytes :=
  row64 ++
  [64;64;64;64;64;64;64;64;64;64;64;62;64;64;64;63; 52;53;54;55;56;57;58;59;60;61;64;64;64;64;64;64;
   64; 0; 1; 2; 3; 4; 5; 6; 7; 8; 9;10;11;12;13;14; 15;16;17;18;19;20;21;22;23;24;25;64;64;64;64;64;
   64;26;27;28;29;30;31;32;33;34;35;36;37;38;39;40; 41;42;43;44;45;46;47;48;49;50;51;64;64;64;64;64] ++
  row64 ++ row64 ++ row64 ++ row64.

(** the decoding loop, base64.hpp:95-112.  [buf] is uint32_t. *)
Fixpoint dec_loop (s : bytes) (buf bits : Z) (out : bytes) : res bytes :=
  match s with
  | [] => Ok out
  | c :: s' =>
      if c =? 61 then Ok out else
      v <- rd lookup c ;;
      require (negb (v =? 64)) EDeser ;;;
      let buf1 := Z.lor (wrap32 (Z.shiftl buf 6)) v in
      let bits1 := bits + 6 in
      if 8 <=? bits1 then
        let bits2 := bits1 - 8 in
        let out2 := out ++ [Z.land (Z.shiftr buf1 bits2) 255] in
        let buf2 := if 0 <? bits2 then Z.land buf1 (Z.shiftl 1 bits2 - 1) else buf1 in
        dec_loop s' buf2 bits2 out2
      else dec_loop s' buf1 bits1 out
  end.

(** base64Decode, base64.hpp:76-120 *)
Definition base64Decode (s : bytes) : res bytes := dec_loop s 0 0 [].

Example ex_b64 : base64Encode (codes "Man") = Ok (codes "TWFu") /\ base64Encode (codes "M") = Ok (codes "TQ==") /\
  base64Decode (codes "TWE=") = Ok (codes "Ma").
Proof. vm_compute. auto. Qed.
