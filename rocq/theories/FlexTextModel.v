(** FlexTextModel.v -- transcription of the two functions of protocols/flex.hpp that print a FlexBuffers message, over its
    bytes: to_string (dump_rec, lines 150-210 and 310-315) and debugging::dump_flex (lines 437-533).

    flexbuffers::Reference is the one of FlexBModel.v; TextModel.v has dump_rec over trees.  The stream (std::ostringstream,
    std::cout) is the list of the characters put into it; [os << integer] is [dec], [os << double] the parameter [fl].  The
    indentation is an int: its overflow is not modelled.  [fuel] bounds the depth of the recursion.  Definitions only. *)

From Coq Require Import ZArith List Bool String.
From Verif Require Import Base Spec TextSpec TextModel NarrowModel FlexBModel.
Import ListNotations.
Open Scope Z_scope.

Section Text.
Variables (fl : Z -> bytes) (B : bytes).

(** Vector::size, Vector::operator[] and Map::Keys through a reference; AsVector() of a typed vector is empty. *)
Definition fb_vec (r : fref) : res (Z * Z) := loc <- indirect B (f_data r) (f_pw r) ;; Ok (loc, f_bw r).

(** One turn of the loops, lines 186-193 and 199-204: [n] is the size the comma depends on. *)
Definition fd_entry (dump : fref -> Z -> res bytes) (loc bw kd kbw n pad : Z) (s : Z * bytes) : res ((Z * bytes) + unit) :=
  let '(i, out) := s in
  k <- fb_key_at B kd kbw i ;;
  x <- fb_at B loc bw i ;;
  t <- dump x (pad + 2) ;;
  Ok (inl (i + 1, out ++ spaces (pad + 2) ++ quote ++ esc k ++ txt """: " ++ t ++ (if i + 1 <? n then comma else []) ++ nl)).
Definition fd_elem (dump : fref -> Z -> res bytes) (loc bw n pad : Z) (s : Z * bytes) : res ((Z * bytes) + unit) :=
  let '(i, out) := s in
  x <- fb_at B loc bw i ;;
  t <- dump x (pad + 2) ;;
  Ok (inl (i + 1, out ++ spaces (pad + 2) ++ t ++ (if i + 1 <? n then comma else []) ++ nl)).
Definition closed (x : res ((Z * bytes) + unit)) (pad : Z) (c : bytes) : res bytes :=
  y <- x ;; match y with inl (_, out) => Ok (out ++ spaces pad ++ c) | inr _ => UB end.

(** type_code, lines 150-161, and dump_rec, lines 163-210.  AsBool, AsInt64, AsUInt64, AsDouble and AsString are those of
    the accessors asBool, asInt64, asUInt64, asDouble and asString.  Type 4 (key) is none of the tests. *)
Fixpoint fb_dump (fuel : nat) (r : fref) (pad : Z) : res bytes :=
  match fuel with
  | O => NoFuel
  | S f =>
      let ty := f_ty r in
      if ty =? 0 then Ok (txt "null|null")
      else if ty =? 26 then b <- fb_asBool B r ;; Ok (txt "bool| " ++ if b then txt "true" else txt "false")
      else if (ty =? 1) || (ty =? 6) then z <- fb_asInt B I64 r ;; Ok (txt "int|" ++ dec z)
      else if (ty =? 2) || (ty =? 7) then z <- fb_asUInt B I64 r ;; Ok (txt "uint|" ++ dec z)
      else if (ty =? 3) || (ty =? 8) then d <- fb_asDouble B r ;; Ok (txt "float|" ++ fl d)
      else if ty =? 5 then s <- fb_sized B 5 r ;; Ok (txt "str|""" ++ esc s ++ quote)
      else if ty =? 25 then
        '(loc, bw) <- fb_vec r ;; n <- size_at B loc bw ;; Ok (txt "blob[size=" ++ dec n ++ txt "]")
      else if ty =? 9 then
        '(loc, bw) <- fb_vec r ;;
        '(kd, kbw) <- fb_keys B loc bw ;;
        n <- size_at B kd kbw ;;
        closed (zloop n (fd_entry (fb_dump f) loc bw kd kbw n pad) (0, txt "map {" ++ nl)) pad (txt "}")
      else if any_vector ty then
        if ty =? 10 then
          '(loc, bw) <- fb_vec r ;;
          n <- size_at B loc bw ;;
          closed (zloop n (fd_elem (fb_dump f) loc bw n pad) (0, txt "arr [" ++ nl)) pad (txt "]")
        else Ok (txt "arr [" ++ nl ++ spaces pad ++ txt "]")
      else Ok (txt "any")
  end.

(** std::quoted (used in lines 453, 489, 494) *)
Definition std_quoted (s : bytes) : bytes :=
  quote ++ flat_map (fun c => if (c =? 34) || (c =? 92) then [92; c] else [c]) s ++ quote.

(** print_map, lines 446-460, and print_vector, lines 462-472: one turn of each loop; m.size() is that of the values. *)
Definition fp_entry (print : fref -> Z -> res bytes) (loc bw kd kbw n indent : Z) (s : Z * bytes) : res ((Z * bytes) + unit) :=
  let '(i, out) := s in
  k <- fb_key_at B kd kbw i ;;
  x <- fb_at B loc bw i ;;
  t <- print x (indent + 2) ;;
  Ok (inl (i + 1, out ++ spaces (indent + 2) ++ std_quoted k ++ txt ": " ++ t ++ (if i + 1 <? n then comma else []) ++ nl)).
(** print_ref, lines 478-518, with print_blob, lines 474-476.  A vector of strings (15) and the vectors of fixed length
    (16-24) are not among the cases; AsVector() of the typed ones (11-14, 36) is empty. *)
Fixpoint fb_print (fuel : nat) (r : fref) (indent : Z) : res bytes :=
  match fuel with
  | O => NoFuel
  | S f =>
      let ty := f_ty r in
      if ty =? 0 then Ok (txt "null")
      else if ty =? 26 then b <- fb_asBool B r ;; Ok (if b then txt "true" else txt "false")
      else if ty =? 1 then z <- fb_asInt B I64 r ;; Ok (dec z)
      else if ty =? 2 then z <- fb_asUInt B I64 r ;; Ok (dec z)
      else if ty =? 3 then d <- fb_asDouble B r ;; Ok (fl d)
      else if ty =? 5 then s <- fb_sized B 5 r ;; Ok (std_quoted s)
      else if ty =? 4 then p <- indirect B (f_data r) (f_pw r) ;; s <- c_string B p ;; Ok (std_quoted s)
      else if ty =? 25 then
        '(loc, bw) <- fb_vec r ;; n <- size_at B loc bw ;; Ok (txt "<blob:" ++ dec n ++ txt " bytes>")
      else if ty =? 10 then
        '(loc, bw) <- fb_vec r ;;
        n <- size_at B loc bw ;;
        closed (zloop n (fd_elem (fb_print f) loc bw n indent) (0, txt "[" ++ nl)) indent (txt "]")
      else if (11 <=? ty) && (ty <=? 14) || (ty =? 36) then Ok (txt "[" ++ nl ++ spaces indent ++ txt "]")
      else if ty =? 9 then
        '(loc, bw) <- fb_vec r ;;
        '(kd, kbw) <- fb_keys B loc bw ;;
        n <- size_at B loc bw ;;
        closed (zloop n (fp_entry (fb_print f) loc bw kd kbw n indent) (0, txt "{" ++ nl)) indent (txt "}")
      else Ok (txt "<unknown>")
  end.
End Text.

(** to_string, lines 310-315, of the reader opened on [B], and of the value at [r] *)
Definition fb_to_string (fl : Z -> bytes) (B : bytes) (fuel : nat) (r : fref) : res bytes :=
  t <- fb_dump fl B fuel r 0 ;; Ok (txt "Flex " ++ t).
(** dump_flex, lines 521-530.  GetRoot reads the last two bytes without looking at the size. *)
Definition dump_flex (fl : Z -> bytes) (fuel : nat) (B : bytes) : res bytes :=
  bw <- rd B (zlen B - 1) ;;
  pt <- rd B (zlen B - 2) ;;
  t <- fb_print fl B fuel (packed_ref (zlen B - 2 - bw) bw pt) 0 ;;
  Ok (t ++ nl).
