(** TextModel.v -- transcription of the to_string() members of the readers.

    MsgPack: protocols/msgpack.hpp lines 147-213 and 488-490; FlexBuffers: protocols/flex.hpp lines 121-210 and
    310-315; CBOR: protocols/cbor.hpp lines 497-532; ZERA: protocols/zera.hpp lines 426-444.  Definitions only.

    The std::ostringstream is the list of the characters put into it.  [os << integer] is decimal notation
    ([dec], default formatting flags); [os << double] is the parameter [fl].  The indentation [pad] is an int:
    its overflow (2^30 levels) is not modelled.  Not modelled: JSON to_string (yyjson writes the text). *)

From Coq Require Import ZArith List Bool String.
From Verif Require Import Base Spec TextSpec MsgModel CborModel FlexModel ZeraModel.
Import ListNotations.
Open Scope Z_scope.

(** ** Escaping: esc, msgpack.hpp 147-160; json_escape, flex.hpp 121-144 (the same switch).
    [snprintf(b, 7, "\\u%04x", ch)] for ch < 32. *)
Definition hex_char (n : Z) : Z := if n <=? 9 then 48 + n else 97 + (n - 10).
Definition hex4 (n : Z) : bytes :=
  [hex_char (n / 4096 mod 16); hex_char (n / 256 mod 16); hex_char (n / 16 mod 16); hex_char (n mod 16)].
Fixpoint esc (s : bytes) : bytes :=
  match s with
  | [] => []
  | ch :: s' =>
      (if ch =? 34 then [92; 34]
       else if ch =? 92 then [92; 92]
       else if ch =? 8 then [92; 98]
       else if ch =? 12 then [92; 102]
       else if ch =? 10 then [92; 110]
       else if ch =? 13 then [92; 114]
       else if ch =? 9 then [92; 116]
       else if ch <? 32 then 92 :: 117 :: hex4 ch
       else [ch]) ++ esc s'
  end.

(** ** MsgPack: dump, lines 173-213.  [fuel] bounds the depth of the recursion.  Each [mp_skip(view_.subspan(off))]
    is evaluated twice in the code; the second evaluation has no other effect. *)
Definition mp_child (v : mspan) (off : Z) : res (mspan * Z) :=
  w <- subspan v off ;; s <- MsgModel.skip w ;; c <- subspan2 v off s ;; Ok (c, off + s).
Definition mp_entry (dump : mspan -> Z -> res bytes) (v : mspan) (n pad : Z) (s : Z * Z * bytes) : res ((Z * Z * bytes) + unit) :=
  let '(i, off, out) := s in
  '(k, off1) <- mp_child v off ;;
  '(x, off2) <- mp_child v off1 ;;
  kw <- mp_asStringView k ;; ks <- rd_view (ms_buf k) kw ;;
  t <- dump x (pad + 2) ;;
  Ok (inl (i + 1, off2, out ++ spaces (pad + 2) ++ quote ++ esc ks ++ txt """: " ++ t
                        ++ (if i + 1 <? n then comma else []) ++ nl)).
Definition mp_elem (dump : mspan -> Z -> res bytes) (v : mspan) (n pad : Z) (s : Z * Z * bytes) : res ((Z * Z * bytes) + unit) :=
  let '(i, off, out) := s in
  '(x, off1) <- mp_child v off ;;
  t <- dump x (pad + 2) ;;
  Ok (inl (i + 1, off1, out ++ spaces (pad + 2) ++ t ++ (if i + 1 <? n then comma else []) ++ nl)).
Fixpoint mp_dump (fl : Z -> bytes) (fuel : nat) (v : mspan) (pad : Z) : res bytes :=
  match fuel with
  | O => NoFuel
  | S f =>
      t <- mp_is k_null v ;; if t then Ok (txt "null: null") else
      t <- mp_is k_bool v ;; if t then b <- mp_asBool v ;; Ok (txt "bool: " ++ if b then txt "true" else txt "false") else
      t <- mp_is k_int v ;; if t then z <- mp_asInt64 v ;; Ok (txt "int: " ++ dec z) else
      t <- mp_is k_uint v ;; if t then z <- mp_asUInt64 v ;; Ok (txt "uint: " ++ dec z) else
      t <- mp_is k_float v ;; if t then d <- mp_asDouble v ;; Ok (txt "float: " ++ fl d) else
      t <- mp_is k_string v ;; if t then
        w <- mp_asStringView v ;; s <- rd_view (ms_buf v) w ;; Ok (txt "str: """ ++ esc s ++ txt """") else
      t <- mp_is k_blob v ;; if t then w <- mp_asBlob v ;; Ok (txt "bin[size=" ++ dec (snd w) ++ txt "]") else
      t <- mp_is k_map v ;; if t then
        '(n, off) <- map_info v ;;
        x <- zloop n (mp_entry (mp_dump fl f) v n pad) (0, off, txt "map {" ++ nl) ;;
        match x with inl (_, _, out) => Ok (out ++ spaces pad ++ txt "}") | inr _ => UB end else
      t <- mp_is k_array v ;; if t then
        '(n, off) <- arr_info v ;;
        x <- zloop n (mp_elem (mp_dump fl f) v n pad) (0, off, txt "arr [" ++ nl) ;;
        match x with inl (_, _, out) => Ok (out ++ spaces pad ++ txt "]") | inr _ => UB end else
      Ok (txt "any")
  end.
(** to_string, lines 488-490 *)
Definition mp_to_string (fl : Z -> bytes) (fuel : nat) (v : mspan) : res bytes := mp_dump fl fuel v 0.

(** ** FlexBuffers: type_code, lines 150-161, and dump_rec, lines 163-210 (on trees; every access is in range). *)
Fixpoint fx_rows (n i : Z) (ls : list bytes) : bytes :=
  match ls with
  | [] => []
  | t :: r => t ++ (if i + 1 <? n then comma else []) ++ nl ++ fx_rows n (i + 1) r
  end.
Fixpoint fx_dump (fl : Z -> bytes) (x : fx) (pad : Z) {struct x} : bytes :=
  match x with
  | XNull => txt "null|null"
  | XBool b => txt "bool| " ++ (if b then txt "true" else txt "false")
  | XInt z => txt "int|" ++ dec z
  | XUInt z => txt "uint|" ++ dec z
  | XDbl d => txt "float|" ++ fl d
  | XStr s => txt "str|""" ++ esc s ++ quote
  | XBlob b => txt "blob[size=" ++ dec (zlen b) ++ txt "]"
  | XMap l => txt "map {" ++ nl ++
      fx_rows (zlen l) 0 (map (fun kx => spaces (pad + 2) ++ quote ++ esc (fst kx) ++ txt """: " ++ fx_dump fl (snd kx) (pad + 2)) l)
      ++ spaces pad ++ txt "}"
  | XVec l => txt "arr [" ++ nl ++
      fx_rows (zlen l) 0 (map (fun y => spaces (pad + 2) ++ fx_dump fl y (pad + 2)) l) ++ spaces pad ++ txt "]"
  | XTyped _ => txt "arr [" ++ nl ++ spaces pad ++ txt "]"   (* IsAnyVector, but AsVector() is empty *)
  | XKey _ => txt "any"
  end.
(** to_string, lines 310-315 *)
Definition fx_to_string (fl : Z -> bytes) (x : fx) : bytes := txt "Flex " ++ fx_dump fl x 0.

(** ** CBOR *)

(** type_code, lines 502-509 *)
Definition c_type_code (h : chead) : bytes :=
  if h_major h =? 0 then txt "uint" else if h_major h =? 1 then txt "int" else if h_major h =? 2 then txt "blob"
  else if h_major h =? 3 then txt "str" else if h_major h =? 4 then txt "arr" else if h_major h =? 5 then txt "map"
  else if h_major h =? 7 then
    if (h_addl h =? 20) || (h_addl h =? 21) then txt "bool"
    else if h_addl h =? 22 then txt "null"
    else if (h_addl h =? 25) || (h_addl h =? 26) || (h_addl h =? 27) then txt "float" else txt "any"
  else txt "any".

(** The chunk loop of an indefinite blob, line 521: sizes are added in size_t, [buf_[q]] is not checked. *)
Definition c_size_step (b : bytes) (s : Z * Z) : res ((Z * Z) + Z) :=
  let '(q, total) := s in
  x <- rd b q ;;
  if x =? 255 then Ok (inr total) else
  ch <- read_head b q ;;
  Ok (inl (wrap64 (q + wrap64 (h_len ch + h_val ch)), wrap64 (total + h_val ch))).
(** The element loop, line 524: [e = skip(e)] comes after the element is printed. *)
Definition c_elem (dump : Z -> Z -> res bytes) (fuel : nat) (b : bytes) (n pad : Z) (s : Z * Z * bytes) : res ((Z * Z * bytes) + unit) :=
  let '(i, e, out) := s in
  t <- dump e (pad + 2) ;;
  e' <- CborModel.skip fuel b e ;;
  Ok (inl (i + 1, e', out ++ spaces (pad + 2) ++ t ++ (if i + 1 <? n then comma else []) ++ nl)).
(** The entry loop, line 527: the count is compared only after an entry. *)
Definition c_entry (dump : Z -> Z -> res bytes) (hard : bool) (fuel : nat) (b : bytes) (indef : bool) (count pad : Z)
    (s : Z * Z * bytes) : res ((Z * Z * bytes) + bytes) :=
  let '(i, q2, out) := s in
  stop <- (if indef then x <- rd b q2 ;; Ok (x =? 255) else Ok false) ;;
  if stop then Ok (inr out) else
  k <- c_asString hard fuel (mkCView b q2) ;;
  q3 <- CborModel.skip fuel b q2 ;;
  t <- dump q3 (pad + 2) ;;
  q4 <- CborModel.skip fuel b q3 ;;
  let out' := out ++ spaces (pad + 2) ++ quote ++ k ++ txt """: " ++ t ++ (if i + 1 <? count then comma else []) ++ nl in
  if negb indef && (count <=? i + 1) then Ok (inr out') else Ok (inl (i + 1, q4, out')).
(** dump_rec, lines 510-532.  [root] is the object itself: [arraySize()] in lines 524 and 526 is its own array
    size, not that of the item at [p].  [-1 - (long long)h.val] cannot overflow. *)
Fixpoint c_dump (fl : Z -> bytes) (hard : bool) (fuel : nat) (root : cview) (depth : nat) (p pad : Z) {struct depth} : res bytes :=
  match depth with
  | O => NoFuel
  | S d =>
      let b := cv_buf root in
      h <- read_head b p ;;
      let t := c_type_code h in
      let q := p + h_len h in
      if h_major h =? 0 then Ok (t ++ txt "|" ++ dec (h_val h))
      else if h_major h =? 1 then Ok (t ++ txt "|" ++ dec (-1 - to_signed 64 (h_val h)))
      else if (h_major h =? 7) && ((h_addl h =? 25) || (h_addl h =? 26) || (h_addl h =? 27)) then
        x <- c_asDouble (mkCView b p) ;; Ok (t ++ txt "|" ++ fl x)
      else if (h_major h =? 7) && ((h_addl h =? 20) || (h_addl h =? 21)) then
        Ok (t ++ txt "| " ++ if h_addl h =? 21 then txt "true" else txt "false")
      else if (h_major h =? 7) && (h_addl h =? 22) then Ok (t ++ txt "|null")
      else if h_major h =? 3 then
        s <- (if negb (h_indef h) then a <- addr hard b q ;; mk_string b a (h_val h)
              else c_asString hard fuel (mkCView b p)) ;;
        Ok (t ++ txt "|""" ++ s ++ quote)
      else if h_major h =? 2 then
        total <- (if negb (h_indef h) then Ok (h_val h) else floop fuel (c_size_step b) (q, 0)) ;;
        Ok (t ++ txt "[size=" ++ dec total ++ txt "]")
      else if h_major h =? 4 then
        n <- c_arraySize fuel root ;;
        x <- zloop n (c_elem (c_dump fl hard fuel root d) fuel b n pad) (0, q, t ++ txt " [" ++ nl) ;;
        match x with inl (_, _, out) => Ok (out ++ spaces pad ++ txt "]") | inr _ => UB end
      else if h_major h =? 5 then
        count <- (if h_indef h then c_arraySize fuel root else Ok (h_val h)) ;;
        out <- floop fuel (c_entry (c_dump fl hard fuel root d) hard fuel b (h_indef h) count pad) (0, q, t ++ txt " {" ++ nl) ;;
        Ok (out ++ spaces pad ++ txt "}")
      else Ok t
  end.
(** to_string, lines 497-499 *)
Definition c_to_string (fl : Z -> bytes) (hard : bool) (fuel : nat) (v : cview) : res bytes :=
  c_dump fl hard fuel v fuel (cv_pos v) 0.

(** ** ZERA: to_string, lines 426-444 *)
Definition zv_to_string (fl : Z -> bytes) (v : zview) : res bytes :=
  t <- zv_tag v ;;
  body <-
    (if t =? TNull then Ok (txt "null")
     else if t =? TBool then b <- zv_asBool v ;; Ok (if b then txt "true" else txt "false")
     else if t =? TI64 then z <- zv_asInt64 v ;; Ok (dec z)
     else if t =? TU64 then z <- zv_asUInt64 v ;; Ok (dec z)
     else if t =? TF64 then d <- zv_asDouble v ;; Ok (fl d)
     else if t =? TString then w <- zv_asStringView v ;; Ok (txt "str[len=" ++ dec (snd w) ++ txt "]")
     else if t =? TArray then n <- zv_arraySize v ;; Ok (txt "arr[n=" ++ dec n ++ txt "]")
     else if t =? TObject then Ok (txt "map")
     else if t =? TTyped then ib <- zv_isBlob v ;; n <- zv_b v ;;
       Ok ((if ib then txt "blob[len=" else txt "typed[len=") ++ dec n ++ txt "]")
     else Ok (txt "unknown")) ;;
  Ok (txt "Zera(" ++ body ++ txt ")").
