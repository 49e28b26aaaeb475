(** CborModel.v -- transcription of include/zerialize/protocols/cbor.hpp.

    Line numbers refer to that file unless another one is named.  Definitions only, no proofs.
    to_string is in TextModel.v, asFloat in NarrowModel.v. *)

From Coq Require Import ZArith List Bool.
From Verif Require Import Base Spec FloatModel HalfModel Utf8Model.
Import ListNotations.
Open Scope Z_scope.

(** [for (;;)]: iterate the body until it leaves the loop; [fuel] bounds the iterations. *)
Fixpoint floop {S R} (fuel : nat) (f : S -> res (S + R)) (s : S) : res R :=
  match fuel with
  | O => NoFuel
  | Datatypes.S n => x <- f s ;; match x with inl s' => floop n f s' | inr r => Ok r end
  end.

(** ** Reader

    A CborDeserializer is a buffer and a position (lines 75-77).  Positions are size_t:
    additions of an untrusted 64-bit length wrap; additions of a header length to a position inside
    the buffer cannot. *)
Record cview : Type := mkCView { cv_buf : bytes; cv_pos : Z }.

(** [&buf_[q]].  std::span::operator[] has the precondition q < size(); forming the
    one-past-the-end address through it is a contract violation that a hardened standard library
    ([hard = true]) traps and an ordinary one does not notice. *)
Definition addr (hard : bool) (b : bytes) (q : Z) : res Z :=
  if q <? zlen b then Ok q else if (q =? zlen b) && negb hard then Ok q else UB.

(** get_be, lines 83-87: [v = (v << 8) | p[i]] on uint64_t, n <= 8. *)
Fixpoint get_be (b : bytes) (p : Z) (n : nat) (v : Z) : res Z :=
  match n with
  | O => Ok v
  | S k => x <- rd b p ;; get_be b (p + 1) k (Z.lor (wrap64 (Z.shiftl v 8)) x)
  end.

(** Head, lines 89-95 *)
Record chead : Type := mkHead {
  h_major : Z; h_addl : Z; h_val : Z; h_len : Z; h_indef : bool
}.

(** read_head, lines 97-125 *)
Definition read_head (b : bytes) (p : Z) : res chead :=
  require (p <? zlen b) EDeser ;;;
  x <- rd b p ;;
  let major := Z.shiftr x 5 in
  let addl := Z.land x 31 in
  if major =? 7 then
    if addl =? 25 then Ok (mkHead major addl 2 1 false)
    else if addl =? 26 then Ok (mkHead major addl 4 1 false)
    else if addl =? 27 then Ok (mkHead major addl 8 1 false)
    else if addl =? 24 then
      require (p + 2 <=? zlen b) EDeser ;;; Ok (mkHead major addl 0 2 false)
    else if addl =? 31 then Ok (mkHead major addl 0 1 true)
    else Ok (mkHead major addl 0 1 false)
  else if addl <? 24 then Ok (mkHead major addl addl 1 false)
  else if addl =? 24 then
    require (p + 2 <=? zlen b) EDeser ;;; v <- rd b (p + 1) ;; Ok (mkHead major addl v 2 false)
  else if addl =? 25 then
    require (p + 3 <=? zlen b) EDeser ;;; v <- get_be b (p + 1) 2 0 ;; Ok (mkHead major addl v 3 false)
  else if addl =? 26 then
    require (p + 5 <=? zlen b) EDeser ;;; v <- get_be b (p + 1) 4 0 ;; Ok (mkHead major addl v 5 false)
  else if addl =? 27 then
    require (p + 9 <=? zlen b) EDeser ;;; v <- get_be b (p + 1) 8 0 ;; Ok (mkHead major addl v 9 false)
  else if addl =? 31 then Ok (mkHead major addl 0 1 true)
  else Throw EDeser.

(** the chunk loop of skip, lines 141-148 *)
Definition skip_chunk (b : bytes) (major : Z) (q : Z) : res (Z + Z) :=
  require (q <? zlen b) EDeser ;;;
  x <- rd b q ;;
  if x =? 255 then Ok (inr (q + 1)) else
  ch <- read_head b q ;;
  require (h_major ch =? major) EDeser ;;;
  require (negb (h_indef ch)) EDeser ;;;
  Ok (inl (wrap64 (q + wrap64 (h_len ch + h_val ch)))).

(** the indefinite array / map loops of skip, lines 155-159, 166-171 *)
Definition skip_until (b : bytes) (step : Z -> res Z) (q : Z) : res (Z + Z) :=
  require (q <? zlen b) EDeser ;;;
  x <- rd b q ;;
  if x =? 255 then Ok (inr (q + 1)) else q' <- step q ;; Ok (inl q').

(** [for (uint64_t i = 0; i < n; ++i) q = step(q);] *)
Definition times (n : Z) (step : Z -> res Z) (q : Z) : res Z :=
  x <- zloop (R := unit) n (fun q => q' <- step q ;; Ok (inl q')) q ;;
  match x with inl q' => Ok q' | inr _ => UB end.

(** skip, lines 127-186.  [fuel] bounds the recursion depth and each [for (;;)] loop. *)
Fixpoint skip (fuel : nat) (b : bytes) (p : Z) : res Z :=
  match fuel with
  | O => NoFuel
  | S f =>
      h <- read_head b p ;;
      let q := p + h_len h in
      let m := h_major h in
      if (m =? 0) || (m =? 1) then Ok q
      else if (m =? 2) || (m =? 3) then
        if negb (h_indef h) then
          require (wrap64 (q + h_val h) <=? zlen b) EDeser ;;; Ok (wrap64 (q + h_val h))
        else floop f (skip_chunk b m) q
      else if m =? 4 then
        if negb (h_indef h) then times (h_val h) (skip f b) q
        else floop f (skip_until b (skip f b)) q
      else if m =? 5 then
        if negb (h_indef h) then times (h_val h) (fun q => q1 <- skip f b q ;; skip f b q1) q
        else floop f (skip_until b (fun q => q1 <- skip f b q ;; skip f b q1)) q
      else if m =? 6 then skip f b q
      else
        let a := h_addl h in
        if a =? 25 then require (q + 2 <=? zlen b) EDeser ;;; Ok (q + 2)
        else if a =? 26 then require (q + 4 <=? zlen b) EDeser ;;; Ok (q + 4)
        else if a =? 27 then require (q + 8 <=? zlen b) EDeser ;;; Ok (q + 8)
        else if a =? 24 then require (q + 1 <=? zlen b) EDeser ;;; Ok (q + 1)
        else Ok q
  end.

(** head(), line 188 *)
Definition chd (v : cview) : res chead := read_head (cv_buf v) (cv_pos v).

(** Predicates, lines 230-238 *)
Definition c_is (p : chead -> bool) (v : cview) : res bool := h <- chd v ;; Ok (p h).
Definition p_null (h : chead) : bool := (h_major h =? 7) && (h_addl h =? 22).
Definition p_bool (h : chead) : bool := (h_major h =? 7) && ((h_addl h =? 20) || (h_addl h =? 21)).
Definition p_int (h : chead) : bool := (h_major h =? 0) || (h_major h =? 1).
Definition p_major (m : Z) (h : chead) : bool := h_major h =? m.
Definition p_float (h : chead) : bool :=
  (h_major h =? 7) && ((h_addl h =? 25) || (h_addl h =? 26) || (h_addl h =? 27)).

(** asInt64, lines 244-252 *)
Definition c_asInt64 (v : cview) : res Z :=
  h <- chd v ;;
  require (p_int h) EDeser ;;;
  if h_major h =? 0 then Ok (to_signed 64 (h_val h))
  else if i64_max <? h_val h then Throw EDeser
  else Ok (-1 - h_val h).
(** asInt8/16/32, lines 241-243 *)
Definition c_asInt (w : iwidth) (v : cview) : res Z :=
  x <- c_asInt64 v ;;
  match w with
  | I64 => Ok x
  | _ => require (negb ((x <? smin w) || (smax w <? x))) EDeser ;;; Ok (to_signed (ibits w) x)
  end.
(** asUInt64, line 257; asUInt8/16/32, lines 254-256 *)
Definition c_asUInt64 (v : cview) : res Z :=
  h <- chd v ;; require (h_major h =? 0) EDeser ;;; Ok (h_val h).
Definition c_asUInt (w : iwidth) (v : cview) : res Z :=
  x <- c_asUInt64 v ;;
  match w with
  | I64 => Ok x
  | _ => require (negb (umax w <? x)) EDeser ;;; Ok (x mod 2 ^ ibits w)
  end.

(** asDouble, lines 260-266 (bit pattern): no bounds check on the payload. *)
Definition c_asDouble (v : cview) : res Z :=
  h <- chd v ;;
  require (p_float h) EDeser ;;;
  let q := cv_pos v + h_len h in
  let b := cv_buf v in
  if h_addl h =? 25 then
    x <- rd b q ;; y <- rd b (q + 1) ;; Ok (decode_f16 (wrap16 (Z.lor (Z.shiftl x 8) y)))
  else if h_addl h =? 26 then x <- get_be b q 4 0 ;; Ok (f32_to_f64 (wrap32 x))
  else get_be b q 8 0.

(** asBool, line 267 *)
Definition c_asBool (v : cview) : res bool :=
  h <- chd v ;; require (p_bool h) EDeser ;;; Ok (h_addl h =? 21).

(** std::string(p, n) / std::string::append(p, n): length_error above max_size() (at most
    2^63 - 1), otherwise n bytes are copied. *)
Definition mk_string (b : bytes) (q n : Z) : res bytes :=
  if i64_max <? n then Throw ELength else rd_view b (q, n).

(** the chunk loops of asString and asBlobVec, lines 277-284 *)
Definition str_chunk (hard : bool) (b : bytes) (s : Z * bytes) : res ((Z * bytes) + bytes) :=
  let '(q, out) := s in
  require (q <? zlen b) EDeser ;;;
  x <- rd b q ;;
  if x =? 255 then Ok (inr out) else
  ch <- read_head b q ;;
  require ((h_major ch =? 3) && negb (h_indef ch)) EDeser ;;;
  let q1 := q + h_len ch in
  require (wrap64 (q1 + h_val ch) <=? zlen b) EDeser ;;;
  a <- addr hard b q1 ;;
  t <- mk_string b a (h_val ch) ;;
  Ok (inl (wrap64 (q1 + h_val ch), out ++ t)).

(** asString, lines 269-287 *)
Definition c_asString (hard : bool) (fuel : nat) (v : cview) : res bytes :=
  let b := cv_buf v in
  h <- chd v ;;
  require (h_major h =? 3) EDeser ;;;
  let q := cv_pos v + h_len h in
  if negb (h_indef h) then
    require (wrap64 (q + h_val h) <=? zlen b) EDeser ;;;
    a <- addr hard b q ;;
    mk_string b a (h_val h)
  else floop fuel (str_chunk hard b) (q, []).

(** asStringView, lines 288-293; asBlob, lines 295-301 *)
Definition c_view (hard : bool) (m : Z) (v : cview) : res view :=
  let b := cv_buf v in
  h <- chd v ;;
  require (h_major h =? m) EDeser ;;;
  require (negb (h_indef h)) EDeser ;;;
  let q := cv_pos v + h_len h in
  require (wrap64 (q + h_val h) <=? zlen b) EDeser ;;;
  a <- addr hard b q ;;
  Ok (a, h_val h).
Definition c_asStringView (hard : bool) : cview -> res view := c_view hard 3.
Definition c_asBlob (hard : bool) : cview -> res view := c_view hard 2.

(** asBlobVec, lines 302-322.  [p + h.val] outside the buffer is UB. *)
Definition blob_chunk (hard : bool) (b : bytes) (s : Z * bytes) : res ((Z * bytes) + bytes) :=
  let '(q, out) := s in
  require (q <? zlen b) EDeser ;;;
  x <- rd b q ;;
  if x =? 255 then Ok (inr out) else
  ch <- read_head b q ;;
  require ((h_major ch =? 2) && negb (h_indef ch)) EDeser ;;;
  let q1 := q + h_len ch in
  require (wrap64 (q1 + h_val ch) <=? zlen b) EDeser ;;;
  a <- addr hard b q1 ;;
  t <- rd_view b (a, h_val ch) ;;
  Ok (inl (wrap64 (q1 + h_val ch), out ++ t)).
Definition c_asBlobVec (hard : bool) (fuel : nat) (v : cview) : res bytes :=
  let b := cv_buf v in
  h <- chd v ;;
  require (h_major h =? 2) EDeser ;;;
  let q := cv_pos v + h_len h in
  if negb (h_indef h) then
    require (wrap64 (q + h_val h) <=? zlen b) EDeser ;;;
    a <- addr hard b q ;;
    rd_view b (a, h_val h)
  else floop fuel (blob_chunk hard b) (q, []).

(** [ksv == key]: the characters are read only when the sizes agree. *)
Definition sv_is (b : bytes) (w : view) (key : bytes) : res bool :=
  if snd w =? zlen key then t <- rd_view b w ;; Ok (beq t key) else Ok false.

(** contains, lines 325-359.  The string_view of a definite key (line 334) is made without a
    bounds check. *)
Definition contains_def (hard : bool) (fuel : nat) (b : bytes) (key : bytes) (q : Z) : res (Z + bool) :=
  kh <- read_head b q ;;
  eq <- (if (h_major kh =? 3) && negb (h_indef kh)
         then a <- addr hard b (q + h_len kh) ;; sv_is b (a, h_val kh) key
         else k <- c_asString hard fuel (mkCView b q) ;; Ok (beq k key)) ;;
  if eq then Ok (inr true) else
  q1 <- skip fuel b q ;; q2 <- skip fuel b q1 ;; Ok (inl q2).
Definition contains_ind (hard : bool) (fuel : nat) (b : bytes) (key : bytes) (q : Z) : res (Z + bool) :=
  require (q <? zlen b) EDeser ;;;
  x <- rd b q ;;
  if x =? 255 then Ok (inr false) else
  k <- c_asString hard fuel (mkCView b q) ;;
  q1 <- skip fuel b q ;;
  if beq k key then Ok (inr true) else q2 <- skip fuel b q1 ;; Ok (inl q2).
Definition c_contains (hard : bool) (fuel : nat) (v : cview) (key : bytes) : res bool :=
  let b := cv_buf v in
  h <- chd v ;;
  if negb (h_major h =? 5) then Ok false else
  let q := cv_pos v + h_len h in
  if negb (h_indef h) then
    x <- zloop (h_val h) (contains_def hard fuel b key) q ;;
    match x with inl _ => Ok false | inr r => Ok r end
  else floop fuel (contains_ind hard fuel b key) q.

(** operator[](string_view), lines 460-475 *)
Definition key_def (hard : bool) (fuel : nat) (b : bytes) (key : bytes) (q : Z) : res (Z + cview) :=
  k <- c_asString hard fuel (mkCView b q) ;;
  q1 <- skip fuel b q ;;
  if beq k key then Ok (inr (mkCView b q1)) else q2 <- skip fuel b q1 ;; Ok (inl q2).
Definition key_ind (hard : bool) (fuel : nat) (b : bytes) (key : bytes) (q : Z) : res (Z + option cview) :=
  require (q <? zlen b) EDeser ;;;
  x <- rd b q ;;
  if x =? 255 then Ok (inr None) else
  k <- c_asString hard fuel (mkCView b q) ;;
  q1 <- skip fuel b q ;;
  if beq k key then Ok (inr (Some (mkCView b q1))) else q2 <- skip fuel b q1 ;; Ok (inl q2).
Definition c_key (hard : bool) (fuel : nat) (v : cview) (key : bytes) : res cview :=
  let b := cv_buf v in
  h <- chd v ;;
  require (h_major h =? 5) EDeser ;;;
  let q := cv_pos v + h_len h in
  if negb (h_indef h) then
    x <- zloop (h_val h) (key_def hard fuel b key) q ;;
    match x with inl _ => Throw EDeser | inr r => Ok r end
  else
    x <- floop fuel (key_ind hard fuel b key) q ;;
    match x with Some r => Ok r | None => Throw EDeser end.

(** arraySize, lines 478-482 *)
Definition size_step (fuel : nat) (b : bytes) (s : Z * Z) : res ((Z * Z) + Z) :=
  let '(q, c) := s in
  require (q <? zlen b) EDeser ;;;
  x <- rd b q ;;
  if x =? 255 then Ok (inr c) else q1 <- skip fuel b q ;; Ok (inl (q1, c + 1)).
Definition c_arraySize (fuel : nat) (v : cview) : res Z :=
  let b := cv_buf v in
  h <- chd v ;;
  require (h_major h =? 4) EDeser ;;;
  if negb (h_indef h) then Ok (h_val h)
  else floop fuel (size_step fuel b) (cv_pos v + h_len h, 0).

(** operator[](size_t), lines 483-494 *)
Definition idx_step (fuel : nat) (b : bytes) (idx : Z) (s : Z * Z) : res ((Z * Z) + option cview) :=
  let '(q, i) := s in
  require (q <? zlen b) EDeser ;;;
  x <- rd b q ;;
  if x =? 255 then Ok (inr None)
  else if i =? idx then Ok (inr (Some (mkCView b q)))
  else q1 <- skip fuel b q ;; Ok (inl (q1, i + 1)).
Definition c_idx (fuel : nat) (v : cview) (idx : Z) : res cview :=
  let b := cv_buf v in
  h <- chd v ;;
  require (h_major h =? 4) EDeser ;;;
  let q := cv_pos v + h_len h in
  if negb (h_indef h) then
    if h_val h <=? idx then Throw EDeser else
    q1 <- times idx (skip fuel b) q ;; Ok (mkCView b q1)
  else
    x <- floop fuel (idx_step fuel b idx) (q, 0) ;;
    match x with Some r => Ok r | None => Throw EDeser end.

(** ** KeysView, lines 361-456: its own header reader and skip, without bounds checks
    ([b[p]] is [rd]). *)

(** iterator::read_head, lines 378-396 *)
Definition k_read_head (b : bytes) (p : Z) : res chead :=
  x <- rd b p ;;
  let major := Z.shiftr x 5 in
  let addl := Z.land x 31 in
  if major =? 7 then
    if addl =? 25 then Ok (mkHead major addl 2 1 false)
    else if addl =? 26 then Ok (mkHead major addl 4 1 false)
    else if addl =? 27 then Ok (mkHead major addl 8 1 false)
    else if addl =? 24 then Ok (mkHead major addl 0 2 false)
    else if addl =? 31 then Ok (mkHead major addl 0 1 true)
    else Ok (mkHead major addl 0 1 false)
  else if addl <? 24 then Ok (mkHead major addl addl 1 false)
  else if addl =? 24 then v <- rd b (p + 1) ;; Ok (mkHead major addl v 2 false)
  else if addl =? 25 then v <- get_be b (p + 1) 2 0 ;; Ok (mkHead major addl v 3 false)
  else if addl =? 26 then v <- get_be b (p + 1) 4 0 ;; Ok (mkHead major addl v 5 false)
  else if addl =? 27 then v <- get_be b (p + 1) 8 0 ;; Ok (mkHead major addl v 9 false)
  else if addl =? 31 then Ok (mkHead major addl 0 1 true)
  else Ok (mkHead major addl 0 1 false).

(** iterator::skip, lines 397-415 *)
Definition k_chunk (b : bytes) (q : Z) : res (Z + Z) :=
  x <- rd b q ;;
  if x =? 255 then Ok (inr (q + 1)) else
  ch <- k_read_head b q ;;
  Ok (inl (wrap64 (q + wrap64 (h_len ch + h_val ch)))).
Definition k_until (b : bytes) (step : Z -> res Z) (q : Z) : res (Z + Z) :=
  x <- rd b q ;;
  if x =? 255 then Ok (inr (q + 1)) else q' <- step q ;; Ok (inl q').
Fixpoint k_skip (fuel : nat) (b : bytes) (p : Z) : res Z :=
  match fuel with
  | O => NoFuel
  | S f =>
      h <- k_read_head b p ;;
      let q := p + h_len h in
      let m := h_major h in
      if (m =? 0) || (m =? 1) then Ok q
      else if (m =? 2) || (m =? 3) then
        if negb (h_indef h) then Ok (wrap64 (q + h_val h))
        else floop f (k_chunk b) q
      else if m =? 4 then
        if negb (h_indef h) then times (h_val h) (k_skip f b) q
        else floop f (k_until b (k_skip f b)) q
      else if m =? 5 then
        if negb (h_indef h) then times (h_val h) (fun q => q1 <- k_skip f b q ;; k_skip f b q1) q
        else floop f (k_until b (fun q => q1 <- k_skip f b q ;; k_skip f b q1)) q
      else if m =? 6 then k_skip f b q
      else
        let a := h_addl h in
        if a =? 25 then Ok (q + 2) else if a =? 26 then Ok (q + 4) else if a =? 27 then Ok (q + 8)
        else Ok q
  end.

(** iterator::operator*, lines 417-426: the key's bytes *)
Definition k_deref (hard : bool) (fuel : nat) (b : bytes) (q : Z) : res bytes :=
  kh <- k_read_head b q ;;
  if (h_major kh =? 3) && negb (h_indef kh)
  then a <- addr hard b (q + h_len kh) ;; rd_view b (a, h_val kh)
  else c_asString hard fuel (mkCView b q).
(** iterator::operator++, lines 427-439: (q, remaining) *)
Definition k_incr (fuel : nat) (b : bytes) (indef : bool) (s : Z * Z) : res (Z * Z) :=
  let '(q, remaining) := s in
  if indef then
    x <- rd b q ;;
    if x =? 255 then Ok (q, remaining) else
    q1 <- k_skip fuel b q ;; q2 <- k_skip fuel b q1 ;; Ok (q2, remaining)
  else if remaining =? 0 then Ok (q, remaining)
  else q1 <- k_skip fuel b q ;; q2 <- k_skip fuel b q1 ;; Ok (q2, remaining - 1).
(** end(), lines 447-455 *)
Definition k_end (fuel : nat) (b : bytes) (start : Z) : res Z :=
  h <- k_read_head b start ;;
  let q := start + h_len h in
  if negb (h_indef h)
  then times (h_val h) (fun q => q1 <- k_skip fuel b q ;; k_skip fuel b q1) q
  else floop fuel (k_until b (fun q => q1 <- k_skip fuel b q ;; k_skip fuel b q1)) q.
(** mapKeys, line 458, and [for (std::string_view k : v.mapKeys())]: iterators are compared by
    position (line 441). *)
Definition keys_step (hard : bool) (fuel : nat) (b : bytes) (indef : bool) (e : Z)
           (s : Z * Z * list bytes) : res ((Z * Z * list bytes) + list bytes) :=
  let '(q, r, acc) := s in
  if q =? e then Ok (inr (rev acc)) else
  k <- k_deref hard fuel b q ;;
  qr <- k_incr fuel b indef (q, r) ;;
  Ok (inl (qr, k :: acc)).
Definition c_mapKeys (hard : bool) (fuel : nat) (v : cview) : res (list bytes) :=
  let b := cv_buf v in
  h <- chd v ;;
  require (h_major h =? 5) EDeser ;;;
  bh <- k_read_head b (cv_pos v) ;;
  e <- k_end fuel b (cv_pos v) ;;
  floop fuel (keys_step hard fuel b (h_indef bh) e)
        (cv_pos v + h_len bh, if h_indef bh then 0 else h_val bh, []).

(** Constructors, lines 209-224 *)
Definition cb_open (b : bytes) : cview := mkCView b 0.

(** The Reader interface.  String and blob views are observed through the bytes they denote. *)
Definition cbor_reader (hard : bool) (fuel : nat) : reader cview := {|
  r_isNull := c_is p_null; r_isBool := c_is p_bool; r_isInt := c_is p_int;
  r_isUInt := c_is (p_major 0); r_isFloat := c_is p_float; r_isString := c_is (p_major 3);
  r_isBlob := c_is (p_major 2); r_isMap := c_is (p_major 5); r_isArray := c_is (p_major 4);
  r_asBool := c_asBool; r_asInt := c_asInt; r_asUInt := c_asUInt;
  r_asDouble := c_asDouble;
  r_asString := c_asString hard fuel;
  r_asStringView := (fun v => w <- c_asStringView hard v ;; rd_view (cv_buf v) w);
  r_asBlob := (fun v => w <- c_asBlob hard v ;; rd_view (cv_buf v) w);
  r_arraySize := c_arraySize fuel; r_idx := c_idx fuel; r_key := c_key hard fuel;
  r_contains := c_contains hard fuel;
  r_mapKeys := c_mapKeys hard fuel
|}.

(** ** Writer

    jsoncons 1.4.0 basic_cbor_encoder, a third-party library, with default options (max nesting
    depth 1024, no stringref packing): transcribed from its documented behaviour.  The library's own
    exceptions (jsoncons::ser_error, assertion_error) are [EThirdParty]. *)

(** [n] big-endian bytes *)
Fixpoint put_be (n : nat) (v : Z) : bytes :=
  match n with O => [] | S k => Z.land (Z.shiftr v (8 * Z.of_nat k)) 255 :: put_be k v end.
(** initial byte and argument, shortest form *)
Definition put_head (m v : Z) : bytes :=
  if v <=? 23 then [32 * m + v]
  else if v <=? 255 then (32 * m + 24) :: put_be 1 v
  else if v <=? 65535 then (32 * m + 25) :: put_be 2 v
  else if v <=? 4294967295 then (32 * m + 26) :: put_be 4 v
  else (32 * m + 27) :: put_be 8 v.

(** One call on a text string is rejected unless it is valid UTF-8 (unicode_traits::validate): [utf8_valid], Utf8Model.v. *)

(** visit_double: as binary32 when [(double)(float)val == val], otherwise as binary64. *)
Definition put_double (bits : Z) : bytes :=
  match f64_to_f32 bits with
  | Some x => 250 :: put_be 4 x
  | None => 251 :: put_be 8 bits
  end.

(** Encoder state and RootSerializer (lines 28-45): the output, the stack of open containers (is it
    a map, announced length, calls of key() and of value functions so far; innermost first) and
    wrote_root. *)
Record cwst : Type := mkCW {
  cw_out : bytes;
  cw_st : list (bool * Z * Z);
  cw_root : bool
}.
Definition max_depth : Z := 1024.

(** end_value() of the encoder *)
Definition bump (st : list (bool * Z * Z)) : list (bool * Z * Z) :=
  match st with (k, n, c) :: st' => (k, n, c + 1) :: st' | [] => [] end.
Definition cw_value (s : cwst) (l : bytes) : cwst * res unit :=
  (mkCW (cw_out s ++ l) (bump (cw_st s)) true, Ok tt).
(** begin_array(n) / begin_object(n) of the encoder *)
Definition cw_begin (k : bool) (s : cwst) (n : Z) : cwst * res unit :=
  if max_depth <? zlen (cw_st s) + 1 then (s, Throw EThirdParty)
  else (mkCW (cw_out s ++ put_head (if k then 5 else 4) n) ((k, n, 0) :: cw_st s) true, Ok tt).
(** stack_item::count() of the encoder: a map has [index_ / 2] entries (a key without a value is not
    noticed). *)
Definition cw_count (k : bool) (c : Z) : Z := if k then c / 2 else c.
(** end_array() / end_object(): the count must match the announced length. *)
Definition cw_end (s : cwst) : cwst * res unit :=
  match cw_st s with
  | [] => (s, Throw EThirdParty)
  | (k, n, c) :: st' =>
      if cw_count k c =? n then (mkCW (cw_out s) (bump st') (cw_root s), Ok tt) else (s, Throw EThirdParty)
  end.

(** Serializer, lines 47-70; key() is encoded like a string value.  The state after a throw is not used again by the theorems. *)
Definition cw_step (s : cwst) (e : ev) : cwst * res unit :=
  match e with
  | ENull => cw_value s [246]
  | EBool b => cw_value s [if b then 245 else 244]
  | EInt z => cw_value s (if 0 <=? z then put_head 0 z else put_head 1 (-1 - z))
  | EUInt z => cw_value s (put_head 0 z)
  | EDbl b => cw_value s (put_double b)
  | EStr t => if utf8_valid t then cw_value s (put_head 3 (zlen t) ++ t) else (s, Throw EThirdParty)
  | EBin b => cw_value s (put_head 2 (zlen b) ++ b)
  | EKey k => if utf8_valid k
              then (mkCW (cw_out s ++ put_head 3 (zlen k) ++ k) (bump (cw_st s)) (cw_root s), Ok tt)
              else (s, Throw EThirdParty)
  | EBeginArr n => cw_begin false s n
  | EBeginMap n => cw_begin true s n
  | EEndArr | EEndMap => cw_end s
  end.
(** finish, lines 38-44 *)
Definition cw_finish (s : cwst) : cwst * res bytes :=
  if cw_root s then (mkCW [] (cw_st s) true, Ok (cw_out s))
  else (mkCW [] (cw_st s) true, Ok (cw_out s ++ [246])).
Definition cbor_writer : writer cwst bytes := mkWriter (mkCW [] [] false) cw_step cw_finish.
