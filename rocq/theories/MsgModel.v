(** MsgModel.v -- transcription of include/zerialize/protocols/msgpack.hpp.

    Line numbers refer to that file unless another one is named.  Definitions only, no proofs. *)

From Coq Require Import ZArith List Bool.
From Verif Require Import Base Spec FloatModel.
Import ListNotations.
Open Scope Z_scope.

(** ** std::span<const uint8_t>

    A span is the underlying buffer, an offset and a length.  The preconditions of the
    standard library ([operator[]]: i < size(); [subspan(o)]: o <= size();
    [subspan(o,n)]: o <= size() and n <= size() - o; [first(n)]: n <= size()) are checked
    here and their violation is UB.  Raw pointer reads [v.data() + k] are UB only outside the
    underlying buffer. *)
Record mspan : Type := mkSpan { ms_buf : bytes; ms_off : Z; ms_len : Z }.

Definition sp_empty (v : mspan) : bool := ms_len v =? 0.
Definition sp_at (v : mspan) (i : Z) : res Z :=
  if (0 <=? i) && (i <? ms_len v) then rd (ms_buf v) (ms_off v + i) else UB.
Definition subspan (v : mspan) (o : Z) : res mspan :=
  if o <=? ms_len v then Ok (mkSpan (ms_buf v) (ms_off v + o) (ms_len v - o)) else UB.
Definition subspan2 (v : mspan) (o n : Z) : res mspan :=
  if (o <=? ms_len v) && (n <=? ms_len v - o) then Ok (mkSpan (ms_buf v) (ms_off v + o) n) else UB.
Definition first (v : mspan) (n : Z) : res mspan :=
  if n <=? ms_len v then Ok (mkSpan (ms_buf v) (ms_off v) n) else UB.

(** ** Big-endian helpers *)

(** mp_read_be16, lines 23-25 *)
Definition mp_read_be16 (l : bytes) (p : Z) : res Z :=
  b0 <- rd l p ;; b1 <- rd l (p + 1) ;; Ok (Z.lor (Z.shiftl b0 8) b1).
(** mp_read_be32, lines 26-28 *)
Definition mp_read_be32 (l : bytes) (p : Z) : res Z :=
  b0 <- rd l p ;; b1 <- rd l (p + 1) ;; b2 <- rd l (p + 2) ;; b3 <- rd l (p + 3) ;;
  Ok (Z.lor (Z.lor (Z.lor (Z.shiftl b0 24) (Z.shiftl b1 16)) (Z.shiftl b2 8)) b3).
(** mp_read_be64, lines 29-32 *)
Definition mp_read_be64 (l : bytes) (p : Z) : res Z :=
  b0 <- rd l p ;; b1 <- rd l (p + 1) ;; b2 <- rd l (p + 2) ;; b3 <- rd l (p + 3) ;;
  b4 <- rd l (p + 4) ;; b5 <- rd l (p + 5) ;; b6 <- rd l (p + 6) ;; b7 <- rd l (p + 7) ;;
  Ok (Z.lor (Z.lor (Z.lor (Z.lor (Z.lor (Z.lor (Z.lor (Z.shiftl b0 56) (Z.shiftl b1 48))
     (Z.shiftl b2 40)) (Z.shiftl b3 32)) (Z.shiftl b4 24)) (Z.shiftl b5 16)) (Z.shiftl b6 8)) b7).

(** [v.data() + k] *)
Definition sp_ptr (v : mspan) (k : Z) : Z := ms_off v + k.

(** ** mp_skip, lines 38-106 *)

(** [for (i < n) { off += mp_skip(v.subspan(off)); } return off;]  Offsets cannot overflow size_t:
    [off <= v.size()] is a precondition of subspan and a skip is below size() + 2^32. *)
Definition skip_seq (skip : mspan -> res Z) (v : mspan) (n off : Z) : res Z :=
  x <- zloop (R := unit) n
         (fun off => w <- subspan v off ;; s <- skip w ;; Ok (inl (off + s))) off ;;
  match x with inl off' => Ok off' | inr _ => UB end.
(** the loop over key/value pairs, lines 55-60, 96, 101 *)
Definition skip_pairs (skip : mspan -> res Z) (v : mspan) (n off : Z) : res Z :=
  x <- zloop (R := unit) n
         (fun off =>
            w <- subspan v off ;; ks <- skip w ;;
            w2 <- subspan v (off + ks) ;; vs <- skip w2 ;;
            Ok (inl (off + ks + vs))) off ;;
  match x with inl off' => Ok off' | inr _ => UB end.

(** [fuel] bounds the recursion depth.  [5 + mp_read_be32(..)] is uint32_t arithmetic
    (int + uint32_t); [2 + v[1]] and [3 + mp_read_be16(..)] are int arithmetic. *)
Fixpoint mp_skip (fuel : nat) (v : mspan) : res Z :=
  match fuel with
  | O => NoFuel
  | S f =>
      require (negb (sp_empty v)) EDeser ;;;
      m <- sp_at v 0 ;;
      if (m <=? 127) || (224 <=? m) || (m =? 192) || (m =? 194) || (m =? 195) then Ok 1
      else if Z.land m 224 =? 160 then Ok (1 + Z.land m 31)
      else if Z.land m 240 =? 144 then skip_seq (mp_skip f) v (Z.land m 15) 1
      else if Z.land m 240 =? 128 then skip_pairs (mp_skip f) v (Z.land m 15) 1
      else if (m =? 204) || (m =? 208) then Ok 2
      else if (m =? 205) || (m =? 209) then Ok 3
      else if (m =? 206) || (m =? 210) || (m =? 202) then Ok 5
      else if (m =? 207) || (m =? 211) || (m =? 203) then Ok 9
      else if (m =? 217) || (m =? 196) then
        require (negb (ms_len v <? 2)) EDeser ;;; n <- sp_at v 1 ;; Ok (2 + n)
      else if (m =? 218) || (m =? 197) then
        require (negb (ms_len v <? 3)) EDeser ;;; n <- mp_read_be16 (ms_buf v) (sp_ptr v 1) ;; Ok (3 + n)
      else if (m =? 219) || (m =? 198) then
        require (negb (ms_len v <? 5)) EDeser ;;; n <- mp_read_be32 (ms_buf v) (sp_ptr v 1) ;; Ok (wrap32 (5 + n))
      else if m =? 220 then
        require (negb (ms_len v <? 3)) EDeser ;;; n <- mp_read_be16 (ms_buf v) (sp_ptr v 1) ;;
        skip_seq (mp_skip f) v n 3
      else if m =? 221 then
        require (negb (ms_len v <? 5)) EDeser ;;; n <- mp_read_be32 (ms_buf v) (sp_ptr v 1) ;;
        skip_seq (mp_skip f) v n 5
      else if m =? 222 then
        require (negb (ms_len v <? 3)) EDeser ;;; n <- mp_read_be16 (ms_buf v) (sp_ptr v 1) ;;
        skip_pairs (mp_skip f) v n 3
      else if m =? 223 then
        require (negb (ms_len v <? 5)) EDeser ;;; n <- mp_read_be32 (ms_buf v) (sp_ptr v 1) ;;
        skip_pairs (mp_skip f) v n 5
      else Throw EDeser
  end.

(** mp_skip with enough fuel for any span (every recursive call is on a shorter span). *)
Definition skip (v : mspan) : res Z := mp_skip (S (Z.to_nat (ms_len v))) v.

(** ** Reader *)

(** str_info, lines 116-123: (offset in the buffer, length).  No size checks. *)
Definition str_info (v : mspan) : res view :=
  m <- sp_at v 0 ;;
  if Z.land m 224 =? 160 then Ok (sp_ptr v 1, Z.land m 31)
  else if m =? 217 then n <- sp_at v 1 ;; Ok (sp_ptr v 2, n)
  else if m =? 218 then n <- mp_read_be16 (ms_buf v) (sp_ptr v 1) ;; Ok (sp_ptr v 3, n)
  else if m =? 219 then n <- mp_read_be32 (ms_buf v) (sp_ptr v 1) ;; Ok (sp_ptr v 5, n)
  else Throw EDeser.
(** bin_info, lines 124-130 *)
Definition bin_info (v : mspan) : res view :=
  m <- sp_at v 0 ;;
  if m =? 196 then n <- sp_at v 1 ;; Ok (sp_ptr v 2, n)
  else if m =? 197 then n <- mp_read_be16 (ms_buf v) (sp_ptr v 1) ;; Ok (sp_ptr v 3, n)
  else if m =? 198 then n <- mp_read_be32 (ms_buf v) (sp_ptr v 1) ;; Ok (sp_ptr v 5, n)
  else Throw EDeser.
(** arr_info, lines 131-137: (count, payload offset) *)
Definition arr_info (v : mspan) : res (Z * Z) :=
  m <- sp_at v 0 ;;
  if Z.land m 240 =? 144 then Ok (Z.land m 15, 1)
  else if m =? 220 then n <- mp_read_be16 (ms_buf v) (sp_ptr v 1) ;; Ok (n, 3)
  else if m =? 221 then n <- mp_read_be32 (ms_buf v) (sp_ptr v 1) ;; Ok (n, 5)
  else Throw EDeser.
(** map_info, lines 138-144 *)
Definition map_info (v : mspan) : res (Z * Z) :=
  m <- sp_at v 0 ;;
  if Z.land m 240 =? 128 then Ok (Z.land m 15, 1)
  else if m =? 222 then n <- mp_read_be16 (ms_buf v) (sp_ptr v 1) ;; Ok (n, 3)
  else if m =? 223 then n <- mp_read_be32 (ms_buf v) (sp_ptr v 1) ;; Ok (n, 5)
  else Throw EDeser.

(** Predicates, lines 242-265: false on an empty view, otherwise decided by the marker. *)
Definition mp_is (p : Z -> bool) (v : mspan) : res bool :=
  if sp_empty v then Ok false else m <- sp_at v 0 ;; Ok (p m).
Definition k_null (m : Z) : bool := m =? 192.
Definition k_bool (m : Z) : bool := (m =? 194) || (m =? 195).
Definition k_int (m : Z) : bool :=
  (m <=? 127) || (224 <=? m) || ((m =? 208) || (m =? 209) || (m =? 210) || (m =? 211)).
Definition k_uint (m : Z) : bool :=
  (m <=? 127) || ((m =? 204) || (m =? 205) || (m =? 206) || (m =? 207)).
Definition k_float (m : Z) : bool := (m =? 202) || (m =? 203).
Definition k_string (m : Z) : bool :=
  (Z.land m 224 =? 160) || (m =? 217) || (m =? 218) || (m =? 219).
Definition k_blob (m : Z) : bool := (m =? 196) || (m =? 197) || (m =? 198).
Definition k_array (m : Z) : bool := (Z.land m 240 =? 144) || (m =? 220) || (m =? 221).
Definition k_map (m : Z) : bool := (Z.land m 240 =? 128) || (m =? 222) || (m =? 223).

(** asInt64, lines 292-307.  The uint64_t value is converted to int64_t on return. *)
Definition mp_asInt64 (v : mspan) : res Z :=
  require (negb (sp_empty v)) EDeser ;;;
  m <- sp_at v 0 ;;
  if m <=? 127 then Ok m
  else if 224 <=? m then Ok (to_signed 8 m)
  else if m =? 208 then require (negb (ms_len v <? 2)) EDeser ;;; x <- sp_at v 1 ;; Ok (to_signed 8 x)
  else if m =? 209 then require (negb (ms_len v <? 3)) EDeser ;;;
    x <- mp_read_be16 (ms_buf v) (sp_ptr v 1) ;; Ok (to_signed 16 x)
  else if m =? 210 then require (negb (ms_len v <? 5)) EDeser ;;;
    x <- mp_read_be32 (ms_buf v) (sp_ptr v 1) ;; Ok (to_signed 32 x)
  else if m =? 211 then require (negb (ms_len v <? 9)) EDeser ;;;
    x <- mp_read_be64 (ms_buf v) (sp_ptr v 1) ;; Ok (to_signed 64 x)
  else if m =? 204 then require (negb (ms_len v <? 2)) EDeser ;;; sp_at v 1
  else if m =? 205 then require (negb (ms_len v <? 3)) EDeser ;;; mp_read_be16 (ms_buf v) (sp_ptr v 1)
  else if m =? 206 then require (negb (ms_len v <? 5)) EDeser ;;; mp_read_be32 (ms_buf v) (sp_ptr v 1)
  else if m =? 207 then require (negb (ms_len v <? 9)) EDeser ;;;
    x <- mp_read_be64 (ms_buf v) (sp_ptr v 1) ;; Ok (to_signed 64 x)
  else Throw EDeser.

(** asUInt64, lines 333-343 *)
Definition mp_asUInt64 (v : mspan) : res Z :=
  require (negb (sp_empty v)) EDeser ;;;
  m <- sp_at v 0 ;;
  if m <=? 127 then Ok m
  else if m =? 204 then require (negb (ms_len v <? 2)) EDeser ;;; sp_at v 1
  else if m =? 205 then require (negb (ms_len v <? 3)) EDeser ;;; mp_read_be16 (ms_buf v) (sp_ptr v 1)
  else if m =? 206 then require (negb (ms_len v <? 5)) EDeser ;;; mp_read_be32 (ms_buf v) (sp_ptr v 1)
  else if m =? 207 then require (negb (ms_len v <? 9)) EDeser ;;; mp_read_be64 (ms_buf v) (sp_ptr v 1)
  else x <- mp_asInt64 v ;; Ok (wrap64 x).

(** asInt8/16/32, lines 268-290 *)
Definition mp_asInt (w : iwidth) (v : mspan) : res Z :=
  x <- mp_asInt64 v ;;
  match w with
  | I64 => Ok x
  | _ => require (negb ((x <? smin w) || (smax w <? x))) EDeser ;;; Ok (to_signed (ibits w) x)
  end.
(** asUInt8/16/32, lines 309-331 *)
Definition mp_asUInt (w : iwidth) (v : mspan) : res Z :=
  x <- mp_asUInt64 v ;;
  match w with
  | I64 => Ok x
  | _ => require (negb (umax w <? x)) EDeser ;;; Ok (x mod 2 ^ ibits w)
  end.

(** asDouble, lines 349-355: bit patterns; [double(f)] is [f32_to_f64]. *)
Definition mp_asDouble (v : mspan) : res Z :=
  k <- mp_is k_float v ;; require k EDeser ;;;
  m <- sp_at v 0 ;;
  if m =? 202 then require (negb (ms_len v <? 5)) EDeser ;;;
    x <- mp_read_be32 (ms_buf v) (sp_ptr v 1) ;; Ok (f32_to_f64 x)
  else if m =? 203 then require (negb (ms_len v <? 9)) EDeser ;;; mp_read_be64 (ms_buf v) (sp_ptr v 1)
  else Throw EDeser.

(** asBool, line 357 *)
Definition mp_asBool (v : mspan) : res bool :=
  k <- mp_is k_bool v ;; require k EDeser ;;; m <- sp_at v 0 ;; Ok (m =? 195).

(** asStringView / asString / asBlob, lines 359-368 *)
Definition mp_asStringView (v : mspan) : res view := str_info v.
Definition mp_asBlob (v : mspan) : res view := bin_info v.

(** [kd.isString() && kd.asStringView() == key], lines 448, 466: string_view
    comparison reads the characters only when the sizes agree. *)
Definition mp_key_is (kd : mspan) (key : bytes) : res bool :=
  s <- mp_is k_string kd ;;
  if s then
    w <- mp_asStringView kd ;;
    if snd w =? zlen key then t <- rd_view (ms_buf kd) w ;; Ok (beq t key) else Ok false
  else Ok false.

(** contains, lines 438-454 *)
Definition mp_contains (v : mspan) (key : bytes) : res bool :=
  k <- mp_is k_map v ;;
  if negb k then Ok false else
  '(n, off0) <- map_info v ;;
  x <- zloop n
         (fun off =>
            kspan <- subspan v off ;;
            ksz <- skip kspan ;;
            kd <- first kspan ksz ;;
            vspan <- subspan v (off + ksz) ;;
            vsz <- skip vspan ;;
            eq <- mp_key_is kd key ;;
            if eq then Ok (inr true) else Ok (inl (off + ksz + vsz))) off0 ;;
  match x with inl _ => Ok false | inr r => Ok r end.

(** operator[](string_view), lines 456-472 *)
Definition mp_key (v : mspan) (key : bytes) : res mspan :=
  k <- mp_is k_map v ;;
  require k EDeser ;;;
  '(n, off0) <- map_info v ;;
  x <- zloop n
         (fun off =>
            kspan <- subspan v off ;;
            ksz <- skip kspan ;;
            kd <- first kspan ksz ;;
            vspan <- subspan v (off + ksz) ;;
            vsz <- skip vspan ;;
            eq <- mp_key_is kd key ;;
            if eq then c <- first vspan vsz ;; Ok (inr c) else Ok (inl (off + ksz + vsz))) off0 ;;
  match x with inl _ => Throw EDeser | inr r => Ok r end.

(** arraySize, lines 475-477 *)
Definition mp_arraySize (v : mspan) : res Z := '(n, _) <- arr_info v ;; Ok n.

(** operator[](size_t), lines 479-485 *)
Definition mp_idx (v : mspan) (idx : Z) : res mspan :=
  '(n, off0) <- arr_info v ;;
  require (negb (n <=? idx)) EDeser ;;;
  off <- skip_seq skip v idx off0 ;;
  w <- subspan v off ;;
  sz <- skip w ;;
  subspan2 v off sz.

(** ** KeysView, lines 372-436 *)

(** iterator::operator*, lines 394-401 *)
Definition mk_deref (v : mspan) (off : Z) : res view :=
  key_span <- subspan v off ;;
  key_sz <- skip key_span ;;
  kd <- first key_span key_sz ;;
  mp_asStringView kd.
(** iterator::operator++, lines 402-410: the new byte offset *)
Definition mk_incr (v : mspan) (off : Z) : res Z :=
  key_span <- subspan v off ;;
  key_sz <- skip key_span ;;
  vspan <- subspan v (off + key_sz) ;;
  val_sz <- skip vspan ;;
  Ok (off + (key_sz + val_sz)).
(** [for (auto k : v.mapKeys())]: begin() is (0, payload_off), end() walks all entries
    (lines 418-429); the loop runs until the iterators are equal in index and offset. *)
Definition mp_keys (v : mspan) : res (list view) :=
  k <- mp_is k_map v ;;
  require k EDeser ;;;
  '(n, off0) <- map_info v ;;
  end_off <- skip_pairs skip v n off0 ;;
  x <- zloop (n + 1)
         (fun s => let '(i, off, acc) := s in
            if (i =? n) && (off =? end_off) then Ok (inr (rev acc)) else
            w <- mk_deref v off ;;
            off' <- mk_incr v off ;;
            Ok (inl (i + 1, off', w :: acc)))
         (0, off0, []) ;;
  match x with inl _ => NoFuel | inr r => Ok r end.

Fixpoint mp_rd_views (b : bytes) (l : list view) : res (list bytes) :=
  match l with
  | [] => Ok []
  | w :: l' => s <- rd_view b w ;; r <- mp_rd_views b l' ;; Ok (s :: r)
  end.

(** MsgPackDeserializer over a whole buffer, lines 219-239; default constructor line 217. *)
Definition mp_open (b : bytes) : mspan := mkSpan b 0 (zlen b).
Definition mp_default : mspan := mkSpan [] 0 0.

(** The Reader interface.  String and blob views are observed through the bytes they denote. *)
Definition mp_reader : reader mspan := {|
  r_isNull := mp_is k_null; r_isBool := mp_is k_bool; r_isInt := mp_is k_int;
  r_isUInt := mp_is k_uint; r_isFloat := mp_is k_float; r_isString := mp_is k_string;
  r_isBlob := mp_is k_blob; r_isMap := mp_is k_map; r_isArray := mp_is k_array;
  r_asBool := mp_asBool; r_asInt := mp_asInt; r_asUInt := mp_asUInt;
  r_asDouble := mp_asDouble;
  r_asString := (fun v => w <- mp_asStringView v ;; rd_view (ms_buf v) w);
  r_asStringView := (fun v => w <- mp_asStringView v ;; rd_view (ms_buf v) w);
  r_asBlob := (fun v => w <- mp_asBlob v ;; rd_view (ms_buf v) w);
  r_arraySize := mp_arraySize; r_idx := mp_idx; r_key := mp_key;
  r_contains := mp_contains;
  r_mapKeys := (fun v => ks <- mp_keys v ;; mp_rd_views (ms_buf v) ks)
|}.

(** ** Writer

    The packing rules of msgpack-c (pack_template.h: msgpack_pack_int64 / uint64 / nil / true /
    false / double / str / bin / array / map), a third-party library: transcribed from its
    documented behaviour, big-endian stores, lengths truncated to uint32_t. *)
Definition be16 (v : Z) : bytes := [Z.land (Z.shiftr v 8) 255; Z.land v 255].
Definition be32 (v : Z) : bytes :=
  [Z.land (Z.shiftr v 24) 255; Z.land (Z.shiftr v 16) 255; Z.land (Z.shiftr v 8) 255; Z.land v 255].
Definition be64 (v : Z) : bytes := be32 (Z.shiftr v 32) ++ be32 v.

Definition pack_uint64 (d : Z) : bytes :=
  if d <? 2^7 then [d]
  else if d <? 2^8 then [204; d]
  else if d <? 2^16 then 205 :: be16 d
  else if d <? 2^32 then 206 :: be32 d
  else 207 :: be64 d.
Definition pack_int64 (d : Z) : bytes :=
  if d <? - 2^31 then 211 :: be64 (wrap64 d)
  else if d <? - 2^15 then 210 :: be32 (wrap32 d)
  else if d <? - 2^7 then 209 :: be16 (wrap16 d)
  else if d <? - 2^5 then [208; wrap8 d]
  else if d <? 0 then [wrap8 d]
  else pack_uint64 d.
Definition pack_str (n : Z) : bytes :=
  if n <? 32 then [160 + n]
  else if n <? 256 then [217; n]
  else if n <? 65536 then 218 :: be16 n
  else 219 :: be32 (wrap32 n).
Definition pack_bin (n : Z) : bytes :=
  if n <? 256 then [196; n]
  else if n <? 65536 then 197 :: be16 n
  else 198 :: be32 (wrap32 n).
Definition pack_array (n : Z) : bytes :=
  if n <? 16 then [144 + n]
  else if n <? 65536 then 220 :: be16 n
  else 221 :: be32 (wrap32 n).
Definition pack_map (n : Z) : bytes :=
  if n <? 16 then [128 + n]
  else if n <? 65536 then 222 :: be16 n
  else 223 :: be32 (wrap32 n).

(** MsgPackSerializer, lines 518-547: the bytes appended by each call. *)
Definition mp_emit (e : ev) : bytes :=
  match e with
  | ENull => [192]
  | EBool b => [if b then 195 else 194]
  | EInt z => pack_int64 z
  | EUInt z => pack_uint64 z
  | EDbl b => 203 :: be64 b
  | EStr s | EKey s => pack_str (zlen s) ++ s
  | EBin b => pack_bin (zlen b) ++ b
  | EBeginArr n => pack_array n
  | EBeginMap n => pack_map n
  | EEndArr | EEndMap => []
  end.

(** MsgPackRootSerializer, lines 497-516: the sbuffer; finish() steals it.  Failed
    allocations (msgpack_sbuffer_write returning -1) are not modelled. *)
Definition mp_writer : writer bytes bytes := {|
  w_init := [];
  w_step := (fun s e => (s ++ mp_emit e, Ok tt));
  w_finish := (fun s => ([], Ok s))
|}.
