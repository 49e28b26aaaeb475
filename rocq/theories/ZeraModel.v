(** ZeraModel.v -- transcription of include/zerialize/protocols/zera.hpp.

    Line numbers refer to that file.  Definitions only, no proofs. *)

From Coq Require Import ZArith List Bool.
From Verif Require Import Base Spec.
Import ListNotations.
Open Scope Z_scope.

(** zera.hpp:30-35 *)
Definition Magic : Z := 1447970138.          (* 0x564E455A *)
Definition HeaderSize : Z := 20.
Definition ArenaBaseAlign : Z := 16.
Definition InlineMax : Z := 12.
Definition RankMax : Z := 8.

(** enum class Tag, zera.hpp:37-47; DType::U8 = 2, zera.hpp:49-60 *)
Definition TNull := 0. Definition TBool := 1. Definition TI64 := 2. Definition TF64 := 3.
Definition TString := 4. Definition TArray := 5. Definition TObject := 6.
Definition TTyped := 7. Definition TU64 := 8.
Definition DT_U8 := 2.

(** ** Little-endian helpers *)

(** read_u16_le, zera.hpp:63-65 *)
Definition read_u16_le (l : bytes) (p : Z) : res Z :=
  b0 <- rd l p ;; b1 <- rd l (p + 1) ;;
  Ok (Z.lor b0 (Z.shiftl b1 8)).

(** read_u32_le, zera.hpp:66-71 *)
Definition read_u32_le (l : bytes) (p : Z) : res Z :=
  b0 <- rd l p ;; b1 <- rd l (p + 1) ;; b2 <- rd l (p + 2) ;; b3 <- rd l (p + 3) ;;
  Ok (Z.lor (Z.lor (Z.lor b0 (Z.shiftl b1 8)) (Z.shiftl b2 16)) (Z.shiftl b3 24)).

(** read_u64_le, zera.hpp:72-74 *)
Definition read_u64_le (l : bytes) (p : Z) : res Z :=
  lo <- read_u32_le l p ;; hi <- read_u32_le l (p + 4) ;;
  Ok (Z.lor lo (Z.shiftl hi 32)).

(** The byte sequences pushed by append_u16_le / append_u32_le (zera.hpp:76-85);
    write_u*_le_at and write_header* store the same bytes (zera.hpp:91-100, 612-621). *)
Definition u16_le (v : Z) : bytes :=
  [Z.land v 255; Z.land (Z.shiftr v 8) 255].
Definition u32_le (v : Z) : bytes :=
  [Z.land v 255; Z.land (Z.shiftr v 8) 255; Z.land (Z.shiftr v 16) 255; Z.land (Z.shiftr v 24) 255].

(** align_up, zera.hpp:102-106.  Arguments are container sizes, far below 2^64. *)
Definition align_up (x a : Z) : Z :=
  if a =? 0 then x else let r := x mod a in if r =? 0 then x else x + (a - r).

(** ** Reader *)

(** ZeraViewBase, zera.hpp:135-143.  Pointers are offsets from [buf_]:
    [env_] is always [HeaderSize] once initialised; a null [vr_] is [None]. *)
Record zview : Type := mkZView {
  zv_buf : bytes;
  zv_env_size : Z;
  zv_arena : Z;
  zv_arena_len : Z;
  zv_vr : option Z
}.

(** HeaderView / parse_header, zera.hpp:112-131: (magic, version, flags, root_ofs,
    env_size, arena_ofs). *)
Record zheader : Type := mkZHeader {
  h_magic : Z; h_version : Z; h_flags : Z; h_root_ofs : Z; h_env_size : Z; h_arena_ofs : Z
}.

Definition parse_header (b : bytes) : res zheader :=
  require (negb (zlen b <? HeaderSize)) EDeser ;;;
  m <- read_u32_le b 0 ;; ve <- read_u16_le b 4 ;; fl <- read_u16_le b 6 ;;
  ro <- read_u32_le b 8 ;; es <- read_u32_le b 12 ;; ao <- read_u32_le b 16 ;;
  Ok (mkZHeader m ve fl ro es ao).

(** ZeraDeserializer::init_from, zera.hpp:491-513.  [HeaderSize + h.env_size] is
    uint32_t arithmetic; [env_size_ - 16] is size_t arithmetic. *)
Definition zera_open (b : bytes) : res zview :=
  h <- parse_header b ;;
  require (h_magic h =? Magic) EDeser ;;;
  require (h_version h =? 1) EDeser ;;;
  require (h_flags h =? 1) EDeser ;;;
  require (h_env_size h <=? zlen b) EDeser ;;;
  require (h_root_ofs h <? h_env_size h) EDeser ;;;
  require (h_arena_ofs h <=? zlen b) EDeser ;;;
  require (h_arena_ofs h mod ArenaBaseAlign =? 0) EDeser ;;;
  require (wrap32 (HeaderSize + h_env_size h) <=? h_arena_ofs h) EDeser ;;;
  require (wrap32 (HeaderSize + h_env_size h) <=? h_arena_ofs h) EDeser ;;;
  require (h_root_ofs h <=? wrap64 (h_env_size h - 16)) EDeser ;;;
  Ok (mkZView b (h_env_size h) (h_arena_ofs h) (zlen b - h_arena_ofs h)
              (Some (HeaderSize + h_root_ofs h))).

(** A default-constructed ZeraDeserializer, zera.hpp:516. *)
Definition zera_default : zview := mkZView [] 0 0 0 None.

(** require_vr, zera.hpp:166-169; returns the ValueRef offset. *)
Definition require_vr (v : zview) : res Z :=
  match zv_vr v with
  | None => Throw EDeser
  | Some p =>
      require ((HeaderSize <=? p) && (p + 16 <=? HeaderSize + zv_env_size v)) EDeser ;;;
      Ok p
  end.

(** tag / flags / aux / a / b / c, zera.hpp:171-176 *)
Definition zv_tag (v : zview) : res Z := p <- require_vr v ;; rd (zv_buf v) p.
Definition zv_flags (v : zview) : res Z := p <- require_vr v ;; rd (zv_buf v) (p + 1).
Definition zv_aux (v : zview) : res Z := p <- require_vr v ;; read_u16_le (zv_buf v) (p + 2).
Definition zv_a (v : zview) : res Z := p <- require_vr v ;; read_u32_le (zv_buf v) (p + 4).
Definition zv_b (v : zview) : res Z := p <- require_vr v ;; read_u32_le (zv_buf v) (p + 8).
Definition zv_c (v : zview) : res Z := p <- require_vr v ;; read_u32_le (zv_buf v) (p + 12).

(** inline_bytes_view, zera.hpp:178-182 *)
Definition inline_bytes_view (v : zview) (n : Z) : res view :=
  require (n <=? InlineMax) EDeser ;;;
  p <- require_vr v ;;
  Ok (p + 4, n).

(** arena_bytes_view / arena_blob_view, zera.hpp:184-196 *)
Definition arena_view (v : zview) (ofs len : Z) : res view :=
  require (ofs <=? zv_arena_len v) EDeser ;;;
  require (len <=? zv_arena_len v) EDeser ;;;
  require (ofs + len <=? zv_arena_len v) EDeser ;;;
  Ok (zv_arena v + ofs, len).

(** env_ptr_at, zera.hpp:198-203.  The [ofs] parameter is uint32_t; callers
    convert explicitly. *)
Definition env_ptr_at (v : zview) (ofs need : Z) : res Z :=
  require (ofs <=? zv_env_size v) EDeser ;;;
  require (need <=? zv_env_size v) EDeser ;;;
  require (ofs + need <=? zv_env_size v) EDeser ;;;
  Ok (HeaderSize + ofs).

(** require_flags_ok, zera.hpp:205-213; [fl & ~uint8_t{1}] on an 8-bit value. *)
Definition require_flags_ok (v : zview) : res unit :=
  t <- zv_tag v ;; fl <- zv_flags v ;;
  if t =? TString then require (Z.land fl 254 =? 0) EDeser
  else require (fl =? 0) EDeser.

(** Predicates, zera.hpp:217-225 *)
Definition zv_is (t : Z) (v : zview) : res bool := x <- zv_tag v ;; Ok (x =? t).
Definition zv_isBlob (v : zview) : res bool :=
  t <- zv_tag v ;;
  if t =? TTyped then (x <- zv_aux v ;; Ok (x =? DT_U8)) else Ok false.

(** asBool, zera.hpp:228-234 *)
Definition zv_asBool (v : zview) : res bool :=
  t <- zv_tag v ;; require (t =? TBool) EDeser ;;;
  require_flags_ok v ;;;
  x <- zv_aux v ;; require ((x =? 0) || (x =? 1)) EDeser ;;;
  Ok (x =? 1).

(** the 64-bit payload [a() | b() << 32], zera.hpp:239, 250, 262 *)
Definition zv_bits (v : zview) : res Z :=
  a <- zv_a v ;; b <- zv_b v ;; Ok (Z.lor a (Z.shiftl b 32)).

(** asInt64, zera.hpp:236-245 *)
Definition zv_asInt64 (v : zview) : res Z :=
  t <- zv_tag v ;; require ((t =? TI64) || (t =? TU64)) EDeser ;;;
  require_flags_ok v ;;;
  bits <- zv_bits v ;;
  if t =? TU64 then require (bits <=? i64_max) EDeser ;;; Ok (to_signed 64 bits)
  else Ok (to_signed 64 bits).

(** asUInt64, zera.hpp:247-257 *)
Definition zv_asUInt64 (v : zview) : res Z :=
  t <- zv_tag v ;; require ((t =? TU64) || (t =? TI64)) EDeser ;;;
  require_flags_ok v ;;;
  bits <- zv_bits v ;;
  if t =? TI64 then require (0 <=? to_signed 64 bits) EDeser ;;; Ok (wrap64 (to_signed 64 bits))
  else Ok bits.

(** asInt8/16/32, zera.hpp:271-288 (asInt64 itself for I64) *)
Definition zv_asInt (w : iwidth) (v : zview) : res Z :=
  x <- zv_asInt64 v ;;
  match w with
  | I64 => Ok x
  | _ => require (negb ((x <? smin w) || (smax w <? x))) EDeser ;;; Ok (to_signed (ibits w) x)
  end.

(** asUInt8/16/32, zera.hpp:290-304 *)
Definition zv_asUInt (w : iwidth) (v : zview) : res Z :=
  x <- zv_asUInt64 v ;;
  match w with
  | I64 => Ok x
  | _ => require (negb (umax w <? x)) EDeser ;;; Ok (x mod 2 ^ ibits w)
  end.

(** asDouble, zera.hpp:259-267 (bit pattern) *)
Definition zv_asDouble (v : zview) : res Z :=
  t <- zv_tag v ;; require (t =? TF64) EDeser ;;;
  require_flags_ok v ;;;
  zv_bits v.

(** asStringView, zera.hpp:306-316 *)
Definition zv_asStringView (v : zview) : res view :=
  t <- zv_tag v ;; require (t =? TString) EDeser ;;;
  require_flags_ok v ;;;
  fl <- zv_flags v ;;
  if negb (Z.land fl 1 =? 0) then
    len <- zv_aux v ;;
    require (len <=? InlineMax) EDeser ;;;
    inline_bytes_view v len
  else
    a <- zv_a v ;; b <- zv_b v ;; arena_view v a b.

(** asString, zera.hpp:318-321 *)
Definition zv_asString (v : zview) : res bytes :=
  w <- zv_asStringView v ;; rd_view (zv_buf v) w.

(** asBlob, zera.hpp:323-337 *)
Definition zv_asBlob (v : zview) : res view :=
  ib <- zv_isBlob v ;; require ib EDeser ;;;
  require_flags_ok v ;;;
  shape_ofs <- zv_c v ;;
  sp <- env_ptr_at v shape_ofs 4 ;;
  rank <- read_u32_le (zv_buf v) sp ;;
  require (rank <=? RankMax) EDeser ;;;
  require (rank =? 1) EDeser ;;;
  env_ptr_at v shape_ofs (4 + 8 * rank) ;;;
  dim0 <- read_u64_le (zv_buf v) (HeaderSize + shape_ofs + 4) ;;
  b <- zv_b v ;;
  require (dim0 =? b) EDeser ;;;
  a <- zv_a v ;;
  arena_view v a b.

(** arraySize, zera.hpp:339-347 *)
Definition zv_arraySize (v : zview) : res Z :=
  t <- zv_tag v ;; require (t =? TArray) EDeser ;;;
  require_flags_ok v ;;;
  arr_ofs <- zv_a v ;;
  p <- env_ptr_at v arr_ofs 4 ;;
  count <- read_u32_le (zv_buf v) p ;;
  env_ptr_at v arr_ofs (4 + 16 * count) ;;;
  Ok count.

(** KeysView and its iterator, zera.hpp:350-391.  An iterator is (cur, i, n);
    [cur] is an offset from the start of the buffer. *)
Record zkit : Type := mkZKit { ki_cur : Z; ki_i : Z; ki_n : Z }.

(** iterator::operator*, zera.hpp:366-371: the key length is read *before* any bounds check. *)
Definition zk_deref (v : zview) (it : zkit) : res view :=
  require (negb (ki_n it <=? ki_i it)) EDeser ;;;
  key_len <- read_u16_le (zv_buf v) (ki_cur it) ;;
  env_ptr_at v (wrap32 (ki_cur it - HeaderSize)) (4 + key_len + 16) ;;;
  Ok (ki_cur it + 4, key_len).

(** iterator::operator++, zera.hpp:373-381 *)
Definition zk_incr (v : zview) (it : zkit) : res zkit :=
  if ki_n it <=? ki_i it then Ok it
  else
    key_len <- read_u16_le (zv_buf v) (ki_cur it) ;;
    let adv := 4 + key_len + 16 in
    let cur_ofs := wrap32 (ki_cur it - HeaderSize) in
    cur' <- env_ptr_at v (wrap32 (cur_ofs + adv)) 0 ;;
    Ok (mkZKit cur' (ki_i it + 1) (ki_n it)).

(** mapKeys, zera.hpp:393-401: the begin() iterator; [obj_ofs + 4] is uint32_t. *)
Definition zv_mapKeys (v : zview) : res zkit :=
  t <- zv_tag v ;; require (t =? TObject) EDeser ;;;
  require_flags_ok v ;;;
  obj_ofs <- zv_a v ;;
  p <- env_ptr_at v obj_ofs 4 ;;
  count <- read_u32_le (zv_buf v) p ;;
  entries <- env_ptr_at v (wrap32 (obj_ofs + 4)) 0 ;;
  Ok (mkZKit entries 0 count).

(** [for (std::string_view k : v.mapKeys()) ...]: views of the keys in order. *)
Definition zv_keys (v : zview) : res (list view) :=
  it0 <- zv_mapKeys v ;;
  x <- zloop (R := unit) (ki_n it0)
         (fun s => let '(it, acc) := s in
                   k <- zk_deref v it ;;
                   it' <- zk_incr v it ;;
                   Ok (inl (it', k :: acc)))
         (it0, []) ;;
  match x with inl (_, acc) => Ok (rev acc) | inr _ => Ok [] end.

(** [key_len == key.size() && memcmp(...) == 0], zera.hpp:415-416: the bytes are
    read only when the lengths agree. *)
Definition key_matches (b : bytes) (p key_len : Z) (key : bytes) : res bool :=
  if key_len =? zlen key then s <- rd_view b (p, key_len) ;; Ok (beq s key) else Ok false.

(** contains, zera.hpp:403-421.  [obj_ofs + 4] is uint32_t arithmetic. *)
Definition zv_contains (v : zview) (key : bytes) : res bool :=
  m <- zv_is TObject v ;;
  if negb m then Ok false else
  require_flags_ok v ;;;
  obj_ofs <- zv_a v ;;
  p <- env_ptr_at v obj_ofs 4 ;;
  count <- read_u32_le (zv_buf v) p ;;
  x <- zloop count
         (fun ofs =>
            e <- env_ptr_at v (wrap32 ofs) 4 ;;
            key_len <- read_u16_le (zv_buf v) e ;;
            read_u16_le (zv_buf v) (e + 2) ;;;
            kb <- env_ptr_at v (wrap32 (ofs + 4)) key_len ;;
            eq <- key_matches (zv_buf v) kb key_len key ;;
            if eq then Ok (inr true) else
            let ofs' := ofs + (4 + key_len + 16) in
            env_ptr_at v (wrap32 ofs') 0 ;;;
            Ok (inl ofs'))
         (wrap32 (obj_ofs + 4)) ;;
  match x with inl _ => Ok false | inr r => Ok r end.

Definition zv_child (v : zview) (p : Z) : zview :=
  mkZView (zv_buf v) (zv_env_size v) (zv_arena v) (zv_arena_len v) (Some p).

(** operator[](size_t), zera.hpp:453-463.  [elem_ofs] is size_t, truncated to
    uint32_t for env_ptr_at. *)
Definition zv_idx (v : zview) (idx : Z) : res zview :=
  t <- zv_tag v ;; require (t =? TArray) EDeser ;;;
  require_flags_ok v ;;;
  arr_ofs <- zv_a v ;;
  p <- env_ptr_at v arr_ofs 4 ;;
  count <- read_u32_le (zv_buf v) p ;;
  require (idx <? count) EDeser ;;;
  let elem_ofs := arr_ofs + 4 + 16 * idx in
  vr <- env_ptr_at v (wrap32 elem_ofs) 16 ;;
  Ok (zv_child v vr).

(** operator[](string_view), zera.hpp:465-485 *)
Definition zv_key (v : zview) (key : bytes) : res zview :=
  t <- zv_tag v ;; require (t =? TObject) EDeser ;;;
  require_flags_ok v ;;;
  obj_ofs <- zv_a v ;;
  p <- env_ptr_at v obj_ofs 4 ;;
  count <- read_u32_le (zv_buf v) p ;;
  x <- zloop count
         (fun ofs =>
            e <- env_ptr_at v (wrap32 ofs) 4 ;;
            key_len <- read_u16_le (zv_buf v) e ;;
            read_u16_le (zv_buf v) (e + 2) ;;;
            kb <- env_ptr_at v (wrap32 (ofs + 4)) key_len ;;
            vr <- env_ptr_at v (wrap32 (ofs + 4 + key_len)) 16 ;;
            eq <- key_matches (zv_buf v) kb key_len key ;;
            if eq then Ok (inr (zv_child v vr)) else
            let ofs' := ofs + (4 + key_len + 16) in
            env_ptr_at v (wrap32 ofs') 0 ;;;
            Ok (inl ofs'))
         (wrap32 (obj_ofs + 4)) ;;
  match x with inl _ => Throw EDeser | inr r => Ok r end.

(** Contents of a list of views. *)
Fixpoint rd_views (b : bytes) (l : list view) : res (list bytes) :=
  match l with
  | [] => Ok []
  | w :: l' => s <- rd_view b w ;; r <- rd_views b l' ;; Ok (s :: r)
  end.

(** The Reader interface of ZeraDeserializer / ZeraValue.  String and blob views
    are observed through the bytes they denote. *)
Definition zera_reader : reader zview := {|
  r_isNull := zv_is TNull; r_isBool := zv_is TBool; r_isInt := zv_is TI64;
  r_isUInt := zv_is TU64; r_isFloat := zv_is TF64; r_isString := zv_is TString;
  r_isBlob := zv_isBlob; r_isMap := zv_is TObject; r_isArray := zv_is TArray;
  r_asBool := zv_asBool; r_asInt := zv_asInt; r_asUInt := zv_asUInt;
  r_asDouble := zv_asDouble; r_asString := zv_asString;
  r_asStringView := (fun v => w <- zv_asStringView v ;; rd_view (zv_buf v) w);
  r_asBlob := (fun v => w <- zv_asBlob v ;; rd_view (zv_buf v) w);
  r_arraySize := zv_arraySize; r_idx := zv_idx; r_key := zv_key;
  r_contains := zv_contains;
  r_mapKeys := (fun v => ks <- zv_keys v ;; rd_views (zv_buf v) ks)
|}.

(** ** Writer *)

(** ArrayCtx / MapCtx, zera.hpp:570-578 *)
Inductive zctx : Type :=
| CArr (payload : bytes) (count : Z)
| CMap (payload : bytes) (count : Z) (pending : option Z).

(** RootSerializer state, zera.hpp:580-584; [zw_st] has st_.back() first. *)
Record zwst : Type := mkZW {
  zw_st : list zctx;
  zw_env : bytes;
  zw_arena : bytes;
  zw_root : option Z;
  zw_thr : Z
}.

Definition zw_init : zwst := mkZW [] [] [] None InlineMax.

Definition set_st (s : zwst) (st : list zctx) : zwst :=
  mkZW st (zw_env s) (zw_arena s) (zw_root s) (zw_thr s).
Definition set_env (s : zwst) (e : bytes) : zwst :=
  mkZW (zw_st s) e (zw_arena s) (zw_root s) (zw_thr s).
Definition set_arena (s : zwst) (a : bytes) : zwst :=
  mkZW (zw_st s) (zw_env s) a (zw_root s) (zw_thr s).
Definition set_root (s : zwst) (r : option Z) : zwst :=
  mkZW (zw_st s) (zw_env s) (zw_arena s) r (zw_thr s).

(** A computation on the writer state: the state survives a throw. *)
Definition wr (A : Type) : Type := zwst -> zwst * res A.
Definition wret {A} (a : A) : wr A := fun s => (s, Ok a).
Definition wthrow {A} (e : exn) : wr A := fun s => (s, Throw e).
Definition wbind {A B} (m : wr A) (f : A -> wr B) : wr B := fun s =>
  match m s with
  | (s', Ok a) => f a s'
  | (s', Throw e) => (s', Throw e)
  | (s', UB) => (s', UB)
  | (s', NoFuel) => (s', NoFuel)
  end.

(** set_inline_string_threshold, zera.hpp:588-591 *)
Definition set_inline_string_threshold (t : Z) : wr unit := fun s =>
  if InlineMax <? t then (s, Throw ESer)
  else (mkZW (zw_st s) (zw_env s) (zw_arena s) (zw_root s) t, Ok tt).

(** make_vr, zera.hpp:637-657 *)
Definition make_vr (tag flags aux a b c : Z) : bytes :=
  [tag; flags] ++ u16_le aux ++ u32_le a ++ u32_le b ++ u32_le c.

(** append_env_payload, zera.hpp:659-664 *)
Definition append_env_payload (l : bytes) : wr Z := fun s =>
  let ofs := zlen (zw_env s) in
  if u32_max <? ofs then (s, Throw ESer)
  else (set_env s (zw_env s ++ l), Ok (wrap32 ofs)).

Definition zeros (n : Z) : bytes := repeat 0 (Z.to_nat n).

(** [out.data() + at] overwritten by [l] (memcpy / .at() stores).  Writing
    outside the vector is UB. *)
Definition overwrite (out : bytes) (at_ : Z) (l : bytes) : res bytes :=
  if (0 <=? at_) && (at_ + zlen l <=? zlen out)
  then Ok (firstn (Z.to_nat at_) out ++ l ++ skipn (Z.to_nat (at_ + zlen l)) out)
  else UB.

(** arena_alloc, zera.hpp:666-675.  The arena grows before the checks. *)
Definition arena_alloc (len align : Z) : wr Z := fun s =>
  let want := Z.max 1 align in
  let aligned := align_up (zlen (zw_arena s)) want in
  let a1 := if zlen (zw_arena s) <? aligned
            then zw_arena s ++ zeros (aligned - zlen (zw_arena s)) else zw_arena s in
  let ofs := zlen a1 in
  let s' := set_arena s (a1 ++ zeros len) in
  if u32_max <? ofs then (s', Throw ESer)
  else if u32_max <? len then (s', Throw ESer)
  else (s', Ok (wrap32 ofs)).

(** memcpy into arena_, zera.hpp:751, 758 *)
Definition arena_store (ofs : Z) (l : bytes) : wr unit := fun s =>
  match overwrite (zw_arena s) ofs l with
  | Ok a => (set_arena s a, Ok tt)
  | Throw e => (s, Throw e)
  | UB => (s, UB)
  | NoFuel => (s, NoFuel)
  end.

(** emit_shape_rank1, zera.hpp:677-682 *)
Definition shape_rank1 (dim0 : Z) : bytes :=
  [1; 0; 0; 0] ++ map (fun i => Z.land (Z.shiftr dim0 (8 * i)) 255) [0; 1; 2; 3; 4; 5; 6; 7].
Definition emit_shape_rank1 (dim0 : Z) : wr Z := append_env_payload (shape_rank1 dim0).

(** write_root_vr, zera.hpp:684-687 *)
Definition write_root_vr (vr : bytes) : wr unit := fun s =>
  match zw_root s with
  | Some _ => (s, Throw ESer)
  | None => wbind (append_env_payload vr) (fun ofs s' => (set_root s' (Some ofs), Ok tt)) s
  end.

(** deliver_vr, zera.hpp:689-707 *)
Definition deliver_vr (vr : bytes) : wr unit := fun s =>
  match zw_st s with
  | [] => write_root_vr vr s
  | CArr payload count :: st' =>
      (set_st s (CArr (payload ++ vr) (wrap32 (count + 1)) :: st'), Ok tt)
  | CMap payload count None :: st' => (s, Throw ESer)
  | CMap payload count (Some at_) :: st' =>
      if zlen payload <? at_ + 16 then (s, Throw ESer)
      else match overwrite payload at_ vr with
           | Ok p' => (set_st s (CMap p' count None :: st'), Ok tt)
           | Throw e => (s, Throw e)
           | UB => (s, UB)
           | NoFuel => (s, NoFuel)
           end
  end.

(** the low / high 32-bit halves, zera.hpp:720-721, 727-728, 737-738 *)
Definition lo32 (bits : Z) : Z := Z.land bits 4294967295.
Definition hi32 (bits : Z) : Z := Z.land (Z.shiftr bits 32) 4294967295.

(** Serializer::string, zera.hpp:742-753 *)
Definition zw_string (sv : bytes) : wr unit := fun s =>
  if zlen sv <=? Z.min (zw_thr s) InlineMax then
    (let out := make_vr TString 1 (wrap16 (zlen sv)) 0 0 0 in
     match overwrite out 4 sv with
     | Ok vr => deliver_vr vr s
     | Throw e => (s, Throw e) | UB => (s, UB) | NoFuel => (s, NoFuel)
     end)
  else if u32_max <? zlen sv then (s, Throw ESer)
  else wbind (arena_alloc (zlen sv) 1) (fun ofs =>
       wbind (arena_store ofs sv) (fun _ =>
       deliver_vr (make_vr TString 0 0 ofs (wrap32 (zlen sv)) 0))) s.

(** Serializer::binary, zera.hpp:754-763 *)
Definition zw_binary (b : bytes) : wr unit := fun s =>
  if u32_max <? zlen b then (s, Throw ESer)
  else
    let byte_len := wrap32 (zlen b) in
    wbind (arena_alloc byte_len ArenaBaseAlign) (fun arena_ofs =>
    wbind (arena_store arena_ofs b) (fun _ =>
    wbind (emit_shape_rank1 byte_len) (fun shape_ofs =>
    deliver_vr (make_vr TTyped 0 DT_U8 arena_ofs byte_len shape_ofs)))) s.

(** std::vector::reserve with a byte count above max_size() (2^63 - 1) throws
    std::length_error; allocation failure below that is not modelled. *)
Definition reserve_ok (n : Z) : bool := n <=? i64_max.

(** begin_array, zera.hpp:765-770 *)
Definition zw_begin_array (reserve : Z) : wr unit := fun s =>
  if reserve_ok (wrap64 (4 + wrap64 (reserve * 16)))
  then (set_st s (CArr (u32_le 0) 0 :: zw_st s), Ok tt)
  else (s, Throw ELength).

(** write_u32_le_at(payload, 0, count), zera.hpp:95-100: .at() throws out_of_range. *)
Definition patch_count (payload : bytes) (count : Z) : res bytes :=
  if zlen payload <? 4 then Throw EOutOfRange
  else Ok (u32_le count ++ skipn 4 payload).

(** end_array, zera.hpp:771-780 *)
Definition zw_end_array : wr unit := fun s =>
  match zw_st s with
  | CArr payload count :: st' =>
      let s1 := set_st s st' in
      if u32_max <? count then (s1, Throw ESer)
      else match patch_count payload count with
           | Ok p => wbind (append_env_payload p) (fun ofs =>
                       deliver_vr (make_vr TArray 0 0 ofs 0 0)) s1
           | Throw e => (s1, Throw e) | UB => (s1, UB) | NoFuel => (s1, NoFuel)
           end
  | _ => (s, Throw ESer)
  end.

(** begin_map, zera.hpp:782-787 *)
Definition zw_begin_map (reserve : Z) : wr unit := fun s =>
  if reserve_ok (wrap64 (4 + wrap64 (reserve * 28)))
  then (set_st s (CMap (u32_le 0) 0 None :: zw_st s), Ok tt)
  else (s, Throw ELength).

(** end_map, zera.hpp:788-797.  With a dangling key the context has already been
    moved from when the exception is thrown: its payload is empty, the (engaged)
    optional and the count are unchanged. *)
Definition zw_end_map : wr unit := fun s =>
  match zw_st s with
  | CMap payload count (Some at_) :: st' =>
      (set_st s (CMap [] count (Some at_) :: st'), Throw ESer)
  | CMap payload count None :: st' =>
      let s1 := set_st s st' in
      match patch_count payload count with
      | Ok p => wbind (append_env_payload p) (fun ofs =>
                  deliver_vr (make_vr TObject 0 0 ofs 0 0)) s1
      | Throw e => (s1, Throw e) | UB => (s1, UB) | NoFuel => (s1, NoFuel)
      end
  | _ => (s, Throw ESer)
  end.

(** key, zera.hpp:799-812 *)
Definition zw_key (k : bytes) : wr unit := fun s =>
  match zw_st s with
  | CMap payload count None :: st' =>
      if u16_max <? zlen k then (s, Throw ESer)
      else
        let p1 := payload ++ u16_le (wrap16 (zlen k)) ++ u16_le 0 ++ k in
        (set_st s (CMap (p1 ++ zeros 16) (wrap32 (count + 1)) (Some (zlen p1)) :: st'), Ok tt)
  | _ => (s, Throw ESer)
  end.

(** Serializer methods, zera.hpp:710-813 *)
Definition zw_step (s : zwst) (e : ev) : zwst * res unit :=
  match e with
  | ENull => deliver_vr (make_vr TNull 0 0 0 0 0) s
  | EBool b => deliver_vr (make_vr TBool 0 (if b then 1 else 0) 0 0 0) s
  | EInt z => let bits := wrap64 z in deliver_vr (make_vr TI64 0 0 (lo32 bits) (hi32 bits) 0) s
  | EUInt z => deliver_vr (make_vr TU64 0 0 (lo32 z) (hi32 z) 0) s
  | EDbl bits => deliver_vr (make_vr TF64 0 0 (lo32 bits) (hi32 bits) 0) s
  | EStr sv => zw_string sv s
  | EBin b => zw_binary b s
  | EKey k => zw_key k s
  | EBeginArr n => zw_begin_array n s
  | EEndArr => zw_end_array s
  | EBeginMap n => zw_begin_map n s
  | EEndMap => zw_end_map s
  end.

(** finish, zera.hpp:593-634.  [out] is zero-initialised, then header, envelope
    and arena are copied in. *)
Definition zw_finish : wr bytes := fun s =>
  match zw_st s with
  | _ :: _ => (s, Throw ESer)
  | [] =>
      wbind (match zw_root s with
             | None => write_root_vr (make_vr TNull 0 0 0 0 0)
             | Some _ => wret tt
             end) (fun _ s1 =>
      if u32_max <? zlen (zw_env s1) then (s1, Throw ESer)
      else if u32_max <? zlen (zw_arena s1) then (s1, Throw ESer)
      else
        let env_size := wrap32 (zlen (zw_env s1)) in
        let arena_ofs := align_up (HeaderSize + env_size) ArenaBaseAlign in
        if u32_max <? arena_ofs then (s1, Throw ESer)
        else
          let root := match zw_root s1 with Some r => r | None => 0 end in
          let out := zeros (arena_ofs + zlen (zw_arena s1)) in
          (s1,
           o1 <- overwrite out 0 (u32_le Magic) ;;
           o2 <- overwrite o1 4 (u16_le 1) ;;
           o3 <- overwrite o2 6 (u16_le 1) ;;
           o4 <- overwrite o3 8 (u32_le root) ;;
           o5 <- overwrite o4 12 (u32_le env_size) ;;
           o6 <- overwrite o5 16 (u32_le (wrap32 arena_ofs)) ;;
           o7 <- overwrite o6 HeaderSize (zw_env s1) ;;
           overwrite o7 arena_ofs (zw_arena s1))) s
  end.

Definition zera_writer : writer zwst bytes :=
  mkWriter zw_init zw_step zw_finish.

(** The writer with a non-default inline threshold set first. *)
Definition zera_writer_thr (t : Z) : writer zwst bytes :=
  mkWriter (fst (set_inline_string_threshold t zw_init)) zw_step zw_finish.

(** Sanity checks of the transcription (evaluated by the kernel). *)
Example ex_magic : u32_le Magic = [90; 69; 78; 86].      (* "ZENV" *)
Proof. reflexivity. Qed.

Definition demo : val :=
  VMap [([97], VArr [VInt (-5); VUInt 18446744073709551615; VStr [104; 105];
                     VStr [1;2;3;4;5;6;7;8;9;10;11;12;13]]);
        ([], VBlob [1; 2; 3]); ([98; 98], VDbl 4607182418800017408);
        ([97], VNull)].

Example ex_demo :
  (b <- serialize zera_writer demo ;;
   v <- zera_open b ;; ks <- r_mapKeys zera_reader v ;;
   a <- zv_key v [97] ;; x <- zv_idx a 3 ;; s <- zv_asString x ;;
   bl <- zv_key v [] ;; bv <- r_asBlob zera_reader bl ;;
   Ok (ks, s, bv))
  = Ok ([[97]; []; [98; 98]; [97]], [1;2;3;4;5;6;7;8;9;10;11;12;13], [1; 2; 3]).
Proof. vm_compute. reflexivity. Qed.
