(** FlexBModel.v -- FlexBuffers messages as bytes.

    Transcription of include/zerialize/protocols/flex.hpp (line numbers refer to it) over the bytes of a
    message.  flexbuffers::Builder and flexbuffers::Reference come from flatbuffers/flexbuffers.h, a
    third-party header that is not part of /repo; they are modelled after that header and its format
    description (names as there).  FlexModel.v has the same functions over trees.

    A pointer is an offset into the message; a read outside the message is UB.  Sizes and offsets do not wrap
    (no buffer has 2^63 bytes).  The builder has its default flag BUILDER_FLAG_SHARE_KEYS.  Not modelled: the
    assertion in WriteOffset that the offset fits its width, alignment of loads, types of the FlexBuffers
    format no accessor of flex.hpp looks into (elements of typed vectors).  Definitions only. *)

From Coq Require Import ZArith List Bool.
From Verif Require Import Base Spec HalfModel FloatModel NarrowModel FlexModel.
Import ListNotations.
Open Scope Z_scope.

(** ** Scalars *)

(** Little-endian bytes *)
Fixpoint le_put (n : nat) (z : Z) : bytes :=
  match n with O => [] | S n => z mod 256 :: le_put n (z / 256) end.
Fixpoint le_get (l : bytes) : Z := match l with [] => 0 | b :: l' => b + 256 * le_get l' end.

(** ReadSizedScalar: how many bytes a width stands for. *)
Definition width_class (w : Z) : Z := if w <? 4 then if w <? 2 then 1 else 2 else if w <? 8 then 4 else 8.
(** ReadUInt64, ReadInt64, ReadDouble (widths 1 and 2 are integers there) *)
Definition rd_u (B : bytes) (p w : Z) : res Z := l <- rd_view B (p, width_class w) ;; Ok (le_get l).
Definition rd_s (B : bytes) (p w : Z) : res Z := z <- rd_u B p w ;; Ok (to_signed (8 * width_class w) z).
Definition rd_f (B : bytes) (p w : Z) : res Z :=
  z <- rd_u B p w ;;
  Ok (if width_class w =? 8 then z else if width_class w =? 4 then f32_to_f64 z
      else to_bits (of_int (to_signed (8 * width_class w) z))).
(** Indirect *)
Definition indirect (B : bytes) (p w : Z) : res Z := o <- rd_u B p w ;; Ok (p - o).
(** Sized::size *)
Definition size_at (B : bytes) (loc bw : Z) : res Z := rd_u B (loc - bw) bw.

(** ** flexbuffers::Reference *)

Record fref : Type := mkRef { f_data : Z; f_pw : Z; f_bw : Z; f_ty : Z }.
(** Reference(): also what Vector::operator[] returns past the end *)
Definition null_ref : fref := mkRef 0 0 0 0.

(** Types: 0 null, 1 int, 2 uint, 3 float, 4 key, 5 string, 6 7 8 indirect int, uint, float, 9 map, 10 vector,
    11-15 and 36 typed vectors, 16-24 fixed typed vectors, 25 blob, 26 bool. *)
Definition any_vector (t : Z) : bool := (9 <=? t) && (t <=? 24) || (t =? 36).
(** Reference(data, parent_width, packed_type) *)
Definition packed_ref (data pw pt : Z) : fref := mkRef data pw (2 ^ (pt mod 4)) (pt / 4).

(** GetRoot; constructors, lines 368-387 *)
Definition fb_open (B : bytes) : res fref :=
  if zlen B =? 0 then Ok null_ref
  else
    bw <- rd B (zlen B - 1) ;;
    pt <- rd B (zlen B - 2) ;;
    Ok (packed_ref (zlen B - 2 - bw) bw pt).

Section Reader.
Variable B : bytes.

(** Lines 214-222 *)
Definition fb_is (ts : list Z) (r : fref) : res bool := Ok (existsb (Z.eqb (f_ty r)) ts).
Definition fb_isMap (r : fref) : bool := f_ty r =? 9.
Definition fb_isArray (r : fref) : bool := any_vector (f_ty r) && negb (f_ty r =? 9).

(** asInt8 .. asInt64, lines 225-228; AsInt64 of an integer *)
Definition fb_asInt (iw : iwidth) (r : fref) : res Z :=
  require ((f_ty r =? 1) || (f_ty r =? 6)) EDeser ;;;
  z <- (if f_ty r =? 1 then rd_s B (f_data r) (f_pw r)
        else loc <- indirect B (f_data r) (f_pw r) ;; rd_s B loc (f_bw r)) ;;
  Ok (to_signed (ibits iw) z).
(** asUInt8 .. asUInt64, lines 230-233 *)
Definition fb_asUInt (iw : iwidth) (r : fref) : res Z :=
  require ((f_ty r =? 2) || (f_ty r =? 7)) EDeser ;;;
  z <- (if f_ty r =? 2 then rd_u B (f_data r) (f_pw r)
        else loc <- indirect B (f_data r) (f_pw r) ;; rd_u B loc (f_bw r)) ;;
  Ok (z mod 2 ^ ibits iw).
(** asDouble, line 236 *)
Definition fb_asDouble (r : fref) : res Z :=
  require ((f_ty r =? 3) || (f_ty r =? 8)) EDeser ;;;
  if f_ty r =? 3 then rd_f B (f_data r) (f_pw r)
  else loc <- indirect B (f_data r) (f_pw r) ;; rd_f B loc (f_bw r).
(** asBool, line 237 *)
Definition fb_asBool (r : fref) : res bool :=
  require (f_ty r =? 26) EDeser ;;; z <- rd_u B (f_data r) (f_pw r) ;; Ok (negb (z =? 0)).
(** asString, asStringView, asBlob, lines 239-247: String and Blob are a pointer and a size. *)
Definition fb_sized (t : Z) (r : fref) : res bytes :=
  require (f_ty r =? t) EDeser ;;;
  loc <- indirect B (f_data r) (f_pw r) ;;
  n <- size_at B loc (f_bw r) ;;
  rd_view B (loc, n).

(** Map::Keys: where the keys are and their byte width *)
Definition fb_keys (loc bw : Z) : res (Z * Z) :=
  o <- rd_u B (loc - 3 * bw) bw ;;
  kbw <- rd_u B (loc - 2 * bw) bw ;;
  Ok (loc - 3 * bw - o, kbw mod 256).
(** strlen *)
Fixpoint until_nul (l : bytes) : option bytes :=
  match l with [] => None | c :: l' => if c =? 0 then Some [] else option_map (cons c) (until_nul l') end.
Definition c_string (p : Z) : res bytes :=
  if (0 <=? p) && (p <=? zlen B) then match until_nul (skipn (Z.to_nat p) B) with Some k => Ok k | None => UB end
  else UB.
(** keys[i].AsString(): TypedVector::operator[] is a null reference past the end, whose string is empty. *)
Definition fb_key_at (kd kbw i : Z) : res bytes :=
  n <- size_at B kd kbw ;;
  if n <=? i then Ok []
  else p <- indirect B (kd + i * kbw) kbw ;; c_string p.
(** Vector::operator[] *)
Definition fb_at (loc bw i : Z) : res fref :=
  n <- size_at B loc bw ;;
  if n <=? i then Ok null_ref
  else pt <- rd B (loc + n * bw + i) ;; Ok (packed_ref (loc + i * bw) bw pt).

(** The binary search of contains and operator[], lines 283-297 and 330-344 *)
Fixpoint fb_search (fuel : nat) (kd kbw : Z) (key : bytes) (lo hi : Z) : res (option Z) :=
  match fuel with
  | O => NoFuel
  | S f =>
      if lo <? hi then
        let mid := wrap64 (lo + hi) / 2 in
        sv <- fb_key_at kd kbw mid ;;
        let n := if zlen sv <? zlen key then zlen sv else zlen key in
        let cmp := memcmp sv key (Z.to_nat n) in
        if cmp <? 0 then fb_search f kd kbw key (mid + 1) hi
        else if 0 <? cmp then fb_search f kd kbw key lo mid
        else if zlen sv <? zlen key then fb_search f kd kbw key (mid + 1) hi
        else if zlen key <? zlen sv then fb_search f kd kbw key lo mid
        else Ok (Some mid)
      else Ok None
  end.
(** contains, lines 279-299 *)
Definition fb_contains (fuel : nat) (r : fref) (key : bytes) : res bool :=
  if negb (fb_isMap r) then Ok false
  else
    loc <- indirect B (f_data r) (f_pw r) ;;
    '(kd, kbw) <- fb_keys loc (f_bw r) ;;
    n <- size_at B kd kbw ;;
    p <- fb_search fuel kd kbw key 0 n ;;
    Ok (match p with Some _ => true | None => false end).
(** operator[](string_view), lines 325-346 *)
Definition fb_key (fuel : nat) (r : fref) (key : bytes) : res fref :=
  require (fb_isMap r) EDeser ;;;
  loc <- indirect B (f_data r) (f_pw r) ;;
  '(kd, kbw) <- fb_keys loc (f_bw r) ;;
  n <- size_at B kd kbw ;;
  p <- fb_search fuel kd kbw key 0 n ;;
  match p with Some mid => fb_at loc (f_bw r) mid | None => Throw EDeser end.
(** mapKeys and the iteration over KeysView, lines 250-277 *)
Definition fb_mapKeys (r : fref) : res (list bytes) :=
  require (fb_isMap r) EDeser ;;;
  loc <- indirect B (f_data r) (f_pw r) ;;
  '(kd, kbw) <- fb_keys loc (f_bw r) ;;
  n <- size_at B kd kbw ;;
  x <- zloop n (fun '(i, acc) => k <- fb_key_at kd kbw i ;; Ok (inl (i + 1, acc ++ [k]))) (0, []) ;;
  match x with inl (_, acc) => Ok acc | inr acc => Ok acc end.
(** AsVector: only untyped vectors (a map is not an array here); for the others Vector::EmptyVector(). *)
Definition fb_arraySize (r : fref) : res Z :=
  require (fb_isArray r) EDeser ;;;
  if f_ty r =? 10 then loc <- indirect B (f_data r) (f_pw r) ;; size_at B loc (f_bw r) else Ok 0.
Definition fb_idx (r : fref) (i : Z) : res fref :=
  require (fb_isArray r) EDeser ;;;
  if f_ty r =? 10 then
    loc <- indirect B (f_data r) (f_pw r) ;;
    n <- size_at B loc (f_bw r) ;;
    require (i <? n) EDeser ;;;
    fb_at loc (f_bw r) i
  else Throw EDeser.

Definition flexb_reader (fuel : nat) : reader fref := {|
  r_isNull := fb_is [0];
  r_isBool := fb_is [26];
  r_isInt := fb_is [1; 6];
  r_isUInt := fb_is [2; 7];
  r_isFloat := fb_is [3; 8];
  r_isString := fb_is [5];
  r_isBlob := fb_is [25];
  r_isMap := fun r => Ok (fb_isMap r);
  r_isArray := fun r => Ok (fb_isArray r);
  r_asBool := fb_asBool;
  r_asInt := fb_asInt;
  r_asUInt := fb_asUInt;
  r_asDouble := fb_asDouble;
  r_asString := fb_sized 5;
  r_asStringView := fb_sized 5;
  r_asBlob := fb_sized 25;
  r_arraySize := fb_arraySize;
  r_idx := fb_idx;
  r_key := fb_key fuel;
  r_contains := fb_contains fuel;
  r_mapKeys := fb_mapKeys
|}.
End Reader.

(** FlexDeserializer and FlexValue, lines 350-387: a Reference points into the bytes it was made from. *)
Definition flexb_opened (B : bytes) : res (bytes * fref) := r <- fb_open B ;; Ok (B, r).
Definition flexb_at (fuel : nat) : reader (bytes * fref) :=
  let R w := flexb_reader (fst w) fuel in
  let under (w : bytes * fref) m := r <- m ;; Ok (fst w, r) in {|
  r_isNull := fun w => r_isNull (R w) (snd w);
  r_isBool := fun w => r_isBool (R w) (snd w);
  r_isInt := fun w => r_isInt (R w) (snd w);
  r_isUInt := fun w => r_isUInt (R w) (snd w);
  r_isFloat := fun w => r_isFloat (R w) (snd w);
  r_isString := fun w => r_isString (R w) (snd w);
  r_isBlob := fun w => r_isBlob (R w) (snd w);
  r_isMap := fun w => r_isMap (R w) (snd w);
  r_isArray := fun w => r_isArray (R w) (snd w);
  r_asBool := fun w => r_asBool (R w) (snd w);
  r_asInt := fun iw w => r_asInt (R w) iw (snd w);
  r_asUInt := fun iw w => r_asUInt (R w) iw (snd w);
  r_asDouble := fun w => r_asDouble (R w) (snd w);
  r_asString := fun w => r_asString (R w) (snd w);
  r_asStringView := fun w => r_asStringView (R w) (snd w);
  r_asBlob := fun w => r_asBlob (R w) (snd w);
  r_arraySize := fun w => r_arraySize (R w) (snd w);
  r_idx := fun w i => under w (r_idx (R w) (snd w) i);
  r_key := fun w k => under w (r_key (R w) (snd w) k);
  r_contains := fun w k => r_contains (R w) (snd w) k;
  r_mapKeys := fun w => r_mapKeys (R w) (snd w)
|}.

(** ** flexbuffers::Builder *)

(** Builder::Value: number (for a double its bits) or location, type, min_bit_width_ (0-3 for 8-64 bits) *)
Record bval : Type := mkBv { v_u : Z; v_ty : Z; v_w : Z }.
(** RootSerializer, lines 19-31, with Builder::buf_, stack_ (bottom first) and key_pool *)
Record fbst : Type := mkFb {
  b_buf : bytes;
  b_stack : list bval;
  b_pool : list Z;
  b_st : list (bool * Z);
  b_wrote : bool;
  b_finished : bool
}.
Definition fb_init : fbst := mkFb [] [] [] [] false false.

(** WidthU, WidthI, WidthF *)
Definition width_u (u : Z) : Z := if u <? 2 ^ 8 then 0 else if u <? 2 ^ 16 then 1 else if u <? 2 ^ 32 then 2 else 3.
Definition width_i (z : Z) : Z :=
  let u := wrap64 (z * 2) in if 0 <=? z then width_u u else width_u (2 ^ 64 - 1 - u).
Definition width_f (d : Z) : Z := match f64_to_f32 d with Some _ => 2 | None => 3 end.
(** PaddingBytes, Align *)
Definition padding (size bw : Z) : Z := (- size) mod bw.
Definition align (buf : bytes) (w : Z) : bytes := buf ++ repeat 0 (Z.to_nat (padding (zlen buf) (2 ^ w))).
(** IsInline: null, numbers and bool *)
Definition is_inline (t : Z) : bool := (t <=? 3) || (t =? 26).
(** Value::ElemWidth *)
Definition elem_width (v : bval) (size idx : Z) : Z :=
  if is_inline (v_ty v) then v_w v
  else
    let off bw := size + padding size bw + idx * bw - v_u v in
    if width_u (off 1) =? 0 then 0 else if width_u (off 2) =? 1 then 1 else if width_u (off 4) =? 2 then 2 else 3.
(** Value::StoredPackedType *)
Definition stored_width (v : bval) (parent : Z) : Z := if is_inline (v_ty v) then Z.max (v_w v) parent else v_w v.
Definition packed_type (v : bval) (parent : Z) : Z := stored_width v parent + 4 * v_ty v.
(** WriteAny, WriteDouble, WriteOffset at the offset [pos] of the buffer *)
Definition write_any (v : bval) (bw pos : Z) : bytes :=
  if v_ty v =? 3 then if bw =? 8 then le_put 8 (v_u v) else le_put 4 (narrow (v_u v))
  else if is_inline (v_ty v) then le_put (Z.to_nat bw) (v_u v)
  else le_put (Z.to_nat bw) (pos - v_u v).
Fixpoint write_all (vs : list bval) (bw pos : Z) : bytes :=
  match vs with [] => [] | v :: vs' => write_any v bw pos ++ write_all vs' bw (pos + bw) end.
(** CreateVector: the largest width an element needs; [i] counts stack slots *)
Fixpoint max_width (vs : list bval) (size i step w : Z) : Z :=
  match vs with
  | [] => w
  | v :: vs' => max_width vs' size (i + step) step (Z.max w (elem_width v size i))
  end.
Definition create_vector (buf : bytes) (len : Z) (vs : list bval) (step : Z) (typed : bool) (keys : option bval) : bytes * bval :=
  let size := zlen buf in
  let w0 := match keys with Some k => Z.max (width_u len) (elem_width k size 0) | None => width_u len end in
  let w := max_width vs size (match keys with Some _ => 3 | None => 1 end) step w0 in
  let bw := 2 ^ w in
  let buf1 := align buf w in
  let buf2 := match keys with
              | Some k => buf1 ++ le_put (Z.to_nat bw) (zlen buf1 - v_u k) ++ le_put (Z.to_nat bw) (2 ^ v_w k)
              | None => buf1
              end in
  let buf3 := buf2 ++ le_put (Z.to_nat bw) len in
  let loc := zlen buf3 in
  let buf4 := buf3 ++ write_all vs bw loc in
  let buf5 := if typed then buf4 else buf4 ++ map (fun v => packed_type v w) vs in
  (buf5, mkBv loc (match keys with Some _ => 9 | None => if typed then 14 else 10 end) w).
(** CreateBlob *)
Definition create_blob (buf : bytes) (s : bytes) (trailing : bytes) (ty : Z) : bytes * bval :=
  let w := width_u (zlen s) in
  let buf1 := align buf w ++ le_put (Z.to_nat (2 ^ w)) (zlen s) in
  (buf1 ++ s ++ trailing, mkBv (zlen buf1) ty w).

Definition fb_push (buf : bytes) (v : bval) (s : fbst) : fbst * res unit :=
  (mkFb buf (b_stack s ++ [v]) (b_pool s) (b_st s) true (b_finished s), Ok tt).
(** Lines 66-70 and 79-83 *)
Definition fb_begin (obj : bool) (s : fbst) : fbst * res unit :=
  (mkFb (b_buf s) (b_stack s) (b_pool s) ((obj, zlen (b_stack s)) :: b_st s) true (b_finished s), Ok tt).
(** key, lines 91-94; Builder::Key looks in the pool for an equal C string. *)
Definition pool_find (buf : bytes) (pool : list Z) (k : bytes) : option Z :=
  find (fun p => match c_string buf p with Ok k' => beq k' (c_str k) | _ => false end) pool.
Definition fb_add_key (k : bytes) (s : fbst) : fbst * res unit :=
  match pool_find (b_buf s) (b_pool s) k with
  | Some p => (mkFb (b_buf s) (b_stack s ++ [mkBv p 4 0]) (b_pool s) (b_st s) (b_wrote s) (b_finished s), Ok tt)
  | None =>
      let p := zlen (b_buf s) in
      (mkFb (b_buf s ++ k ++ [0]) (b_stack s ++ [mkBv p 4 0]) (p :: b_pool s) (b_st s) (b_wrote s) (b_finished s), Ok tt)
  end.
(** end_array, lines 71-77; EndVector *)
Definition fb_end_array (s : fbst) : fbst * res unit :=
  match b_st s with
  | (false, start) :: st =>
      let n := Z.to_nat start in
      let vs := skipn n (b_stack s) in
      let '(buf, v) := create_vector (b_buf s) (zlen vs) vs 1 false None in
      (mkFb buf (firstn n (b_stack s) ++ [v]) (b_pool s) st (b_wrote s) (b_finished s), Ok tt)
  | _ => (s, Throw ELogic)
  end.
(** The entries of EndMap with the C strings of their keys, and the slot left over if their number is odd *)
Fixpoint fb_pairs (dbg : bool) (buf : bytes) (l : list bval) : res (list (bytes * (bval * bval)) * list bval) :=
  match l with
  | [] => Ok ([], [])
  | [v] => if dbg then Throw ETerminate else Ok ([], [v])
  | k :: v :: l' =>
      if v_ty k =? 4 then
        c <- c_string buf (v_u k) ;;
        '(r, odd) <- fb_pairs dbg buf l' ;;
        Ok ((c, (k, v)) :: r, odd)
      else if dbg then Throw ETerminate else UB
  end.
(** end_map, lines 84-89; EndMap *)
Definition fb_end_map (dbg : bool) (srt : list (bytes * (bval * bval)) -> list (bytes * (bval * bval))) (s : fbst) : fbst * res unit :=
  match b_st s with
  | (true, start) :: st =>
      let n := Z.to_nat start in
      match fb_pairs dbg (b_buf s) (skipn n (b_stack s)) with
      | Ok (l, odd) =>
          let l := srt l in
          let '(buf1, kv) := create_vector (b_buf s) (zlen l) (map (fun x => fst (snd x)) l ++ odd) 2 true None in
          let '(buf2, v) := create_vector buf1 (zlen l) (map (fun x => snd (snd x)) l) 2 false (Some kv) in
          (mkFb buf2 (firstn n (b_stack s) ++ [v]) (b_pool s) st (b_wrote s) (b_finished s), Ok tt)
      | Throw e => (s, Throw e) | UB => (s, UB) | NoFuel => (s, NoFuel)
      end
  | _ => (s, Throw ELogic)
  end.

(** Lines 52-94 *)
Definition fb_step (dbg : bool) (srt : list (bytes * (bval * bval)) -> list (bytes * (bval * bval))) (s : fbst) (e : ev) : fbst * res unit :=
  match e with
  | ENull => fb_push (b_buf s) (mkBv 0 0 0) s
  | EBool b => fb_push (b_buf s) (mkBv (if b then 1 else 0) 26 0) s
  | EInt z => fb_push (b_buf s) (mkBv (wrap64 z) 1 (width_i z)) s
  | EUInt z => fb_push (b_buf s) (mkBv z 2 (width_u z)) s
  | EDbl d => fb_push (b_buf s) (mkBv d 3 (width_f d)) s
  | EStr t => let '(buf, v) := create_blob (b_buf s) t [0] 5 in fb_push buf v s
  | EBin b => let '(buf, v) := create_blob (b_buf s) b [] 25 in fb_push buf v s
  | EKey k => fb_add_key k s
  | EBeginArr _ => fb_begin false s
  | EEndArr => fb_end_array s
  | EBeginMap _ => fb_begin true s
  | EEndMap => fb_end_map dbg srt s
  end.

(** Builder::Finish *)
Definition fb_root (dbg : bool) (buf : bytes) (stack : list bval) : res bytes :=
  let out v :=
    let w := elem_width v (zlen buf) 0 in
    let buf1 := align buf w in
    buf1 ++ write_any v (2 ^ w) (zlen buf1) ++ [packed_type v 0; 2 ^ w] in
  match stack with
  | [v] => Ok (out v)
  | v :: _ => if dbg then Throw ETerminate else Ok (out v)
  | [] => if dbg then Throw ETerminate else UB
  end.
(** finish, lines 33-43: the buffer is moved out; the builder keeps its stack and key pool. *)
Definition fb_finish (dbg : bool) (s : fbst) : fbst * res bytes :=
  if b_finished s then (mkFb [] (b_stack s) (b_pool s) (b_st s) (b_wrote s) true, Ok (b_buf s))
  else
    let stack := if b_wrote s then b_stack s else b_stack s ++ [mkBv 0 0 0] in
    (mkFb [] stack (b_pool s) (b_st s) (b_wrote s) true, fb_root dbg (b_buf s) stack).

Definition flexb_writer (dbg : bool) (srt : list (bytes * (bval * bval)) -> list (bytes * (bval * bval))) : writer fbst bytes :=
  mkWriter fb_init (fb_step dbg srt) (fb_finish dbg).
