(** JsonModel.v -- transcription of include/zerialize/protocols/json.hpp.

    Line numbers refer to that file unless another one is named.  Definitions only, no proofs.

    yyjson is a third-party library; its documents are trees.  All three kinds of tree use the type [val]:
    - an immutable document node ([yyjson_val]): [VUInt] / [VInt] are the integer subtypes UINT / SINT,
      [VDbl] a real, [VStr] a string, [VArr] / [VMap] array / object (entries in document order);
      [VBlob] does not occur;
    - a mutable document node ([yyjson_mut_val]), same convention;
    - JSON text, as its syntax tree: [VUInt n] is the integer token n, [VInt (-n)] the token -n (of any
      magnitude), [VDbl d] a token with a fraction or an exponent, identified with the double it denotes
      (yyjson prints the shortest decimal that reads back as the same double).
    The bytes of the text are in JTextModel.v (also text that is not JSON, and to_string).
    Not modelled: moved-from readers, out-of-memory, null [string_view] data pointers. *)

From Coq Require Import ZArith List Bool String.
From Verif Require Import Base Spec FloatModel HalfModel Utf8Model B64Model.
Import ListNotations.
Open Scope Z_scope.

(** ** yyjson: printing and parsing (third party) *)

(** nan and infinity cannot be written *)
Definition is_finite (d : Z) : bool := negb (f64_exp d =? 2047).

(** yyjson_mut_write(doc, 0, &len): fails (NULL) on a non-finite number or a string that is not UTF-8. *)
Fixpoint yy_write (v : val) : option val :=
  match v with
  | VNull => Some VNull
  | VBool b => Some (VBool b)
  | VInt z => Some (if z <? 0 then VInt z else VUInt z)
  | VUInt z => Some (VUInt z)
  | VDbl d => if is_finite d then Some (VDbl d) else None
  | VStr s => if utf8_valid s then Some (VStr s) else None
  | VBlob _ => None
  | VArr l =>
      option_map VArr
        ((fix go (l : list val) : option (list val) :=
            match l with
            | [] => Some []
            | x :: l' => match yy_write x, go l' with Some y, Some r => Some (y :: r) | _, _ => None end
            end) l)
  | VMap l =>
      option_map VMap
        ((fix go (l : list (bytes * val)) : option (list (bytes * val)) :=
            match l with
            | [] => Some []
            | (k, x) :: l' =>
                if utf8_valid k then
                  match yy_write x, go l' with Some y, Some r => Some ((k, y) :: r) | _, _ => None end
                else None
            end) l)
  end.

(** yyjson_read(.., 0): an integer token out of the 64-bit range is read as a real; a real out of the
    double range is an error. *)
Definition yy_big (z : Z) : option val :=
  let d := to_bits (of_int z) in if is_finite d then Some (VDbl d) else None.
Fixpoint yy_read (t : val) : option val :=
  match t with
  | VNull => Some VNull
  | VBool b => Some (VBool b)
  | VUInt n => if n <=? u64_max then Some (VUInt n) else yy_big n
  | VInt z => if i64_min <=? z then Some (VInt z) else yy_big z
  | VDbl d => if is_finite d then Some (VDbl d) else None
  | VStr s => if utf8_valid s then Some (VStr s) else None
  | VBlob _ => None
  | VArr l =>
      option_map VArr
        ((fix go (l : list val) : option (list val) :=
            match l with
            | [] => Some []
            | x :: l' => match yy_read x, go l' with Some y, Some r => Some (y :: r) | _, _ => None end
            end) l)
  | VMap l =>
      option_map VMap
        ((fix go (l : list (bytes * val)) : option (list (bytes * val)) :=
            match l with
            | [] => Some []
            | (k, x) :: l' =>
                if utf8_valid k then
                  match yy_read x, go l' with Some y, Some r => Some ((k, y) :: r) | _, _ => None end
                else None
            end) l)
  end.

(** ** yyjson: immutable accessors (third party) *)
Definition yy_is_int (v : val) : bool := match v with VInt _ | VUInt _ => true | _ => false end.
Definition yy_is_uint (v : val) : bool := match v with VUInt _ => true | _ => false end.
(** yyjson_get_sint: the 64 payload bits as int64_t; yyjson_get_uint: as uint64_t. *)
Definition yy_get_sint (v : val) : Z := match v with VInt z => z | VUInt z => to_signed 64 z | _ => 0 end.
Definition yy_get_uint (v : val) : Z := match v with VInt z => wrap64 z | VUInt z => z | _ => 0 end.
(** yyjson_obj_getn: the first entry whose key has the same bytes. *)
Fixpoint yy_obj_getn (l : list (bytes * val)) (key : bytes) : option val :=
  match l with
  | [] => None
  | (k, x) :: l' => if beq k key then Some x else yy_obj_getn l' key
  end.
(** yyjson_arr_get *)
Definition yy_arr_get (l : list val) (i : Z) : option val := get l i.

(** ** JsonDeserializer *)

(** Lines 20-21 *)
Definition blobTag : bytes := codes "~b".
Definition blobEncoding : bytes := codes "base64".

(** JsonDeserializer(string_view), lines 98-106 *)
Definition json_open (text : val) : res val :=
  match yy_read text with Some root => Ok root | None => Throw EDeser end.

(** Predicates, lines 142-149; [cur_] is never null in a reader obtained from a constructor or operator[]. *)
Definition j_isNull (v : val) : bool := match v with VNull => true | _ => false end.
Definition j_isBool (v : val) : bool := match v with VBool _ => true | _ => false end.
Definition j_isInt (v : val) : bool := yy_is_int v.
Definition j_isUInt (v : val) : bool := yy_is_uint v.
Definition j_isFloat (v : val) : bool := match v with VDbl _ => true | _ => false end.
Definition j_isString (v : val) : bool := match v with VStr _ => true | _ => false end.
Definition j_isMap (v : val) : bool := match v with VMap _ => true | _ => false end.
Definition j_isArray (v : val) : bool := match v with VArr _ => true | _ => false end.

(** asInt8 .. asInt64, lines 159-162: [check(yyjson_is_int)], then a narrowing cast. *)
Definition j_asInt (iw : iwidth) (v : val) : res Z :=
  if yy_is_int v then Ok (to_signed (ibits iw) (yy_get_sint v)) else Throw EDeser.
(** asUInt8 .. asUInt64, lines 164-167 *)
Definition j_asUInt (iw : iwidth) (v : val) : res Z :=
  if yy_is_uint v then Ok (yy_get_uint v mod 2 ^ ibits iw) else Throw EDeser.
(** asDouble, line 170; asBool, line 172 *)
Definition j_asDouble (v : val) : res Z := match v with VDbl d => Ok d | _ => Throw EDeser end.
Definition j_asBool (v : val) : res bool := match v with VBool b => Ok b | _ => Throw EDeser end.
(** asString / asStringView, lines 174-181 *)
Definition j_asString (v : val) : res bytes := match v with VStr s => Ok s | _ => Throw EDeser end.

(** arraySize, lines 207-210; operator[](size_t), lines 211-216 *)
Definition j_arraySize (v : val) : res Z := match v with VArr l => Ok (zlen l) | _ => Throw EDeser end.
Definition j_idx (v : val) (i : Z) : res val :=
  match v with
  | VArr l => match yy_arr_get l i with Some x => Ok x | None => Throw EDeser end
  | _ => Throw EDeser
  end.

(** [a && b] where evaluating [b] may throw *)
Definition andr (a : res bool) (b : res bool) : res bool := x <- a ;; if (x : bool) then b else Ok false.
Infix "&&&" := andr (at level 40, left associativity).

(** isBlob, lines 151-156 *)
Definition j_isBlob (v : val) : res bool :=
  Ok (j_isArray v) &&& (n <- j_arraySize v ;; Ok (n =? 3)) &&&
  (x <- j_idx v 0 ;; Ok (j_isString x)) &&& (x <- j_idx v 0 ;; s <- j_asString x ;; Ok (beq s blobTag)) &&&
  (x <- j_idx v 1 ;; Ok (j_isString x)) &&&
  (x <- j_idx v 2 ;; Ok (j_isString x)) &&& (x <- j_idx v 2 ;; s <- j_asString x ;; Ok (beq s blobEncoding)).

(** asBlob, lines 183-186 *)
Definition j_asBlob (v : val) : res bytes :=
  b <- j_isBlob v ;;
  require b EDeser ;;;
  x <- j_idx v 1 ;;
  s <- j_asString x ;;
  base64Decode s.

(** contains, lines 189-192 *)
Definition j_contains (v : val) (key : bytes) : res bool :=
  match v with
  | VMap l => Ok (match yy_obj_getn l key with Some _ => true | None => false end)
  | _ => Ok false
  end.
(** mapKeys and KeysView, lines 24-74 and 194-197: yyjson_obj_iter visits the keys in document order. *)
Definition j_mapKeys (v : val) : res (list bytes) :=
  match v with VMap l => Ok (map fst l) | _ => Throw EDeser end.
(** operator[](string_view), lines 199-204 *)
Definition j_key (v : val) (key : bytes) : res val :=
  match v with
  | VMap l => match yy_obj_getn l key with Some x => Ok x | None => Throw EDeser end
  | _ => Throw EDeser
  end.

Definition json_reader : reader val := {|
  r_isNull := fun v => Ok (j_isNull v);
  r_isBool := fun v => Ok (j_isBool v);
  r_isInt := fun v => Ok (j_isInt v);
  r_isUInt := fun v => Ok (j_isUInt v);
  r_isFloat := fun v => Ok (j_isFloat v);
  r_isString := fun v => Ok (j_isString v);
  r_isBlob := j_isBlob;
  r_isMap := fun v => Ok (j_isMap v);
  r_isArray := fun v => Ok (j_isArray v);
  r_asBool := j_asBool;
  r_asInt := j_asInt;
  r_asUInt := j_asUInt;
  r_asDouble := j_asDouble;
  r_asString := j_asString;
  r_asStringView := j_asString;
  r_asBlob := j_asBlob;
  r_arraySize := j_arraySize;
  r_idx := j_idx;
  r_key := j_key;
  r_contains := j_contains;
  r_mapKeys := j_mapKeys
|}.

(** ** RootSerializer and Serializer *)

(** Ctx, lines 241-245.  [Ctx::node] points at the container, which is already linked into its parent as
    the last child; the model keeps the children of an open container here instead, together with the
    key ([jc_slot]) under which it was linked (meaningful if the parent is an object). *)
Record jctx : Type := mkJctx {
  jc_obj : bool;                     (* Ctx::k == Obj *)
  jc_pending : bytes;                (* Ctx::pending_key *)
  jc_slot : bytes;
  jc_kids : list (bytes * val)       (* keys are meaningless in arrays *)
}.
(** RootSerializer, lines 236-250; [js_st] has the innermost container first.  [js_root] is the root if it
    is not an open container. *)
Record jst : Type := mkJst {
  js_doc : bool;                     (* doc != nullptr *)
  js_root : option val;
  js_wrote : bool;                   (* wrote_root *)
  js_st : list jctx
}.
Definition js_init : jst := mkJst true None false [].

(** The value of a container node. *)
Definition node_of (c : jctx) : val :=
  if jc_obj c then VMap (jc_kids c) else VArr (map snd (jc_kids c)).
Definition add_kid (c : jctx) (k : bytes) (v : val) : jctx :=
  mkJctx (jc_obj c) (jc_pending c) (jc_slot c) (jc_kids c ++ [(k, v)]).
(** The tree hanging below the root pointer: every open container is its parent's last child. *)
Fixpoint close_all (v : val) (slot : bytes) (st : list jctx) : val :=
  match st with
  | [] => v
  | c :: st' => close_all (node_of (add_kid c slot v)) (jc_slot c) st'
  end.
Definition js_tree (s : jst) : option val :=
  match js_st s with
  | [] => js_root s
  | c :: st => Some (close_all (node_of c) (jc_slot c) st)
  end.

Definition has_nul (k : bytes) : bool := existsb (Z.eqb 0) k.
Definition nonempty {A} (l : list A) : bool := match l with [] => false | _ => true end.

Definition ok (s : jst) : jst * res unit := (s, Ok tt).

(** The checks of push_value, lines 338-381, up to linking the node: the key it will be linked under and
    the state with that key consumed.  [dbg] is the build without NDEBUG. *)
Definition j_accept (dbg : bool) (s : jst) : res (bytes * jst) :=
  if negb (js_doc s) then Throw EBadAlloc            (* yyjson returns NULL for a NULL document *)
  else match js_st s with
  | [] => if js_wrote s then Throw ELogic else Ok ([], mkJst (js_doc s) (js_root s) true [])
  | c :: st =>
      if jc_obj c then
        if negb (nonempty (jc_pending c)) then Throw ELogic
        else if dbg && has_nul (jc_pending c) then Throw ELogic
        else Ok (c_str (jc_pending c),
                 mkJst (js_doc s) (js_root s) (js_wrote s) (mkJctx true [] (jc_slot c) (jc_kids c) :: st))
      else Ok ([], s)
  end.

(** push_value of a scalar, lines 338-381 *)
Definition j_push (dbg : bool) (v : val) (s : jst) : jst * res unit :=
  match j_accept dbg s with
  | Ok (k, s1) =>
      match js_st s1 with
      | [] => ok (mkJst (js_doc s1) (Some v) (js_wrote s1) [])
      | c :: st => ok (mkJst (js_doc s1) (js_root s1) (js_wrote s1) (add_kid c k v :: st))
      end
  | Throw e => (s, Throw e) | UB => (s, UB) | NoFuel => (s, NoFuel)
  end.

(** begin_array, lines 303-308; begin_map, lines 314-319 *)
Definition j_begin (dbg obj : bool) (s : jst) : jst * res unit :=
  match j_accept dbg s with
  | Ok (k, s1) => ok (mkJst (js_doc s1) (js_root s1) (js_wrote s1) (mkJctx obj [] k [] :: js_st s1))
  | Throw e => (s, Throw e) | UB => (s, UB) | NoFuel => (s, NoFuel)
  end.

(** st.pop_back() *)
Definition j_pop (s : jst) : jst :=
  match js_st s with
  | [] => s
  | [c] => mkJst (js_doc s) (Some (node_of c)) (js_wrote s) []
  | c :: p :: st => mkJst (js_doc s) (js_root s) (js_wrote s) (add_kid p (jc_slot c) (node_of c) :: st)
  end.

(** ensure_in, lines 383-386 *)
Definition j_in (obj : bool) (s : jst) : bool :=
  match js_st s with c :: _ => Bool.eqb (jc_obj c) obj | [] => false end.
(** end_array, lines 309-312 *)
Definition j_end_array (s : jst) : jst * res unit :=
  if j_in false s then ok (j_pop s) else (s, Throw ELogic).
(** end_map, lines 320-325 *)
Definition j_end_map (s : jst) : jst * res unit :=
  match js_st s with
  | c :: _ => if jc_obj c then if nonempty (jc_pending c) then (s, Throw ELogic) else ok (j_pop s)
              else (s, Throw ELogic)
  | [] => (s, Throw ELogic)
  end.
(** key, lines 327-333 *)
Definition j_setkey (k : bytes) (s : jst) : jst * res unit :=
  match js_st s with
  | c :: st =>
      if jc_obj c then
        if nonempty (jc_pending c) then (s, Throw ELogic)
        else ok (mkJst (js_doc s) (js_root s) (js_wrote s) (mkJctx true k (jc_slot c) (jc_kids c) :: st))
      else (s, Throw ELogic)
  | [] => (s, Throw ELogic)
  end.

(** One statement after another; the first exception stops. *)
Definition j_seq (f g : jst -> jst * res unit) (s : jst) : jst * res unit :=
  match f s with (s', Ok _) => g s' | (s', r) => (s', r) end.

(** binary, lines 290-300 *)
Definition j_binary (dbg : bool) (b : bytes) (s : jst) : jst * res unit :=
  match base64Encode b with
  | Ok e =>
      j_seq (j_begin dbg false)
        (j_seq (j_push dbg (VStr blobTag))
          (j_seq (j_push dbg (VStr e)) (j_seq (j_push dbg (VStr blobEncoding)) j_end_array))) s
  | Throw x => (s, Throw x) | UB => (s, UB) | NoFuel => (s, NoFuel)
  end.

(** Serializer, lines 275-333.  Strings are referenced, not copied (line 287); that lifetime aspect is
    modelled in LifeModel.v. *)
Definition j_step (dbg : bool) (s : jst) (e : ev) : jst * res unit :=
  match e with
  | ENull => j_push dbg VNull s
  | EBool b => j_push dbg (VBool b) s
  | EInt z => j_push dbg (VInt z) s
  | EUInt z => j_push dbg (VUInt z) s
  | EDbl d => j_push dbg (VDbl d) s
  | EStr t => j_push dbg (VStr t) s
  | EBin b => j_binary dbg b s
  | EKey k => j_setkey k s
  | EBeginArr _ => j_begin dbg false s
  | EEndArr => j_end_array s
  | EBeginMap _ => j_begin dbg true s
  | EEndMap => j_end_map s
  end.

(** finish, lines 253-272; nothing checks that the containers are closed. *)
Definition j_finish (s : jst) : jst * res val :=
  let gone := mkJst false (js_root s) (js_wrote s) (js_st s) in
  if js_doc s then
    match js_tree s with
    | None => (mkJst false (Some VNull) (js_wrote s) (js_st s), Ok VNull)
    | Some v => (gone, match yy_write v with Some t => Ok t | None => Throw ERuntime end)
    end
  else (gone, Throw ERuntime).

Definition json_writer (dbg : bool) : writer jst val := mkWriter js_init (j_step dbg) j_finish.
