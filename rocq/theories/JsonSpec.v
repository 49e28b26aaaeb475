(** JsonSpec.v -- what JSON documents show, independent of the code. *)

From Coq Require Import ZArith List Bool String.
From Verif Require Import Base Spec FloatSpec B64Spec Utf8Spec.
Import ListNotations.
Open Scope Z_scope.

(** The bytes an RFC 4648 text spells: 8 bits at a time, most significant first; trailing bits that do
    not fill a byte are dropped.  [None] if a character before the padding is not in the alphabet. *)
Definition unb64 (s : bytes) : option bytes :=
  let p := before_pad s in
  if forallb in_alphabet p then
    Some (map (fun i => spelled p / 2 ^ (6 * zlen p - 8 * (Z.of_nat i + 1)) mod 256)
              (seq 0 (Z.to_nat (6 * zlen p / 8))))
  else None.

(** The array form of a blob: ["~b", text, "base64"]. *)
Definition tag_text : bytes := [126; 98].
Definition enc_text : bytes := [98; 97; 115; 101; 54; 52].
Definition blob_text (v : val) : option bytes :=
  match v with
  | VArr [VStr t; VStr s; VStr e] => if beq t tag_text && beq e enc_text then Some s else None
  | _ => None
  end.

(** What the JSON reader is expected to answer on one document node.  Integers: signed accessors accept
    both kinds, unsigned ones only non-negative tokens; narrow accessors keep the low bits. *)
Definition json_table (v : val) : table :=
  match v with
  | VUInt z => mkTable false false true true false false false false false
                 None (fun iw => Some (to_signed (ibits iw) z)) (fun iw => Some (z mod 2 ^ ibits iw)) None None None
  | VInt z => mkTable false false true false false false false false false
                 None (fun iw => Some (to_signed (ibits iw) z)) (fun _ => None) None None None
  | VArr _ =>
      match blob_text v with
      | Some s => mkTable false false false false false false true false true
                    None (fun _ => None) (fun _ => None) None None (unb64 s)
      | None => ideal v
      end
  | _ => ideal v
  end.

(** JSON text has no signed/unsigned distinction and no blobs. *)
Fixpoint as_json (v : val) : val :=
  match v with
  | VInt z => if z <? 0 then VInt z else VUInt z
  | VBlob b => VArr [VStr tag_text; VStr (rfc4648 b); VStr enc_text]
  | VArr l => VArr (map as_json l)
  | VMap l => VMap (map (fun kx => (fst kx, as_json (snd kx))) l)
  | _ => v
  end.

(** All doubles finite, all texts UTF-8, all keys non-empty and without NUL. *)
Definition finite (d : Z) : Prop := match f64_value d with Fnum _ _ => True | _ => False end.
Definition doubles_finite : val -> Prop := every (fun v => match v with VDbl d => finite d | _ => True end).
Definition every_key (P : bytes -> Prop) : val -> Prop :=
  every (fun v => match v with VMap l => Forall (fun kx => P (fst kx)) l | _ => True end).
Definition good_key (k : bytes) : Prop := k <> [] /\ ~ In 0 k.
(** What the writer checks: builds with NDEBUG ([dbg = false]) do not look for NULs. *)
Definition key_ok (dbg : bool) (k : bytes) : Prop := k <> [] /\ (dbg = true -> ~ In 0 k).
Definition json_ok (v : val) : Prop := doubles_finite v /\ texts_utf8 v /\ every_key good_key v.

(** No array inside [v] has the array form of a blob. *)
Definition no_blob_form : val -> Prop := every (fun v => blob_text v = None).

(** A parsed document: no blobs, integers in 64-bit range. *)
Definition json_doc : val -> Prop := every (fun v =>
  match v with
  | VInt z => is_i64 z
  | VUInt z => is_u64 z
  | VStr s => bytes_ok s
  | VBlob _ => False
  | _ => True
  end).

(** The syntax tree of a JSON text: unsigned integer tokens, negative ones, no blobs. *)
Definition json_text : val -> Prop := every (fun v =>
  match v with
  | VInt z => z <= 0
  | VUInt z => 0 <= z
  | VStr s => bytes_ok s
  | VBlob _ => False
  | _ => True
  end).

(** Keys cut at their first NUL. *)
Fixpoint to_nul (k : bytes) : bytes := match k with [] => [] | x :: k' => if x =? 0 then [] else x :: to_nul k' end.
Fixpoint cut_keys (v : val) : val :=
  match v with
  | VArr l => VArr (map cut_keys l)
  | VMap l => VMap (map (fun kx => (to_nul (fst kx), cut_keys (snd kx))) l)
  | _ => v
  end.

(** The calls that returned normally. *)
Definition returned (es : list ev) (outs : list (res unit)) : list ev :=
  map fst (filter (fun eo => match snd eo with Ok _ => true | _ => false end) (combine es outs)).
Definition is_end (e : ev) : Prop := e = EEndArr \/ e = EEndMap.

(** finish() of the calls of [v]: the document, or an error if it cannot be written as JSON. *)
Definition document (v : val) (r : res val) : Prop :=
  doubles_finite v /\ texts_utf8 (cut_keys v) /\ r = Ok (as_json (cut_keys v)) \/
  ~ (doubles_finite v /\ texts_utf8 (cut_keys v)) /\ r = Throw ERuntime.

(** Values up to the signed/unsigned distinction of non-negative integers. *)
Fixpoint signless (v : val) : val :=
  match v with
  | VInt z => if z <? 0 then VInt z else VUInt z
  | VArr l => VArr (map signless l)
  | VMap l => VMap (map (fun kx => (fst kx, signless (snd kx))) l)
  | _ => v
  end.
