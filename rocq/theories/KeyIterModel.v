(** KeyIterModel.v -- the key ranges returned by mapKeys() and their iterators, as objects of a client program.

    Line numbers: zera.hpp:350-401, msgpack.hpp:372-436, cbor.hpp:361-458, json.hpp:24-78, flex.hpp:250-277.
    Views, ranges (KeysView objects), iterators and saved string_views are variables numbered by [nat]; the number doubles as the address
    of the object.  A view or range may be destroyed; following a pointer to a destroyed object is UB.  Definitions only, no proofs. *)

From Coq Require Import ZArith List Bool.
From Verif Require Import Base Spec FloatModel ZeraModel JsonModel FlexModel.
From Verif Require MsgModel CborModel.
Import ListNotations.
Open Scope Z_scope.

Definition upd {A} (f : nat -> A) (n : nat) (x : A) : nat -> A := fun m => if Nat.eqb m n then x else f m.

(** What a protocol provides.  [kp_deref] also says whether the string_view returned points into the iterator itself. *)
Record kproto (V RG IT : Type) : Type := mkKProto {
  kp_keys : nat -> V -> res RG;                                                    (* v.mapKeys(), v at an address *)
  kp_begin : nat -> RG -> res IT;                                                  (* r.begin(), r at an address *)
  kp_end : nat -> RG -> res IT;
  kp_deref : (nat -> option V) -> (nat -> option RG) -> IT -> res (bool * bytes);
  kp_incr : (nat -> option V) -> (nat -> option RG) -> IT -> res IT;
  kp_eq : IT -> IT -> bool
}.
Arguments kp_keys {V RG IT}. Arguments kp_begin {V RG IT}. Arguments kp_end {V RG IT}.
Arguments kp_deref {V RG IT}. Arguments kp_incr {V RG IT}. Arguments kp_eq {V RG IT}. Arguments mkKProto {V RG IT}.

(** zera.hpp:350-401.  A range is {self, p, count}, an iterator {self, cur, i, n}; [self] is the address of the view mapKeys() was called on.
    operator* and operator++ look at [self] only below the end. *)
Definition zera_keys : kproto zview (nat * zkit) (nat * zkit) := {|
  kp_keys := fun a v => it <- zv_mapKeys v ;; Ok (a, it);
  kp_begin := fun _ r => Ok r;
  kp_end := fun _ r => Ok (fst r, mkZKit (ki_cur (snd r)) (ki_n (snd r)) (ki_n (snd r)));
  kp_deref := fun views _ i =>
    let '(self, it) := i in
    if ki_n it <=? ki_i it then Throw EDeser else
    match views self with
    | Some v => w <- zk_deref v it ;; s <- rd_view (zv_buf v) w ;; Ok (false, s)
    | None => UB
    end;
  kp_incr := fun views _ i =>
    let '(self, it) := i in
    if ki_n it <=? ki_i it then Ok i else
    match views self with
    | Some v => it' <- zk_incr v it ;; Ok (self, it')
    | None => UB
    end;
  kp_eq := fun x y => Nat.eqb (fst x) (fst y) && (ki_i (snd x) =? ki_i (snd y)) && (ki_n (snd x) =? ki_n (snd y))
|}.

(** msgpack.hpp:372-436.  A range is {v, count, payload_off}, an iterator {v, i, off}: both hold the span itself.  operator== also compares the
    addresses of the buffers; simplified here and for CBOR and JSON to the positions, which is the same for iterators over one message. *)
Definition mp_keys_range (v : MsgModel.mspan) : res (MsgModel.mspan * Z * Z) :=
  k <- MsgModel.mp_is MsgModel.k_map v ;;
  require k EDeser ;;;
  '(n, off) <- MsgModel.map_info v ;;
  Ok (v, n, off).
Definition msgpack_keys : kproto MsgModel.mspan (MsgModel.mspan * Z * Z) (MsgModel.mspan * Z * Z) := {|
  kp_keys := fun _ v => mp_keys_range v;
  kp_begin := fun _ r => let '(v, n, off) := r in Ok (v, 0, off);
  kp_end := fun _ r => let '(v, n, off) := r in e <- MsgModel.skip_pairs MsgModel.skip v n off ;; Ok (v, n, e);
  kp_deref := fun _ _ it =>
    let '(v, i, off) := it in w <- MsgModel.mk_deref v off ;; s <- rd_view (MsgModel.ms_buf v) w ;; Ok (false, s);
  kp_incr := fun _ _ it => let '(v, i, off) := it in off' <- MsgModel.mk_incr v off ;; Ok (v, i + 1, off');
  kp_eq := fun x y =>
    let '(v, i, off) := x in let '(v2, i2, off2) := y in
    (MsgModel.ms_off v =? MsgModel.ms_off v2) && (i =? i2) && (off =? off2)
|}.

(** cbor.hpp:361-458.  A range is {buf, start}, an iterator {buf, q, remaining, indefinite, scratch}.  operator* of a key that is not a definite
    text string stores it in [scratch] and returns a view of that. *)
Record ckit : Type := mkCKit { ck_buf : bytes; ck_q : Z; ck_rem : Z; ck_indef : bool }.
Definition cbor_keys (hard : bool) (fuel : nat) : kproto CborModel.cview CborModel.cview ckit := {|
  kp_keys := fun _ v => h <- CborModel.chd v ;; require (CborModel.h_major h =? 5) EDeser ;;; Ok v;
  kp_begin := fun _ r =>
    let b := CborModel.cv_buf r in
    h <- CborModel.k_read_head b (CborModel.cv_pos r) ;;
    Ok (mkCKit b (CborModel.cv_pos r + CborModel.h_len h) (if CborModel.h_indef h then 0 else CborModel.h_val h) (CborModel.h_indef h));
  kp_end := fun _ r =>
    let b := CborModel.cv_buf r in
    h <- CborModel.k_read_head b (CborModel.cv_pos r) ;;
    e <- CborModel.k_end fuel b (CborModel.cv_pos r) ;;
    Ok (mkCKit b e 0 (CborModel.h_indef h));
  kp_deref := fun _ _ it =>
    let b := ck_buf it in let q := ck_q it in
    kh <- CborModel.k_read_head b q ;;
    if (CborModel.h_major kh =? 3) && negb (CborModel.h_indef kh)
    then a <- CborModel.addr hard b (q + CborModel.h_len kh) ;; s <- rd_view b (a, CborModel.h_val kh) ;; Ok (false, s)
    else s <- CborModel.c_asString hard fuel (CborModel.mkCView b q) ;; Ok (true, s);
  kp_incr := fun _ _ it =>
    '(q, r) <- CborModel.k_incr fuel (ck_buf it) (ck_indef it) (ck_q it, ck_rem it) ;;
    Ok (mkCKit (ck_buf it) q r (ck_indef it));
  kp_eq := fun x y => ck_q x =? ck_q y
|}.

(** json.hpp:24-78.  A range is the yyjson object, an iterator the current key and the yyjson_obj_iter behind it: here the keys from the current
    one on, none at the end.  yyjson_get_str(NULL) is NULL, yyjson_get_len(NULL) is 0.  Equality compares the key nodes: positions. *)
Definition json_keys : kproto val (list bytes) (list bytes) := {|
  kp_keys := fun _ v => j_mapKeys v;
  kp_begin := fun _ r => Ok r;
  kp_end := fun _ r => Ok [];
  kp_deref := fun _ _ it => match it with k :: _ => Ok (false, k) | [] => Ok (false, []) end;
  kp_incr := fun _ _ it => match it with _ :: it' => Ok it' | [] => Ok [] end;
  kp_eq := fun x y => Nat.eqb (length x) (length y)
|}.

(** flex.hpp:250-277.  A range holds the TypedVector of keys, an iterator {keys, i} the address of that member. *)
Definition flex_keys : kproto fx (list bytes) (nat * Z) := {|
  kp_keys := fun _ v => x_mapKeys v;
  kp_begin := fun a r => Ok (a, 0);
  kp_end := fun a r => Ok (a, zlen r);
  kp_deref := fun _ ranges it =>
    let '(a, i) := it in match ranges a with Some ks => Ok (false, key_at ks i) | None => UB end;
  kp_incr := fun _ _ it => let '(a, i) := it in Ok (a, i + 1);
  kp_eq := fun x y => Nat.eqb (fst x) (fst y) && (snd x =? snd y)
|}.

(** ** Client programs *)
Inductive kcmd : Type :=
| CKeys (r v : nat)          (* auto r = v.mapKeys(); *)
| CBegin (i r : nat)         (* i = r.begin(); *)
| CEnd (i r : nat)           (* i = r.end(); *)
| CCopy (i j : nat)          (* i = j; *)
| CInc (i : nat)             (* ++i; *)
| CDeref (s i : nat)         (* std::string_view s = *i; *)
| CRead (s : nat)            (* look at the characters of s *)
| CEq (i j : nat)            (* look at i == j *)
| CKillView (v : nat)        (* v is destroyed *)
| CKillRange (r : nat)       (* r is destroyed *)
| CKillIter (i : nat).       (* i is destroyed *)

Inductive kout : Type := OKey (k : bytes) | OBool (b : bool).

(** A saved string_view: its characters and, when it points into the iterator variable [i], how often the memory of [i] had been reassigned. *)
Record kstate (V RG IT : Type) : Type := mkKS {
  ks_views : nat -> option V;
  ks_ranges : nat -> option RG;
  ks_iters : nat -> option IT;
  ks_gen : nat -> nat;
  ks_saved : nat -> option (bytes * option (nat * nat))
}.
Arguments mkKS {V RG IT}. Arguments ks_views {V RG IT}. Arguments ks_ranges {V RG IT}. Arguments ks_iters {V RG IT}.
Arguments ks_gen {V RG IT}. Arguments ks_saved {V RG IT}.

Definition need {A} (o : option A) : res A := match o with Some a => Ok a | None => UB end.

Section Run.
Context {V RG IT : Type} (P : kproto V RG IT).
Notation state := (kstate V RG IT).

(** A new value in iterator variable [i]; its scratch string changes too. *)
Definition set_iter (s : state) (i : nat) (o : option IT) : state :=
  mkKS (ks_views s) (ks_ranges s) (upd (ks_iters s) i o) (upd (ks_gen s) i (S (ks_gen s i))) (ks_saved s).

(** Reading a string_view whose characters were overwritten or freed is UB (with a short string it may also show other characters). *)
Definition kstep (s : state) (c : kcmd) : res (state * list kout) :=
  match c with
  | CKeys r v => w <- need (ks_views s v) ;; rg <- kp_keys P v w ;;
      Ok (mkKS (ks_views s) (upd (ks_ranges s) r (Some rg)) (ks_iters s) (ks_gen s) (ks_saved s), [])
  | CBegin i r => rg <- need (ks_ranges s r) ;; it <- kp_begin P r rg ;; Ok (set_iter s i (Some it), [])
  | CEnd i r => rg <- need (ks_ranges s r) ;; it <- kp_end P r rg ;; Ok (set_iter s i (Some it), [])
  | CCopy i j => it <- need (ks_iters s j) ;; Ok (set_iter s i (Some it), [])
  | CInc i => it <- need (ks_iters s i) ;; it' <- kp_incr P (ks_views s) (ks_ranges s) it ;;
      Ok (mkKS (ks_views s) (ks_ranges s) (upd (ks_iters s) i (Some it')) (ks_gen s) (ks_saved s), [])
  | CDeref k i => it <- need (ks_iters s i) ;; '(own, t) <- kp_deref P (ks_views s) (ks_ranges s) it ;;
      Ok (if own : bool
          then mkKS (ks_views s) (ks_ranges s) (ks_iters s) (upd (ks_gen s) i (S (ks_gen s i))) (upd (ks_saved s) k (Some (t, Some (i, S (ks_gen s i)))))
          else mkKS (ks_views s) (ks_ranges s) (ks_iters s) (ks_gen s) (upd (ks_saved s) k (Some (t, None))), [])
  | CRead k => '(t, own) <- need (ks_saved s k) ;;
      match own with
      | None => Ok (s, [OKey t])
      | Some (i, g) => if Nat.eqb (ks_gen s i) g then Ok (s, [OKey t]) else UB
      end
  | CEq i j => x <- need (ks_iters s i) ;; y <- need (ks_iters s j) ;; Ok (s, [OBool (kp_eq P x y)])
  | CKillView v => Ok (mkKS (upd (ks_views s) v None) (ks_ranges s) (ks_iters s) (ks_gen s) (ks_saved s), [])
  | CKillRange r => Ok (mkKS (ks_views s) (upd (ks_ranges s) r None) (ks_iters s) (ks_gen s) (ks_saved s), [])
  | CKillIter i => Ok (set_iter s i None, [])
  end.
Fixpoint krun (s : state) (p : list kcmd) : res (list kout) :=
  match p with
  | [] => Ok []
  | c :: p' => '(s', o) <- kstep s c ;; os <- krun s' p' ;; Ok (o ++ os)
  end.
(** Program start: some views, nothing else. *)
Definition kstart (views : nat -> option V) : state :=
  mkKS views (fun _ => None) (fun _ => None) (fun _ => 0%nat) (fun _ => None).
End Run.
