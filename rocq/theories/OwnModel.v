(** OwnModel.v -- which object owns the bytes a deserializer reads.

    Files under include/zerialize/: protocols/msgpack.hpp:108-113, 214-240, protocols/cbor.hpp:74-77, 208-228,
    protocols/zera.hpp:487-533, protocols/flex.hpp:355-393, protocols/json.hpp:80-139.  Definitions only, no proofs.

    Memory is a set of numbered blocks; deserializers live in numbered variables.  A reader is reduced to what decides
    lifetimes: the block it owns, and the part of a block that its accessors read.  Decoding is modelled elsewhere.
    Standard library behaviour assumed (libstdc++): an empty vector has no storage unless it has spare capacity, a copied
    vector has no spare capacity, copy assignment reuses the target's storage when it is large enough, a moved-from or
    self-moved vector is empty, and moving a vector keeps its storage in place. *)

From Coq Require Import ZArith List Bool.
From Verif Require Import Base.
Import ListNotations.
Open Scope Z_scope.

(** Two designs.
    [CVec]: MsgPackDeserializer, CborDeserializer, ZeraDeserializer and FlexDeserializer hold a std::vector [owned_] and
    a pointer or span into it, with the compiler-generated copy and move operations.
    [CJson]: JsonDeserializer holds [doc_] and [owns_doc_]; it is move-only (json.hpp:125-139). *)
Inductive class : Type := CVec | CJson.

(** [own]: the storage of [owned_] with its size() (CVec), or [doc_] when [owns_doc_] is set (CJson; the number is
    the size of the document).  [ref]: what the accessors read, as (block, offset, length): view_ (msgpack.hpp:112),
    buf_/pos_ (cbor.hpp:75-77), buf_/env_/arena_/vr_ (zera.hpp), ref_ (flex.hpp:362), cur_ (json.hpp:82).
    [None] is the null pointer. *)
Record robj : Type := mkObj { own : option (nat * Z); ref : option (nat * Z * Z) }.

(** A block: who allocated it ([true]: the caller) and its contents, spare capacity included.  [None]: not allocated, or freed. *)
Record rworld : Type := mkRW { heap : nat -> option (bool * bytes); next : nat; objs : nat -> option robj }.
Definition rworld0 : rworld := mkRW (fun _ => None) 0 (fun _ => None).
Definition upd {A} (f : nat -> A) (n : nat) (x : A) : nat -> A := fun m => if Nat.eqb m n then x else f m.

Definition alloc (caller : bool) (mem : bytes) (w : rworld) : nat * rworld :=
  (next w, mkRW (upd (heap w) (next w) (Some (caller, mem))) (S (next w)) (objs w)).
(** operator delete / yyjson_doc_free: freeing what was not allocated by the library, or was freed already, is UB. *)
Definition free (b : nat) (w : rworld) : res rworld :=
  match heap w b with
  | Some (false, _) => Ok (mkRW (upd (heap w) b None) (next w) (objs w))
  | _ => UB
  end.
Definition free_own (o : robj) (w : rworld) : res rworld :=
  match own o with Some (b, _) => free b w | None => Ok w end.
Definition put_obj (n : nat) (o : option robj) (w : rworld) : rworld := mkRW (heap w) (next w) (upd (objs w) n o).

(** The elements of [owned_] (what copying the vector copies). *)
Definition content (o : robj) (w : rworld) : res bytes :=
  match own o with
  | None => Ok []
  | Some (b, n) => match heap w b with Some (_, mem) => Ok (slice mem 0 n) | None => UB end
  end.

(** Construction from a vector (msgpack.hpp:232-236, cbor.hpp:211-222, zera.hpp:518-525, flex.hpp:368-376), with
    [spare] bytes of unused capacity, and parsing a JSON text (json.hpp:98-115; the document is always allocated).
    Constructors that throw make no object and are left out. *)
Definition make (c : class) (data spare : bytes) (w : rworld) : robj * rworld :=
  match c, data ++ spare with
  | CVec, [] => (mkObj None None, w)
  | _, mem => let (b, w') := alloc false mem w in (mkObj (Some (b, zlen data)) (Some (b, 0, zlen data)), w')
  end.

(** The copy constructor of the vector class: [owned_] is copied to new storage, the pointers are copied as they are. *)
Definition copy_obj (o : robj) (w : rworld) : res (robj * rworld) :=
  d <- content o w ;;
  match d with
  | [] => Ok (mkObj None (ref o), w)
  | _ => let (b, w') := alloc false d w in Ok (mkObj (Some (b, zlen d)) (ref o), w')
  end.

(** Memberwise copy assignment of two different objects, [dst = src]: the vector reuses its storage when that is large
    enough. *)
Definition copy_assign (dst src : robj) (w : rworld) : res (robj * rworld) :=
  d <- content src w ;;
  match own dst with
  | Some (b, _) =>
      match heap w b with
      | Some (c, mem) =>
          if zlen d <=? zlen mem
          then Ok (mkObj (Some (b, zlen d)) (ref src),
                   mkRW (upd (heap w) b (Some (c, d ++ skipn (Z.to_nat (zlen d)) mem))) (next w) (objs w))
          else let (b', w1) := alloc false d w in
               w2 <- free b w1 ;; Ok (mkObj (Some (b', zlen d)) (ref src), w2)
      | None => UB
      end
  | None =>
      match d with
      | [] => Ok (mkObj None (ref src), w)
      | _ => let (b', w1) := alloc false d w in Ok (mkObj (Some (b', zlen d)) (ref src), w1)
      end
  end.

(** What a move leaves behind: an empty vector, and spans and pointers that still hold their old values (CVec);
    null pointers (CJson, json.hpp:130, 136). *)
Definition moved_from (c : class) (o : robj) : robj :=
  match c with CVec => mkObj None (ref o) | CJson => mkObj None None end.

(** A view of a part of what [r] views, cut down to its range. *)
Definition subview (r : option (nat * Z * Z)) (off len : Z) : option (nat * Z * Z) :=
  match r with
  | None => None
  | Some (b, o, l) => let off' := Z.max 0 (Z.min off l) in
                      Some (b, o + off', Z.max 0 (Z.min len (l - off')))
  end.

Inductive rop : Type :=
| RNew (n : nat) (data spare : bytes)   (* Deserializer a(std::move(vector)); Deserializer a(text) *)
| RView (n : nat) (data : bytes)        (* the caller has [data] in memory: Deserializer a(span) *)
| RFree (b : nat)                       (* the caller frees its memory *)
| RSub (n m : nat) (off len : Z)        (* auto a = b["key"], the non-owning reader of an element *)
| RCopy (n m : nat)                     (* Deserializer a(b) *)
| RMove (n m : nat)                     (* Deserializer a(std::move(b)) *)
| RCopyAssign (n m : nat)               (* a = b *)
| RMoveAssign (n m : nat)               (* a = std::move(b) *)
| RDestroy (n : nat).

(** One operation.  An operation on a variable that does not exist, a construction of one that does, and copying a
    move-only class are not programs; such operations do nothing.
    RView, CJson: the text is parsed into a document of its own (json.hpp:107-112).
    RSub: msgpack.hpp operator[] (subview constructor, line 239), cbor.hpp:227, json.hpp:118-119; the ZeraValue and
    FlexValue that zera.hpp and flex.hpp return hold pointers only, like a ZeraDeserializer without owned_. *)
Definition rstep (c : class) (w : rworld) (op : rop) : res rworld :=
  match op with
  | RNew n data spare =>
      match objs w n with
      | Some _ => Ok w
      | None => let (o, w1) := make c data spare w in Ok (put_obj n (Some o) w1)
      end
  | RView n data =>
      match objs w n with
      | Some _ => Ok w
      | None =>
          match c with
          | CVec => let (b, w1) := alloc true data w in
                    Ok (put_obj n (Some (mkObj None (Some (b, 0, zlen data)))) w1)
          | CJson => let (o, w1) := make c data [] w in Ok (put_obj n (Some o) w1)
          end
      end
  | RFree b =>
      match heap w b with
      | Some (true, _) => Ok (mkRW (upd (heap w) b None) (next w) (objs w))
      | _ => Ok w
      end
  | RSub n m off len =>
      match objs w n, objs w m with
      | None, Some o => Ok (put_obj n (Some (mkObj None (subview (ref o) off len))) w)
      | _, _ => Ok w
      end
  | RCopy n m =>
      match c, objs w n, objs w m with
      | CVec, None, Some o => ' (o', w1) <- copy_obj o w ;; Ok (put_obj n (Some o') w1)
      | _, _, _ => Ok w
      end
  | RMove n m =>
      match objs w n, objs w m with
      | None, Some o => Ok (put_obj m (Some (moved_from c o)) (put_obj n (Some o) w))
      | _, _ => Ok w
      end
  | RCopyAssign n m =>
      match c, objs w n, objs w m with
      | CVec, Some dst, Some src =>
          if Nat.eqb n m then Ok w    (* vector: self-assignment is checked; spans are assigned to themselves *)
          else ' (o', w1) <- copy_assign dst src w ;; Ok (put_obj n (Some o') w1)
      | _, _, _ => Ok w
      end
  | RMoveAssign n m =>
      match objs w n, objs w m with
      | Some dst, Some src =>
          if Nat.eqb n m then
            match c with
            | CVec => w1 <- free_own dst w ;; Ok (put_obj n (Some (mkObj None (ref dst))) w1)
            | CJson => Ok w           (* if (this != &o), json.hpp:133 *)
            end
          else
            w1 <- free_own dst w ;;
            Ok (put_obj m (Some (moved_from c src)) (put_obj n (Some src) w1))
      | _, _ => Ok w
      end
  | RDestroy n =>
      match objs w n with
      | Some o => w1 <- free_own o w ;; Ok (put_obj n None w1)
      | None => Ok w
      end
  end.

Fixpoint rsteps (c : class) (w : rworld) (h : list rop) : res rworld :=
  match h with
  | [] => Ok w
  | op :: h' => w1 <- rstep c w op ;; rsteps c w1 h'
  end.

(** What an accessor of the reader in variable [n] reads; a null pointer is an empty message. *)
Definition rread (w : rworld) (n : nat) : res bytes :=
  match objs w n with
  | None => UB
  | Some o =>
      match ref o with
      | None => Ok []
      | Some (b, off, len) =>
          match heap w b with Some (_, mem) => rd_view mem (off, len) | None => UB end
      end
  end.
