(** ZbufModel.v -- transcription of include/zerialize/zbuffer.hpp.

    Line numbers refer to that file.  Definitions only, no proofs.
    Buffers live in numbered slots (variables); pointers are numbers ([None] is nullptr); user deleters are numbers.
    Deleter calls are recorded in a trace, together with the adoptions.  Standard library behaviour assumed (libstdc++):
    a moved-from vector is empty, a moved-from unique_ptr is null with an empty deleter, self-move-assignment empties a
    vector and leaves a unique_ptr as it was. *)

From Coq Require Import ZArith List Bool.
From Verif Require Import Base.
Import ListNotations.
Open Scope Z_scope.

(** The std::function<void(uint8_t* )> held by a ManagedPtr: empty, the user's own, or the lambda of the char*/void*
    constructors around the user's function ([None]: that one is empty), lines 130-151. *)
Inductive deleter : Type := DEmpty | DUser (id : Z) | DWrap (inner : option Z).

(** std::variant<Ownedvector, ManagedPtr>, lines 83-101 *)
Inductive storage : Type := SVec (b : bytes) | SPtr (ptr : option Z) (del : deleter) (count : Z).

Inductive tev : Type := TAdopt (p id : Z) | TDelete (p id : Z).

Record world : Type := mkWorld { slots : nat -> option storage; trace : list tev }.
Definition world0 : world := mkWorld (fun _ => None) [].
Definition set (f : nat -> option storage) (n : nat) (x : option storage) : nat -> option storage :=
  fun m => if Nat.eqb m n then x else f m.

(** Calling a deleter on a non-null pointer, from a destructor: an empty std::function throws bad_function_call out of a
    noexcept function. *)
Definition call_deleter (d : deleter) (p : Z) : res (list tev) :=
  match d with
  | DUser id | DWrap (Some id) => Ok [TDelete p id]
  | DEmpty | DWrap None => Throw ETerminate
  end.
(** ~unique_ptr, ~vector *)
Definition drop (s : storage) : res (list tev) :=
  match s with SPtr (Some p) d _ => call_deleter d p | _ => Ok [] end.

(** The moved-from state of a storage, and the state it moves to. *)
Definition moved (s : storage) : storage := match s with SVec _ => SVec [] | SPtr _ _ c => SPtr None DEmpty c end.

(** How the raw-pointer constructors are called: with a uint8_t*, or with a char* or void*. *)
Inductive ptrkind : Type := KU8 | KOther.
Definition mk_deleter (k : ptrkind) (del : option Z) : deleter :=
  match k, del with KU8, None => DEmpty | KU8, Some id => DUser id | KOther, d => DWrap d end.
Definition adopted (ptr : option Z) (d : deleter) : list tev :=
  match ptr, d with
  | Some p, DUser id | Some p, DWrap (Some id) => [TAdopt p id]
  | _, _ => []
  end.

(** ZBuffer(uint8_t*, size_t, function), lines 117-126 (the others delegate to it, lines 130-151).  A throw in the body
    destroys the already constructed storage first. *)
Definition construct (k : ptrkind) (ptr : option Z) (size : Z) (del : option Z) : res (storage * list tev) :=
  let d := mk_deleter k del in
  let s := SPtr ptr d size in
  let fail := ev <- drop s ;; Throw EInvalidArg in
  if (0 <? size) && match ptr with None => true | _ => false end then fail
  else match d with DEmpty => fail | _ => Ok (s, adopted ptr d) end.

(** Move assignment of the variant, line 159: the same alternative is assigned, another one is replaced.
    unique_ptr assignment runs the old deleter on the old pointer, then takes over both. *)
Definition move_assign (dst src : storage) : res (storage * storage * list tev) :=
  ev <- drop dst ;; Ok (src, moved src, ev).
Definition self_assign (s : storage) : storage := match s with SVec _ => SVec [] | _ => s end.

Inductive zop : Type :=
| ODefault (n : nat)                                       (* ZBuffer a; lines 107-108 *)
| OVector (n : nat) (b : bytes)                            (* ZBuffer a(std::move(vec)); lines 112-113 *)
| OPointer (n : nat) (k : ptrkind) (ptr : option Z) (size : Z) (del : option Z)
| OMove (n m : nat)                                        (* ZBuffer a(std::move(b)); line 158 *)
| OAssign (n m : nat)                                      (* a = std::move(b); line 159 *)
| ODestroy (n : nat).

(** One operation.  An operation on a variable that does not exist, or a construction of one that does, is not a
    program; such operations do nothing.  An invalid_argument exception is caught by the caller: the world is kept. *)
Definition zstep (w : world) (o : zop) : res world :=
  match o with
  | ODefault n => match slots w n with None => Ok (mkWorld (set (slots w) n (Some (SVec []))) (trace w)) | _ => Ok w end
  | OVector n b => match slots w n with None => Ok (mkWorld (set (slots w) n (Some (SVec b))) (trace w)) | _ => Ok w end
  | OPointer n k ptr size del =>
      match slots w n with
      | None =>
          match construct k ptr size del with
          | Ok (s, ev) => Ok (mkWorld (set (slots w) n (Some s)) (trace w ++ ev))
          | Throw EInvalidArg => Ok w
          | Throw e => Throw e | UB => UB | NoFuel => NoFuel
          end
      | _ => Ok w
      end
  | OMove n m =>
      match slots w n, slots w m with
      | None, Some s => Ok (mkWorld (set (set (slots w) m (Some (moved s))) n (Some s)) (trace w))
      | _, _ => Ok w
      end
  | OAssign n m =>
      match slots w n, slots w m with
      | Some d, Some s =>
          if Nat.eqb n m then Ok (mkWorld (set (slots w) n (Some (self_assign s))) (trace w))
          else ' (d', s', ev) <- move_assign d s ;; Ok (mkWorld (set (set (slots w) m (Some s')) n (Some d')) (trace w ++ ev))
      | _, _ => Ok w
      end
  | ODestroy n =>
      match slots w n with
      | Some s => ev <- drop s ;; Ok (mkWorld (set (slots w) n None) (trace w ++ ev))
      | None => Ok w
      end
  end.
Fixpoint zrun (w : world) (ops : list zop) : res world :=
  match ops with [] => Ok w | o :: ops' => w' <- zstep w o ;; zrun w' ops' end.

(** ** Accessors *)

(** size, lines 164-175; owned, lines 177-179; data, lines 181-192: [Some None] is a null pointer.  For a vector the
    address is not modelled; it is non-null when the vector is not empty. *)
Definition z_size (s : storage) : Z := match s with SVec b => zlen b | SPtr _ _ c => c end.
Definition z_owned (s : storage) : bool := match s with SVec _ => true | _ => false end.
Definition z_null (s : storage) : bool := match s with SVec b => zlen b =? 0 | SPtr None _ _ => true | SPtr (Some _) _ _ => false end.
(** empty, lines 194-196 *)
Definition z_empty (s : storage) : bool := z_size s =? 0.

(** Reading [n] bytes from data(); [mem p] are the bytes at pointer [p] while it is allocated. *)
Definition z_read (mem : Z -> option bytes) (s : storage) (n : Z) : res bytes :=
  if n =? 0 then Ok [] else
  match s with
  | SVec b => if n <=? zlen b then Ok (firstn (Z.to_nat n) b) else UB
  | SPtr None _ _ => UB
  | SPtr (Some p) _ _ => match mem p with Some b => if n <=? zlen b then Ok (firstn (Z.to_nat n) b) else UB | None => UB end
  end.
(** Reading all of buf(), lines 198-200 *)
Definition z_buf (mem : Z -> option bytes) (s : storage) : res bytes := z_read mem s (z_size s).
(** to_vector_copy, lines 225-235; to_debug_string, lines 209-222 *)
Definition z_copy (mem : Z -> option bytes) (s : storage) : res bytes :=
  if negb (z_null s) && (0 <? z_size s) then z_read mem s (z_size s) else Ok [].

(** ** hexdump, lines 239-280, on the bytes read through data() *)

(** [os << std::setw(w) << std::setfill('0') << std::hex << z]; 16 hexadecimal digits suffice for size_t *)
Definition hexdigit (d : Z) : Z := if d <? 10 then 48 + d else 87 + d.
Fixpoint hex_digits (fuel : nat) (z : Z) : bytes :=
  match fuel with O => [] | S f => (if z <? 16 then [] else hex_digits f (z / 16)) ++ [hexdigit (z mod 16)] end.
Definition padded (w : Z) (l : bytes) : bytes := repeat 48 (Z.to_nat (w - zlen l)) ++ l.
Definition put_hex (w z : Z) : bytes := padded w (hex_digits 16 z).

(** std::isprint in the C locale *)
Definition isprint (c : Z) : bool := (32 <=? c) && (c <=? 126).

(** The hex column: for j = 0 .. bytes_per_row - 1 *)
Definition hex_cell (b : bytes) (n i : Z) (st : Z * bytes) : res ((Z * bytes) + unit) :=
  let '(j, out) := st in
  cell <- (if wrap64 (i + j) <? n then c <- rd b (wrap64 (i + j)) ;; Ok (put_hex 2 c ++ [32]) else Ok [32; 32; 32]) ;;
  Ok (inl (j + 1, out ++ cell ++ (if j =? 7 then [32] else []))).
(** The ASCII column: for j = 0 .. bytes_per_row - 1 while i + j < n *)
Definition ascii_cell (b : bytes) (n i : Z) (st : Z * bytes) : res ((Z * bytes) + bytes) :=
  let '(j, out) := st in
  if wrap64 (i + j) <? n then c <- rd b (wrap64 (i + j)) ;; Ok (inl (j + 1, out ++ [if isprint c then c else 46]))
  else Ok (inr out).
Definition dump_row (b : bytes) (n per_row i : Z) : res bytes :=
  x <- zloop per_row (hex_cell b n i) (0, []) ;;
  y <- zloop per_row (ascii_cell b n i) (0, []) ;;
  match x with
  | inl (_, hex) => Ok (put_hex 8 i ++ [32; 32] ++ hex ++ [32; 124] ++ match y with inl (_, a) => a | inr a => a end ++ [124; 10])
  | inr _ => UB
  end.
(** The outer loop, [for (std::size_t i = 0; i < n; i += bytes_per_row)] *)
Fixpoint dump_rows (fuel : nat) (b : bytes) (n per_row i : Z) (out : bytes) : res bytes :=
  if i <? n then
    match fuel with
    | O => NoFuel
    | S f => r <- dump_row b n per_row i ;; dump_rows f b n per_row (wrap64 (i + per_row)) (out ++ r)
    end
  else Ok out.
Definition hexdump (fuel : nat) (b : bytes) (per_row : Z) : res bytes :=
  if zlen b =? 0 then Ok [40; 101; 109; 112; 116; 121; 41; 10] else dump_rows fuel b (zlen b) per_row 0 [].
