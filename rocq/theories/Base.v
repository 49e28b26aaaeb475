(** Base.v -- outcomes, byte buffers, machine integers and counted loops.

    This file contains definitions only.  They are the vocabulary in which the
    C++ sources are transcribed. *)

From Coq Require Import ZArith List Bool Lia.
Import ListNotations.
Open Scope Z_scope.

(** ** Outcomes of a C++ call

    [Throw e] keeps the class of the exception, not its message.
    [UB] is a read outside the underlying buffer or a violated precondition
    of a standard library function.  [NoFuel] is a loop (or recursion) that did not
    finish within the given fuel; it is never an exception. *)
Inductive exn : Type :=
| EDeser        (* zerialize::DeserializationError *)
| ESer          (* zerialize::SerializationError *)
| ELogic        (* std::logic_error *)
| ERuntime      (* std::runtime_error *)
| EInvalidArg   (* std::invalid_argument *)
| ELength       (* std::length_error *)
| EOutOfRange   (* std::out_of_range *)
| EThirdParty   (* exception of a third-party encoder/decoder *)
| ETerminate    (* std::terminate *)
| EBadAlloc.    (* std::bad_alloc *)

Inductive res (A : Type) : Type :=
| Ok : A -> res A
| Throw : exn -> res A
| UB : res A
| NoFuel : res A.
Arguments Ok {A} _.
Arguments Throw {A} _.
Arguments UB {A}.
Arguments NoFuel {A}.

Definition bind {A B} (m : res A) (f : A -> res B) : res B :=
  match m with
  | Ok a => f a
  | Throw e => Throw e
  | UB => UB
  | NoFuel => NoFuel
  end.

Notation "x <- m ;; k" := (bind m (fun x => k))
  (at level 61, m at next level, right associativity).
Notation "' p <- m ;; k" := (bind m (fun x => match x with p => k end))
  (at level 61, p pattern, m at next level, right associativity).
Notation "m ;;; k" := (bind m (fun _ => k))
  (at level 61, right associativity).

(** [require c e]: throw [e] unless [c]. *)
Definition require (c : bool) (e : exn) : res unit :=
  if c then Ok tt else Throw e.

Definition rmap {A B} (f : A -> B) (m : res A) : res B := a <- m ;; Ok (f a).

(** ** Bytes and buffers *)
Notation bytes := (list Z).
Definition is_byte (z : Z) : Prop := 0 <= z < 256.
Definition bytes_ok (l : bytes) : Prop := Forall is_byte l.
Definition zlen {A} (l : list A) : Z := Z.of_nat (length l).

(** [get l i]: the byte at offset [i], if [i] is inside the buffer. *)
Definition get {A} (l : list A) (i : Z) : option A :=
  if (0 <=? i) && (i <? zlen l) then nth_error l (Z.to_nat i) else None.

(** Reading one byte through a raw pointer at offset [i]; outside is UB. *)
Definition rd (l : bytes) (i : Z) : res Z :=
  match get l i with Some b => Ok b | None => UB end.

Definition slice {A} (l : list A) (i n : Z) : list A :=
  firstn (Z.to_nat n) (skipn (Z.to_nat i) l).

(** A [string_view]/[span] into the buffer: (offset, length). *)
Notation view := (Z * Z)%type.
Definition view_in (l : bytes) (w : view) : Prop :=
  0 <= fst w /\ 0 <= snd w /\ fst w + snd w <= zlen l.

(** Copying out all bytes of a view (std::string(sv), memcpy); reading outside
    the buffer is UB. *)
Definition rd_view (l : bytes) (w : view) : res bytes :=
  if (0 <=? fst w) && (0 <=? snd w) && (fst w + snd w <=? zlen l)
  then Ok (slice l (fst w) (snd w)) else UB.

Fixpoint beq (a b : bytes) : bool :=
  match a, b with
  | [], [] => true
  | x :: a', y :: b' => (x =? y) && beq a' b'
  | _, _ => false
  end.

(** What strlen / c_str() consumers see of a string: up to the first NUL. *)
Fixpoint c_str (k : bytes) : bytes :=
  match k with [] => [] | x :: k' => if x =? 0 then [] else x :: c_str k' end.

(** ** Machine integers *)
Definition wrap8 (z : Z) : Z := z mod 2^8.
Definition wrap16 (z : Z) : Z := z mod 2^16.
Definition wrap32 (z : Z) : Z := z mod 2^32.
Definition wrap64 (z : Z) : Z := z mod 2^64.

(** static_cast to a signed n-bit type (two's complement, C++20). *)
Definition to_signed (n : Z) (z : Z) : Z :=
  let m := z mod 2^n in if m <? 2^(n-1) then m else m - 2^n.

Definition u8_max : Z := 255.
Definition u16_max : Z := 65535.
Definition u32_max : Z := 4294967295.
Definition u64_max : Z := 18446744073709551615.
Definition i64_max : Z := 9223372036854775807.
Definition i64_min : Z := -9223372036854775808.

Definition is_u64 (z : Z) : Prop := 0 <= z <= u64_max.
Definition is_i64 (z : Z) : Prop := i64_min <= z <= i64_max.

(** ** Counted loops

    [zloop n f s] runs the loop body [f] at most [n] times.  The body returns
    [inl s'] to go on, [inr r] to leave the loop with a result, or a non-[Ok]
    outcome.  Recursion is on the binary representation of [n] so that loops with a
    32 or 64 bit trip count need no unary counter and no fuel. *)
Fixpoint ploop {S R} (p : positive) (f : S -> res (S + R)) (s : S) : res (S + R) :=
  match p with
  | xH => f s
  | xO q =>
      x <- ploop q f s ;;
      match x with inl s' => ploop q f s' | inr r => Ok (inr r) end
  | xI q =>
      x <- f s ;;
      match x with
      | inl s1 =>
          y <- ploop q f s1 ;;
          match y with inl s2 => ploop q f s2 | inr r => Ok (inr r) end
      | inr r => Ok (inr r)
      end
  end.

Definition zloop {S R} (n : Z) (f : S -> res (S + R)) (s : S) : res (S + R) :=
  match n with Zpos p => ploop p f s | _ => Ok (inl s) end.

(** The same loop with a unary counter; used only in statements about [zloop]. *)
Fixpoint nloop {S R} (n : nat) (f : S -> res (S + R)) (s : S) : res (S + R) :=
  match n with
  | O => Ok (inl s)
  | Datatypes.S n' =>
      x <- f s ;;
      match x with inl s' => nloop n' f s' | inr r => Ok (inr r) end
  end.
