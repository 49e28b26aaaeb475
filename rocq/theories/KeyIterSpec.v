(** KeyIterSpec.v -- what a client program may expect of key iterators: positions in the list of keys.

    This is the contract of a C++ forward range: begin, end, copies that advance independently (multi-pass), equality of positions, and
    string_views into the message.  [kexpect] gives the outputs of a program, or nothing if the program breaks the rules: using a variable
    that holds nothing, dereferencing or advancing the end, comparing iterators of different ranges, calling mapKeys() where it fails. *)

From Coq Require Import ZArith List Bool.
From Verif Require Import Base Spec KeyIterModel.
From Verif Require CborSpec.
Import ListNotations.

(** Rules a protocol may need in addition.  [need_view]: the view mapKeys() was called on outlives the iterators; [need_range]: the range object
    outlives them; [need_fresh]: a string_view is read before its iterator is dereferenced again, reassigned or destroyed. *)
Record rules : Type := mkRules { need_view : bool; need_range : bool; need_fresh : bool }.
Definition no_rules : rules := mkRules false false false.

Inductive rlife : Type := RNone | RLive (v : nat) | RDead (v : nat).
Definition range_of (l : rlife) : option nat := match l with RLive v => Some v | RDead v => Some v | RNone => None end.
Definition is_live (l : rlife) : bool := match l with RLive _ => true | _ => false end.

Record xstate : Type := mkXS {
  xs_alive : nat -> bool;                          (* views *)
  xs_ranges : nat -> rlife;
  xs_iters : nat -> option (nat * nat);            (* range and position *)
  xs_gen : nat -> nat;                             (* reassignments and dereferences of an iterator variable *)
  xs_saved : nat -> option (bytes * (nat * nat))   (* characters, iterator variable and its count *)
}.

Section Expect.
Variables (F : rules) (keysof : nat -> option (list bytes)).

Definition x_set (s : xstate) (i : nat) (o : option (nat * nat)) : xstate :=
  mkXS (xs_alive s) (xs_ranges s) (upd (xs_iters s) i o) (upd (xs_gen s) i (S (xs_gen s i))) (xs_saved s).
(** The keys an iterator of range [r] runs over. *)
Definition keys_at (s : xstate) (r : nat) : option (nat * list bytes) :=
  match range_of (xs_ranges s r) with
  | Some v => match keysof v with Some ks => Some (v, ks) | None => None end
  | None => None
  end.
(** The extra rules for touching an iterator of range [r] over view [v]. *)
Definition kept (s : xstate) (r v : nat) : bool :=
  implb (need_view F) (xs_alive s v) && implb (need_range F) (is_live (xs_ranges s r)).

Definition xstep (s : xstate) (c : kcmd) : option (xstate * list kout) :=
  match c with
  | CKeys r v =>
      match xs_ranges s r, keysof v with
      | RNone, Some _ => if xs_alive s v then Some (mkXS (xs_alive s) (upd (xs_ranges s) r (RLive v)) (xs_iters s) (xs_gen s) (xs_saved s), []) else None
      | _, _ => None
      end
  | CBegin i r => if is_live (xs_ranges s r) then Some (x_set s i (Some (r, 0%nat)), []) else None
  | CEnd i r =>
      match is_live (xs_ranges s r), keys_at s r with
      | true, Some (_, ks) => Some (x_set s i (Some (r, length ks)), [])
      | _, _ => None
      end
  | CCopy i j => match xs_iters s j with Some x => Some (x_set s i (Some x), []) | None => None end
  | CInc i =>
      match xs_iters s i with
      | Some (r, n) =>
          match keys_at s r with
          | Some (v, ks) => if Nat.ltb n (length ks) && kept s r v
              then Some (mkXS (xs_alive s) (xs_ranges s) (upd (xs_iters s) i (Some (r, S n))) (xs_gen s) (xs_saved s), []) else None
          | None => None
          end
      | None => None
      end
  | CDeref k i =>
      match xs_iters s i with
      | Some (r, n) =>
          match keys_at s r with
          | Some (v, ks) =>
              match nth_error ks n, kept s r v with
              | Some t, true =>
                  Some (mkXS (xs_alive s) (xs_ranges s) (xs_iters s) (upd (xs_gen s) i (S (xs_gen s i)))
                             (upd (xs_saved s) k (Some (t, (i, S (xs_gen s i))))), [])
              | _, _ => None
              end
          | None => None
          end
      | None => None
      end
  | CRead k =>
      match xs_saved s k with
      | Some (t, (i, g)) => if implb (need_fresh F) (Nat.eqb (xs_gen s i) g) then Some (s, [OKey t]) else None
      | None => None
      end
  | CEq i j =>
      match xs_iters s i, xs_iters s j with
      | Some (r, n), Some (r2, m) => if Nat.eqb r r2 then Some (s, [OBool (Nat.eqb n m)]) else None
      | _, _ => None
      end
  | CKillView v => Some (mkXS (upd (xs_alive s) v false) (xs_ranges s) (xs_iters s) (xs_gen s) (xs_saved s), [])
  | CKillRange r =>
      match xs_ranges s r with
      | RLive v => Some (mkXS (xs_alive s) (upd (xs_ranges s) r (RDead v)) (xs_iters s) (xs_gen s) (xs_saved s), [])
      | _ => None
      end
  | CKillIter i => Some (x_set s i None, [])
  end.
Fixpoint xrun (s : xstate) (p : list kcmd) : option (list kout) :=
  match p with
  | [] => Some []
  | c :: p' =>
      match xstep s c with
      | Some (s', o) => match xrun s' p' with Some os => Some (o ++ os) | None => None end
      | None => None
      end
  end.
Definition kexpect (p : list kcmd) : option (list kout) :=
  xrun (mkXS (fun v => match keysof v with Some _ => true | None => false end) (fun _ => RNone) (fun _ => None) (fun _ => 0%nat) (fun _ => None)) p.
End Expect.

(** The keys of the map at every view, as a range-for loop lists them. *)
Definition keys_by {V} (R : reader V) (views : nat -> option V) (v : nat) : option (list bytes) :=
  match views v with
  | Some w => match r_mapKeys R w with Ok ks => Some ks | _ => None end
  | None => None
  end.

(** A map of any form whose keys are text strings of definite length. *)
Definition text_keyed (it : CborSpec.item) : Prop :=
  match it with CborSpec.CMap _ l | CborSpec.CMapI l => Forall (fun kx : CborSpec.item * CborSpec.item => exists f s, fst kx = CborSpec.CText f s) l | _ => False end.
