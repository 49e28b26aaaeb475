(** OwnSpec.v -- what the owner of a deserializer may count on, told from the history alone.

    [None]: the variable does not exist.  [Some (Some d)]: it holds a reader that was constructed from the bytes [d] as an
    owner, or that was moved (possibly many times) from one.  [Some None]: any other reader; no claim. *)

From Coq Require Import ZArith List Bool.
From Verif Require Import Base OwnModel.
Import ListNotations.
Open Scope Z_scope.

Definition claims : Type := nat -> option (option bytes).
Definition claims0 : claims := fun _ => None.

Definition track1 (c : class) (e : claims) (op : rop) : claims :=
  match op with
  | RNew n d _ => match e n with None => upd e n (Some (Some d)) | _ => e end
  | RView n d => match e n with
                 | None => upd e n (Some (match c with CVec => None | CJson => Some d end))
                 | _ => e
                 end
  | RFree _ => e
  | RSub n m _ _ => match e n, e m with None, Some _ => upd e n (Some None) | _, _ => e end
  | RCopy n m => match c, e n, e m with CVec, None, Some _ => upd e n (Some None) | _, _, _ => e end
  | RMove n m => match e n, e m with None, Some x => upd (upd e n (Some x)) m (Some None) | _, _ => e end
  | RCopyAssign n m =>
      match c, e n, e m with
      | CVec, Some _, Some _ => if Nat.eqb n m then e else upd e n (Some None)
      | _, _, _ => e
      end
  | RMoveAssign n m =>
      match e n, e m with
      | Some _, Some x =>
          if Nat.eqb n m then match c with CVec => upd e n (Some None) | CJson => e end
          else upd (upd e n (Some x)) m (Some None)
      | _, _ => e
      end
  | RDestroy n => upd e n None
  end.
Definition track (c : class) (h : list rop) : claims := fold_left (track1 c) h claims0.

(** A live object owns the block. *)
Definition owns (w : rworld) (n b : nat) : Prop := exists o l, objs w n = Some o /\ own o = Some (b, l).
(** The reader in [n] reads from the block. *)
Definition reads_from (w : rworld) (n b : nat) : Prop := exists o off l, objs w n = Some o /\ ref o = Some (b, off, l).
(** Memory of the caller that has not been freed. *)
Definition callers (w : rworld) (b : nat) (d : bytes) : Prop := heap w b = Some (true, d).
(** Memory of the library that has not been freed. *)
Definition allocated (w : rworld) (b : nat) : Prop := exists d, heap w b = Some (false, d).
