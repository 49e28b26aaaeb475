(** Properties_Zbuf.v -- C45 to C49: ZBuffer ownership, contents, construction, copies, hexdump. *)

From Coq Require Import ZArith List Bool Lia.
From Verif Require Import Base BaseFacts SpecFacts ZbufModel ZbufSpec ZbufFacts.
Import ListNotations.
Open Scope Z_scope.

(** ** C45: each adopted pointer is released exactly once, and not while a buffer holds it

    For every history of constructions, moves, assignments and destructions, by a caller who passes a deleter with every
    pointer and does not hand over a pointer a buffer still holds: no step fails, and for each pointer either no buffer
    holds it and every adoption was followed by exactly one call of its own deleter, or exactly one buffer holds it and
    the last adoption has not been followed by any call. *)
Theorem C45_released_exactly_once : forall ops, Forall has_deleter ops -> polite world0 ops ->
  exists w, zrun world0 ops = Ok w /\ forall p,
    (forall n id, ~ holds w n p id) /\ released p (of_ptr p (trace w)) \/
    exists n id l, holds w n p id /\ (forall m id', holds w m p id' -> m = n) /\
                   of_ptr p (trace w) = l ++ [TAdopt p id] /\ released p l.
Proof. exact resources. Qed.
Print Assumptions C45_released_exactly_once.

(** Once every buffer is destroyed nothing is left to release. *)
Theorem C45_nothing_leaks : forall ops w, Forall has_deleter ops -> polite world0 ops -> zrun world0 ops = Ok w ->
  (forall n, slots w n = None) -> forall p, released p (of_ptr p (trace w)).
Proof.
  intros ops w HD P E S p. destruct (resources ops HD P) as (w' & E' & R). assert (w' = w) by congruence. subst w'.
  destruct (R p) as [[_ X]|(n & id & l & (d & c & H & _) & _)]; [exact X|]. rewrite S in H. discriminate.
Qed.
Print Assumptions C45_nothing_leaks.

Definition life : list zop :=
  [OPointer 0 KU8 (Some 7) 3 (Some 1); OMove 1 0; OVector 2 [9]; OAssign 2 1; OPointer 3 KOther (Some 8) 1 (Some 2); OAssign 3 2;
   OPointer 1 KU8 None 0 (Some 1); OAssign 3 3; ODestroy 0; ODestroy 1; ODestroy 3; OPointer 3 KU8 (Some 7) 2 (Some 4); ODestroy 2].
Example C45_case : Forall has_deleter life /\ polite world0 life /\
  exists w, zrun world0 life = Ok w /\ trace w = [TAdopt 7 1; TAdopt 8 2; TDelete 8 2; TDelete 7 1; TAdopt 7 4] /\ holds w 3 7 4.
Proof.
  split; [repeat constructor|]. split.
  - cbn [life polite]. repeat match goal with
    | |- _ /\ _ => split
    | |- forall w', zstep _ _ = Ok w' -> _ => intros w' E; vm_compute in E; injection E as <-
    | |- fresh _ _ => first [exact I|intros m id (d & c & E & K); vm_compute in E; repeat (destruct m as [|m]; try discriminate E); injection E as ? ?; discriminate]
    | |- True => exact I
    end.
  - eexists. split; [vm_compute; reflexivity|]. split; [reflexivity|]. exists (DUser 4), 2. split; [reflexivity|now left].
Qed.

(** ** C46: data() and size() stay consistent

    Full statement: at every point of every history, size() > 0 implies that data() is non-null and size() bytes can be
    read.  It fails for a buffer that adopted a pointer and was moved from: the pointer is gone, the count stays. *)
Definition stale : list zop := [OPointer 0 KU8 (Some 7) 3 (Some 1); OMove 1 0].
Theorem C46_moved_from_refuted : Forall has_deleter stale /\ Forall (honest (fun _ => [1; 2; 3])) stale /\ polite world0 stale /\
  exists w s, zrun world0 stale = Ok w /\ slots w 0%nat = Some s /\ z_size s = 3 /\ z_empty s = false /\ z_null s = true /\
              forall mem, z_buf mem s = UB.
Proof.
  split; [repeat constructor|]. split; [repeat constructor; vm_compute; congruence|]. split.
  - cbn [stale polite]. split; [intros m id (d & c & E & _); discriminate E|]. intros w' E. split; [exact I|]. intros w2 _. exact I.
  - eexists _, (SPtr None DEmpty 3). repeat split; reflexivity.
Qed.
Print Assumptions C46_moved_from_refuted.

(** For every history of a caller as in C45 whose sizes are those of the memory passed, and every variable: a buffer that
    was not moved from has exactly the bytes it was given ([crun]: directly, or through moves), all readable through
    data() and size(); a moved-from buffer can at least be copied. *)
Theorem C46_contents_partial : forall blk ops, Forall has_deleter ops -> Forall (honest blk) ops -> polite world0 ops ->
  exists w, zrun world0 ops = Ok w /\ forall n,
    match crun blk ops n with
    | None => slots w n = None
    | Some (Some b) => exists s, slots w n = Some s /\ z_buf (mem_of blk w) s = Ok b /\ z_copy (mem_of blk w) s = Ok b /\
                                 z_size s = zlen b /\ (z_null s = true -> b = [])
    | Some None => exists s b, slots w n = Some s /\ z_copy (mem_of blk w) s = Ok b
    end.
Proof. exact contents_kept. Qed.
Print Assumptions C46_contents_partial.
Example C46_case : let blk := fun p => if p =? 7 then [10; 11; 12] else [20; 21] in
  Forall (honest blk) life /\ crun blk life 3%nat = Some (Some [10; 11]) /\ crun blk life 1%nat = None /\
  crun blk (firstn 6 life) 3%nat = Some (Some [10; 11; 12]) /\ crun blk (firstn 6 life) 2%nat = Some None.
Proof. split; [repeat constructor; vm_compute; congruence|repeat split; reflexivity]. Qed.

(** ** C47: invalid constructions throw std::invalid_argument

    Full statement: a null pointer with a non-zero size, or an empty deleter, is rejected with invalid_argument, whatever
    the pointer type.  Proved for the first; for the second only with a null uint8_t*. *)
Theorem C47_null_pointer_partial : forall k size del, 0 < size -> construct k None size del = Throw EInvalidArg.
Proof. intros k size del H. unfold construct. assert (E : (0 <? size) = true) by (apply Z.ltb_lt; exact H). rewrite E. reflexivity. Qed.
Print Assumptions C47_null_pointer_partial.
Theorem C47_null_no_deleter_partial : forall size, construct KU8 None size None = Throw EInvalidArg.
Proof. intros size. unfold construct. destruct (0 <? size); reflexivity. Qed.
Print Assumptions C47_null_no_deleter_partial.
(** And a valid construction is never rejected. *)
Theorem C47_valid_accepted : forall k ptr size id, 0 <= size -> (ptr = None -> size = 0) ->
  exists s ev, construct k ptr size (Some id) = Ok (s, ev) /\ z_size s = size /\ z_null s = is_null ptr.
Proof.
  intros k ptr size id H N. unfold construct. destruct ptr as [p|].
  - rewrite andb_false_r. destruct k; cbn [mk_deleter]; eauto.
  - rewrite (N eq_refl). destruct k; cbn [mk_deleter]; cbn; eauto.
Qed.
Print Assumptions C47_valid_accepted.
Example C47_case : construct KOther None 5 (Some 1) = Throw EInvalidArg /\
  construct KU8 (Some 7) 5 (Some 1) = Ok (SPtr (Some 7) (DUser 1) 5, [TAdopt 7 1]).
Proof. split; reflexivity. Qed.
(** A non-null uint8_t* with an empty deleter: unwinding destroys the unique_ptr, which calls the empty deleter in a noexcept
    destructor, and the program terminates. *)
Theorem C47_empty_deleter_refuted : exists size p, construct KU8 (Some p) size None = Throw ETerminate.
Proof. exists 3, 7. reflexivity. Qed.
Print Assumptions C47_empty_deleter_refuted.
(** A char* or void* with an empty deleter is accepted: the wrapping lambda is never empty.  Destroying it terminates. *)
Theorem C47_wrapped_deleter_refuted : exists ops w, ops = [OPointer 0 KOther (Some 7) 3 None] /\ zrun world0 ops = Ok w /\
  slots w 0%nat <> None /\ zrun world0 (ops ++ [ODestroy 0]) = Throw ETerminate.
Proof. eexists _, _. split; [reflexivity|]. repeat split; try reflexivity. discriminate. Qed.
Print Assumptions C47_wrapped_deleter_refuted.

(** ** C48: copies are the buffer's bytes; empty() iff size() is 0 *)
Theorem C48_copies_faithful : forall mem s b, z_buf mem s = Ok b -> z_copy mem s = Ok b.
Proof.
  intros mem s b. unfold z_buf, z_copy. destruct (z_size s =? 0) eqn:Z0.
  - unfold z_read at 1. rewrite Z0. replace (0 <? z_size s) with false by lia. now rewrite andb_false_r.
  - destruct (z_null s) eqn:N.
    + unfold z_read. rewrite Z0. destruct s as [v|[p|] d c]; cbn [z_null z_size] in *; try discriminate. congruence.
    + destruct (0 <? z_size s) eqn:P; [cbn; auto|]. unfold z_read. rewrite Z0. destruct s as [v|[p|] d c]; cbn [z_size] in *; try discriminate.
      * pose proof (zlen_nonneg v). lia.
      * assert (Z.to_nat c = O) by lia. rewrite H. cbn [firstn negb andb]. intros E. destruct (mem p) as [m|]; [|discriminate]. destruct (c <=? zlen m); congruence.
Qed.
Print Assumptions C48_copies_faithful.
(** Copying never reads through a null pointer. *)
Theorem C48_copy_of_null : forall mem s, z_null s = true -> z_copy mem s = Ok [].
Proof. intros mem s N. unfold z_copy. now rewrite N. Qed.
Print Assumptions C48_copy_of_null.
Theorem C48_empty_iff : forall mem s b, z_buf mem s = Ok b -> 0 <= z_size s -> (z_empty s = true <-> b = []) /\ zlen b = z_size s.
Proof.
  intros mem s b E S. assert (L : zlen b = z_size s).
  { unfold z_buf, z_read in E. destruct (z_size s =? 0) eqn:Z0; [injection E as <-; rewrite zlen_nil; lia|]. destruct s as [v|[p|] d c]; cbn [z_size] in *; try discriminate.
    - destruct (zlen v <=? zlen v) eqn:V; [|discriminate]. injection E as <-. unfold zlen. rewrite firstn_length. unfold zlen. lia.
    - destruct (mem p) as [m|]; [|discriminate]. destruct (c <=? zlen m) eqn:C; [|discriminate]. injection E as <-. unfold zlen in *. rewrite firstn_length. lia. }
  split; [|exact L]. unfold z_empty. rewrite <- L. split; intros H.
  - apply zlen_0. lia.
  - subst b. reflexivity.
Qed.
Print Assumptions C48_empty_iff.
Example C48_case : let mem := fun p => if p =? 7 then Some [1; 2; 3; 4] else None in
  z_buf mem (SPtr (Some 7) (DUser 1) 3) = Ok [1; 2; 3] /\ z_copy mem (SPtr (Some 7) (DUser 1) 3) = Ok [1; 2; 3] /\ z_copy mem (SVec [5; 0]) = Ok [5; 0].
Proof. repeat split; reflexivity. Qed.

(** ** C49: hexdump

    Full statement: for every row width.  Proved for every non-zero width: the text is ceil(size/width) rows, and row k
    shows offset k*width and the bytes there, in hexadecimal and as characters.  Width 0 never terminates. *)
Theorem C49_hexdump_rows_partial : forall b w fuel, bytes_ok b -> b <> [] -> zlen b < 2 ^ 63 -> 0 < w < 2 ^ 64 ->
  zlen b <= w * Z.of_nat fuel -> exists rows, hexdump fuel b w = Ok (concat rows) /\
  zlen rows = (zlen b + w - 1) / w /\
  forall k r, nth_error rows k = Some r -> row_text (Z.to_nat w) (Z.of_nat k * w) (firstn (Z.to_nat w) (skipn (k * Z.to_nat w) b)) r.
Proof. exact hexdump_rows. Qed.
Print Assumptions C49_hexdump_rows_partial.
Theorem C49_hexdump_empty : forall w fuel, hexdump fuel [] w = Ok [40; 101; 109; 112; 116; 121; 41; 10].
Proof. reflexivity. Qed.
Print Assumptions C49_hexdump_empty.
Example C49_case : hexdump 1 [72; 105; 0; 255] 10 = Ok
  ([48;48;48;48;48;48;48;48] ++ [32;32] ++ [52;56;32;54;57;32;48;48;32;102;102;32] ++ repeat 32 12 ++ [32] ++ repeat 32 6 ++ [32;124;72;105;46;46;124;10]).
Proof. vm_compute. reflexivity. Qed.
Theorem C49_width_0_refuted : forall b, b <> [] -> forall fuel, hexdump fuel b 0 = NoFuel.
Proof. exact hexdump_width_0. Qed.
Print Assumptions C49_width_0_refuted.
