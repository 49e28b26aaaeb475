(** TensorStored.v -- the shape and element type of an accepted tensor are the ones in the message. *)

From Coq Require Import ZArith List Bool Lia ZifyBool ZifyNat.
From Verif Require Import Base BaseFacts Spec SpecFacts SaysSpec SaysFacts TensorModel TensorSpec TensorFacts TensorMain.
Import ListNotations.
Open Scope Z_scope.
Ltac Zify.zify_post_hook ::= idtac.

(** The number at a view, whichever accessor has it. *)
Definition holds_number {V} (R : reader V) (w : V) (d : Z) : Prop :=
  r_isUInt R w = Ok true /\ r_asUInt R I64 w = Ok d \/ r_isInt R w = Ok true /\ r_asInt R I64 w = Ok d.
(** The array at a view has exactly the numbers [shape]. *)
Definition holds_numbers {V} (R : reader V) (w : V) (shape : list Z) : Prop :=
  r_isArray R w = Ok true /\ r_arraySize R w = Ok (zlen shape) /\ forall i d, get shape i = Some d -> exists c, r_idx R w i = Ok c /\ holds_number R c d.
(** The message at [buf] has the number [k] where the index of the element type belongs, and the dimensions [shape]. *)
Definition describes {V} (R : reader V) (buf : V) (k : Z) (shape : list Z) : Prop :=
  exists w0 w1, r_idx R buf 0 = Ok w0 /\ r_asInt R I64 w0 = Ok k /\ r_idx R buf 1 = Ok w1 /\ holds_numbers R w1 shape.
(** asInt32 returns what asInt64 does, reduced to 32 bits; with range checks, it returns nothing else. *)
Definition reduces {V} (R : reader V) : Prop := forall w z, r_asInt R I32 w = Ok z -> exists k, r_asInt R I64 w = Ok k /\ to_signed 32 k = z.
Definition checks {V} (R : reader V) : Prop := forall w z, r_asInt R I32 w = Ok z -> r_asInt R I64 w = Ok z.

Section Stored.
Context {V : Type} (R : reader V).
Lemma dim_stored c d : typed R c -> read_dim R c = Ok d -> holds_number R c d.
Proof.
  intros (_ & TU & _) H. unfold read_dim in H. step H. destruct x.
  - step H. destruct (u32_max <? x) eqn:L; [discriminate H|]. injection H as <-. left. split; [exact E|]. specialize (TU x E0). rewrite E0. f_equal. unfold wrap32. rewrite Z.mod_small; [reflexivity|]. unfold is_u64, u32_max in *. lia.
  - step H. destruct x; [|discriminate H]. step H. destruct (x <? 0) eqn:N; [discriminate H|]. destruct (u32_max <? x) eqn:L; [discriminate H|]. injection H as <-. right. split; [exact E0|]. rewrite E1. f_equal. unfold wrap32. rewrite Z.mod_small; [reflexivity|]. unfold u32_max in *. lia.
Qed.
Lemma dims_stored w : forall k acc r, nloop k (read_dims R w) (zlen acc, acc) = Ok r ->
  exists l, r = inl (zlen acc + Z.of_nat k, acc ++ l) /\ List.length l = k /\ forall j d, get l j = Some d -> exists c, r_idx R w (zlen acc + j) = Ok c /\ read_dim R c = Ok d.
Proof.
  induction k as [|k IH]; intros acc r N; cbn [nloop] in N.
  - injection N as <-. exists []. rewrite app_nil_r. split; [do 2 f_equal; lia|]. split; [reflexivity|]. intros j d G. unfold get in G. change (zlen (@nil Z)) with 0 in G. replace ((0 <=? j) && (j <? 0)) with false in G by lia. discriminate G.
  - step N. unfold read_dims in E. step E. step E. injection E as <-.
    assert (ZA : zlen acc + 1 = zlen (acc ++ [x1])) by (rewrite zlen_app; reflexivity). rewrite ZA in N.
    destruct (IH _ _ N) as (l & -> & L & G). exists (x1 :: l). split; [rewrite <- ZA, <- app_assoc; cbn [app]; do 2 f_equal; lia|]. split; [cbn; lia|].
    intros j d GJ. assert (C : j = 0 \/ 0 < j) by (unfold get in GJ; destruct ((0 <=? j) && _) eqn:Q in GJ; [lia|discriminate GJ]). destruct C as [-> |J].
    + rewrite Z.add_0_r. exists x0. split; [exact E0|]. unfold get in GJ. replace ((0 <=? 0) && (0 <? zlen (x1 :: l))) with true in GJ by (rewrite zlen_cons; pose proof (zlen_nonneg l); lia). cbn in GJ. congruence.
    + assert (GJ' : get l (j - 1) = Some d).
      { unfold get in *. rewrite zlen_cons in GJ. destruct ((0 <=? j) && (j <? 1 + zlen l)) eqn:Q in GJ; [|discriminate GJ]. replace ((0 <=? j - 1) && (j - 1 <? zlen l)) with true by lia.
        replace (Z.to_nat j) with (S (Z.to_nat (j - 1))) in GJ by lia. exact GJ. }
      destruct (G _ _ GJ') as (c & EC & RD). exists c. split; [|exact RD]. rewrite <- EC, <- ZA. f_equal. lia.
Qed.
Lemma shape_stored w shape : well_typed R w -> tensor_shape R w = Ok shape -> holds_numbers R w shape.
Proof.
  intros T H. pose proof (T w (leads_here R w)) as TW. destruct TW as (_ & _ & _ & _ & _ & TN & _). unfold tensor_shape in H. step H. destruct x; [|discriminate H]. cbn [negb] in H. step H. rename x into n. specialize (TN n E0).
  destruct (2 ^ 61 - 1 <? n); [discriminate H|]. step H. rewrite zloop_nloop in E1. change 0 with (zlen (@nil Z)) in E1 at 1. destruct (dims_stored w _ _ _ E1) as (l & -> & L & G). injection H as <-. cbn [app].
  split; [exact E|]. split; [rewrite E0; f_equal; unfold zlen; lia|]. intros i d GI. destruct (G i d GI) as (c & EC & RD). change (zlen (@nil Z)) with 0 in EC. rewrite Z.add_0_l in EC. exists c. split; [exact EC|].
  apply dim_stored; [|exact RD]. exact (typed_idx R w i c T EC c (leads_here R c)).
Qed.
Definition narrow t (K : Z -> Prop) : Prop := forall x0 z, r_asInt R I32 x0 = Ok z -> exists k, r_asInt R I64 x0 = Ok k /\ (z = dtype_index t -> K k).
Lemma narrow_reduces t : reduces R -> narrow t (fun k => to_signed 32 k = dtype_index t).
Proof. intros N x0 z A. destruct (N x0 z A) as (k & E & Q). exists k. split; [exact E|]. intros <-. exact Q. Qed.
Lemma narrow_checks t : checks R -> narrow t (fun k => k = dtype_index t).
Proof. intros N x0 z A. exists z. split; [exact (N x0 z A)|]. intros Q. exact Q. Qed.
Lemma described buf x0 x2 t shape (K : Z -> Prop) : (forall z, r_asInt R I32 x0 = Ok z -> exists k, r_asInt R I64 x0 = Ok k /\ (z = dtype_index t -> K k)) ->
  r_idx R buf 0 = Ok x0 -> r_asInt R I32 x0 = Ok (dtype_index t) -> r_idx R buf 1 = Ok x2 -> holds_numbers R x2 shape -> exists k, describes R buf k shape /\ K k.
Proof. intros N I0 A I1 H. destruct (N _ A) as (k & Ek & Hk). exists k. split; [|exact (Hk eq_refl)]. exists x0, x2. auto. Qed.
Theorem view_described blob_at t D buf v (K : Z -> Prop) : narrow t K -> well_typed R buf -> as_xtensor_view R blob_at t D buf = Ok v -> exists k, describes R buf k (xv_shape v) /\ K k.
Proof.
  intros N T H. unfold as_xtensor_view in H. step H. destruct (negb x); [discriminate|]. step H. step H. destruct (x1 =? dtype_index t) eqn:DT; [|discriminate]. cbn [negb] in H. step H. step H.
  apply Z.eqb_eq in DT. rewrite DT in E1. pose proof (shape_stored x2 x3 (typed_idx R buf 1 x2 T E2) E3) as HN.
  destruct (match D with Some d => _ | None => _ end); [discriminate|]. step H. step H. step H. destruct (negb (zlen x5 =? _)); [discriminate|]. destruct (blob_at x4) as [sp addr].
  destruct (negb sp); [step H; injection H as <-; exact (described buf x0 x2 t _ K (N x0) E0 E1 E2 HN)|]. destruct (negb (addr mod _ =? 0)); [step H|]; injection H as <-; exact (described buf x0 x2 t _ K (N x0) E0 E1 E2 HN).
Qed.
Theorem array_described blob_at t D buf a (K : Z -> Prop) : narrow t K -> well_typed R buf -> as_xtensor R blob_at t D buf = Ok a -> exists k, describes R buf k (x_shape a) /\ K k.
Proof.
  intros N T H. unfold as_xtensor in H. step H. pose proof (view_described _ _ _ _ _ _ N T E) as DS. unfold xv_array in H. step H. injection H as <-. exact DS.
Qed.
Theorem eview_described blob_at t nr nc rm buf v (K : Z -> Prop) : narrow t K -> well_typed R buf -> as_eigen_view R blob_at t nr nc rm buf = Ok v -> exists k, describes R buf k [ev_rows v; ev_cols v] /\ K k.
Proof.
  intros N T H. unfold as_eigen_view in H. step H. destruct (negb x); [discriminate|]. step H. step H. destruct (x1 =? dtype_index t) eqn:DT; [|discriminate]. cbn [negb] in H. step H. step H.
  apply Z.eqb_eq in DT. rewrite DT in E1. pose proof (shape_stored x2 x3 (typed_idx R buf 1 x2 T E2) E3) as HN.
  destruct x3 as [|r [|c [|? ?]]]; try discriminate H. destruct (match nr with Some n => _ | None => _ end); [discriminate|]. destruct (match nc with Some n => _ | None => _ end); [discriminate|]. step H. step H. destruct (negb (zlen x4 =? _)); [discriminate|].
  destruct (blob_at x3) as [sp addr]. destruct (negb sp); [step H; injection H as <-; exact (described buf x0 x2 t _ K (N x0) E0 E1 E2 HN)|]. destruct (negb (addr mod _ =? 0)); [step H|]; injection H as <-; exact (described buf x0 x2 t _ K (N x0) E0 E1 E2 HN).
Qed.
Theorem matrix_described blob_at t nr nc rm buf a (K : Z -> Prop) : narrow t K -> well_typed R buf -> as_eigen R blob_at t nr nc rm buf = Ok a -> exists k, describes R buf k [m_rows a; m_cols a] /\ K k.
Proof.
  intros N T H. unfold as_eigen in H. step H. pose proof (eview_described _ _ _ _ _ _ _ _ N T E) as DS. unfold ev_matrix in H. step H. injection H as <-. exact DS.
Qed.
End Stored.
