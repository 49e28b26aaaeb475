(** TensorBoth.v -- the xtensor and the Eigen reader on the same message. *)

From Coq Require Import ZArith List Bool Lia ZifyBool ZifyNat.
From Verif Require Import Base BaseFacts Spec SpecFacts TensorModel TensorSpec TensorFacts.
Import ListNotations.
Open Scope Z_scope.
Ltac Zify.zify_post_hook ::= idtac.

(** Two calls with the same outcome: results related by [P], or the same exception. *)
Definition agree {A B} (P : A -> B -> Prop) (x : res A) (y : res B) : Prop :=
  match x, y with
  | Ok a, Ok b => P a b
  | Throw e, Throw e' => e = e'
  | UB, UB | NoFuel, NoFuel => True
  | _, _ => False
  end.
(** The same dimensions and bytes; the same elements if the matrix is row-major or a single row or column; if it is
    column-major, the element in the tensor's place [i * cols + j] is in the matrix's place [c * rows + r]. *)
Definition same_elements (a : xtensor) (m : matrix) : Prop :=
  x_type a = m_type m /\ x_shape a = [m_rows m; m_cols m] /\ x_mem a = m_mem m /\
  (m_rowmajor m = true \/ m_rows m = 1 \/ m_cols m = 1 -> forall r c, 0 <= r < m_rows m -> 0 <= c < m_cols m -> x_elem a [r; c] = m_elem m r c) /\
  (m_rowmajor m = false -> forall i j r c, 0 <= i < m_rows m -> 0 <= j < m_cols m -> 0 <= r < m_rows m -> 0 <= c < m_cols m ->
     i * m_cols m + j = c * m_rows m + r -> x_elem a [i; j] = m_elem m r c).

Lemma agree_bind {A B C D} (P : A -> B -> Prop) (Q : C -> D -> Prop) x y f g : agree P x y -> (forall a b, P a b -> agree Q (f a) (g b)) -> agree Q (bind x f) (bind y g).
Proof. destruct x, y; cbn; auto; try contradiction. Qed.
Lemma agree_same {A C D} (Q : C -> D -> Prop) (x : res A) f g : (forall a, x = Ok a -> agree Q (f a) (g a)) -> agree Q (bind x f) (bind x g).
Proof. destruct x; cbn; auto. Qed.

Lemma flat_index rows cols r c : 0 <= r < rows -> 0 <= c < cols -> dot [r; c] (row_major [rows; cols]) = r * cols + c.
Proof.
  intros R C. cbn [row_major prod fold_right dot].
  destruct (rows =? 1) eqn:E1, (cols =? 1) eqn:E2; try (assert (r = 0) by lia); try (assert (c = 0) by lia); subst; ring.
Qed.
Lemma elements_agree t rows cols rm mem : same_elements (mkX t [rows; cols] (row_major [rows; cols]) 0 mem) (mkM t rows cols rm mem).
Proof.
  split; [reflexivity|]. split; [reflexivity|]. split; [reflexivity|]. cbn [m_rowmajor m_rows m_cols].
  split.
  - intros H r c R C. unfold x_elem, m_elem. cbn [x_mem x_type x_offset x_strides m_mem m_type m_rowmajor m_cols m_rows]. rewrite (flat_index rows cols r c R C). f_equal. destruct rm; [ring|].
    destruct H as [H|[H|H]]; [discriminate| |]; subst; [assert (r = 0) by lia|assert (c = 0) by lia]; subst; ring.
  - intros -> i j r c I J R C E. unfold x_elem, m_elem. cbn [x_mem x_type x_offset x_strides m_mem m_type m_rowmajor m_cols m_rows]. rewrite (flat_index rows cols i j I J). f_equal. lia.
Qed.
Lemma count_two rows cols : dims_ok [rows; cols] -> checked_element_count [rows; cols] = Ok (rows * cols) /\ 0 <= rows * cols < 2 ^ 64.
Proof.
  intros D. inversion D as [|? ? R D2]; subst. inversion D2 as [|? ? C _]; subst. assert (B : 0 <= rows * cols < 2 ^ 64) by nia. split; [|exact B].
  rewrite count_small; [cbn [prod fold_right]; f_equal; ring|exact D|]. cbn [filter prod fold_right]. destruct (rows =? 0), (cols =? 0); cbn [negb prod fold_right]; lia.
Qed.

Definition views_agree rm (x : xview) (y : eview) : Prop :=
  same_elements (xv_tensor x) (ev_map y) /\ xv_info x = ev_info y /\ xv_owned x = ev_owned y /\ xv_bytes x = ev_bytes y /\ dims_ok (xv_shape x) /\ ev_rowmajor y = rm.
Theorem views_same {V} (R : reader V) blob_at t rm buf : agree (views_agree rm) (as_xtensor_view R blob_at t (Some 2) buf) (as_eigen_view R blob_at t None None rm buf).
Proof.
  unfold as_xtensor_view, as_eigen_view. apply agree_same. intros ok _. destruct (negb ok); [reflexivity|]. apply agree_same. intros w0 _. apply agree_same. intros k _. destruct (negb (k =? dtype_index t)); [reflexivity|].
  apply agree_same. intros w1 _. apply agree_same. intros shape ES. pose proof (shape_range R w1 shape ES) as DS.
  destruct shape as [|rows [|cols [|? l]]]; [reflexivity|reflexivity| |replace (zlen (rows :: cols :: z :: l) =? 2) with false by (rewrite !zlen_cons; pose proof (zlen_nonneg l); lia); reflexivity].
  change (negb (zlen [rows; cols] =? 2)) with false. cbv iota. apply agree_same. intros w2 _. apply agree_same. intros data _. destruct (count_two rows cols DS) as [-> CB]. cbn [bind].
  assert (WR : wrap64 (rows * cols) = rows * cols) by (unfold wrap64; apply Z.mod_small; exact CB). rewrite WR.
  destruct (negb (zlen data =? _)); [reflexivity|]. destruct (blob_at w2) as [sp addr]. unfold make_array, make_matrix, x_size, both_fixed. replace (prod [rows; cols]) with (rows * cols) by (cbn [prod fold_right]; ring). rewrite WR.
  destruct sp; cbn [negb]; [destruct (negb (addr mod elt_align t =? 0))|];
    [apply agree_same; intros out _|cbn [agree]|apply agree_same; intros out _]; (split; [apply (elements_agree t rows cols rm)|]); (split; [reflexivity|]); (split; [reflexivity|]); (split; [reflexivity|]); (split; [exact DS|reflexivity]).
Qed.
Theorem owned_same {V} (R : reader V) blob_at t rm buf : agree (fun a m => same_elements a m /\ m_rowmajor m = rm) (as_xtensor R blob_at t (Some 2) buf) (as_eigen R blob_at t None None rm buf).
Proof.
  unfold as_xtensor, as_eigen. apply (agree_bind (views_agree rm)); [apply views_same|]. intros [xt xi xo xb xs xc] [et er ei eo eb rows cols] (SE & I & O & B & DS & RM). cbn [xv_owned ev_owned xv_bytes ev_bytes xv_shape ev_rowmajor] in *.
  destruct SE as (T & S & _). cbn [xv_tensor xv_type xv_shape x_type x_shape ev_map m_type m_rows m_cols ev_type ev_rows ev_cols] in T, S. subst et xs eo eb er.
  unfold xv_array, ev_matrix. cbn [xv_owned ev_owned xv_bytes ev_bytes xv_shape xv_type ev_type ev_rows ev_cols ev_rowmajor].
  destruct (count_two rows cols DS) as [_ CB]. assert (WR : wrap64 (rows * cols) = rows * cols) by (unfold wrap64; apply Z.mod_small; exact CB).
  unfold make_array, make_matrix, x_size, both_fixed. replace (prod [rows; cols]) with (rows * cols) by (cbn [prod fold_right]; ring). rewrite WR. destruct xo; cbn [bind].
  - split; [apply elements_agree|reflexivity].
  - apply agree_same. intros mem _. split; [apply elements_agree|reflexivity].
Qed.

(** ** Matrices of fixed size *)
Definition size_fits (n : option Z) (k : Z) : bool := match n with Some m => k =? m | None => true end.
Lemma make_fixed nr nc rows cols sz src out : make_matrix false rows cols sz src = Ok out -> make_matrix (both_fixed nr nc) rows cols sz src = Ok out.
Proof.
  destruct (both_fixed nr nc); [|auto]. unfold make_matrix, copy_into. destruct (2 ^ 63 <=? rows * cols * sz); [discriminate|auto].
Qed.
Lemma fixed_view {V} (R : reader V) blob_at t nr nc rm buf v : as_eigen_view R blob_at t None None rm buf = Ok v ->
  as_eigen_view R blob_at t nr nc rm buf = if size_fits nr (ev_rows v) && size_fits nc (ev_cols v) then Ok v else Throw EDeser.
Proof.
  unfold as_eigen_view. destruct (is_tensor R t buf) as [[|]| | |]; cbn [bind negb]; try discriminate.
  destruct (r_idx R buf 0) as [w0| | |]; cbn [bind]; try discriminate. destruct (r_asInt R I32 w0) as [k| | |]; cbn [bind]; try discriminate.
  destruct (negb (k =? dtype_index t)); [discriminate|]. destruct (r_idx R buf 1) as [w1| | |]; cbn [bind]; try discriminate. destruct (tensor_shape R w1) as [sh| | |]; cbn [bind]; try discriminate.
  destruct sh as [|rows [|cols [|? ?]]]; try discriminate. intros H.
  assert (S : ev_rows v = rows /\ ev_cols v = cols).
  { revert H. destruct (r_idx R buf 2) as [w2| | |]; cbn [bind]; try discriminate. destruct (r_asBlob R w2) as [d| | |]; cbn [bind]; try discriminate. destruct (negb (zlen d =? _)); [discriminate|]. destruct (blob_at w2) as [sp ad].
    destruct sp; cbn [negb]; [destruct (negb (ad mod elt_align t =? 0))|]; try (destruct (make_matrix _ _ _ _ _); cbn [bind]; try discriminate); intros [= <-]; auto. }
  destruct S as [-> ->]. destruct (size_fits nr rows) eqn:FR; cbn [andb].
  2:{ destruct nr as [n|]; [|discriminate FR]. cbn [size_fits] in FR. now rewrite FR. }
  assert (NR : match nr with Some n => negb (rows =? n) | None => false end = false) by (destruct nr; [cbn [size_fits] in FR; now rewrite FR|reflexivity]). rewrite NR.
  destruct (size_fits nc cols) eqn:FC.
  2:{ destruct nc as [n|]; [|discriminate FC]. cbn [size_fits] in FC. now rewrite FC. }
  assert (NC : match nc with Some n => negb (cols =? n) | None => false end = false) by (destruct nc; [cbn [size_fits] in FC; now rewrite FC|reflexivity]). rewrite NC.
  revert H. destruct (r_idx R buf 2) as [w2| | |]; cbn [bind]; try discriminate. destruct (r_asBlob R w2) as [d| | |]; cbn [bind]; try discriminate. destruct (negb (zlen d =? _)); [discriminate|]. destruct (blob_at w2) as [sp ad].
  destruct sp; cbn [negb]; [destruct (negb (ad mod elt_align t =? 0))|]; [|auto|];
    (destruct (make_matrix (both_fixed None None) rows cols (elt_size t) d) as [out| | |] eqn:MM; cbn [bind]; try discriminate; rewrite (make_fixed nr nc _ _ _ _ _ MM); auto).
Qed.
Lemma fixed_owned {V} (R : reader V) blob_at t nr nc rm buf m : as_eigen R blob_at t None None rm buf = Ok m ->
  as_eigen R blob_at t nr nc rm buf = if size_fits nr (m_rows m) && size_fits nc (m_cols m) then Ok m else Throw EDeser.
Proof.
  unfold as_eigen. destruct (as_eigen_view R blob_at t None None rm buf) as [v| | |] eqn:E; cbn [bind]; try discriminate. rewrite (fixed_view R blob_at t nr nc rm buf v E).
  unfold ev_matrix. intros H. assert (S : m_rows m = ev_rows v /\ m_cols m = ev_cols v).
  { revert H. destruct (ev_owned v); [|destruct (make_matrix _ _ _ _ _)]; cbn [bind]; try discriminate; intros [= <-]; auto. }
  destruct S as [-> ->]. destruct (size_fits nr (ev_rows v) && size_fits nc (ev_cols v)); cbn [bind]; [|reflexivity]. revert H. destruct (ev_owned v); [auto|].
  destruct (make_matrix (both_fixed None None) _ _ _ _) as [out| | |] eqn:MM; cbn [bind]; try discriminate. now rewrite (make_fixed nr nc _ _ _ _ _ MM).
Qed.
Theorem fixed_same {V} (R : reader V) blob_at t nr nc rm buf a : as_xtensor R blob_at t (Some 2) buf = Ok a ->
  exists rows cols, x_shape a = [rows; cols] /\
  if size_fits nr rows && size_fits nc cols then exists m, as_eigen R blob_at t nr nc rm buf = Ok m /\ same_elements a m /\ m_rowmajor m = rm
  else as_eigen R blob_at t nr nc rm buf = Throw EDeser.
Proof.
  intros E. pose proof (owned_same R blob_at t rm buf) as A. rewrite E in A. destruct (as_eigen R blob_at t None None rm buf) as [m| | |] eqn:EM; try contradiction. cbn [agree] in A. destruct A as [A RM].
  exists (m_rows m), (m_cols m). split; [apply A|]. rewrite (fixed_owned R blob_at t nr nc rm buf m EM). destruct (_ && _); eauto.
Qed.
Lemma make_unfixed nr nc rows cols sz src out : make_matrix (both_fixed nr nc) rows cols sz src = Ok out ->
  make_matrix false rows cols sz src = Ok out \/ make_matrix false rows cols sz src = Throw EBadAlloc.
Proof.
  destruct (both_fixed nr nc); [|auto]. unfold make_matrix, copy_into. destruct (2 ^ 63 <=? rows * cols * sz); auto.
Qed.
Lemma fixed_view_back {V} (R : reader V) blob_at t nr nc rm buf v : as_eigen_view R blob_at t nr nc rm buf = Ok v ->
  size_fits nr (ev_rows v) = true /\ size_fits nc (ev_cols v) = true /\
  (as_eigen_view R blob_at t None None rm buf = Ok v \/ as_eigen_view R blob_at t None None rm buf = Throw EBadAlloc).
Proof.
  unfold as_eigen_view. destruct (is_tensor R t buf) as [[|]| | |]; cbn [bind negb]; try discriminate.
  destruct (r_idx R buf 0) as [w0| | |]; cbn [bind]; try discriminate. destruct (r_asInt R I32 w0) as [k| | |]; cbn [bind]; try discriminate.
  destruct (negb (k =? dtype_index t)); [discriminate|]. destruct (r_idx R buf 1) as [w1| | |]; cbn [bind]; try discriminate. destruct (tensor_shape R w1) as [sh| | |]; cbn [bind]; try discriminate.
  destruct sh as [|rows [|cols [|? ?]]]; try discriminate.
  destruct (match nr with Some n => negb (rows =? n) | None => false end) eqn:NR; [discriminate|]. destruct (match nc with Some n => negb (cols =? n) | None => false end) eqn:NC; [discriminate|].
  assert (FR : size_fits nr rows = true) by (destruct nr; [cbn [size_fits]; now apply negb_false_iff in NR|reflexivity]). assert (FC : size_fits nc cols = true) by (destruct nc; [cbn [size_fits]; now apply negb_false_iff in NC|reflexivity]).
  destruct (r_idx R buf 2) as [w2| | |]; cbn [bind]; try discriminate. destruct (r_asBlob R w2) as [d| | |]; cbn [bind]; try discriminate. destruct (negb (zlen d =? _)); [discriminate|]. destruct (blob_at w2) as [sp ad].
  destruct sp; cbn [negb]; [destruct (negb (ad mod elt_align t =? 0))|]; [|intros [= <-]; auto|];
    (destruct (make_matrix (both_fixed nr nc) rows cols (elt_size t) d) as [out| | |] eqn:MM; cbn [bind]; try discriminate; intros [= <-]; cbn [ev_rows ev_cols]; split; [exact FR|]; split; [exact FC|];
     change (both_fixed None None) with false; destruct (make_unfixed nr nc _ _ _ _ _ MM) as [-> | ->]; cbn [bind]; auto).
Qed.
Theorem fixed_back {V} (R : reader V) blob_at t nr nc rm buf m : as_eigen R blob_at t nr nc rm buf = Ok m ->
  size_fits nr (m_rows m) = true /\ size_fits nc (m_cols m) = true /\ m_rowmajor m = rm /\
  ((exists a, as_xtensor R blob_at t (Some 2) buf = Ok a /\ same_elements a m) \/ as_xtensor R blob_at t (Some 2) buf = Throw EBadAlloc).
Proof.
  intros E. assert (H : size_fits nr (m_rows m) = true /\ size_fits nc (m_cols m) = true /\ (as_eigen R blob_at t None None rm buf = Ok m \/ as_eigen R blob_at t None None rm buf = Throw EBadAlloc) /\ m_rowmajor m = rm).
  { unfold as_eigen in *. pose proof (views_same R blob_at t rm buf) as A. destruct (as_eigen_view R blob_at t nr nc rm buf) as [v| | |] eqn:EV; cbn [bind] in E; try discriminate.
    assert (RM : ev_rowmajor v = rm).
    { clear E A. revert EV. unfold as_eigen_view. destruct (is_tensor R t buf) as [[|]| | |]; cbn [bind negb]; try discriminate. destruct (r_idx R buf 0) as [w0| | |]; cbn [bind]; try discriminate. destruct (r_asInt R I32 w0) as [k| | |]; cbn [bind]; try discriminate. destruct (negb (k =? dtype_index t)); [discriminate|].
      destruct (r_idx R buf 1) as [w1| | |]; cbn [bind]; try discriminate. destruct (tensor_shape R w1) as [sh| | |]; cbn [bind]; try discriminate. destruct sh as [|rows [|cols [|? ?]]]; try discriminate.
      destruct (match nr with Some n => negb (rows =? n) | None => false end); [discriminate|]. destruct (match nc with Some n => negb (cols =? n) | None => false end); [discriminate|].
      destruct (r_idx R buf 2) as [w2| | |]; cbn [bind]; try discriminate. destruct (r_asBlob R w2) as [d| | |]; cbn [bind]; try discriminate. destruct (negb (zlen d =? _)); [discriminate|]. destruct (blob_at w2) as [sp ad].
      destruct sp; cbn [negb]; [destruct (negb (ad mod elt_align t =? 0))|]; try (destruct (make_matrix _ _ _ _ _); cbn [bind]; try discriminate); intros [= <-]; reflexivity. }
    destruct (fixed_view_back R blob_at t nr nc rm buf v EV) as (FR & FC & D). clear A.
    assert (S : m_rows m = ev_rows v /\ m_cols m = ev_cols v /\ m_rowmajor m = ev_rowmajor v).
    { revert E. unfold ev_matrix. destruct (ev_owned v); [|destruct (make_matrix _ _ _ _ _)]; cbn [bind]; try discriminate; intros [= <-]; auto. }
    destruct S as (-> & -> & ->). split; [exact FR|]. split; [exact FC|]. split; [|exact RM]. destruct D as [-> | ->]; cbn [bind]; [|auto]. revert E. unfold ev_matrix. destruct (ev_owned v); [auto|].
    destruct (make_matrix (both_fixed nr nc) _ _ _ _) as [out| | |] eqn:MM; cbn [bind]; try discriminate. change (both_fixed None None) with false. destruct (make_unfixed nr nc _ _ _ _ _ MM) as [-> | ->]; cbn [bind]; auto. }
  destruct H as (FR & FC & D & RM). split; [exact FR|]. split; [exact FC|]. split; [exact RM|]. pose proof (owned_same R blob_at t rm buf) as A.
  destruct D as [D|D]; rewrite D in A; destruct (as_xtensor R blob_at t (Some 2) buf) as [a|e| |]; cbn [agree] in A; try contradiction.
  - left. exists a. split; [reflexivity|apply A].
  - right. now subst e.
Qed.
Theorem fixed_views {V} (R : reader V) blob_at t nr nc rm buf x : as_xtensor_view R blob_at t (Some 2) buf = Ok x ->
  exists rows cols, xv_shape x = [rows; cols] /\
  if size_fits nr rows && size_fits nc cols then exists y, as_eigen_view R blob_at t nr nc rm buf = Ok y /\ same_elements (xv_tensor x) (ev_map y) /\ xv_info x = ev_info y
  else as_eigen_view R blob_at t nr nc rm buf = Throw EDeser.
Proof.
  intros E. pose proof (views_same R blob_at t rm buf) as A. rewrite E in A. destruct (as_eigen_view R blob_at t None None rm buf) as [y| | |] eqn:EY; try contradiction. cbn [agree] in A. destruct A as (SE & I & _).
  exists (ev_rows y), (ev_cols y). split; [apply SE|]. rewrite (fixed_view R blob_at t nr nc rm buf y EY). destruct (_ && _); eauto.
Qed.
