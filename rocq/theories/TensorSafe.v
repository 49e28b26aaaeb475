(** TensorSafe.v -- reading tensors from arbitrary messages. *)

From Coq Require Import ZArith List Bool Lia ZifyBool ZifyNat.
From Verif Require Import Base BaseFacts Spec SpecFacts TensorModel TensorSpec TensorFacts TensorMain.
From Verif Require B64Model B64Spec B64Facts JsonModel ZeraModel ZeraHist MsgModel MsgSpec MsgSafe CborModel CborSpec CborSafe.
Import ListNotations.
Open Scope Z_scope.

Lemma orderly_safe {A} (r : res A) : safe any r -> orderly r.
Proof. destruct r as [a|[]| |]; cbn; auto. Qed.
Lemma orderly_bind {A B} (m : res A) (k : A -> res B) : orderly m -> (forall a, m = Ok a -> orderly (k a)) -> orderly (bind m k).
Proof. destruct m as [a|[]| |]; cbn; auto. Qed.
Lemma safe_bind_any {A B} (m : res A) (k : A -> res B) : safe any m -> (forall a, m = Ok a -> safe any (k a)) -> safe any (bind m k).
Proof. destruct m as [a|[]| |]; cbn; auto. Qed.

Section Steady.
Context {V : Type} (R : reader V).
Lemma steady_idx w i w' : steady R w -> 0 <= i < 2 ^ 64 -> r_idx R w i = Ok w' -> steady R w'.
Proof.
  intros H I E w2 RE. apply H. induction RE as [|w1 j w2 RE IH J E'|w1 k w2 RE IH K E'].
  - eapply reach_idx; [apply reach_here|exact I|exact E].
  - eapply reach_idx; eassumption.
  - eapply reach_key; eassumption.
Qed.
Lemma steady_here w : steady R w -> safe any (r_isArray R w) /\ safe any (r_arraySize R w) /\ (forall i, 0 <= i < 2 ^ 64 -> safe any (r_idx R w i)) /\
  safe any (r_isInt R w) /\ (forall iw, safe any (r_asInt R iw w)) /\ safe any (r_isUInt R w) /\ (forall iw, safe any (r_asUInt R iw w)) /\ safe any (r_isBlob R w) /\ safe any (r_asBlob R w).
Proof. intros H. apply H, reach_here. Qed.

Lemma dim_safe w : steady R w -> safe any (read_dim R w).
Proof.
  intros H. destruct (steady_here w H) as (_ & _ & _ & I & AI & U & AU & _). unfold read_dim. apply safe_bind_any; [exact U|]. intros u _. destruct u.
  - apply safe_bind_any; [apply AU|]. intros v _. destruct (u32_max <? v); exact Logic.I.
  - apply safe_bind_any; [exact I|]. intros i _. destruct i; [|exact Logic.I]. apply safe_bind_any; [apply AI|]. intros v _. destruct (v <? 0); [exact Logic.I|]. destruct (u32_max <? v); exact Logic.I.
Qed.
Lemma dims_safe d : steady R d -> forall n i acc, 0 <= i -> i + Z.of_nat n < 2 ^ 64 ->
  match nloop n (read_dims R d) (i, acc) with Ok (inl _) | Throw EDeser => True | _ => False end.
Proof.
  intros H. induction n as [|n IH]; intros i acc I0 I1; [exact Logic.I|]. cbn [nloop]. unfold read_dims at 1. destruct (steady_here d H) as (_ & _ & X & _).
  specialize (X i ltac:(lia)). destruct (r_idx R d i) as [x|[]| |] eqn:E; cbn [bind] in *; try exact Logic.I; try contradiction.
  pose proof (dim_safe x (steady_idx d i x H ltac:(lia) E)) as D. destruct (read_dim R x) as [v|[]| |]; cbn [bind] in *; try exact Logic.I; try contradiction. apply IH; lia.
Qed.
Lemma shape_safe d : steady R d -> orderly (tensor_shape R d).
Proof.
  intros H. destruct (steady_here d H) as (A & N & _). unfold tensor_shape. apply orderly_bind; [now apply orderly_safe|]. intros a _. destruct (negb a); [exact Logic.I|]. apply orderly_bind; [now apply orderly_safe|]. intros n _.
  destruct (2 ^ 61 - 1 <? n) eqn:B; [exact Logic.I|]. rewrite zloop_nloop. pose proof (dims_safe d H (Z.to_nat n) 0 [] ltac:(lia) ltac:(lia)) as D.
  destruct (nloop (Z.to_nat n) (read_dims R d) (0, [])) as [[[? ?]|?]|[]| |]; cbn [bind]; first [exact Logic.I|contradiction].
Qed.
Lemma is_tensor_safe t w : steady R w -> safe any (is_tensor R t w).
Proof.
  intros H. destruct (steady_here w H) as (A & N & X & _). unfold is_tensor. apply safe_bind_any; [exact A|]. intros a _. destruct (negb a); [exact Logic.I|]. apply safe_bind_any; [exact N|]. intros n _. destruct (n <? 3); [exact Logic.I|].
  apply safe_bind_any; [apply X; lia|]. intros x0 E0. pose proof (steady_here x0 (steady_idx w 0 x0 H ltac:(lia) E0)) as (_ & _ & _ & I & AI & _). apply safe_bind_any; [exact I|]. intros i _. destruct (negb i); [exact Logic.I|].
  rewrite E0. cbn [bind]. apply safe_bind_any; [apply AI|]. intros z _. destruct (negb _); [exact Logic.I|]. apply safe_bind_any; [apply X; lia|]. intros x1 E1. pose proof (steady_here x1 (steady_idx w 1 x1 H ltac:(lia) E1)) as (A1 & _).
  apply safe_bind_any; [exact A1|]. intros a1 _. destruct (negb a1); [exact Logic.I|]. apply safe_bind_any; [apply X; lia|]. intros x2 E2. apply (steady_here x2 (steady_idx w 2 x2 H ltac:(lia) E2)).
Qed.
Lemma wrap_le z : 0 <= z -> wrap64 z <= z.
Proof. intros H. apply Z.mod_le; lia. Qed.
Lemma copy_orderly n sz src : zlen src <= n * sz -> orderly (copy_into n sz src).
Proof. intros H. unfold copy_into. destruct (2 ^ 63 <=? n * sz); [exact Logic.I|]. replace (zlen src <=? n * sz) with true by lia. exact Logic.I. Qed.
Lemma count_orderly shape : forall c, orderly (element_count c shape).
Proof. induction shape as [|d l IH]; intros c; cbn [element_count]; [exact Logic.I|]. destruct (d =? 0); [exact Logic.I|]. destruct (u64_max / d <? c); [exact Logic.I|]. apply IH. Qed.
Theorem view_orderly blob_at t D w : sized t -> steady R w -> orderly (as_xtensor_view R blob_at t D w).
Proof.
  intros S H. pose proof (size_pos _ S) as SP. destruct (steady_here w H) as (_ & _ & X & _). unfold as_xtensor_view. apply orderly_bind; [now apply orderly_safe, is_tensor_safe|]. intros ok _. destruct (negb ok); [exact Logic.I|].
  apply orderly_bind; [apply orderly_safe, X; lia|]. intros x0 E0. apply orderly_bind; [apply orderly_safe, (steady_here x0 (steady_idx w 0 x0 H ltac:(lia) E0))|]. intros z _. destruct (negb _); [exact Logic.I|].
  apply orderly_bind; [apply orderly_safe, X; lia|]. intros x1 E1. apply orderly_bind; [apply shape_safe, (steady_idx w 1 x1 H ltac:(lia) E1)|]. intros shape ES. destruct (match D with Some d => _ | None => _ end); [exact Logic.I|].
  apply orderly_bind; [apply orderly_safe, X; lia|]. intros x2 E2. apply orderly_bind; [apply orderly_safe, (steady_here x2 (steady_idx w 2 x2 H ltac:(lia) E2))|]. intros data _. apply orderly_bind; [apply count_orderly|]. intros count EC.
  destruct (negb (zlen data =? _)) eqn:L; [exact Logic.I|]. pose proof (shape_range _ _ _ ES) as DS. pose proof (element_count_spec shape DS 1 ltac:(lia)) as C. unfold checked_element_count in EC. rewrite EC in C. destruct C as [C1 C2]. rewrite Z.mul_1_l in C1. subst count.
  pose proof (prod_dims _ DS) as NN. assert (MK : orderly (make_array shape (elt_size t) data)).
  { unfold make_array. apply copy_orderly. unfold x_size. rewrite wrap_id by lia. pose proof (wrap_le (prod shape * elt_size t) ltac:(nia)). lia. }
  destruct (blob_at x2) as [sp addr]. destruct (negb sp); [apply orderly_bind; [exact MK|intros; exact Logic.I]|]. destruct (negb (addr mod elt_align t =? 0)); [apply orderly_bind; [exact MK|intros; exact Logic.I]|exact Logic.I].
Qed.
Theorem array_orderly blob_at t D w : sized t -> steady R w -> orderly (as_xtensor R blob_at t D w).
Proof.
  intros S H. unfold as_xtensor. apply orderly_bind; [now apply view_orderly|]. intros v E. destruct (accepted _ _ _ _ _ _ E) as (w2 & data & _ & _ & T & DS & _ & _ & PL & L & M & _). unfold xv_array. apply orderly_bind; [|intros; exact Logic.I].
  unfold xv_tensor in M. cbn [x_mem] in M. destruct (xv_owned v); [exact Logic.I|]. rewrite M, T. unfold make_array. apply copy_orderly. pose proof (prod_dims _ DS). pose proof (size_pos _ S). unfold x_size. rewrite wrap_id by lia.
  pose proof (wrap_le (prod (xv_shape v) * elt_size t) ltac:(nia)). lia.
Qed.
Lemma matrix_orderly fx rows cols sz data : zlen data <= rows * cols * sz -> orderly (make_matrix fx rows cols sz data).
Proof. intros H. unfold make_matrix. destruct fx; [|now apply copy_orderly]. replace (zlen data <=? rows * cols * sz) with true by lia. exact Logic.I. Qed.
Theorem eview_orderly blob_at t nr nc rm w : sized t -> steady R w -> orderly (as_eigen_view R blob_at t nr nc rm w).
Proof.
  intros S H. pose proof (size_pos _ S) as SP. destruct (steady_here w H) as (_ & _ & X & _). unfold as_eigen_view. apply orderly_bind; [now apply orderly_safe, is_tensor_safe|]. intros ok _. destruct (negb ok); [exact Logic.I|].
  apply orderly_bind; [apply orderly_safe, X; lia|]. intros x0 E0. apply orderly_bind; [apply orderly_safe, (steady_here x0 (steady_idx w 0 x0 H ltac:(lia) E0))|]. intros z _. destruct (negb _); [exact Logic.I|].
  apply orderly_bind; [apply orderly_safe, X; lia|]. intros x1 E1. apply orderly_bind; [apply shape_safe, (steady_idx w 1 x1 H ltac:(lia) E1)|]. intros shape ES. destruct shape as [|rows [|cols [|? ?]]]; try exact Logic.I.
  destruct (match nr with Some d => _ | None => _ end); [exact Logic.I|]. destruct (match nc with Some d => _ | None => _ end); [exact Logic.I|].
  apply orderly_bind; [apply orderly_safe, X; lia|]. intros x2 E2. apply orderly_bind; [apply orderly_safe, (steady_here x2 (steady_idx w 2 x2 H ltac:(lia) E2))|]. intros data _.
  destruct (negb (zlen data =? _)) eqn:L; [exact Logic.I|]. pose proof (shape_range _ _ _ ES) as DS. apply Forall_cons_iff in DS. destruct DS as [D1 DS]. apply Forall_cons_iff in DS. destruct DS as [D2 _].
  rewrite (wrap_id (rows * cols)) in L by nia. pose proof (wrap_le (rows * cols * elt_size t) ltac:(nia)).
  assert (MK : forall fx, orderly (make_matrix fx rows cols (elt_size t) data)) by (intros; apply matrix_orderly; lia).
  destruct (blob_at x2) as [sp addr]. destruct (negb sp); [apply orderly_bind; [apply MK|intros; exact Logic.I]|]. destruct (negb (addr mod elt_align t =? 0)); [apply orderly_bind; [apply MK|intros; exact Logic.I]|exact Logic.I].
Qed.
Theorem eigen_orderly blob_at t nr nc rm w : sized t -> steady R w -> orderly (as_eigen R blob_at t nr nc rm w).
Proof.
  intros S H. unfold as_eigen. apply orderly_bind; [now apply eview_orderly|]. intros v E. destruct (accepted_matrix _ _ _ _ _ _ _ _ E) as (w2 & data & _ & _ & T & _ & DS & _ & _ & L & M & _). unfold ev_matrix. apply orderly_bind; [|intros; exact Logic.I].
  unfold ev_map in M. cbn [m_mem] in M. destruct (ev_owned v); [exact Logic.I|]. rewrite M, T. apply matrix_orderly. apply Forall_cons_iff in DS. destruct DS as [D1 DS]. apply Forall_cons_iff in DS. destruct DS as [D2 _]. pose proof (size_pos _ S).
  pose proof (wrap_le (ev_rows v * ev_cols v * elt_size t) ltac:(nia)). lia.
Qed.
End Steady.

(** ** Messages *)
Lemma safe_any {A} (P : A -> Prop) r : safe P r -> safe any r.
Proof. destruct r as [a|[]| |]; cbn; auto. intros _. exact I. Qed.
Lemma safe_view b m : safe (view_in b) m -> safe any (w <- m ;; rd_view b w).
Proof.
  destruct m as [w|[]| |]; cbn; auto. intros H. unfold rd_view. unfold view_in in H. replace (_ && _) with true by lia. exact I.
Qed.
Theorem zera_steady b w : bytes_ok b -> zlen b < 2 ^ 32 - 20 -> ZeraModel.zera_open b = Ok w -> steady ZeraModel.zera_reader w.
Proof.
  intros B L O w' RE. pose proof (ZeraHist.reader_safe b B L) as RS. rewrite O in RS. destruct (RS w' RE) as (BE & T & BL & _ & AI & AU & _ & _ & _ & AB & N & X & _).
  cbn [ZeraModel.zera_reader r_isArray r_arraySize r_idx r_isInt r_asInt r_isUInt r_asUInt r_isBlob r_asBlob]. repeat split; try apply T; auto.
  - eapply safe_any, N.
  - intros iw. eapply safe_any, AI.
  - intros iw. eapply safe_any, AU.
  - rewrite BE. now apply safe_view.
Qed.
Theorem msgpack_steady b w : (forall w', reach MsgModel.mp_reader w w' -> MsgSafe.mp_ops_safe b w') -> steady MsgModel.mp_reader w.
Proof.
  intros H w' RE. destruct (H w' RE) as ((BE & _) & (_ & _ & I & U & _ & _ & BL & _ & A & _ & AI & AU & _) & _ & AB & N & X & _). repeat split; auto.
  - intros i J. eapply safe_any, X, J.
  - cbn [MsgModel.mp_reader r_asBlob]. rewrite BE. now apply safe_view.
Qed.
Theorem cbor_steady b fuel : bytes_ok b -> zlen b < 2 ^ 63 -> CborSpec.no_huge b -> zlen b < Z.of_nat fuel -> steady (CborModel.cbor_reader false fuel) (CborModel.cb_open b).
Proof.
  intros B HB NH HF w' RE. assert (W := CborSafe.reach_inside false b fuel w' B HB ltac:(discriminate) RE). pose proof (CborSafe.is_safe b w' B W) as IS. pose proof (CborSafe.asInt_safe b w' B W) as AI. pose proof (CborSafe.asUInt_safe b w' B W) as AU.
  destruct w' as [b' p]. destruct W as [E P]. cbn [CborModel.cv_buf CborModel.cv_pos] in *. subst b'.
  cbn [CborModel.cbor_reader r_isArray r_arraySize r_idx r_isInt r_asInt r_isUInt r_asUInt r_isBlob r_asBlob]. repeat split; auto.
  - apply CborSafe.out_safe. eapply CborSafe.out_true, (CborSafe.out_size true false b B HB); auto. lia.
  - intros i _. eapply safe_any, CborSafe.out_safe, (CborSafe.out_idx true false b B HB); auto. lia.
  - apply safe_view. apply CborSafe.out_safe. apply (CborSafe.out_view true false b B HB (fun _ => NH) fuel (fun _ => HF)); auto; lia.
Qed.
Lemma json_sub v w : val_ok v -> reach JsonModel.json_reader v w -> val_ok w.
Proof.
  intros V RE. induction RE as [|w1 i w2 RE IH J E|w1 k w2 RE IH K E]; [exact V| |]; cbn [JsonModel.json_reader r_idx r_key] in E.
  - unfold JsonModel.j_idx in E. destruct w1 as [| | | | | | |l|l]; try discriminate. unfold JsonModel.yy_arr_get in E. destruct (get l i) as [x|] eqn:G; [|discriminate]. injection E as <-. apply val_ok_arr in IH. rewrite Forall_forall in IH. apply IH.
    unfold get in G. destruct (_ && _); [|discriminate]. eapply nth_error_In, G.
  - unfold JsonModel.j_key in E. destruct w1 as [| | | | | | |l|l]; try discriminate. apply val_ok_map in IH. clear - IH E. induction l as [|[k' x] l IHl]; cbn [JsonModel.yy_obj_getn] in E; [discriminate|]. apply Forall_cons_iff in IH. destruct IH as [[_ A] B].
    destruct (beq k' k); [injection E as <-; exact A|]. now apply IHl.
Qed.
Theorem json_steady v : val_ok v -> steady JsonModel.json_reader v.
Proof.
  intros V w RE. pose proof (json_sub v w V RE) as W. clear v V RE. cbn [JsonModel.json_reader r_isArray r_arraySize r_idx r_isInt r_asInt r_isUInt r_asUInt r_isBlob r_asBlob].
  assert (X : forall i, safe (fun x => val_ok x) (JsonModel.j_idx w i)).
  { intros i. unfold JsonModel.j_idx. destruct w as [| | | | | | |l|l]; try exact I. unfold JsonModel.yy_arr_get. destruct (get l i) as [x|] eqn:G; [|exact I]. cbn. apply val_ok_arr in W. rewrite Forall_forall in W. apply W. unfold get in G. destruct (_ && _); [|discriminate]. eapply nth_error_In, G. }
  assert (AR : safe any (JsonModel.j_arraySize w)) by (destruct w; exact I).
  assert (ST : forall x, safe any (JsonModel.j_asString x)) by (intros []; exact I).
  assert (AN : forall a b, safe any a -> safe any b -> safe any (JsonModel.andr a b)) by (intros a b A B; unfold JsonModel.andr; apply safe_bind_any; [exact A|]; intros [] _; [exact B|exact I]).
  assert (XI : forall i (k : val -> res bool), (forall x, safe any (k x)) -> safe any (x <- JsonModel.j_idx w i ;; k x)) by (intros i k K; apply safe_bind_any; [eapply safe_any, X|auto]).
  assert (BL : safe any (JsonModel.j_isBlob w)).
  { unfold JsonModel.j_isBlob. repeat apply AN; try exact I; try (apply XI; intros x; first [exact I|apply safe_bind_any; [apply ST|intros; exact I]]). apply safe_bind_any; [exact AR|intros; exact I]. }
  repeat split; try exact I; try exact BL; try exact AR.
  - intros i _. eapply safe_any, X.
  - intros iw. unfold JsonModel.j_asInt. destruct (JsonModel.yy_is_int w); exact I.
  - intros iw. unfold JsonModel.j_asUInt. destruct (JsonModel.yy_is_uint w); exact I.
  - unfold JsonModel.j_asBlob. apply safe_bind_any; [exact BL|]. intros b _. apply safe_bind_any; [destruct b; exact I|]. intros _ _. specialize (X 1). destruct (JsonModel.j_idx w 1) as [x|[]| |]; cbn [bind] in *; try exact I; try contradiction.
    destruct x as [| | | | |s| | |]; cbn [JsonModel.j_asString bind]; try exact I. cbn in X. pose proof (B64Facts.decode_spec s X) as D. destruct (forallb B64Spec.in_alphabet (B64Spec.before_pad s)); [destruct D as (out & D & _)|]; rewrite D; exact I.
Qed.
