(** FlexBMain.v -- FlexBuffers as bytes: whole messages. *)

From Coq Require Import ZArith List Bool Lia ZifyBool ZifyNat Permutation Sorted.
From Verif Require Import Base BaseFacts Spec SpecFacts FlexModel FlexSpec FlexFacts FlexBModel FlexBSpec FlexBFormat FlexBFacts FlexBWrite FlexBSim.
Import ListNotations.
Open Scope Z_scope.
Ltac Zify.zify_post_hook ::= idtac.

Section FxInd.
  Variable P : fx -> Prop.
  Hypotheses (Hn : P XNull) (Hb : forall b, P (XBool b)) (Hi : forall z, P (XInt z)) (Hu : forall z, P (XUInt z)) (Hd : forall d, P (XDbl d)) (Hs : forall s, P (XStr s))
    (Hbl : forall s, P (XBlob s)) (Hk : forall k, P (XKey k)) (Hv : forall l, Forall P l -> P (XVec l)) (Ht : forall l, P (XTyped l)) (Hm : forall l, Forall (fun kx => P (snd kx)) l -> P (XMap l)).
  Fixpoint fx_ind' (x : fx) : P x :=
    match x with
    | XNull => Hn | XBool b => Hb b | XInt z => Hi z | XUInt z => Hu z | XDbl d => Hd d | XStr s => Hs s | XBlob s => Hbl s | XKey k => Hk k
    | XVec l => Hv l ((fix go l : Forall P l := match l with [] => Forall_nil _ | x :: l' => Forall_cons x (fx_ind' x) (go l') end) l)
    | XTyped l => Ht l
    | XMap l => Hm l ((fix go l : Forall (fun kx => P (snd kx)) l := match l with [] => Forall_nil _ | x :: l' => Forall_cons x (fx_ind' (snd x)) (go l') end) l)
    end.
End FxInd.

(** ** Bytes in front of a message *)
Section Shift.
Variables (pre B : bytes).
Local Notation n := (zlen pre).
Local Notation C := (pre ++ B).
Lemma rd_shift p z : rd B p = Ok z -> rd C (n + p) = Ok z.
Proof. unfold rd. destruct (get B p) eqn:E; [|discriminate]. pose proof (get_some _ _ _ E). rewrite get_app_r by lia. replace (n + p - n) with p by lia. now rewrite E. Qed.
Lemma lies_shift p l : lies B p l -> lies C (n + p) l.
Proof. intros (a & c & -> & <-). exists (pre ++ a), c. split; [now rewrite <- app_assoc|apply zlen_app]. Qed.
Lemma number_shift p w z : number aligned B p w z -> number anywhere C (n + p) w z.
Proof. intros (W & _ & l & L & Q). split; [exact W|]. split; [exact I|]. exists l. split; [now apply lies_shift|exact Q]. Qed.
Lemma signed_shift p w z : signed aligned B p w z -> signed anywhere C (n + p) w z.
Proof. intros (R & N). split; [exact R|now apply number_shift]. Qed.
Lemma real_shift p w z : real aligned B p w z -> real anywhere C (n + p) w z.
Proof. intros [(W & N)|(W & f & N & E)]; [left; split; [exact W|now apply number_shift]|right; split; [exact W|]; exists f; split; [now apply number_shift|exact E]]. Qed.
Lemma offset_shift p w z : offset aligned B p w z -> offset anywhere C (n + p) w (n + z).
Proof. intros (o & N & ->). exists o. split; [now apply number_shift|lia]. Qed.
Lemma number_shift' p k w z : number aligned B (p - k) w z -> number anywhere C (n + p - k) w z.
Proof. replace (n + p - k) with (n + (p - k)) by lia. apply number_shift. Qed.
Definition shift (r : fref) : fref := mkRef (n + f_data r) (f_pw r) (f_bw r) (f_ty r).
Lemma elem_shift loc bw m i r : elem_at B loc bw m i r -> elem_at C (n + loc) bw m i (shift r).
Proof.
  intros (pt & R & ->). exists pt. split; [replace (n + loc + m * bw + i) with (n + (loc + m * bw + i)) by lia; now apply lies_shift|]. unfold shift, packed_ref. cbn. f_equal. lia.
Qed.
Lemma indir_shift far r t1 t2 (P Q : Z -> Z -> Prop) : (forall p w, P p w -> Q (n + p) w) -> indir aligned far B r t1 t2 P -> indir anywhere far C (shift r) t1 t2 Q.
Proof. intros PQ [(T & H)|(T & FA & q & O & H)]; [left; split; [exact T|now apply PQ]|right; split; [exact T|]; split; [exact FA|]; exists (n + q); split; [now apply offset_shift|now apply PQ]]. Qed.
Lemma rep_shift far : forall x r, rep aligned far B x r -> rep anywhere far C x (shift r).
Proof.
  assert (SZ : forall r s t, sized aligned B r s t -> sized anywhere C (shift r) s t).
  { intros r s t (loc & A1 & A2 & A3). exists (n + loc). cbn [shift f_data f_pw f_bw]. split; [now apply offset_shift|]. split; [now apply number_shift'|]. now apply lies_shift. }
  induction x as [|b|z|z|d|s|s|k|l IH|l|l IH] using fx_ind'; intros r H.
  9: { apply rep_vec in H. apply rep_vec. destruct H as (T & loc & A1 & A2 & A3). cbn [shift f_data f_pw f_bw f_ty]. split; [exact T|]. exists (n + loc). split; [now apply offset_shift|]. split; [now apply number_shift'|].
    intros i y G. destruct (A3 i y G) as (r' & E & R). exists (shift r'). split; [now apply elem_shift|]. rewrite Forall_forall in IH. apply IH; [now apply get_In in G|exact R]. }
  10: { apply rep_map in H. apply rep_map. destruct H as (T & loc & kd & kbw & A1 & A2 & A3 & A4 & (K1 & K2) & A6). cbn [shift f_data f_pw f_bw f_ty]. split; [exact T|]. exists (n + loc), (n + kd), kbw. split; [now apply offset_shift|].
    split; [now apply number_shift'|]. split; [replace (n + loc - 3 * f_bw r) with (n + (loc - 3 * f_bw r)) by lia; now apply offset_shift|]. split; [now apply number_shift'|]. split.
    - split; [now apply number_shift'|]. intros i k G. destruct (K2 i k G) as (kp & O & L & NN). exists (n + kp). replace (n + kd + i * kbw) with (n + (kd + i * kbw)) by lia. split; [now apply offset_shift|]. split; [now apply lies_shift|exact NN].
    - intros i y G. destruct (A6 i y G) as (r' & E & R). exists (shift r'). split; [now apply elem_shift|]. rewrite Forall_forall in IH. apply IH; [now apply get_In in G|exact R]. }
  all: cbn [rep] in *; auto.
  - destruct H as (T & z & A & E). split; [exact T|]. exists z. split; [now apply number_shift|exact E].
  - revert H. apply indir_shift. intros. now apply signed_shift.
  - revert H. apply indir_shift. intros. now apply number_shift.
  - revert H. apply indir_shift. intros. now apply real_shift.
  - destruct H as (T & A). split; [exact T|now apply SZ].
  - destruct H as (T & A). split; [exact T|now apply SZ].
Qed.
Lemma open_shift r : zlen B <> 0 -> fb_open B = Ok r -> fb_open C = Ok (shift r).
Proof.
  pose proof (zlen_nonneg pre). pose proof (zlen_nonneg B). unfold fb_open. intros NB. rewrite zlen_app. replace (zlen B =? 0) with false by lia. replace (n + zlen B =? 0) with false by lia.
  destruct (rd B (zlen B - 1)) as [a|e| |] eqn:E1; try discriminate. cbn [bind]. destruct (rd B (zlen B - 2)) as [b|e| |] eqn:E2; try discriminate. cbn [bind]. intros Q. injection Q as <-.
  replace (n + zlen B - 1) with (n + (zlen B - 1)) by lia. replace (n + zlen B - 2) with (n + (zlen B - 2)) by lia. rewrite (rd_shift _ _ E1). cbn [bind]. rewrite (rd_shift _ _ E2). cbn [bind].
  unfold shift, packed_ref. cbn. do 2 f_equal. lia.
Qed.
End Shift.

(** ** Written bytes are bytes *)
Lemma le_put_bytes k : forall z, bytes_ok (le_put k z).
Proof. induction k as [|k IH]; intros z; constructor; [apply Z.mod_pos_bound; lia|apply IH]. Qed.
Definition tame (v : bval) : Prop := 0 <= v_w v <= 3 /\ 0 <= v_ty v <= 26.
Lemma write_any_bytes v bw pos : bytes_ok (write_any v bw pos).
Proof. unfold write_any. repeat destruct (_ =? _); try destruct (is_inline _); apply le_put_bytes. Qed.
Lemma write_all_bytes vs bw : forall pos, bytes_ok (write_all vs bw pos).
Proof. induction vs as [|v vs IH]; intros pos; [constructor|]. cbn [write_all]. apply bytes_ok_app. split; [apply write_any_bytes|apply IH]. Qed.
Lemma packed_byte v w : tame v -> 0 <= w <= 3 -> is_byte (packed_type v w).
Proof. intros (A & B) W. pose proof (stored_range v w A W). unfold is_byte, packed_type. lia. Qed.
Lemma align_bytes buf w : bytes_ok buf -> bytes_ok (align buf w).
Proof. intros H. unfold align. apply bytes_ok_app. split; [exact H|apply bytes_ok_repeat0]. Qed.
Lemma vector_bytes buf len vs step typed keys : bytes_ok buf -> Forall tame vs -> (forall k, keys = Some k -> tame k) ->
  bytes_ok (fst (create_vector buf len vs step typed keys)) /\ tame (snd (create_vector buf len vs step typed keys)).
Proof.
  intros HB HV HK. unfold create_vector. cbv zeta. cbn [fst snd].
  set (w := max_width vs (zlen buf) _ step _).
  assert (W : 0 <= w <= 3).
  { unfold w. pose proof (width_u_range len) as WL. match goal with |- 0 <= max_width _ _ ?i _ ?w0 <= 3 => assert (W0 : 0 <= w0 <= 3) by (destruct keys as [k|]; [|lia]; destruct (HK k eq_refl) as (Q & _); pose proof (elem_width_range k (zlen buf) 0 Q); lia);
      destruct (max_width_spec vs (zlen buf) step i w0) as (M & _); [intros v V; rewrite Forall_forall in HV; now apply HV|exact W0|lia] end. }
  clearbody w. split.
  - assert (A : forall c, bytes_ok c -> bytes_ok (if typed then c else c ++ map (fun v => packed_type v w) vs)).
    { intros c Hc. destruct typed; [exact Hc|]. apply bytes_ok_app. split; [exact Hc|]. apply Forall_map. eapply Forall_impl; [|exact HV]. intros v V. now apply packed_byte. }
    apply A. apply bytes_ok_app. split; [|apply write_all_bytes]. apply bytes_ok_app. split; [|apply le_put_bytes]. destruct keys; rewrite ?bytes_ok_app; repeat split; try apply le_put_bytes; now apply align_bytes.
  - split; [exact W|]. destruct keys; [|destruct typed]; cbn; lia.
Qed.
Definition well (s : fbst) : Prop := bytes_ok (b_buf s) /\ Forall tame (b_stack s).
Lemma pairs_tame dbg buf : forall k vs l odd, (length vs <= k)%nat -> Forall tame vs -> fb_pairs dbg buf vs = Ok (l, odd) -> Forall (fun e => tame (fst (snd e)) /\ tame (snd (snd e))) l /\ Forall tame odd.
Proof.
  induction k as [|k IH]; intros vs l odd LN F E.
  - destruct vs; [|cbn in LN; lia]. cbn in E. injection E as <- <-. auto.
  - destruct vs as [|a [|b vs]]; cbn [fb_pairs] in E; [injection E as <- <-; auto|destruct dbg; [discriminate|]; injection E as <- <-; auto|].
    destruct (v_ty a =? 4); [|destruct dbg; discriminate]. destruct (c_string buf (v_u a)) as [c|e| |]; try discriminate. cbn [bind] in E. apply Forall_cons_iff in F. destruct F as [Fa F]. apply Forall_cons_iff in F. destruct F as [Fb F].
    assert (LN' : (length vs <= k)%nat) by (cbn in LN; lia). destruct (fb_pairs dbg buf vs) as [[r o]|e| |] eqn:P; try discriminate. cbn [bind] in E. injection E as <- <-. destruct (IH vs r o LN' F P) as (I1 & I2). split; [|exact I2]. constructor; auto.
Qed.
Section Bytes.
Variables (dbg : bool) (srt : forall A, list (bytes * A) -> list (bytes * A)).
Hypothesis KS : key_sort srt.
Lemma step_well s e : ev_ok e -> well s -> well (fst (fb_step dbg (srt _) s e)).
Proof.
  intros EV (B & F). assert (P : forall buf v, bytes_ok buf -> tame v -> well (fst (fb_push buf v s))).
  { intros buf v Hb Hv. unfold fb_push. split; [exact Hb|]. cbn. apply Forall_app. auto. }
  assert (BL : forall t tr ty, bytes_ok t -> bytes_ok tr -> 0 <= ty <= 26 -> bytes_ok (fst (create_blob (b_buf s) t tr ty)) /\ tame (snd (create_blob (b_buf s) t tr ty))).
  { intros t tr ty Ht Htr Hty. unfold create_blob. cbv zeta. cbn [fst snd]. split; [|split; [cbn [v_w]; apply width_u_range|exact Hty]]. rewrite !bytes_ok_app. repeat split; auto; [now apply align_bytes|apply le_put_bytes]. }
  destruct e; cbn [ev_ok] in EV; cbn [fb_step].
  - apply P; [exact B|]. split; cbn; lia.
  - apply P; [exact B|]. split; cbn; lia.
  - apply P; [exact B|]. split; cbn [v_w v_ty]; [|lia]. unfold width_i. cbv zeta. destruct (0 <=? z); apply width_u_range.
  - apply P; [exact B|]. split; cbn [v_w v_ty]; [apply width_u_range|lia].
  - apply P; [exact B|]. split; cbn [v_w v_ty]; [|lia]. unfold width_f. destruct (FloatModel.f64_to_f32 bits); lia.
  - specialize (BL s0 [0] 5 EV ltac:(repeat constructor; lia) ltac:(lia)). destruct (create_blob _ _ _ _). now apply P.
  - specialize (BL b [] 25 EV ltac:(constructor) ltac:(lia)). destruct (create_blob _ _ _ _). now apply P.
  - unfold fb_add_key. assert (TK : forall p, tame (mkBv p 4 0)) by (intros p; split; cbn; lia). destruct (pool_find _ _ _); cbn [fst]; split; cbn [b_buf b_stack]; auto; try (apply Forall_app; auto).
    rewrite !bytes_ok_app. repeat split; auto; repeat constructor; lia.
  - split; auto.
  - unfold fb_end_array. destruct (b_st s) as [|[[] st] sts]; try (split; auto; fail). pose proof (vector_bytes (b_buf s) (zlen (skipn (Z.to_nat st) (b_stack s))) (skipn (Z.to_nat st) (b_stack s)) 1 false None B (Forall_skipn' _ _ _ F) ltac:(discriminate)) as (V1 & V2).
    destruct (create_vector _ _ _ _ _ _). cbn [fst snd] in *. split; [exact V1|]. cbn. apply Forall_app. split; [now apply Forall_firstn'|auto].
  - split; auto.
  - unfold fb_end_map. destruct (b_st s) as [|[[] st] sts]; try (split; auto; fail). destruct (fb_pairs _ _ _) as [[l odd]|x| |] eqn:E; try (split; auto; fail).
    destruct (pairs_tame _ _ _ _ _ _ (le_n _) (Forall_skipn' _ (Z.to_nat st) _ F) E) as (FL & FO). destruct KS as (SO & _). destruct (SO _ l) as (PM & _). apply Permutation_sym in PM. eapply Permutation_Forall in FL; [|exact PM].
    set (l' := srt _ l) in *. clearbody l'.
    assert (F1 : Forall tame (map (fun x => fst (snd x)) l' ++ odd)) by (apply Forall_app; split; [|exact FO]; apply Forall_map; eapply Forall_impl; [|exact FL]; now intros x (? & ?)).
    assert (F2 : Forall tame (map (fun x => snd (snd x)) l')) by (apply Forall_map; eapply Forall_impl; [|exact FL]; now intros x (? & ?)).
    pose proof (vector_bytes (b_buf s) (zlen l') _ 2 true None B F1 ltac:(discriminate)) as (V1 & V2). destruct (create_vector (b_buf s) _ _ _ _ _) as [buf1 kv]. cbn [fst snd] in *.
    pose proof (vector_bytes buf1 (zlen l') _ 2 false (Some kv) V1 F2 ltac:(intros k Q; now injection Q as <-)) as (V3 & V4). destruct (create_vector buf1 _ _ _ _ _) as [buf2 v]. cbn [fst snd] in *.
    split; [exact V3|]. cbn. apply Forall_app. split; [now apply Forall_firstn'|auto].
Qed.
Lemma run_well es : forall s, Forall ev_ok es -> well s -> well (fst (run (flexb_writer dbg (srt _)) s es)).
Proof.
  induction es as [|e es IH]; intros s EV H; [exact H|]. apply Forall_cons_iff in EV. destruct EV as [E EV]. cbn [run w_step flexb_writer]. pose proof (step_well s e E H) as H'.
  destruct (fb_step _ _ s e) as [s' [u|x| |]]; cbn [fst] in *; auto.
Qed.
Lemma finish_well s b : well s -> snd (fb_finish dbg s) = Ok b -> bytes_ok b.
Proof.
  intros (B & F). unfold fb_finish. destruct (b_finished s); cbn [snd]; [intros Q; now injection Q as <-|].
  assert (FX : Forall tame (if b_wrote s then b_stack s else b_stack s ++ [mkBv 0 0 0])) by (destruct (b_wrote s); [exact F|]; apply Forall_app; split; [exact F|]; repeat constructor; cbn; lia).
  assert (O : forall v, tame v -> bytes_ok (align (b_buf s) (elem_width v (zlen (b_buf s)) 0) ++ write_any v (2 ^ elem_width v (zlen (b_buf s)) 0) (zlen (align (b_buf s) (elem_width v (zlen (b_buf s)) 0))) ++ [packed_type v 0; 2 ^ elem_width v (zlen (b_buf s)) 0])).
  { intros v V. pose proof V as (V1 & _). pose proof (pow_range _ (elem_width_range v (zlen (b_buf s)) 0 V1)). rewrite !bytes_ok_app. split; [now apply align_bytes|]. split; [apply write_any_bytes|]. repeat constructor; try (apply packed_byte; [exact V|lia]); lia. }
  unfold fb_root. destruct (if b_wrote s then _ else _) as [|v [|v2 l]]; [destruct dbg; discriminate|..].
  - intros Q. injection Q as <-. apply O. now apply Forall_cons_iff in FX.
  - destruct dbg; [discriminate|]. intros Q. injection Q as <-. apply O. now apply Forall_cons_iff in FX.
Qed.
End Bytes.

(** ** Whole messages *)
Lemma finish_size dbg s b : b_finished s = false -> Forall tame (b_stack s) -> snd (fb_finish dbg s) = Ok b -> zlen (b_buf s) + 2 <= zlen b <= zlen (b_buf s) + 17.
Proof.
  intros NF F. unfold fb_finish. rewrite NF. cbn [snd].
  assert (FX : Forall tame (if b_wrote s then b_stack s else b_stack s ++ [mkBv 0 0 0])) by (destruct (b_wrote s); [exact F|]; apply Forall_app; split; [exact F|]; repeat constructor; cbn; lia).
  assert (O : forall v, tame v -> zlen (b_buf s) + 2 <= zlen (align (b_buf s) (elem_width v (zlen (b_buf s)) 0) ++ write_any v (2 ^ elem_width v (zlen (b_buf s)) 0) (zlen (align (b_buf s) (elem_width v (zlen (b_buf s)) 0))) ++ [packed_type v 0; 2 ^ elem_width v (zlen (b_buf s)) 0]) <= zlen (b_buf s) + 17).
  { intros v V. pose proof V as (V1 & _). pose proof (elem_width_range v (zlen (b_buf s)) 0 V1) as W. set (w := elem_width _ _ _) in *. clearbody w. pose proof (pow_range w W). pose proof (padding_range (zlen (b_buf s)) w ltac:(lia)).
    rewrite !zlen_app, align_len by exact W. rewrite !zlen_cons, zlen_nil. set (p := zlen (b_buf s) + padding (zlen (b_buf s)) (2 ^ w)).
    assert (0 <= zlen (write_any v (2 ^ w) p) <= 8); [|lia]. split; [apply zlen_nonneg|]. unfold write_any. destruct (v_ty v =? 3); [destruct (2 ^ w =? 8); cbn; lia|]. destruct (is_inline _); rewrite le_put_zlen; lia. }
  unfold fb_root. destruct (if b_wrote s then _ else _) as [|v [|v2 l]]; [destruct dbg; discriminate|..].
  - intros Q. injection Q as <-. apply O. now apply Forall_cons_iff in FX.
  - destruct dbg; [discriminate|]. intros Q. injection Q as <-. apply O. now apply Forall_cons_iff in FX.
Qed.
(** The message [b] reads like the tree message [o] -- also with other bytes in front. *)
Definition reads_as (b : bytes) (o : option fx) : Prop :=
  (exists x, o = Some x) /\ forall pre, exists r, fb_open (pre ++ b) = Ok r /\ forall fuel n, same n (flexb_reader (pre ++ b) fuel) (flex_reader fuel) r (flex_open o).
Lemma finish_reads dbg bs ts : sim bs ts -> Forall tame (b_stack bs) -> zlen (b_buf bs) < 2 ^ 61 -> alike reads_as (snd (fb_finish dbg bs)) (snd (f_finish dbg ts)).
Proof.
  intros S F L. pose proof (finish_sim dbg bs ts S) as A. pose proof (fun b => finish_size dbg bs b (proj1 (proj2 (proj2 (proj2 S)))) F) as Z.
  destruct (snd (fb_finish dbg bs)) as [b|e| |], (snd (f_finish dbg ts)) as [o|e'| |]; cbn [alike] in *; auto. destruct A as (X & LB & R). specialize (Z b eq_refl).
  destruct (R ltac:(lia)) as (r & O & RP). split; [exact X|]. intros pre.
  pose proof (zlen_nonneg (b_buf bs)). assert (NB : zlen b <> 0) by lia.
  exists (shift pre r). split; [now apply open_shift|]. intros fuel m. apply (rep_same anywhere false). now apply rep_shift.
Qed.

(** ** Outcomes agree whatever the sizes and whatever the sort does *)
Lemma F2_impl {A B} (P Q : A -> B -> Prop) l1 l2 : (forall x y, P x y -> Q x y) -> Forall2 P l1 l2 -> Forall2 Q l1 l2.
Proof. induction 2; constructor; auto. Qed.
Definition like (buf : bytes) (v : bval) (x : fx) : Prop := v_ty v = ty_of x /\ match x with XKey k => has buf (v_u v) (c_str k ++ [0]) | _ => True end.
Lemma like_app buf rest v x : like buf v x -> like (buf ++ rest) v x.
Proof. intros (T & K). split; [exact T|]. destruct x; auto. now apply has_app_l. Qed.
Definition likes (bs : fbst) (ts : fst_) : Prop :=
  Forall2 (like (b_buf bs)) (b_stack bs) (fs_stack ts) /\ b_st bs = fs_st ts /\ b_wrote bs = fs_wrote ts /\ b_finished bs = fs_finished ts.
Lemma pairs_like dbg buf : forall n vs xs, (length vs <= n)%nat -> Forall2 (like buf) vs xs -> alike (fun _ _ => True) (fb_pairs dbg buf vs) (f_pairs dbg xs).
Proof.
  induction n as [|n IH]; intros vs xs LN F.
  - destruct vs; [|cbn in LN; lia]. inversion F; subst. exact I.
  - destruct F as [|v x vs xs H F]; [exact I|]. destruct F as [|v2 x2 vs xs H2 F].
    + cbn [fb_pairs]. destruct x; cbn [f_pairs]; destruct dbg; cbn; auto.
    + cbn [fb_pairs]. pose proof H as (T & K). destruct x; cbn [ty_of] in T; rewrite T; cbn [Z.eqb Pos.eqb f_pairs]; try (destruct dbg; cbn; auto; fail).
      rewrite (proj2 (c_string_has buf (v_u v) (c_str k))) by (split; [apply c_str_nul|exact K]). cbn [bind].
      assert (LN' : (length vs <= n)%nat) by (cbn in LN; lia). specialize (IH vs xs LN' F).
      destruct (fb_pairs dbg buf vs) as [[l odd]|e| |], (f_pairs dbg xs) as [r|e'| |]; cbn [bind alike] in *; auto.
Qed.
Section Outcomes.
Variables (dbg : bool) (srtb : list (bytes * (bval * bval)) -> list (bytes * (bval * bval))) (srtt : list (bytes * fx) -> list (bytes * fx)).
Lemma step_like bs ts e : likes bs ts -> snd (fb_step dbg srtb bs e) = snd (f_step dbg srtt ts e) /\ likes (fst (fb_step dbg srtb bs e)) (fst (f_step dbg srtt ts e)).
Proof.
  intros S. pose proof S as (F & ST & WR & FI).
  assert (P : forall rest v x, like (b_buf bs ++ rest) v x -> snd (fb_push (b_buf bs ++ rest) v bs) = snd (f_push x ts) /\ likes (fst (fb_push (b_buf bs ++ rest) v bs)) (fst (f_push x ts))).
  { intros rest v x H. split; [reflexivity|]. split; [|cbn; auto]. cbn. apply Forall2_snoc; [|exact H]. eapply F2_impl; [|exact F]. intros; now apply like_app. }
  assert (P0 : forall v x, like (b_buf bs) v x -> snd (fb_push (b_buf bs) v bs) = snd (f_push x ts) /\ likes (fst (fb_push (b_buf bs) v bs)) (fst (f_push x ts))).
  { intros v x H. specialize (P [] v x). rewrite app_nil_r in P. auto. }
  assert (BL : forall s t ty, exists rest, fst (create_blob (b_buf bs) s t ty) = b_buf bs ++ rest) by (intros; unfold create_blob; cbv zeta; cbn [fst]; unfold align; rewrite <- !app_assoc; now eexists).
  destruct e; cbn [fb_step f_step] in *; try (apply P0; split; [reflexivity|exact I]).
  - destruct (BL s [0] 5) as (r & G). destruct (create_blob (b_buf bs) s [0] 5) as [buf v] eqn:E. cbn [fst] in G. subst buf. apply P. unfold create_blob in E. cbv zeta in E. injection E as _ <-. split; [reflexivity|exact I].
  - destruct (BL b [] 25) as (r & G). destruct (create_blob (b_buf bs) b [] 25) as [buf v] eqn:E. cbn [fst] in G. subst buf. apply P. unfold create_blob in E. cbv zeta in E. injection E as _ <-. split; [reflexivity|exact I].
  - unfold fb_add_key, f_key in *. destruct (pool_find _ _ _) as [p|] eqn:Q; cbn [fst snd b_buf] in *; (split; [reflexivity|]); (split; [|cbn; auto]); cbn [b_buf b_stack fs_stack].
    + apply Forall2_snoc; [exact F|]. split; [reflexivity|]. unfold pool_find in Q. apply find_some in Q. destruct Q as (_ & Q). destruct (c_string _ p) as [k'|x| |] eqn:C; try discriminate.
      apply beq_eq in Q. subst k'. now apply c_string_has in C.
    + apply Forall2_snoc; [eapply F2_impl; [|exact F]; intros; now apply like_app|]. split; [reflexivity|]. destruct (c_str_start k) as (t & Q2). rewrite Q2. apply has_mid.
  - unfold fb_begin, f_begin. cbn [fst snd]. split; [reflexivity|]. repeat split; cbn; auto. now rewrite ST, (zlen_F2 _ _ _ F).
  - unfold fb_end_array, f_end_array in *. rewrite ST in *. destruct (fs_st ts) as [|[[] st] sts]; cbn [fst snd]; auto.
    destruct (create_grow (b_buf bs) (zlen (skipn (Z.to_nat st) (b_stack bs))) (skipn (Z.to_nat st) (b_stack bs)) 1 false None) as (r & G).
    destruct (create_vector _ _ _ _ _ _) as [buf v] eqn:E. cbn [fst snd] in *. subst buf. split; [reflexivity|]. split; [|cbn; auto]. cbn [b_buf b_stack fs_stack]. apply Forall2_snoc.
    + apply Forall2_firstn'. eapply F2_impl; [|exact F]. intros; now apply like_app.
    + unfold create_vector in E. cbv zeta in E. injection E as _ <-. split; [reflexivity|exact I].
  - unfold fb_begin, f_begin. cbn [fst snd]. split; [reflexivity|]. repeat split; cbn; auto. now rewrite ST, (zlen_F2 _ _ _ F).
  - unfold fb_end_map, f_end_map in *. rewrite ST in *. destruct (fs_st ts) as [|[[] st] sts]; cbn [fst snd]; auto.
    pose proof (pairs_like dbg (b_buf bs) _ _ _ (le_n _) (Forall2_skipn' _ (Z.to_nat st) _ _ F)) as A.
    destruct (fb_pairs _ _ _) as [[l odd]|x| |], (f_pairs _ _) as [r|x'| |]; cbn [alike] in A; try contradiction; cbn [fst snd]; auto; [|subst; auto].
    pose proof (create_grow (b_buf bs) (zlen (srtb l)) (map (fun x => fst (snd x)) (srtb l) ++ odd) 2 true None) as (r1 & G1).
    destruct (create_vector (b_buf bs) _ _ _ _ _) as [buf1 kv] eqn:E1.
    pose proof (create_grow buf1 (zlen (srtb l)) (map (fun x => snd (snd x)) (srtb l)) 2 false (Some kv)) as (r2 & G2).
    destruct (create_vector buf1 _ _ _ _ _) as [buf2 v] eqn:E2. cbn [fst snd b_buf] in *. subst buf1 buf2. split; [reflexivity|].
    split; [|cbn; auto]. cbn [b_buf b_stack fs_stack]. apply Forall2_snoc.
    + apply Forall2_firstn'. eapply F2_impl; [|exact F]. intros. now apply like_app, like_app.
    + unfold create_vector in E2. cbv zeta in E2. injection E2 as _ <-. split; [reflexivity|exact I].
Qed.
Lemma run_like es : forall bs ts, likes bs ts -> snd (run (flexb_writer dbg srtb) bs es) = snd (run (flex_writer dbg srtt) ts es) /\
  likes (fst (run (flexb_writer dbg srtb) bs es)) (fst (run (flex_writer dbg srtt) ts es)).
Proof.
  induction es as [|e es IH]; intros bs ts S; [cbn; auto|]. cbn [run w_step flexb_writer flex_writer]. destruct (step_like bs ts e S) as (R & S'). destruct (fb_step _ _ bs e) as [bs' r], (f_step _ _ ts e) as [ts' r']. cbn [fst snd] in *. subst r'.
  destruct r as [u|x| |]; cbn [fst snd]; auto.
Qed.
Lemma catch_like es : forall bs ts, likes bs ts -> snd (run_catch (flexb_writer dbg srtb) bs es) = snd (run_catch (flex_writer dbg srtt) ts es) /\
  likes (fst (run_catch (flexb_writer dbg srtb) bs es)) (fst (run_catch (flex_writer dbg srtt) ts es)).
Proof.
  induction es as [|e es IH]; intros bs ts S; [cbn; auto|]. cbn [run_catch w_step flexb_writer flex_writer]. destruct (step_like bs ts e S) as (R & S'). destruct (fb_step _ _ bs e) as [bs' r], (f_step _ _ ts e) as [ts' r']. cbn [fst snd] in *. subst r'.
  specialize (IH bs' ts' S'). cbn [flexb_writer flex_writer] in IH. destruct (run_catch _ bs' es), (run_catch _ ts' es). cbn [fst snd] in *. destruct IH as (-> & ?). auto.
Qed.
Lemma finish_like bs ts : likes bs ts -> alike (fun _ _ => True) (snd (fb_finish dbg bs)) (snd (f_finish dbg ts)).
Proof.
  intros (F & ST & WR & FI). unfold fb_finish, f_finish. rewrite FI, WR. destruct (fs_finished ts); [exact I|]. cbn [snd].
  assert (FX : Forall2 (like (b_buf bs)) (if fs_wrote ts then b_stack bs else b_stack bs ++ [mkBv 0 0 0]) (if fs_wrote ts then fs_stack ts else fs_stack ts ++ [XNull])).
  { destruct (fs_wrote ts); [exact F|]. apply Forall2_snoc; [exact F|]. split; [reflexivity|exact I]. }
  destruct FX as [|v x l1 l2 H FX]; [destruct dbg; cbn; auto|]. destruct FX as [|v2 x2 l1 l2 H2 FX]; cbn [fb_root f_root]; [|destruct dbg]; cbn [bind alike]; auto.
Qed.
Lemma likes_init : likes (w_init (flexb_writer dbg srtb)) (w_init (flex_writer dbg srtt)).
Proof. repeat split; constructor. Qed.
End Outcomes.

(** ** The theorems of Properties_FlexB.v *)
Section Main.
Variables (dbg : bool) (srt : forall A, list (bytes * A) -> list (bytes * A)).
Hypothesis KS : key_sort srt.
Local Notation WB := (flexb_writer dbg (srt (bval * bval))).
Local Notation WT := (flex_writer dbg (srt fx)).
Lemma well_init : well (w_init WB).
Proof. split; constructor. Qed.
Lemma catch_well es : forall s, Forall ev_ok es -> well s -> well (fst (run_catch WB s es)).
Proof.
  induction es as [|e es IH]; intros s EV H; [exact H|]. apply Forall_cons_iff in EV. destruct EV as [E EV]. cbn [run_catch w_step flexb_writer]. pose proof (step_well dbg srt KS s e E H) as H'.
  destruct (fb_step _ _ s e) as [s' r]. specialize (IH s' EV H'). cbn [flexb_writer] in IH. destruct (run_catch _ s' es). exact IH.
Qed.
(** Catching exceptions or not, the finished messages agree (for messages below 2^62 bytes). *)
Lemma finish_agrees bs ts : (zlen (b_buf bs) < 2 ^ 62 -> sim bs ts) -> likes bs ts -> Forall tame (b_stack bs) -> b_finished bs = false ->
  alike (fun b o => zlen b < 2 ^ 62 -> reads_as b o) (snd (fb_finish dbg bs)) (snd (f_finish dbg ts)).
Proof.
  intros S K F NF. pose proof (finish_like dbg bs ts K) as A. destruct (snd (fb_finish dbg bs)) as [b|e| |] eqn:E1, (snd (f_finish dbg ts)) as [o|e'| |] eqn:E2; cbn [alike] in *; auto.
  intros L. pose proof (finish_size dbg bs b NF F E1) as Z. specialize (S ltac:(lia)). pose proof (finish_sim dbg bs ts S) as Q. rewrite E1, E2 in Q. cbn [alike] in Q. destruct Q as (X & _ & R).
  destruct (R L) as (r & O & RP & _). split; [exact X|]. intros pre. pose proof (zlen_nonneg (b_buf bs)). exists (shift pre r). split; [apply open_shift; [lia|exact O]|]. intros fuel m. apply (rep_same anywhere false). now apply rep_shift.
Qed.
Lemma fb_finished_run es : forall s, b_finished (fst (run_catch WB s es)) = b_finished s.
Proof.
  induction es as [|e es IH]; intros s; [reflexivity|]. cbn [run_catch w_step flexb_writer]. assert (Q : b_finished (fst (fb_step dbg (srt _) s e)) = b_finished s).
  { destruct e; cbn [fb_step]; try reflexivity.
    - unfold fb_add_key. destruct (pool_find _ _ _); reflexivity.
    - unfold fb_end_array. destruct (b_st s) as [|[[] ?] ?]; reflexivity.
    - unfold fb_end_map. destruct (b_st s) as [|[[] ?] ?]; try reflexivity. destruct (fb_pairs _ _ _) as [[? ?]|?| |]; reflexivity. }
  destruct (fb_step _ _ s e) as [s' r]. specialize (IH s'). cbn [flexb_writer] in IH. destruct (run_catch _ s' es). cbn [fst] in *. congruence.
Qed.
Lemma run_is_catch {S O} (W : writer S O) es : forall s, snd (run W s es) = Ok tt -> fst (run_catch W s es) = fst (run W s es).
Proof.
  induction es as [|e es IH]; intros s H; [reflexivity|]. cbn [run run_catch] in *. destruct (w_step W s e) as [s' [u|x| |]]; try discriminate. specialize (IH s' H). destruct (run_catch W s' es). exact IH.
Qed.
Theorem histories es : Forall ev_ok es ->
  snd (run_catch WB (w_init WB) es) = snd (run_catch WT (w_init WT) es) /\
  alike (fun b o => zlen b < 2 ^ 62 -> reads_as b o) (snd (w_finish WB (fst (run_catch WB (w_init WB) es)))) (snd (w_finish WT (fst (run_catch WT (w_init WT) es)))).
Proof.
  intros EV. destruct (catch_like dbg (srt _) (srt _) es _ _ (likes_init dbg (srt _) (srt _))) as (R & K). split; [exact R|]. apply finish_agrees.
  - intros L. apply (catch_sim dbg srt KS es); auto. apply sim_init.
  - exact K.
  - apply (catch_well es); auto. apply well_init.
  - now rewrite fb_finished_run.
Qed.
Theorem histories_rep es : Forall ev_ok es ->
  alike (fun b o => zlen b < 2 ^ 62 -> exists r, rep aligned false b (flex_open o) r /\ stands b r) (snd (w_finish WB (fst (run_catch WB (w_init WB) es)))) (snd (w_finish WT (fst (run_catch WT (w_init WT) es)))).
Proof.
  intros EV. destruct (catch_like dbg (srt _) (srt _) es _ _ (likes_init dbg (srt _) (srt _))) as (R & K). pose proof (finish_like dbg _ _ K) as A.
  pose proof (catch_well es (w_init WB) EV well_init) as F. assert (NF : b_finished (fst (run_catch WB (w_init WB) es)) = false) by now rewrite fb_finished_run.
  pose proof (fun L => proj2 (catch_sim dbg srt KS es _ _ EV (sim_init dbg srt) L)) as S. cbn [w_finish flexb_writer flex_writer] in *.
  set (bs := fst (run_catch WB (w_init WB) es)) in *. set (ts := fst (run_catch WT (w_init WT) es)) in *.
  destruct (snd (fb_finish dbg bs)) as [b|e| |] eqn:E1, (snd (f_finish dbg ts)) as [o|e'| |] eqn:E2; cbn [alike] in *; auto.
  intros L. pose proof (finish_size dbg bs b NF (proj2 F) E1) as Z. specialize (S ltac:(lia)). pose proof (finish_sim dbg bs ts S) as Q. rewrite E1, E2 in Q. cbn [alike] in Q. destruct Q as (_ & _ & Q).
  destruct (Q L) as (r & _ & Q'). now exists r.
Qed.
Theorem histories_bytes es b : Forall ev_ok es -> snd (w_finish WB (fst (run_catch WB (w_init WB) es))) = Ok b -> bytes_ok b.
Proof. intros EV H. eapply finish_well; [|exact H]. apply catch_well; auto. apply well_init. Qed.
Theorem round_trip fuel v es : flex_ok v -> (64 <= fuel)%nat -> calls v es -> Forall ev_ok es ->
  exists s b, run WB (w_init WB) es = (s, Ok tt) /\ snd (w_finish WB s) = Ok b /\ bytes_ok b /\
    (zlen b < 2 ^ 62 -> forall pre, exists r, fb_open (pre ++ b) = Ok r /\ shows (flexb_reader (pre ++ b) fuel) flex_table r (in_key_order v)).
Proof.
  intros OK FU C EV. destruct (flex_round_trip dbg (srt fx) fuel v es (proj1 KS fx) OK FU C) as (ts & o & RT & FT & SH).
  destruct (run_like dbg (srt (bval * bval)) (srt fx) es _ _ (likes_init dbg (srt _) (srt _))) as (R & _). rewrite RT in R. cbn [snd] in R.
  pose proof (run_is_catch WB es (w_init WB) R) as CB. pose proof (run_is_catch WT es (w_init WT)) as CT. rewrite RT in CT. specialize (CT eq_refl). cbn [fst] in CT.
  destruct (histories es EV) as (_ & A). rewrite CT, FT in A. destruct (run WB (w_init WB) es) as [s r] eqn:RB. cbn [fst snd] in *. subst r. rewrite CB in A.
  destruct (snd (w_finish WB s)) as [b|e| |] eqn:FB; cbn [alike] in A; try contradiction. exists s, b. split; [reflexivity|]. split; [exact FB|]. split.
  - apply (histories_bytes es); auto. now rewrite CB.
  - intros L pre. destruct (A L) as (_ & Q). destruct (Q pre) as (rr & O & SM). exists rr. split; [exact O|]. eapply shows_same; [|exact SH]. intros m. apply SM.
Qed.
End Main.
