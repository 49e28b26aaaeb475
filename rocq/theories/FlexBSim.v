(** FlexBSim.v -- FlexBuffers as bytes: the byte builder follows the tree builder call by call. *)

From Coq Require Import ZArith List Bool Lia ZifyBool ZifyNat Permutation Sorted.
From Verif Require Import Base BaseFacts Spec SpecFacts FlexModel FlexSpec FlexFacts FlexBModel FlexBSpec FlexBFormat FlexBFacts FlexBWrite.
Import ListNotations.
Open Scope Z_scope.
Ltac Zify.zify_post_hook ::= idtac.

Lemma Forall2_get {A B} (P : A -> B -> Prop) l1 l2 : Forall2 P l1 l2 -> zlen l1 = zlen l2 /\ forall i y, get l2 i = Some y -> exists x, get l1 i = Some x /\ P x y.
Proof.
  induction 1 as [|x y l1 l2 H F (L & IH)]; [split; [reflexivity|]; intros i y G; apply get_some in G; change (zlen (@nil B)) with 0 in G; lia|].
  split; [rewrite !zlen_cons; lia|]. intros i z. rewrite !get_cons. destruct (i =? 0); [intros Q; injection Q as <-; eauto|apply IH].
Qed.
Lemma get_In {A} (l : list A) i x : get l i = Some x -> In x l.
Proof. unfold get. destruct (_ && _); [apply nth_error_In|discriminate]. Qed.
Lemma Forall2_in_l {A B} (P : A -> B -> Prop) l1 l2 : Forall2 P l1 l2 -> forall x, In x l1 -> exists y, P x y.
Proof. induction 1 as [|x y l1 l2 H F IH]; [easy|]. intros z [<-|Z]; eauto. Qed.
Lemma stored_range v w : 0 <= v_w v <= 3 -> 0 <= w <= 3 -> 0 <= stored_width v w <= 3.
Proof. intros A B. unfold stored_width. destruct (is_inline _); lia. Qed.
Lemma packed_back data pw v w : 0 <= v_w v <= 3 -> 0 <= w <= 3 -> packed_ref data pw (packed_type v w) = mkRef data pw (2 ^ stored_width v w) (v_ty v).
Proof.
  intros A B. pose proof (stored_range v w A B). unfold packed_ref, packed_type. replace (stored_width v w + 4 * v_ty v) with (stored_width v w + v_ty v * 4) by ring.
  rewrite Z.mod_add, Z.div_add by lia. rewrite Z.mod_small, Z.div_small by lia. reflexivity.
Qed.
Lemma get_lies B p x : get B p = Some x -> lies B p [x].
Proof. intros G. pose proof (get_some _ _ _ G) as R. unfold get in G. destruct (_ && _); [|discriminate]. apply nth_error_split in G. destruct G as (a & c & -> & L). exists a, c. split; [reflexivity|]. unfold zlen. lia. Qed.
Lemma lies_app B C p l : lies B p l -> lies (B ++ C) p l.
Proof. intros (a & c & -> & L). exists a, (c ++ C). now rewrite <- !app_assoc. Qed.
Lemma elem_rep buf rest sfx v vs u y n i : n = zlen vs -> get vs i = Some u -> holds buf u y -> 0 <= v_w v <= 3 -> aligned (v_u v) (2 ^ v_w v) ->
  fits u (v_w v) (v_u v + i * 2 ^ v_w v) -> has (buf ++ rest) (v_u v + i * 2 ^ v_w v) (write_any u (2 ^ v_w v) (v_u v + i * 2 ^ v_w v)) ->
  get (buf ++ rest) (v_u v + zlen vs * 2 ^ v_w v + i) = Some (packed_type u (v_w v)) ->
  exists r', elem_at ((buf ++ rest) ++ sfx) (v_u v) (2 ^ v_w v) n i r' /\ rep aligned false ((buf ++ rest) ++ sfx) y r'.
Proof.
  intros -> G HU W AL F H P. pose proof HU as (A1 & A2 & A3 & A4 & A5 & A6). eexists. split.
  - eexists. split; [|reflexivity]. apply lies_app, get_lies, P.
  - rewrite packed_back by assumption. rewrite <- app_assoc. apply A6; auto; [apply aligned_add; [lia|exact AL]|]. rewrite app_assoc. now apply has_app_l.
Qed.
Lemma create_grow buf len vs step typed keys : exists rest, fst (create_vector buf len vs step typed keys) = buf ++ rest.
Proof. unfold create_vector. cbv zeta. cbn [fst]. unfold align. destruct keys, typed; rewrite <- ?app_assoc; now eexists. Qed.

Lemma aligned_sub p w k : 0 <= w -> aligned p (2 ^ w) -> aligned (p - k * 2 ^ w) (2 ^ w).
Proof. intros W H. replace (p - k * 2 ^ w) with (p + (- k) * 2 ^ w) by ring. now apply aligned_add. Qed.
Lemma aligned_sub1 p w : 0 <= w <= 3 -> aligned p (2 ^ w) -> aligned (p - 2 ^ w) (2 ^ w).
Proof. intros W H. replace (p - 2 ^ w) with (p - 1 * 2 ^ w) by ring. apply aligned_sub; [lia|exact H]. Qed.
Lemma hold_vec buf vs xs buf' v : create_vector buf (zlen vs) vs 1 false None = (buf', v) -> Forall2 (holds buf) vs xs -> zlen buf' < 2 ^ 62 -> holds buf' v (XVec xs).
Proof.
  intros E F L. pose proof (zlen_nonneg vs) as V0. destruct (vector_spec _ _ _ _ _ _ _ _ E ltac:(lia) ltac:(lia) L (Forall2_in_l _ _ _ F) ltac:(discriminate)) as ((rest & ->) & W & T & U & AV & HS & LS & HE & _).
  cbn match in T. split; [exact T|]. split; [exact W|]. split; [lia|]. split; [auto|]. split; [exact I|]. intros sfx data w WR AL FI H. destruct (Forall2_get _ _ _ F) as (LE & GE).
  unfold fits, write_any in *. rewrite T in *. cbn [is_inline Z.leb Z.eqb Pos.eqb Z.compare Pos.compare Pos.compare_cont orb] in *.
  apply offset_read in H; [|assumption|assumption|assumption]. apply rep_vec. cbn [f_ty f_data f_pw f_bw]. split; [reflexivity|]. exists (v_u v). split; [exact H|].
  unfold stored_width. rewrite T. cbn [is_inline Z.leb Z.eqb Pos.eqb Z.compare Pos.compare Pos.compare_cont orb]. split.
  - rewrite <- LE. apply number_small; [exact W|now apply aligned_sub1|exact LS|]. now apply has_app_l.
  - intros i y G. destruct (GE i y G) as (u & GU & HU). destruct (HE i u GU) as (Q1 & Q2 & Q3). eapply elem_rep; eauto.
Qed.

(** Entries of a map *)
Definition entry (buf : bytes) (e : bytes * (bval * bval)) (kx : bytes * fx) : Prop :=
  fst e = fst kx /\ ~ In 0 (fst e) /\ has buf (v_u (fst (snd e))) (fst e ++ [0]) /\ (exists k, holds buf (fst (snd e)) (XKey k)) /\ holds buf (snd (snd e)) (snd kx).
Lemma pow_mod w : 0 <= w <= 3 -> 2 ^ w mod 256 = 2 ^ w.
Proof. intros W. pose proof (pow_range w W). apply Z.mod_small. lia. Qed.
Lemma hold_map buf l odd xs buf1 kv buf2 v : Forall2 (entry buf) l xs -> (forall u, In u odd -> exists x, holds buf u x) ->
  create_vector buf (zlen l) (map (fun x => fst (snd x)) l ++ odd) 2 true None = (buf1, kv) ->
  create_vector buf1 (zlen l) (map (fun x => snd (snd x)) l) 2 false (Some kv) = (buf2, v) -> zlen buf2 < 2 ^ 62 -> holds buf2 v (XMap xs).
Proof.
  intros F OD E1 E2 L2. pose proof (zlen_nonneg l) as L0. destruct (create_grow buf1 (zlen l) (map (fun x => snd (snd x)) l) 2 false (Some kv)) as (r2 & G2). rewrite E2 in G2. cbn [fst] in G2.
  assert (L1 : zlen buf1 < 2 ^ 62) by (rewrite G2, zlen_app in L2; pose proof (zlen_nonneg r2); lia).
  destruct (vector_spec _ _ _ _ _ _ _ _ E1) as ((rest1 & R1) & W1 & T1 & U1 & AV1 & HS1 & LS1 & HE1 & _); try lia; try discriminate.
  { rewrite zlen_app, zlen_map. pose proof (zlen_nonneg odd). lia. }
  { intros u U. apply in_app_iff in U. destruct U as [U|U]; [|now apply OD]. apply in_map_iff in U. destruct U as (e & <- & U). destruct (Forall2_in_l _ _ _ F e U) as (y & _ & _ & _ & (k & Q) & _). eauto. }
  cbn match in T1.
  destruct (vector_spec _ _ _ _ _ _ _ _ E2) as (_ & W2 & T2 & U2 & AV2 & HS2 & LS2 & HE2 & HK2); try lia.
  { rewrite zlen_map. lia. }
  { intros u U. apply in_map_iff in U. destruct U as (e & <- & U). destruct (Forall2_in_l _ _ _ F e U) as (y & _ & _ & _ & _ & Q). exists (snd y). rewrite R1. now apply holds_app. }
  { intros k Q. injection Q as <-. rewrite T1. auto. }
  cbn match in T2. destruct (HK2 kv eq_refl) as (HK1 & HKF & HKW). clear HK2. destruct (Forall2_get _ _ _ F) as (LE & GE).
  split; [exact T2|]. split; [exact W2|]. split; [lia|]. split; [auto|]. split; [exact I|]. intros sfx data w WR AL FI H.
  unfold fits, write_any in FI, H. rewrite T2 in FI, H. cbn [is_inline Z.leb Z.eqb Pos.eqb Z.compare Pos.compare Pos.compare_cont orb] in FI, H.
  apply offset_read in H; [|assumption|assumption|assumption]. unfold stored_width. rewrite T2. cbn [is_inline Z.leb Z.eqb Pos.eqb Z.compare Pos.compare Pos.compare_cont orb].
  apply rep_map. cbn [f_ty f_data f_pw f_bw]. split; [reflexivity|]. exists (v_u v), (v_u kv), (2 ^ v_w kv). rewrite <- LE.
  split; [exact H|]. split; [|split; [|split; [|split]]].
  - apply number_small; [exact W2|now apply aligned_sub1|exact LS2|]. now apply has_app_l.
  - eexists. split; [apply number_small; [exact W2|apply aligned_sub; [lia|exact AV2]|exact HKF|now apply has_app_l]|lia].
  - apply number_small; [exact W2|apply aligned_sub; [lia|exact AV2]| |now apply has_app_l]. pose proof (pow_range _ W1); cases4 (v_w v); pows; lia.
  - split.
    + rewrite zlen_map, <- LE. apply number_small; [exact W1|now apply aligned_sub1|exact LS1|]. rewrite G2. now apply has_app_l, has_app_l.
    + intros i k G. pose proof (get_some _ _ _ G) as GI. rewrite zlen_map, <- LE in GI.
      destruct (get_in xs i ltac:(lia)) as (y & GY). destruct (GE i y GY) as (e & GEe & (Q1 & Q2 & Q3 & (k' & Q4) & _)).
      assert (EK : k = fst e). { unfold get in G, GY. rewrite zlen_map in G. destruct (_ && _); [|discriminate]. rewrite nth_error_map, GY in G. cbn in G. congruence. }
      assert (GK : get (map (fun x => fst (snd x)) l ++ odd) i = Some (fst (snd e))).
      { rewrite get_app_l by (rewrite zlen_map; lia). unfold get in *. rewrite zlen_map. destruct ((0 <=? i) && (i <? zlen l)); [|discriminate]. rewrite nth_error_map, GEe. reflexivity. }
      destruct (HE1 i _ GK) as (FK & HK & _). destruct Q4 as (TK & _). unfold fits, write_any in FK, HK. rewrite TK in FK, HK. cbn [ty_of is_inline Z.leb Z.eqb Pos.eqb Z.compare Pos.compare Pos.compare_cont orb] in FK, HK.
      exists (v_u (fst (snd e))). split; [apply offset_read; [exact W1|exact FK|apply aligned_add; [lia|exact AV1]|rewrite G2; now apply has_app_l, has_app_l]|]. rewrite EK. split; [|exact Q2].
      apply lies_has. rewrite G2, R1. now apply has_app_l, has_app_l, has_app_l.
  - intros i y GY. destruct (GE i y GY) as (e & GEe & (Q1 & Q2 & Q3 & Q4 & Q5)).
    assert (GV : get (map (fun x => snd (snd x)) l) i = Some (snd (snd e))).
    { unfold get in *. rewrite zlen_map. destruct ((0 <=? i) && (i <? zlen l)); [|discriminate]. rewrite nth_error_map, GEe. reflexivity. }
    destruct (HE2 i _ GV) as (F1 & F2 & F3). rewrite G2 in *. eapply elem_rep; eauto; [now rewrite zlen_map|]. rewrite R1. now apply holds_app.
Qed.
Lemma pairs_sim dbg buf : forall n vs xs, (length vs <= n)%nat -> Forall2 (holds buf) vs xs ->
  match fb_pairs dbg buf vs, f_pairs dbg xs with
  | Ok (l, odd), Ok r => Forall2 (entry buf) l r /\ forall u, In u odd -> exists x, holds buf u x
  | Throw a, Throw b => a = b
  | UB, UB => True
  | _, _ => False
  end.
Proof.
  induction n as [|n IH]; intros vs xs LN F.
  - destruct vs; [|cbn in LN; lia]. inversion F; subst. cbn. split; [constructor|easy].
  - destruct F as [|v x vs xs H F]; [cbn; split; [constructor|easy]|]. destruct F as [|v2 x2 vs xs H2 F].
    + cbn [fb_pairs]. destruct x; cbn [f_pairs]; destruct dbg; auto; (split; [constructor|]; intros u [<-|[]]; eauto).
    + cbn [fb_pairs]. pose proof H as (T & _ & _ & _ & K & _). destruct x; cbn [ty_of] in T; rewrite T; cbn [Z.eqb Pos.eqb f_pairs]; try (destruct dbg; auto; fail).
      rewrite (proj2 (c_string_has buf (v_u v) (c_str k))) by (split; [apply c_str_nul|exact K]). cbn [bind].
      assert (LN' : (length vs <= n)%nat) by (cbn in LN; lia). specialize (IH vs xs LN' F).
      destruct (fb_pairs dbg buf vs) as [[l odd]|e| |], (f_pairs dbg xs) as [r|e'| |]; cbn [bind]; auto. destruct IH as (I1 & I2). split; [|exact I2]. constructor; [|exact I1].
      split; [reflexivity|]. split; [apply c_str_nul|]. split; [exact K|]. split; [now exists k|exact H2].
Qed.
Lemma sort_sim srt buf l r : key_sort srt -> Forall2 (entry buf) l r -> Forall2 (entry buf) (srt _ l) (srt _ r).
Proof.
  intros (KS & KN) F.
  assert (Z : exists z : list (bytes * ((bval * bval) * fx)), l = map (fun kx => (fst kx, fst (snd kx))) z /\ r = map (fun kx => (fst kx, snd (snd kx))) z /\
    Forall (fun kx => entry buf (fst kx, fst (snd kx)) (fst kx, snd (snd kx))) z).
  { induction F as [|[c e] [c' x] l r H F (z & -> & -> & FZ)]; [exists []; auto|]. pose proof H as (C & _). cbn in C. subst c'. exists ((c, (e, x)) :: z). cbn. repeat split; auto. }
  destruct Z as (z & -> & -> & FZ). rewrite (KN _ _ fst), (KN _ _ snd). destruct (KS _ z) as (P & _). apply Permutation_sym in P. eapply Permutation_Forall in FZ; [|exact P].
  clear - FZ. induction FZ as [|y zs H F IH]; cbn [map]; constructor; auto.
Qed.

(** ** Steps *)
Definition sim (bs : fbst) (ts : fst_) : Prop :=
  Forall2 (holds (b_buf bs)) (b_stack bs) (fs_stack ts) /\ b_st bs = fs_st ts /\ b_wrote bs = fs_wrote ts /\ b_finished bs = false /\ fs_finished ts = false.
Lemma holds_all buf rest l xs : Forall2 (holds buf) l xs -> Forall2 (holds (buf ++ rest)) l xs.
Proof. induction 1; constructor; auto. now apply holds_app. Qed.
Lemma Forall2_snoc {A B} (P : A -> B -> Prop) l1 l2 x y : Forall2 P l1 l2 -> P x y -> Forall2 P (l1 ++ [x]) (l2 ++ [y]).
Proof. intros F H. apply Forall2_app; auto. Qed.
Lemma Forall2_firstn' {A B} (P : A -> B -> Prop) n : forall l1 l2, Forall2 P l1 l2 -> Forall2 P (firstn n l1) (firstn n l2).
Proof. induction n as [|n IH]; intros l1 l2 F; [constructor|]. destruct F; cbn; constructor; auto. Qed.
Lemma Forall2_skipn' {A B} (P : A -> B -> Prop) n : forall l1 l2, Forall2 P l1 l2 -> Forall2 P (skipn n l1) (skipn n l2).
Proof. induction n as [|n IH]; intros l1 l2 F; [exact F|]. destruct F; cbn; auto. Qed.
Lemma zlen_F2 {A B} (P : A -> B -> Prop) l1 l2 : Forall2 P l1 l2 -> zlen l1 = zlen l2.
Proof. intros F. now destruct (Forall2_get _ _ _ F). Qed.

Section Steps.
Variables (dbg : bool) (srt : forall A, list (bytes * A) -> list (bytes * A)).
Local Notation WB := (flexb_writer dbg (srt (bval * bval))).
Local Notation WT := (flex_writer dbg (srt fx)).
Lemma step_grow bs e : exists rest, b_buf (fst (fb_step dbg (srt _) bs e)) = b_buf bs ++ rest.
Proof.
  assert (ID : exists rest, b_buf bs = b_buf bs ++ rest) by (exists []; now rewrite app_nil_r).
  assert (BL : forall s t ty, exists rest, fst (create_blob (b_buf bs) s t ty) = b_buf bs ++ rest) by (intros; unfold create_blob; cbv zeta; cbn [fst]; unfold align; rewrite <- !app_assoc; now eexists).
  destruct e; cbn [fb_step]; try exact ID.
  - specialize (BL s [0] 5). destruct (create_blob _ _ _ _). exact BL.
  - specialize (BL b [] 25). destruct (create_blob _ _ _ _). exact BL.
  - unfold fb_add_key. destruct (pool_find _ _ _); [exact ID|]. now eexists.
  - unfold fb_end_array. destruct (b_st bs) as [|[[] st] ?]; try exact ID. pose proof (create_grow (b_buf bs) (zlen (skipn (Z.to_nat st) (b_stack bs))) (skipn (Z.to_nat st) (b_stack bs)) 1 false None) as G.
    destruct (create_vector _ _ _ _ _ _). exact G.
  - unfold fb_end_map. destruct (b_st bs) as [|[[] st] sts]; try exact ID. destruct (fb_pairs _ _ _) as [[l odd]|e| |]; try exact ID.
    destruct (create_vector (b_buf bs) _ _ _ _ _) as [buf1 kv] eqn:E1. destruct (create_vector buf1 _ _ _ _ _) as [buf2 v] eqn:E2. cbn [fst b_buf].
    pose proof (create_grow (b_buf bs) (zlen (srt _ l)) (map (fun x => fst (snd x)) (srt _ l) ++ odd) 2 true None) as (r1 & G1). rewrite E1 in G1.
    pose proof (create_grow buf1 (zlen (srt _ l)) (map (fun x => snd (snd x)) (srt _ l)) 2 false (Some kv)) as (r2 & G2). rewrite E2 in G2. cbn [fst] in G1, G2. subst. exists (r1 ++ r2). now rewrite app_assoc.
Qed.
Lemma run_grow es : forall bs, exists rest, b_buf (fst (run WB bs es)) = b_buf bs ++ rest.
Proof.
  induction es as [|e es IH]; intros bs; cbn [run]; [exists []; now rewrite app_nil_r|]. cbn [w_step flexb_writer]. destruct (step_grow bs e) as (r & G).
  destruct (fb_step _ _ bs e) as [bs' [u|x| |]]; cbn [fst] in *; try (exists r; exact G). destruct (IH bs') as (r' & ->). rewrite G, <- app_assoc. now eexists.
Qed.
Lemma push_sim bs ts rest v x : sim bs ts -> holds (b_buf bs ++ rest) v x ->
  snd (fb_push (b_buf bs ++ rest) v bs) = snd (f_push x ts) /\ sim (fst (fb_push (b_buf bs ++ rest) v bs)) (fst (f_push x ts)).
Proof.
  intros (F & ST & WR & B1 & B2) H. unfold fb_push, f_push. cbn [fst snd]. split; [reflexivity|]. split; [|cbn; auto]. cbn [b_buf b_stack fs_stack]. apply Forall2_snoc; [now apply holds_all|exact H].
Qed.
Lemma push_same bs ts v x : sim bs ts -> holds (b_buf bs) v x -> snd (fb_push (b_buf bs) v bs) = snd (f_push x ts) /\ sim (fst (fb_push (b_buf bs) v bs)) (fst (f_push x ts)).
Proof. intros S H. pose proof (push_sim bs ts [] v x S) as Q. rewrite app_nil_r in Q. now apply Q. Qed.
Hypothesis KS : key_sort srt.
Lemma step_sim bs ts e : ev_ok e -> sim bs ts -> zlen (b_buf (fst (fb_step dbg (srt _) bs e))) < 2 ^ 62 ->
  snd (fb_step dbg (srt _) bs e) = snd (f_step dbg (srt _) ts e) /\ sim (fst (fb_step dbg (srt _) bs e)) (fst (f_step dbg (srt _) ts e)).
Proof.
  intros EV S L. pose proof S as (F & ST & WR & B1 & B2). destruct e; cbn [ev_ok] in EV; cbn [fb_step f_step] in *.
  - apply push_same; auto. apply hold_null.
  - apply push_same; auto. apply hold_bool.
  - apply push_same; auto. now apply hold_int.
  - apply push_same; auto. now apply hold_uint.
  - apply push_same; auto. now apply hold_dbl.
  - destruct (create_blob (b_buf bs) s [0] 5) as [buf v] eqn:E. destruct (hold_blob _ _ _ _ _ E (or_introl (conj eq_refl eq_refl)) L) as ((r & G) & H). cbn [fst snd] in *. subst buf. now apply push_sim.
  - destruct (create_blob (b_buf bs) b [] 25) as [buf v] eqn:E. destruct (hold_blob _ _ _ _ _ E (or_intror (conj eq_refl eq_refl)) L) as ((r & G) & H). cbn [fst snd] in *. subst buf. now apply push_sim.
  - unfold fb_add_key, f_key in *. destruct (pool_find _ _ _) as [p|] eqn:P; cbn [fst snd b_buf] in *; (split; [reflexivity|]); (split; [|cbn; auto]); cbn [b_buf b_stack fs_stack].
    + apply Forall2_snoc; [exact F|]. apply hold_key. unfold pool_find in P. apply find_some in P. destruct P as (_ & P). destruct (c_string _ p) as [k'|x| |] eqn:C; try discriminate.
      apply beq_eq in P. subst k'. now apply c_string_has in C.
    + apply Forall2_snoc; [now apply holds_all|]. apply hold_key. destruct (c_str_start k) as (t & Q). rewrite Q. apply has_mid.
  - unfold fb_begin, f_begin. cbn [fst snd]. split; [reflexivity|]. repeat split; cbn; auto. now rewrite ST, (zlen_F2 _ _ _ F).
  - unfold fb_end_array, f_end_array in *. rewrite ST in *. destruct (fs_st ts) as [|[[] st] sts]; cbn [fst snd]; auto.
    destruct (create_vector _ _ _ _ _ _) as [buf v] eqn:E. cbn [fst snd b_buf] in *. split; [reflexivity|].
    destruct (create_grow (b_buf bs) (zlen (skipn (Z.to_nat st) (b_stack bs))) (skipn (Z.to_nat st) (b_stack bs)) 1 false None) as (r & G). rewrite E in G. cbn [fst] in G.
    split; [|cbn; auto]. cbn [b_buf b_stack fs_stack]. apply Forall2_snoc.
    + apply Forall2_firstn'. rewrite G. now apply holds_all.
    + eapply hold_vec; eauto. now apply Forall2_skipn'.
  - unfold fb_begin, f_begin. cbn [fst snd]. split; [reflexivity|]. repeat split; cbn; auto. now rewrite ST, (zlen_F2 _ _ _ F).
  - unfold fb_end_map, f_end_map in *. rewrite ST in *. destruct (fs_st ts) as [|[[] st] sts]; cbn [fst snd]; auto.
    pose proof (pairs_sim dbg (b_buf bs) _ _ _ (le_n _) (Forall2_skipn' _ (Z.to_nat st) _ _ F)) as P.
    destruct (fb_pairs _ _ _) as [[l odd]|x| |], (f_pairs _ _) as [r|x'| |]; try contradiction; cbn [fst snd]; auto; [|subst; auto].
    destruct P as (P & OD). apply (sort_sim srt _ _ _ KS) in P.
    destruct (create_vector (b_buf bs) _ _ _ _ _) as [buf1 kv] eqn:E1. destruct (create_vector buf1 _ _ _ _ _) as [buf2 v] eqn:E2. cbn [fst snd b_buf] in *. split; [reflexivity|].
    pose proof (create_grow (b_buf bs) (zlen (srt _ l)) (map (fun x => fst (snd x)) (srt _ l) ++ odd) 2 true None) as (r1 & G1). rewrite E1 in G1.
    pose proof (create_grow buf1 (zlen (srt _ l)) (map (fun x => snd (snd x)) (srt _ l)) 2 false (Some kv)) as (r2 & G2). rewrite E2 in G2. cbn [fst] in G1, G2.
    split; [|cbn; auto]. cbn [b_buf b_stack fs_stack]. apply Forall2_snoc.
    + apply Forall2_firstn'. rewrite G2, G1, <- app_assoc. now apply holds_all.
    + eapply hold_map; eauto.
Qed.
Lemma run_sim es : forall bs ts, Forall ev_ok es -> sim bs ts -> zlen (b_buf (fst (run WB bs es))) < 2 ^ 62 ->
  snd (run WB bs es) = snd (run WT ts es) /\ sim (fst (run WB bs es)) (fst (run WT ts es)).
Proof.
  induction es as [|e es IH]; intros bs ts EV S L; [cbn; auto|]. apply Forall_cons_iff in EV. destruct EV as [E EV]. cbn [run w_step flexb_writer flex_writer] in *.
  assert (L1 : zlen (b_buf (fst (fb_step dbg (srt _) bs e))) < 2 ^ 62).
  { destruct (fb_step _ _ bs e) as [bs' [u|x| |]]; cbn [fst] in *; auto. destruct (run_grow es bs') as (r & G). cbn [flexb_writer] in G. rewrite G, zlen_app in L. pose proof (zlen_nonneg r). lia. }
  destruct (step_sim bs ts e E S L1) as (R & S'). destruct (fb_step _ _ bs e) as [bs' r], (f_step _ _ ts e) as [ts' r']. cbn [fst snd] in *. subst r'.
  destruct r as [u|x| |]; cbn [fst snd]; auto.
Qed.
Lemma catch_grow es : forall bs, exists rest, b_buf (fst (run_catch WB bs es)) = b_buf bs ++ rest.
Proof.
  induction es as [|e es IH]; intros bs; cbn [run_catch]; [exists []; now rewrite app_nil_r|]. cbn [w_step flexb_writer]. destruct (step_grow bs e) as (r & G).
  destruct (fb_step _ _ bs e) as [bs' o]. destruct (IH bs') as (r' & G'). cbn [flexb_writer] in G'. destruct (run_catch _ bs' es). cbn [fst] in *. rewrite G', G, <- app_assoc. now eexists.
Qed.
Lemma catch_sim es : forall bs ts, Forall ev_ok es -> sim bs ts -> zlen (b_buf (fst (run_catch WB bs es))) < 2 ^ 62 ->
  snd (run_catch WB bs es) = snd (run_catch WT ts es) /\ sim (fst (run_catch WB bs es)) (fst (run_catch WT ts es)).
Proof.
  induction es as [|e es IH]; intros bs ts EV S L; [cbn; auto|]. apply Forall_cons_iff in EV. destruct EV as [E EV]. cbn [run_catch w_step flexb_writer flex_writer] in *.
  assert (L1 : zlen (b_buf (fst (fb_step dbg (srt _) bs e))) < 2 ^ 62).
  { destruct (fb_step _ _ bs e) as [bs' o]. destruct (catch_grow es bs') as (r & G). cbn [flexb_writer] in G. destruct (run_catch _ bs' es). cbn [fst] in *. rewrite G, zlen_app in L. pose proof (zlen_nonneg r). lia. }
  destruct (step_sim bs ts e E S L1) as (R & S'). destruct (fb_step _ _ bs e) as [bs' r], (f_step _ _ ts e) as [ts' r']. cbn [fst snd] in *. subst r'.
  specialize (IH bs' ts' EV S'). cbn [flexb_writer flex_writer] in IH. destruct (run_catch _ bs' es), (run_catch _ ts' es). cbn [fst snd] in *. destruct (IH L) as (-> & ?). auto.
Qed.
Lemma sim_init : sim (w_init WB) (w_init WT).
Proof. repeat split; constructor. Qed.
End Steps.

(** ** Finishing *)
(** The reference is the root of the bytes. *)
Definition stands (b : bytes) (r : fref) : Prop := exists w t, lies b (zlen b - 2) [t; w] /\ r = packed_ref (zlen b - 2 - w) w t.
Lemma root_rep buf v x : holds buf v x ->
  let w := elem_width v (zlen buf) 0 in let b := align buf w ++ write_any v (2 ^ w) (zlen (align buf w)) ++ [packed_type v 0; 2 ^ w] in
  zlen b < 2 ^ 62 -> exists r, fb_open b = Ok r /\ rep aligned false b x r /\ stands b r.
Proof.
  intros H w b L. pose proof H as (T & W & D & U & K & R). assert (W' : 0 <= w <= 3) by (now apply elem_width_range). pose proof (pow_range w W') as PW. pose proof (zlen_nonneg buf).
  assert (IW : is_inline (v_ty v) = true -> w = v_w v) by (intros I; unfold w, elem_width; now rewrite I).
  assert (LW : zlen (write_any v (2 ^ w) (zlen (align buf w))) = 2 ^ w) by (apply write_any_len; [exact W'|]; intros Q; rewrite IW; [now apply D|]; now rewrite Q).
  pose proof (align_len buf w W') as LA. pose proof (padding_range (zlen buf) w ltac:(lia)) as PA.
  assert (LB : zlen b = zlen (align buf w) + 2 ^ w + 2) by (unfold b; rewrite !zlen_app, LW, !zlen_cons, zlen_nil; lia).
  assert (HT : has b (zlen b - 2) [packed_type v 0; 2 ^ w]).
  { replace (zlen b - 2) with (zlen (align buf w ++ write_any v (2 ^ w) (zlen (align buf w)))) by (rewrite LB, zlen_app, LW; lia). unfold b. rewrite app_assoc. apply has_end. }
  assert (ST : lies b (zlen b - 2) [packed_type v 0; 2 ^ w]) by (apply lies_has, HT).
  unfold fb_open. replace (zlen b =? 0) with false by lia. pose proof (has_rd _ _ _ _ HT) as R1. apply (has_app b (zlen b - 2) [packed_type v 0] [2 ^ w]) in HT. destruct HT as (_ & HT).
  replace (zlen b - 2 + zlen [packed_type v 0]) with (zlen b - 1) in HT by (rewrite zlen_cons, zlen_nil; lia). apply has_rd in HT. rewrite HT. cbn [bind]. rewrite R1. cbn [bind].
  eexists. split; [reflexivity|]. split; [|exists (2 ^ w), (packed_type v 0); split; [exact ST|reflexivity]]. clear ST. rewrite packed_back by lia. replace (zlen b - 2 - 2 ^ w) with (zlen (align buf w)) by lia.
  replace (stored_width v 0) with (stored_width v w) by (unfold stored_width; destruct (is_inline (v_ty v)); [rewrite IW by reflexivity; lia|reflexivity]).
  assert (EB : b = buf ++ (repeat 0 (Z.to_nat (padding (zlen buf) (2 ^ w))) ++ write_any v (2 ^ w) (zlen (align buf w)) ++ [packed_type v 0; 2 ^ w])) by (unfold b, align; now rewrite <- app_assoc).
  assert (HB : has b (zlen (align buf w)) (write_any v (2 ^ w) (zlen (align buf w)))) by (unfold b; apply has_mid).
  pose proof (align_aligned buf w W') as AL. rewrite EB in *. apply R; auto. unfold fits. destruct (is_inline (v_ty v)) eqn:I; [rewrite IW by reflexivity; lia|]. rewrite LA.
  replace (zlen buf + padding (zlen buf) (2 ^ w)) with (zlen buf + padding (zlen buf) (2 ^ w) + 0 * 2 ^ w) by ring. apply elem_fits with (idx := 0); auto; try lia.
Qed.
Lemma finish_sim dbg bs ts : sim bs ts ->
  alike (fun b o => (exists x, o = Some x) /\ zlen (b_buf bs) <= zlen b /\ (zlen b < 2 ^ 62 -> exists r, fb_open b = Ok r /\ rep aligned false b (flex_open o) r /\ stands b r)) (snd (fb_finish dbg bs)) (snd (f_finish dbg ts)).
Proof.
  intros (F & ST & WR & B1 & B2). unfold fb_finish, f_finish. rewrite B1, B2, WR. cbn [snd].
  assert (FX : Forall2 (holds (b_buf bs)) (if fs_wrote ts then b_stack bs else b_stack bs ++ [mkBv 0 0 0]) (if fs_wrote ts then fs_stack ts else fs_stack ts ++ [XNull])).
  { destruct (fs_wrote ts); [exact F|]. apply Forall2_snoc; [exact F|apply hold_null]. }
  set (st1 := if fs_wrote ts then b_stack bs else _) in *. set (st2 := if fs_wrote ts then fs_stack ts else _) in *. clearbody st1 st2.
  assert (R : forall v x, holds (b_buf bs) v x -> let w := elem_width v (zlen (b_buf bs)) 0 in let b := align (b_buf bs) w ++ write_any v (2 ^ w) (zlen (align (b_buf bs) w)) ++ [packed_type v 0; 2 ^ w] in
     (exists y, Some x = Some y) /\ zlen (b_buf bs) <= zlen b /\ (zlen b < 2 ^ 62 -> exists r, fb_open b = Ok r /\ rep aligned false b x r /\ stands b r)).
  { intros v x H w b. split; [now exists x|]. split; [|now apply root_rep]. unfold b, align. rewrite !zlen_app. repeat match goal with |- context [zlen ?l] => lazymatch goal with Q : 0 <= zlen l |- _ => fail | _ => pose proof (zlen_nonneg l) end end. lia. }
  destruct FX as [|v x l1 l2 H FX]; [cbn; destruct dbg; cbn; auto|]. destruct FX as [|v2 x2 l1 l2 H2 FX]; cbn [fb_root f_root]; [|destruct dbg]; cbn [bind alike flex_open]; auto; now apply R.
Qed.

(** ** Two readers that answer alike show the same values *)
Lemma shows_same {V1 V2} (R1 : reader V1) (R2 : reader V2) T : forall v w1 w2, (forall n, same n R1 R2 w1 w2) -> shows R2 T w2 v -> shows R1 T w1 v.
Proof.
  assert (IDX : forall w1 w2, (forall n, same n R1 R2 w1 w2) -> forall i w, 0 <= i -> r_idx R2 w2 i = Ok w -> exists w', r_idx R1 w1 i = Ok w' /\ forall n, same n R1 R2 w' w).
  { intros w1 w2 S i w Hi E. assert (Q : forall n, alike (same n R1 R2) (r_idx R1 w1 i) (Ok w)) by (intros n; rewrite <- E; specialize (S (Datatypes.S n)); cbn [same] in S; decompose [and] S; auto).
    destruct (r_idx R1 w1 i) as [w'|e| |]; [|destruct (Q O)..]. exists w'. split; [reflexivity|exact Q]. }
  assert (KEY : forall w1 w2, (forall n, same n R1 R2 w1 w2) -> forall k w, r_key R2 w2 k = Ok w -> exists w', r_key R1 w1 k = Ok w' /\ forall n, same n R1 R2 w' w).
  { intros w1 w2 S k w E. assert (Q : forall n, alike (same n R1 R2) (r_key R1 w1 k) (Ok w)) by (intros n; rewrite <- E; specialize (S (Datatypes.S n)); cbn [same] in S; decompose [and] S; auto).
    destruct (r_key R1 w1 k) as [w'|e| |]; [|destruct (Q O)..]. exists w'. split; [reflexivity|exact Q]. }
  assert (THR : forall (a : res V1) (e : exn), alike (same 0 R1 R2) a (Throw e) -> a = Throw e) by (intros a ex Q; destruct a; cbn in Q; try contradiction; now subst).
  assert (OBS : forall w1 w2 t, same 1 R1 R2 w1 w2 -> observes R2 w2 t -> observes R1 w1 t).
  { intros w1 w2 t S O. cbn [same] in S. unfold observes in *. destruct S as (E1 & E2 & E3 & E4 & E5 & E6 & E7 & E8 & E9 & E10 & E11 & E12 & E13 & E14 & E15 & E16 & _).
    rewrite E1, E2, E3, E4, E5, E6, E7, E8, E9, E10, E13, E14, E15, E16. decompose [and] O. repeat split; auto; intros iw; [rewrite E11|rewrite E12]; auto. }
  assert (OTHER : forall w1 w2, same 1 R1 R2 w1 w2 -> r_arraySize R1 w1 = r_arraySize R2 w2 /\ (forall k, r_contains R1 w1 k = r_contains R2 w2 k) /\ r_mapKeys R1 w1 = r_mapKeys R2 w2 /\
    (forall i, 0 <= i -> alike (same 0 R1 R2) (r_idx R1 w1 i) (r_idx R2 w2 i)) /\ (forall k, alike (same 0 R1 R2) (r_key R1 w1 k) (r_key R2 w2 k))).
  { intros w1 w2 S. cbn [same] in S. destruct S as (_ & _ & _ & _ & _ & _ & _ & _ & _ & _ & _ & _ & _ & _ & _ & _ & S). exact S. }
  intros v. induction v as [|b|z|z|d|s|s|l IH|l IH] using val_ind'; intros w1 w2 S SH; pose proof (OTHER _ _ (S 1%nat)) as (O1 & O2 & O3 & O4 & O5); cbn [shows] in *; destruct SH as (OB & SH); (split; [eapply OBS; eauto|]).
  all: try (destruct SH as (A1 & A2 & A3 & A4 & A5); rewrite O1, O3; repeat split; auto; [intros i Hi; apply THR; rewrite <- (A2 i Hi); apply O4; lia|intros k; apply THR; rewrite <- (A3 k); apply O5|intros k; now rewrite O2]).
  - destruct SH as (A1 & A2 & A3 & A4 & A5 & A6). pose proof (zlen_nonneg l) as L0. rewrite O1, O3. split; [exact A1|]. split; [intros i Hi; apply THR; rewrite <- (A2 i Hi); apply O4; lia|]. split; [|split; [|split]].
    + clear A1 A2 L0 OB. remember 0 as j eqn:J in A3 |- *. assert (I0 : 0 <= j) by lia. clear J. revert j A3 I0. induction IH as [|x l H IH IH2]; intros i A3 I0; [exact I|]. destruct A3 as ((w & E & SW) & A3). split; [|apply IH2; [exact A3|lia]].
      destruct (IDX _ _ S i w I0 E) as (w' & E' & S'). exists w'. split; [exact E'|]. eapply H; eauto.
    + intros k. apply THR. rewrite <- (A4 k). apply O5.
    + intros k. now rewrite O2.
    + exact A6.
  - destruct SH as (A1 & A2 & A3 & A4 & A5 & A6). rewrite O1, O3. split; [exact A1|]. split; [intros k Hk; rewrite O2; auto|]. split; [intros k Hk NI; apply THR; rewrite <- (A3 k Hk NI); apply O5|]. split; [|split].
    + clear A1 A2 A3 OB. revert A4. generalize (@nil bytes). induction IH as [|[k x] l H IH IH2]; intros seen A4; [exact I|]. destruct A4 as (E & A4). split; [|now apply IH2].
      intros NS. destruct (E NS) as (w & E' & SW). destruct (KEY _ _ S k w E') as (w' & E2 & S'). exists w'. split; [exact E2|]. eapply H; eauto.
    + exact A5.
    + intros i Hi. apply THR. rewrite <- (A6 i Hi). apply O4. lia.
Qed.

