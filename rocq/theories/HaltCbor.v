(** HaltCbor.v -- the CBOR reader comes to an end on messages without 64-bit lengths of 2^63 or more. *)

From Coq Require Import ZArith List Bool Lia ZifyBool ZifyNat.
From Verif Require Import Base BaseFacts Spec SpecFacts CborModel CborSpec CborFacts CborRead CborSafe LookCbor HaltFacts.
Import ListNotations.
Open Scope Z_scope.

(** No 64-bit argument has its top bit set: after an initial byte announcing eight argument bytes (27, 59, 91, .. 219; not the
    floating-point 251) comes a byte below 128. *)
Definition small_args (b : bytes) : Prop := forall p m y, slice b p 2 = [m; y] -> 0 <= p -> m < 224 -> m mod 32 = 27 -> y < 128.

Section Buf.
  Variable b : bytes.
  Hypothesis B : bytes_ok b.
  Hypothesis HB : zlen b < 2^63.
  Hypothesis SA : small_args b.

  Lemma small_val p m v : has b p (m :: be 8 v) -> 0 <= v < 2^64 -> m < 224 -> m mod 32 = 27 -> v < 2^63.
  Proof.
    intros H V M1 M2. change (be 8 v) with (((v / 256 ^ Z.of_nat 7) mod 256) :: be 7 v) in H.
    change (m :: ?y :: ?l) with ([m; y] ++ l) in H. apply has_app in H. destruct H as [(P & _ & E) _].
    pose proof (SA p m _ E P M1 M2) as K. change (256 ^ Z.of_nat 7) with (2^56) in K. clear - K V. Z.div_mod_to_equations. lia.
  Qed.
  Lemma small_no_huge : no_huge b.
  Proof.
    intros p m n P M N E. assert (L : zlen (slice b p 9) = 9) by (rewrite E; reflexivity).
    assert (LB : p + 9 <= zlen b). { unfold zlen, slice in L. rewrite firstn_length, skipn_length in L. unfold zlen. lia. }
    apply (small_val p m n); [|exact N|lia|destruct M as [-> | ->]; reflexivity]. split; [exact P|]. split; [exact LB|exact E].
  Qed.

  Lemma getbe_halts p n : (n <= 8)%nat -> 0 <= p <= zlen b -> halts (fun v => p + Z.of_nat n <= zlen b /\ 0 <= v < 256 ^ Z.of_nat n /\ has b p (be n v)) (get_be b p n 0).
  Proof.
    intros N P. destruct (Z_le_gt_dec (p + Z.of_nat n) (zlen b)) as [L|L].
    - destruct (get_be_at b p n B N ltac:(lia) L) as (v & -> & H & R). cbn. auto.
    - rewrite (get_be_ub b n p 0) by lia. exact I.
  Qed.
  Definition head_ok (p : Z) (h : chead) : Prop := p < zlen b /\ 1 <= h_len h /\ p + h_len h <= zlen b + 1 /\ 0 <= h_val h < 2^63.
  Lemma khead_halts p : 0 <= p -> halts (head_ok p) (k_read_head b p).
  Proof.
    intros P. unfold k_read_head. destruct (rd b p) as [x|?| |] eqn:RX; cbn [bind]; try exact I; [|pose proof (halts_rd b p) as K; rewrite RX in K; destruct K].
    assert (PL := rd_inv _ _ _ RX). assert (BX := rd_byte _ _ _ B RX). destruct (byte_head x BX) as (M & A & X). cbv zeta.
    set (m := Z.shiftr x 5) in *. set (a := Z.land x 31) in *.
    assert (K : forall ad v l i, 1 <= l -> p + l <= zlen b + 1 -> 0 <= v < 2^63 -> halts (head_ok p) (Ok (mkHead m ad v l i))) by (intros; cbn; unfold head_ok; cbn; lia).
    destruct (m =? 7) eqn:E7; [repeat (apply halts_if; intros _); apply K; lia|].
    apply halts_if; intros _; [apply K; lia|]. apply halts_if; intros _.
    { destruct (rd b (p + 1)) as [y|?| |] eqn:RY; cbn [bind]; try exact I; [|pose proof (halts_rd b (p + 1)) as H; rewrite RY in H; destruct H].
      assert (YL := rd_inv _ _ _ RY). assert (BY := rd_byte _ _ _ B RY). unfold is_byte in BY. apply K; lia. }
    apply halts_if; intros _; [hb (apply (getbe_halts (p + 1) 2); lia); cbn in *; apply K; lia|].
    apply halts_if; intros _; [hb (apply (getbe_halts (p + 1) 4); lia); cbn in *; apply K; lia|].
    apply halts_if; intros A27.
    { hb (apply (getbe_halts (p + 1) 8); lia). destruct H0 as (L & R & HH). cbn in L. change (256 ^ Z.of_nat 8) with (2^64) in R.
      apply K; [lia|lia|]. split; [lia|]. apply rd_has in RX.
      apply (small_val p x a0); [apply has_cons; auto|lia|lia|]. rewrite X. replace a with 27 by lia. clear. Z.div_mod_to_equations. lia. }
    apply halts_if; intros _; apply K; lia.
  Qed.
  Lemma head_halts p : 0 <= p -> halts (head_ok p) (read_head b p).
  Proof.
    intros P. apply halts_both; [|intros h E; apply head_agree in E; exact (halts_ok _ _ _ (khead_halts p P) E)].
    pose proof (out_head true true b p B P) as O. exact (out_fuel _ _ _ O).
  Qed.

  Local Notation rest := (rest b).
  (** ** The unchecked skip of KeysView *)
  Definition on (p r : Z) : Prop := p < zlen b /\ p < r.
  Lemma kchunk_halts q : 0 <= q -> halts (either (fun q' => q < q' /\ q < zlen b) (fun r => q < r)) (k_chunk b q).
  Proof.
    intros Q. unfold k_chunk. hb (apply halts_rd). apply halts_if; intros _; [cbn; lia|].
    hb (apply khead_halts, Q). destruct H2 as (H1' & H2' & H3' & H4'). cbn [halts either]. rewrite (wrap64_small (h_len a0 + h_val a0)) by lia. rewrite wrap64_small by lia. lia.
  Qed.
  Lemma kuntil_halts step q : 0 <= q -> halts (on q) (step q) -> halts (either (fun q' => q < q' /\ q < zlen b) (fun r => q < r)) (k_until b step q).
  Proof.
    intros Q ST. unfold k_until. hb (apply halts_rd). apply halts_if; intros _; [cbn; lia|]. hb (exact ST). cbn. destruct H2. lia.
  Qed.
  Lemma loop_halts (step : Z -> res (Z + Z)) p : (forall q, p < q -> halts (either (fun q' => q < q' /\ q < zlen b) (fun r => q < r)) (step q)) ->
    forall n q, p < q -> rest q < Z.of_nat n -> halts (fun r => p < r) (floop n step q).
  Proof.
    intros H n q Q L. apply (halts_floop (fun q => p < q) rest); [intros; unfold CborSafe.rest; lia| |exact Q|exact L].
    intros s S. eapply halts_impl; [|apply H, S]. intros [s'|r] K; cbn in *; unfold CborSafe.rest; lia.
  Qed.
  Lemma times_halts (step : Z -> res Z) n p : (forall q, p < q -> halts (fun r => q < r) (step q)) -> forall q, p < q -> halts (fun r => p < r) (times n step q).
  Proof.
    intros H q Q. unfold times. eapply (halts_bind (either (fun q => p < q) any)); [|intros [s|?] _ E; [exact E|exact I]].
    apply halts_zloop; [|exact Q]. intros s S. hb (apply H, S). cbn. lia.
  Qed.
  Lemma kskip_halts : forall f p, 0 <= p -> rest p < Z.of_nat f -> halts (on p) (k_skip f b p).
  Proof.
    induction f as [|f IH]; intros p P F; [unfold CborSafe.rest in F; lia|]. rewrite k_skip_S. hb (apply khead_halts, P). destruct H0 as (H1 & H2 & H3 & H4). cbv zeta.
    set (q := p + h_len a) in *. assert (Q : p < q) by (unfold q; lia).
    apply (halts_impl (fun r => p < r)); [unfold on; lia|].
    assert (SK : forall q', p < q' -> halts (on q') (k_skip f b q')) by (intros q' Q'; apply IH; [lia|clear - F Q' H1; unfold CborSafe.rest in *; lia]).
    assert (SK1 : forall q', p < q' -> halts (fun r => q' < r) (k_skip f b q')) by (intros q' Q'; eapply halts_impl; [|apply SK, Q']; unfold on; lia).
    assert (SK2 : forall q', p < q' -> halts (on q') (q1 <- k_skip f b q' ;; k_skip f b q1)).
    { intros q' Q'. hb (apply SK, Q'). eapply halts_impl; [|apply SK1; unfold on in *; lia]. unfold on in *. lia. }
    assert (FQ : rest q < Z.of_nat f) by (unfold CborSafe.rest in *; lia).
    repeat (apply halts_if; intros ?); try (cbn; lia).
    - cbn [halts]. rewrite wrap64_small by (unfold q; lia). unfold q. lia.
    - apply (loop_halts _ p); [intros q' Q'; apply kchunk_halts; lia|exact Q|exact FQ].
    - now apply times_halts.
    - apply (loop_halts _ p); [intros q' Q'; apply kuntil_halts; [lia|now apply SK]|exact Q|exact FQ].
    - apply times_halts; [|exact Q]. intros q' Q'. eapply halts_impl; [|apply SK2, Q']. unfold on. lia.
    - apply (loop_halts _ p); [intros q' Q'; apply kuntil_halts; [lia|now apply SK2]|exact Q|exact FQ].
    - eapply halts_impl; [|apply SK, Q]. unfold on. lia.
  Qed.

  Variable fuel : nat.
  Hypothesis FU : zlen b < Z.of_nat fuel.
  Lemma rest_fuel p : 0 <= p -> rest p < Z.of_nat fuel.
  Proof. intros P. pose proof (zlen_nonneg b). unfold CborSafe.rest. lia. Qed.
  Lemma skip_halts p : 0 <= p -> halts (on p) (skip fuel b p).
  Proof.
    intros P. assert (O : outcome true true (lands true b p) (skip fuel b p)) by (apply (out_skip true true b B HB); [intros _; exact small_no_huge|exact P|intros _; now apply rest_fuel]).
    apply halts_both; [exact (out_fuel _ _ _ O)|]. intros r E. rewrite E in O. destruct O as [O1 O2]. specialize (O2 eq_refl). unfold on. lia.
  Qed.

  (** ** Strings and bytes *)
  Variable hard : bool.
  Lemma addr_halts q : halts any (addr hard b q).
  Proof. unfold addr. hany. Qed.
  Lemma mkstr_halts q n : halts any (mk_string b q n).
  Proof. unfold mk_string. hany. Qed.
  Lemma asString_halts p : 0 <= p -> halts any (c_asString hard fuel (mkCView b p)).
  Proof.
    intros P. unfold c_asString, chd. cbn [cv_buf cv_pos]. hb (apply head_halts, P). destruct H0 as (H1 & H2 & H3 & H4). apply halts_req. intros _. cbv zeta.
    apply halts_if; intros _; [apply halts_req; intros _; hb (apply addr_halts); apply mkstr_halts|].
    apply (halts_floop (fun s => 0 <= fst s) (fun s => rest (fst s))); [intros; unfold CborSafe.rest; lia| |cbn; lia|cbn [fst]; apply rest_fuel; lia].
    intros [q out] Q. cbn [fst] in *. unfold str_chunk. apply halts_req. intros _. hb (apply halts_rd). apply halts_if; intros _; [exact I|].
    hb (apply head_halts, Q). destruct H7 as (K1 & K2 & K3 & K4). apply halts_req. intros _. cbv zeta. apply halts_req. intros _. hb (apply addr_halts). hb (apply mkstr_halts).
    cbn [halts either fst]. rewrite wrap64_small by lia. unfold CborSafe.rest. lia.
  Qed.

  (** ** Elements: strictly further on *)
  Definition beyond (p : Z) (w : cview) : Prop := cv_buf w = b /\ p < zlen b /\ p < cv_pos w.
  Lemma size_halts p : 0 <= p -> halts any (c_arraySize fuel (mkCView b p)).
  Proof.
    intros P. unfold c_arraySize, chd. cbn [cv_buf cv_pos]. hb (apply head_halts, P). destruct H0 as (H1 & H2 & H3 & H4). apply halts_req. intros _.
    apply halts_if; intros _; [exact I|].
    apply (halts_floop (fun s => 0 <= fst s) (fun s => rest (fst s))); [intros; unfold CborSafe.rest; lia| |cbn; lia|cbn [fst]; apply rest_fuel; lia].
    intros [q n] Q. cbn [fst] in *. unfold size_step. apply halts_req. intros _. hb (apply halts_rd). apply halts_if; intros _; [exact I|].
    hb (apply skip_halts, Q). cbn [halts either fst]. unfold on in *. unfold CborSafe.rest. lia.
  Qed.
  Lemma idx_halts p i : 0 <= p -> halts (beyond p) (c_idx fuel (mkCView b p) i).
  Proof.
    intros P. unfold c_idx, chd. cbn [cv_buf cv_pos]. hb (apply head_halts, P). destruct H0 as (H1 & H2 & H3 & H4). apply halts_req. intros _. cbv zeta.
    apply halts_if; intros _.
    - apply halts_if; intros _; [exact I|].
      eapply halts_bind; [apply (times_halts (skip fuel b) i p); [intros q Q; eapply halts_impl; [|apply skip_halts; lia]; unfold on; lia|lia]|].
      intros q _ Q. cbn. unfold beyond. cbn. auto.
    - apply (halts_bind (fun o => match o with Some w => beyond p w | None => True end)); [|intros [w|] _ K; [exact K|exact I]].
      apply (halts_floop (fun s => p < fst s) (fun s => rest (fst s))); [intros; unfold CborSafe.rest; lia| |cbn; lia|cbn [fst]; apply rest_fuel; lia].
      intros [q n] Q. cbn [fst] in *. unfold idx_step. apply halts_req. intros _. hb (apply halts_rd). apply halts_if; intros _; [exact I|].
      apply halts_if; intros _; [cbn; unfold beyond; cbn; auto|].
      hb (apply skip_halts; lia). cbn [halts either fst]. unfold on in *. unfold CborSafe.rest. lia.
  Qed.
  Lemma key_halts p k : 0 <= p -> halts (beyond p) (c_key hard fuel (mkCView b p) k).
  Proof.
    intros P. unfold c_key, chd. cbn [cv_buf cv_pos]. hb (apply head_halts, P). destruct H0 as (H1 & H2 & H3 & H4). apply halts_req. intros _. cbv zeta.
    apply halts_if; intros _.
    - eapply (halts_bind (either (fun q => p < q) (beyond p))); [apply halts_zloop; [|lia]|intros [q|w] _ K; [exact I|exact K]].
      intros q Q. unfold key_def. hb (apply asString_halts; lia). hb (apply skip_halts; lia). unfold on in *.
      apply halts_if; intros _; [cbn; unfold beyond; cbn; repeat split; lia|]. hb (apply skip_halts; lia). cbn. unfold on in *. lia.
    - apply (halts_bind (fun o => match o with Some w => beyond p w | None => True end)); [|intros [w|] _ K; [exact K|exact I]].
      apply (halts_floop (fun q => p < q) rest); [intros; unfold CborSafe.rest; lia| |lia|apply rest_fuel; lia].
      intros q Q. unfold key_ind. apply halts_req. intros _. hb (apply halts_rd). apply halts_if; intros _; [exact I|].
      hb (apply asString_halts; lia). hb (apply skip_halts; lia). unfold on in *.
      apply halts_if; intros _; [cbn; unfold beyond; cbn; repeat split; lia|]. hb (apply skip_halts; lia). cbn. unfold on in *. unfold CborSafe.rest. lia.
  Qed.

  (** ** Keys: the iterator takes the steps that end() has taken. *)
  Lemma deref_halts q : 0 <= q -> halts any (k_deref hard fuel b q).
  Proof. intros Q. unfold k_deref. hb (apply khead_halts, Q). apply halts_if; intros _; [hb (apply addr_halts); apply halts_view|]. now apply asString_halts. Qed.
  Definition kpair (q : Z) : res Z := q1 <- k_skip fuel b q ;; k_skip fuel b q1.
  Lemma kpair_halts q : 0 <= q -> halts (on q) (kpair q).
  Proof.
    intros Q. unfold kpair. hb (apply kskip_halts; [exact Q|now apply rest_fuel]). unfold on in *.
    eapply halts_impl; [|apply kskip_halts; [lia|apply rest_fuel; lia]]. unfold on. lia.
  Qed.
  Lemma times_0 (f : Z -> res Z) q : times 0 f q = Ok q. Proof. reflexivity. Qed.
  Lemma times_next (f : Z -> res Z) n q e : 0 < n -> times n f q = Ok e -> exists q', f q = Ok q' /\ times (n - 1) f q' = Ok e.
  Proof.
    intros N. unfold times. rewrite zloop_nloop. replace (Z.to_nat n) with (S (Z.to_nat (n - 1))) by lia. cbn [nloop].
    destruct (f q) as [q'|?| |]; cbn [bind]; try discriminate. intros H. exists q'. split; [reflexivity|]. rewrite zloop_nloop. exact H.
  Qed.
  Lemma times_on n q e : 0 <= q -> 0 <= n -> times n kpair q = Ok e -> q <= e /\ (0 < n -> q < e).
  Proof.
    intros Q N E. destruct (Z.eq_dec n 0) as [->|N0]; [rewrite times_0 in E; injection E as ->; lia|].
    destruct (times_next _ n q e ltac:(lia) E) as (q' & E1 & E2). pose proof (halts_ok _ _ _ (kpair_halts q Q) E1) as O1. unfold on in O1.
    pose proof (times_halts kpair (n - 1) q ltac:(intros r R; eapply halts_impl; [|apply kpair_halts; lia]; unfold on; lia) q' ltac:(lia)) as K.
    pose proof (halts_ok _ _ _ K E2) as K2. cbv beta in K2. lia.
  Qed.
  Lemma keys_def_halts e : forall g q r acc, 0 <= q -> 0 <= r -> times r kpair q = Ok e -> rest q < Z.of_nat g ->
    halts any (floop g (keys_step hard fuel b false e) (q, r, acc)).
  Proof.
    induction g as [|g IH]; intros q r acc Q R T G; [unfold CborSafe.rest in G; lia|]. rewrite floop_S. unfold keys_step at 1.
    destruct (q =? e) eqn:E; [exact I|]. destruct (Z.eq_dec r 0) as [->|R0]; [rewrite times_0 in T; injection T as ->; lia|].
    destruct (times_next _ r q e ltac:(lia) T) as (q' & E1 & E2). pose proof (halts_ok _ _ _ (kpair_halts q Q) E1) as O1. unfold on in O1.
    assert (D := deref_halts q Q). destruct (k_deref hard fuel b q) as [k|?| |]; cbn [bind]; try exact I; [|destruct D].
    unfold k_incr. replace (r =? 0) with false by lia. unfold kpair in E1. destruct (k_skip fuel b q) as [q1|?| |]; cbn [bind] in *; try discriminate E1. rewrite E1. cbn [bind].
    apply IH; [lia|lia|exact E2|]. unfold CborSafe.rest in *. lia.
  Qed.
  Lemma keys_ind_halts : forall g h q z acc e, 0 <= q -> floop h (k_until b kpair) q = Ok e -> rest q < Z.of_nat g ->
    halts any (floop g (keys_step hard fuel b true e) (q, z, acc)).
  Proof.
    induction g as [|g IH]; intros h q z acc e Q T G; [unfold CborSafe.rest in G; lia|]. rewrite floop_S. unfold keys_step at 1.
    destruct (q =? e) eqn:E; [exact I|]. destruct h as [|h]; [discriminate T|]. rewrite floop_S in T. unfold k_until at 1 in T.
    assert (D := deref_halts q Q). destruct (k_deref hard fuel b q) as [k|?| |] eqn:KD; cbn [bind]; try exact I; [|destruct D].
    unfold k_incr. destruct (rd b q) as [x|?| |] eqn:RX; cbn [bind] in *; try discriminate T.
    destruct (x =? 255) eqn:X; [apply Z.eqb_eq in X; subst x; destruct (break_deref b fuel hard q k RX KD)|].
    unfold kpair at 1 in T. destruct (k_skip fuel b q) as [q1|?| |] eqn:K1; cbn [bind] in *; try discriminate T.
    destruct (k_skip fuel b q1) as [q2|?| |] eqn:K2; cbn [bind] in *; try discriminate T.
    assert (E1 : kpair q = Ok q2) by (unfold kpair; rewrite K1; exact K2). pose proof (halts_ok _ _ _ (kpair_halts q Q) E1) as O1. unfold on in O1.
    apply (IH h q2); [lia|exact T|]. unfold CborSafe.rest in *. lia.
  Qed.
  Lemma keys_halts p : 0 <= p -> halts any (c_mapKeys hard fuel (mkCView b p)).
  Proof.
    intros P. unfold c_mapKeys, chd. cbn [cv_buf cv_pos]. hb (apply head_halts, P). apply halts_req. intros _.
    destruct (k_read_head b p) as [h|?| |] eqn:KH; cbn [bind]; try exact I; [|pose proof (khead_halts p P) as K; rewrite KH in K; destruct K].
    pose proof (halts_ok _ _ _ (khead_halts p P) KH) as (H1 & H2 & H3 & H4). unfold k_end. rewrite KH. cbn [bind]. cbv zeta. fold kpair.
    destruct (h_indef h); cbn [negb].
    - eapply (halts_bind any).
      + eapply halts_any, (loop_halts (k_until b kpair) p); [|lia|apply rest_fuel; lia]. intros q Q. apply kuntil_halts; [lia|apply kpair_halts; lia].
      + intros e E _. apply (keys_ind_halts fuel fuel); [lia|exact E|apply rest_fuel; lia].
    - eapply (halts_bind any).
      + eapply halts_any, (times_halts kpair _ p); [|lia]. intros q Q. eapply halts_impl; [|apply kpair_halts; lia]. unfold on. lia.
      + intros e E _. apply keys_def_halts; [lia|lia|exact E|apply rest_fuel; lia].
  Qed.

  Lemma chd_halts {A} p (k : chead -> res A) : 0 <= p -> (forall h, halts any (k h)) -> halts any (h <- chd (mkCView b p) ;; k h).
  Proof. intros P K. unfold chd. cbn [cv_buf cv_pos]. hb (apply head_halts, P). apply K. Qed.
  Lemma view_halts m p : 0 <= p -> halts any (w <- c_view hard m (mkCView b p) ;; rd_view b w).
  Proof.
    intros P. eapply (halts_bind any); [|intros; apply halts_view]. unfold c_view. apply chd_halts; [exact P|]. intros h. repeat (apply halts_req; intros _).
    hb (apply addr_halts). exact I.
  Qed.
  Lemma bb_halts : forall n p v, halts any (get_be b p n v).
  Proof. induction n as [|n IH]; intros p v; cbn [get_be]; [exact I|]. hb (apply halts_rd). apply IH. Qed.

  Theorem cbor_answers w : cv_buf w = b -> 0 <= cv_pos w -> answers (cbor_reader hard fuel) w.
  Proof.
    destruct w as [b' p]. cbn [cv_buf cv_pos]. intros -> P.
    constructor; intros; apply (halts_ne any); cbn [cbor_reader r_isNull r_isBool r_isInt r_isUInt r_isFloat r_isString r_isBlob r_isMap r_isArray r_asBool r_asInt r_asUInt r_asDouble r_asStringView r_asBlob r_arraySize r_mapKeys r_idx r_key];
      try (apply chd_halts; [exact P|intros; exact I]).
    - apply chd_halts; [exact P|]. intros h. hany.
    - unfold c_asInt. eapply (halts_bind any); [|intros; exact I]. apply chd_halts; [exact P|]. intros h. hany.
    - unfold c_asUInt. eapply (halts_bind any); [|intros; exact I]. apply chd_halts; [exact P|]. intros h. hany.
    - apply chd_halts; [exact P|]. intros h. hany; cbv zeta; hany; cbn [cv_buf cv_pos]; hany. hb (apply bb_halts). exact I. apply bb_halts.
    - apply view_halts, P.
    - apply view_halts, P.
    - apply size_halts, P.
    - apply keys_halts, P.
    - eapply halts_any, idx_halts, P.
    - eapply halts_any, key_halts, P.
  Qed.
End Buf.
