(** LookArr.v -- indices against arraySize, and what is reachable in a message that skip() accepts: CBOR. *)

From Coq Require Import ZArith List Bool Lia ZifyBool ZifyNat.
From Verif Require Import Base BaseFacts Spec LookSpec CborModel CborSpec CborFacts CborRead CborSafe LookCbor.
Import ListNotations.
Open Scope Z_scope.

Lemma times_prefix (step : Z -> res Z) : forall n i q e, 0 <= i < n -> times n step q = Ok e -> exists q1 q2, times i step q = Ok q1 /\ step q1 = Ok q2.
Proof.
  intros n i q e I. unfold times. rewrite !zloop_nloop. replace (Z.to_nat n) with (Z.to_nat i + S (Z.to_nat (n - i - 1)))%nat by lia. generalize (Z.to_nat (n - i - 1)) as r. clear n I. revert q.
  induction (Z.to_nat i) as [|k IH]; intros q r H; cbn [Nat.add nloop] in *.
  - destruct (step q) as [q2| | |] eqn:E; cbn [bind] in H; try discriminate. exists q, q2. auto.
  - destruct (step q) as [q2| | |] eqn:E; cbn [bind] in *; try discriminate. exact (IH q2 r H).
Qed.

Lemma size_idx F b i : forall g q c n, floop g (size_step F b) (q, c) = Ok n -> c <= i ->
  if i <? n then exists w, floop g (idx_step F b i) (q, c) = Ok (Some w) else floop g (idx_step F b i) (q, c) = Ok None.
Proof.
  induction g as [|g IH]; intros q c n H L; [discriminate H|]. rewrite floop_S in H. rewrite !floop_S. unfold size_step at 1 in H. unfold idx_step at 1 3.
  destruct (q <? zlen b); cbn [require bind] in *; [|discriminate H]. destruct (rd b q) as [x| | |]; cbn [bind] in *; try discriminate H.
  destruct (x =? 255); cbn [bind] in *.
  - injection H as <-. replace (i <? c) with false by lia. reflexivity.
  - destruct (skip F b q) as [q1| | |]; cbn [bind] in *; try discriminate H. assert (N : c + 1 <= n).
    { clear - H. revert H. generalize (c + 1) as d. revert q1. induction g as [|g IH]; intros q1 d H; [discriminate H|]. rewrite floop_S in H. unfold size_step at 1 in H.
      destruct (q1 <? zlen b); cbn [require bind] in H; [|discriminate H]. destruct (rd b q1) as [x| | |]; cbn [bind] in H; try discriminate H.
      destruct (x =? 255); cbn [bind] in H; [injection H as <-; lia|]. destruct (skip F b q1) as [q2| | |]; cbn [bind] in H; try discriminate H. specialize (IH _ _ H). lia. }
    destruct (c =? i) eqn:E; cbn [bind].
    + replace (i <? n) with true by lia. eauto.
    + apply IH; [exact H|lia].
Qed.

Theorem cbor_indices hard F b p n i : c_arraySize F (mkCView b p) = Ok n -> 0 <= i ->
  (n <= i -> r_idx (cbor_reader hard F) (mkCView b p) i = Throw EDeser) /\
  (forall e, skip F b p = Ok e -> i < n -> exists w, r_idx (cbor_reader hard F) (mkCView b p) i = Ok w).
Proof.
  cbn [cbor_reader r_idx]. unfold c_arraySize, c_idx, chd. cbn [cv_buf cv_pos]. intros H I0. destruct (read_head b p) as [h| | |] eqn:RH; cbn [bind] in *; try discriminate.
  destruct (h_major h =? 4) eqn:M4; cbn [require bind] in *; [|discriminate]. cbv zeta. destruct (negb (h_indef h)) eqn:ID.
  - injection H as <-. split.
    + intros L. now replace (h_val h <=? i) with true by lia.
    + intros e SK L. replace (h_val h <=? i) with false by lia. destruct F as [|f]; [discriminate|]. rewrite skip_S, RH in SK. cbn [bind] in SK. cbv zeta in SK.
      apply Z.eqb_eq in M4. rewrite M4 in SK. cbn [Z.eqb Pos.eqb orb] in SK. rewrite ID in SK.
      destruct (times_prefix _ (h_val h) i _ _ ltac:(lia) SK) as (q1 & q2 & T & _). assert (MO : forall q x, skip f b q = Ok x -> skip (S f) b q = Ok x) by (intros q x; apply skip_mono; lia). rewrite (times_map _ _ MO _ _ _ T). cbn [bind]. eauto.
  - pose proof (size_idx F b i _ _ _ _ H ltac:(lia)) as X. split.
    + intros L. replace (i <? n) with false in X by lia. rewrite X. reflexivity.
    + intros e _ L. replace (i <? n) with true in X by lia. destruct X as (w & ->). cbn [bind]. eauto.
Qed.

(** ** Views reached from a view that skip() accepts are accepted *)
Section Reach.
  Variable b : bytes.
  Hypothesis B : bytes_ok b.
  Hypothesis HB : zlen b < 2^63.
  Hypothesis NH : no_huge b.
  Variable F : nat.
  Hypothesis HF : zlen b < Z.of_nat F.
  Definition good (w : cview) : Prop := cv_buf w = b /\ 0 <= cv_pos w /\ exists e, skip F b (cv_pos w) = Ok e.

  Lemma until_idx f i : (f <= F)%nat -> forall g q e, 0 <= q -> floop g (skip_until b (skip f b)) q = Ok e ->
    forall g' c w, floop g' (idx_step F b i) (q, c) = Ok (Some w) -> good w.
  Proof.
    intros LF. induction g as [|g IH]; intros q e Q H g' c w X; [discriminate|]. destruct g' as [|g']; [discriminate|]. rewrite floop_S in H. rewrite floop_S in X. unfold skip_until at 1 in H. unfold idx_step at 1 in X.
    destruct (q <? zlen b); cbn [require bind] in *; [|discriminate]. destruct (rd b q) as [x| | |]; cbn [bind] in *; try discriminate.
    destruct (x =? 255); cbn [bind] in *; [discriminate|]. destruct (skip f b q) as [q1| | |] eqn:E; cbn [bind] in *; try discriminate. apply (skip_mono b f F _ _ LF) in E. rewrite E in X.
    destruct (c =? i); cbn [bind] in X; [injection X as <-; repeat split; cbn; eauto|].
    pose proof (skip_on b B HB NH F HF q q1 Q E). apply (IH q1 e ltac:(lia) H g' (c + 1) w X).
  Qed.
  Lemma times_on (step : Z -> res Z) i q e : (forall q r, 0 <= q -> step q = Ok r -> 0 <= r) -> 0 <= q -> times i step q = Ok e -> 0 <= e.
  Proof.
    intros ST Q. unfold times. rewrite zloop_nloop. revert q e Q. induction (Z.to_nat i) as [|k IH]; intros q e Q H; cbn [nloop] in H; [injection H as <-; exact Q|].
    destruct (step q) as [r| | |] eqn:E; cbn [bind] in H; try discriminate. exact (IH r e (ST q r Q E) H).
  Qed.
  Lemma good_idx hard w i w' : good w -> 0 <= i -> r_idx (cbor_reader hard F) w i = Ok w' -> good w'.
  Proof.
    intros (EB & P & e & SK) I0. destruct w as [b' p]. cbn [cv_buf cv_pos cbor_reader r_idx] in *. subst b'. unfold c_idx, chd. cbn [cv_buf cv_pos]. intros H.
    destruct (read_head b p) as [h| | |] eqn:RH; cbn [bind] in *; try discriminate. destruct (h_major h =? 4) eqn:M4; cbn [require bind] in H; [|discriminate]. cbv zeta in H.
    assert (EX : exists f, F = S f) by (destruct F; [discriminate|eauto]). destruct EX as (f & EF). rewrite EF, skip_S, RH in SK. cbn [bind] in SK. cbv zeta in SK.
    apply Z.eqb_eq in M4. rewrite M4 in SK. cbn [Z.eqb Pos.eqb orb] in SK. pose proof (out_head true true b p B P) as OH. rewrite RH in OH. destruct OH as (H1 & H2 & H3 & _).
    assert (MO : forall q x, skip f b q = Ok x -> skip F b q = Ok x) by (intros q x; apply skip_mono; lia).
    destruct (negb (h_indef h)).
    - destruct (h_val h <=? i) eqn:L; [discriminate|]. destruct (times_prefix _ (h_val h) i _ _ ltac:(lia) SK) as (q1 & q2 & T & E2). rewrite (times_map _ _ MO _ _ _ T) in H. cbn [bind] in H. injection H as <-.
      repeat split; cbn [cv_pos]; [|exists q2; now apply MO]. eapply times_on; [|exact (ltac:(lia) : 0 <= p + h_len h)|exact T]. intros q r Q E. apply MO in E. pose proof (skip_on b B HB NH F HF q r Q E). lia.
    - match type of H with bind ?m _ = _ => destruct m as [[w|]| | |] eqn:X end; cbn [bind] in H; try discriminate. injection H as <-.
      apply (until_idx f i ltac:(lia) _ (p + h_len h) _ ltac:(lia) SK _ _ _ X).
  Qed.
  Lemma cents_key hard key : forall n q e ps, cents b F n q e ps -> 0 <= q -> forall w, nloop n (key_def hard F b key) q = Ok (inr w) -> good w.
  Proof.
    induction 1 as [q|n q m q' e ps E1 E2 C IH]; intros Q w H; cbn [nloop] in H; [discriminate|]. unfold key_def in H at 1.
    destruct (c_asString hard F (mkCView b q)) as [k| | |]; cbn [bind] in H; try discriminate. rewrite E1 in H. cbn [bind] in H. pose proof (skip_on b B HB NH F HF q m Q E1).
    destruct (beq k key); cbn [bind] in H; [injection H as <-; repeat split; cbn; eauto; lia|]. rewrite E2 in H. cbn [bind] in H. pose proof (skip_on b B HB NH F HF m q' ltac:(lia) E2). apply IH; [lia|exact H].
  Qed.
  Lemma cents_key_ind hard key : forall n q e ps, cents b F n q e ps -> 0 <= q -> rd b e = Ok 255 -> forall g w, floop g (key_ind hard F b key) q = Ok (Some w) -> good w.
  Proof.
    induction 1 as [q|n q m q' e ps E1 E2 C IH]; intros Q R g w H; (destruct g as [|g]; [discriminate|]); rewrite floop_S in H; unfold key_ind in H at 1; (destruct (q <? zlen b); cbn [require bind] in H; [|discriminate]).
    - rewrite R in H. cbn [bind Z.eqb Pos.eqb] in H. discriminate.
    - destruct (rd b q) as [x| | |]; cbn [bind] in H; try discriminate. destruct (x =? 255); cbn [bind] in H; [discriminate|].
      destruct (c_asString hard F (mkCView b q)) as [k| | |]; cbn [bind] in H; try discriminate. rewrite E1 in H. cbn [bind] in H. pose proof (skip_on b B HB NH F HF q m Q E1).
      destruct (beq k key); cbn [bind] in H; [injection H as <-; repeat split; cbn; eauto; lia|]. rewrite E2 in H. cbn [bind] in H. pose proof (skip_on b B HB NH F HF m q' ltac:(lia) E2). exact (IH ltac:(lia) R g w H).
  Qed.
  Lemma good_key hard w key w' : good w -> r_key (cbor_reader hard F) w key = Ok w' -> good w'.
  Proof.
    intros (EB & P & e & SK). destruct w as [b' p]. cbn [cv_buf cv_pos cbor_reader r_key] in *. subst b'. unfold c_key, chd. cbn [cv_buf cv_pos]. intros H.
    destruct (read_head b p) as [h| | |] eqn:RH; cbn [bind] in *; try discriminate. destruct (h_major h =? 5) eqn:M5; cbn [require bind] in H; [|discriminate]. cbv zeta in H.
    assert (EX : exists f, F = S f) by (destruct F; [discriminate|eauto]). destruct EX as (f & EF). rewrite EF, skip_S, RH in SK. cbn [bind] in SK. cbv zeta in SK.
    apply Z.eqb_eq in M5. rewrite M5 in SK. cbn [Z.eqb Pos.eqb orb] in SK. pose proof (out_head true true b p B P) as OH. rewrite RH in OH. destruct OH as (H1 & H2 & H3 & _).
    assert (FS : (f <= F)%nat) by lia. destruct (negb (h_indef h)).
    - destruct (times_cents b f _ _ _ SK) as (ps & C). apply (cents_mono b f F _ _ _ _ FS) in C. rewrite zloop_nloop in H.
      match type of H with bind ?m _ = _ => destruct m as [[?|w]| | |] eqn:X end; cbn [bind] in H; try discriminate. injection H as <-. exact (cents_key hard key _ _ _ _ C ltac:(lia) _ X).
    - destruct (until_cents b f f _ _ SK) as (n & q' & ps & C & R & ->). apply (cents_mono b f F _ _ _ _ FS) in C.
      match type of H with bind ?m _ = _ => destruct m as [[w|]| | |] eqn:X end; cbn [bind] in H; try discriminate. injection H as <-. exact (cents_key_ind hard key _ _ _ _ C ltac:(lia) R _ _ X).
  Qed.
  Lemma reach_good hard e w : skip F b 0 = Ok e -> reach (cbor_reader hard F) (cb_open b) w -> good w.
  Proof.
    intros SK R. induction R as [|w1 i w2 R IH I0 E|w1 k w2 R IH K0 E].
    - repeat split; cbn; [lia|eauto].
    - eapply good_idx; [exact IH| |exact E]. lia.
    - eapply good_key; eauto.
  Qed.
  Theorem reach_indices hard e w : skip F b 0 = Ok e -> reach (cbor_reader hard F) (cb_open b) w -> indices_agree (cbor_reader hard F) w.
  Proof.
    intros SK R n i A I0. destruct (reach_good hard e w SK R) as (EB & P & e' & SK'). destruct w as [b' p]. cbn [cv_buf cv_pos] in *. subst b'.
    destruct (cbor_indices hard F b p n i A ltac:(lia)) as (X & Y). destruct (i <? n) eqn:L; [apply (Y e' SK'); lia|apply X; lia].
  Qed.
  Hypothesis N248 : forall q, rd b q <> Ok 248.
  Theorem reach_lookups hard e w : skip F b 0 = Ok e -> reach (cbor_reader hard F) (cb_open b) w -> lookups_agree (cbor_reader hard F) w.
  Proof.
    intros SK R ks key _ K. destruct (reach_good hard e w SK R) as (EB & P & e' & SK'). destruct w as [b' p]. cbn [cv_buf cv_pos] in *. subst b'.
    exact (cbor_lookups b B N248 HB NH F HF hard p e' ks key P SK' K).
  Qed.
End Reach.
