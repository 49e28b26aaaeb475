(** CborSafe.v -- the CBOR reader on arbitrary bytes: memory safety, progress and termination. *)

From Coq Require Import ZArith List Bool Lia ZifyBool ZifyNat.
From Verif Require Import Base BaseFacts Spec SpecFacts FloatModel HalfModel CborModel CborSpec CborFacts CborRead.
Import ListNotations.
Open Scope Z_scope.

(** A view of buffer [b]: its position is inside (or just at the end). *)
Definition inside (b : bytes) (w : cview) : Prop := cv_buf w = b /\ 0 <= cv_pos w <= zlen b.

(** ** Raw reads *)
Lemma has_at {A} (b : list A) p n : 0 <= p -> 0 <= n -> p + n <= zlen b ->
  has b p (slice b p n) /\ zlen (slice b p n) = n.
Proof. intros. pose proof (zlen_slice b p n ltac:(lia) ltac:(lia) ltac:(lia)) as E. split; [|exact E]. unfold has. rewrite E. auto. Qed.
Lemma has_bytes b p l : bytes_ok b -> has b p l -> bytes_ok l.
Proof. intros B (_ & _ & E). rewrite <- E. now apply bytes_ok_slice. Qed.
Lemma be_mod k n v : (k <= n)%nat -> be k (v mod 256 ^ Z.of_nat n) = be k v.
Proof.
  induction k as [|k IH]; intros H; [reflexivity|]. cbn [be]. rewrite IH by lia. f_equal.
  replace (Z.of_nat n) with (Z.of_nat k + (1 + Z.of_nat (n - S k))) by lia.
  rewrite !Z.pow_add_r by lia. change (256 ^ 1) with 256.
  assert (0 < 256 ^ Z.of_nat k) by (apply Z.pow_pos_nonneg; lia).
  assert (0 < 256 ^ Z.of_nat (n - S k)) by (apply Z.pow_pos_nonneg; lia).
  rewrite Z.rem_mul_r by lia. rewrite (Z.mul_comm (256 ^ Z.of_nat k)), Z.div_add by lia.
  rewrite (Z.div_small (v mod 256 ^ Z.of_nat k)) by (apply Z.mod_pos_bound; lia). rewrite Z.add_0_l.
  rewrite Z.rem_mul_r by lia. rewrite (Z.mul_comm 256 (_ mod _)), Z.mod_add by lia.
  now rewrite Z.mod_mod by lia.
Qed.
Lemma be_horner l : bytes_ok l -> be (length l) (horner l) = l.
Proof.
  induction l as [|b l IH]; intros B; [reflexivity|]. apply bytes_ok_cons in B. destruct B as [B0 B].
  cbn [be length]. pose proof (horner_range l B) as R. rewrite horner_cons. fold (zlen l).
  assert (0 < 256 ^ zlen l) by (apply Z.pow_pos_nonneg; [lia|apply zlen_nonneg]). unfold is_byte in B0.
  f_equal.
  - change (Z.of_nat (length l)) with (zlen l). rewrite Z.add_comm, Z.div_add by lia. rewrite Z.div_small by lia.
    apply Z.mod_small. lia.
  - rewrite <- (be_mod (length l) (length l)) by lia. change (Z.of_nat (length l)) with (zlen l).
    rewrite Z.add_comm, Z.mod_add by lia. rewrite Z.mod_small by lia. now apply IH.
Qed.
Lemma get_be_at b p n : bytes_ok b -> (n <= 8)%nat -> 0 <= p -> p + Z.of_nat n <= zlen b ->
  exists v, get_be b p n 0 = Ok v /\ has b p (be n v) /\ 0 <= v < 256 ^ Z.of_nat n.
Proof.
  intros B N P L. destruct (has_at b p (Z.of_nat n)) as [H E]; try lia. set (l := slice b p (Z.of_nat n)) in *.
  pose proof (has_bytes _ _ _ B H) as Bl. exists (horner l).
  assert (length l = n) by (unfold zlen in E; lia). pose proof (be_horner l Bl) as BH. pose proof (horner_range l Bl).
  rewrite E in *. rewrite H0 in BH. rewrite BH. split; [|auto]. rewrite <- H0. apply get_be_has; auto. lia.
Qed.

Lemma rd_has b p x : rd b p = Ok x -> has b p [x].
Proof.
  intros E. pose proof (rd_inv _ _ _ E). destruct (has_at b p 1) as [H1 L]; try lia.
  destruct (slice b p 1) as [|y [|? ?]] eqn:S; rewrite ?zlen_cons in L; [discriminate| |].
  - rewrite (has_rd _ _ _ _ H1) in E. now injection E as ->.
  - pose proof (zlen_nonneg l). lia.
Qed.

(** ** Outcomes.  [calm]: must finish, and may only throw DeserializationError; otherwise also "still
    running" and length_error are admitted.  [ub]: out-of-bounds reads are admitted. *)
Definition outcome (calm ub : bool) {A} (P : A -> Prop) (r : res A) : Prop :=
  match r with
  | Ok a => P a
  | Throw EDeser => True
  | Throw ELength | NoFuel => calm = false
  | UB => ub = true
  | _ => False
  end.
Lemma out_bind c u {A B} (P : A -> Prop) (Q : B -> Prop) m k :
  outcome c u P m -> (forall a, P a -> outcome c u Q (k a)) -> outcome c u Q (bind m k).
Proof. destruct m as [a|[]| |]; cbn; auto. Qed.
Lemma out_weak c u {A} (P Q : A -> Prop) r : outcome c u P r -> (forall a, P a -> Q a) -> outcome c u Q r.
Proof. destruct r as [a|[]| |]; cbn; auto. Qed.
Lemma out_req c u {A} (Q : A -> Prop) cond k : (cond = true -> outcome c u Q k) -> outcome c u Q (require cond EDeser ;;; k).
Proof. destruct cond; cbn; auto. Qed.
Lemma out_true c u {A} (P : A -> Prop) r : outcome c u P r -> outcome c u any r.
Proof. intros H. eapply out_weak; [exact H|]. intros; exact I. Qed.
Lemma out_safe {A} (P : A -> Prop) r : outcome true false P r -> safe P r.
Proof. destruct r as [a|[]| |]; cbn; auto; discriminate. Qed.
Lemma out_noub c {A} (P : A -> Prop) r : outcome c false P r -> r <> UB.
Proof. intros H ->. discriminate. Qed.
Lemma out_fuel u {A} (P : A -> Prop) r : outcome true u P r -> r <> NoFuel.
Proof. intros H ->. discriminate. Qed.

Lemma out_floop c u {S R} (f : S -> res (S + R)) (I : S -> Prop) (mu : S -> Z) (P : R -> Prop) :
  (forall s, I s -> outcome c u (fun x => match x with inl s' => I s' /\ (c = true -> mu s' < mu s) | inr r => P r end) (f s)) ->
  (forall s, 0 <= mu s) ->
  forall fuel s, I s -> (c = true -> mu s < Z.of_nat fuel) -> outcome c u P (floop fuel f s).
Proof.
  intros ST MU. induction fuel as [|n IH]; intros s HI HM.
  - cbn. destruct c; [|reflexivity]. specialize (HM eq_refl). specialize (MU s). lia.
  - rewrite floop_S. eapply out_bind; [apply ST, HI|]. intros [s'|r] H; [|exact H]. destruct H as [H1 H2].
    apply IH; [exact H1|]. intros C. specialize (HM C). specialize (H2 C). lia.
Qed.
Lemma out_zloop c u {S R} (f : S -> res (S + R)) (I : S -> Prop) (P : R -> Prop) n :
  (forall s, I s -> outcome c u (fun x => match x with inl s' => I s' | inr r => P r end) (f s)) ->
  forall s, I s -> outcome c u (fun x => match x with inl s' => I s' | inr r => P r end) (zloop n f s).
Proof.
  intros ST s HI.
  apply (zloop_inv f I (outcome c u (fun x => match x with inl s' => I s' | inr r => P r end))); [|intros; assumption|exact HI].
  intros s0 H0. specialize (ST s0 H0). destruct (f s0) as [[s'|r]|e| |]; exact ST.
Qed.
Lemma out_times c u (step : Z -> res Z) (I : Z -> Prop) n : (forall q, I q -> outcome c u I (step q)) -> forall q, I q -> outcome c u I (times n step q).
Proof.
  intros ST q HI. unfold times.
  eapply out_bind; [apply (out_zloop c u _ I (fun _ : unit => False)); [|exact HI]|].
  - intros s Hs. eapply out_bind; [apply ST, Hs|]. intros a Ha. exact Ha.
  - intros [q'|r] H; [exact H|destruct H].
Qed.

(** ** Headers *)
Definition head_in (b : bytes) (p : Z) (h : chead) : Prop :=
  p + h_len h <= zlen b /\ 1 <= h_len h <= 9 /\ 0 <= h_val h < 2^64 /\ 0 <= h_major h <= 7 /\
  (2^63 <= h_val h -> slice b p 9 = (32 * h_major h + 27) :: be 8 (h_val h)).
Lemma byte_head x : is_byte x -> 0 <= Z.shiftr x 5 <= 7 /\ 0 <= Z.land x 31 < 32 /\ x = 32 * Z.shiftr x 5 + Z.land x 31.
Proof.
  unfold is_byte. intros H. rewrite Z.shiftr_div_pow2 by lia. change 31 with (Z.ones 5). rewrite Z.land_ones by lia.
  change (2 ^ 5) with 32. pose proof (Z.div_mod x 32 ltac:(lia)). pose proof (Z.mod_pos_bound x 32 ltac:(lia)).
  split; [|lia]. split; [apply Z.div_pos; lia|]. assert (x / 32 < 8); [|lia]. apply Z.div_lt_upper_bound; lia.
Qed.
Lemma out_head c u b p : bytes_ok b -> 0 <= p -> outcome c u (head_in b p) (read_head b p).
Proof.
  intros B P. unfold read_head. apply out_req. intros L. destruct (rd_in b p) as [x Ex]; [lia|]. rewrite Ex. cbn [bind].
  assert (Bx := rd_byte _ _ _ B Ex). destruct (byte_head x Bx) as (M & A & SP). cbv zeta.
  set (m := Z.shiftr x 5) in *. set (a := Z.land x 31) in *.
  assert (K : forall add v n, 0 <= v < 2^63 -> 1 <= n <= 9 -> p + n <= zlen b -> forall i, head_in b p (mkHead m add v n i)).
  { intros add v n V N PN i. unfold head_in. cbn [h_len h_val h_major]. repeat split; try lia. }
  destruct (m =? 7) eqn:E7.
  - destruct (a =? 25); [apply K; lia|]. destruct (a =? 26); [apply K; lia|]. destruct (a =? 27); [apply K; lia|].
    destruct (a =? 24); [apply out_req; intros L2; apply K; lia|]. destruct (a =? 31); apply K; lia.
  - destruct (a <? 24) eqn:E1; [apply K; lia|]. destruct (a =? 24) eqn:E2.
    { apply out_req. intros L2. destruct (rd_in b (p + 1)) as [y Ey]; [lia|]. rewrite Ey. cbn [bind].
      assert (By := rd_byte _ _ _ B Ey). unfold is_byte in By. apply K; lia. }
    destruct (a =? 25) eqn:E3.
    { apply out_req. intros L2. destruct (get_be_at b (p + 1) 2 B ltac:(lia) ltac:(lia) ltac:(lia)) as (v & -> & _ & V). cbn in V. apply K; lia. }
    destruct (a =? 26) eqn:E4.
    { apply out_req. intros L2. destruct (get_be_at b (p + 1) 4 B ltac:(lia) ltac:(lia) ltac:(lia)) as (v & -> & _ & V). cbn in V. apply K; lia. }
    destruct (a =? 27) eqn:E5.
    { apply out_req. intros L2. destruct (get_be_at b (p + 1) 8 B ltac:(lia) ltac:(lia) ltac:(lia)) as (v & -> & Hv & V). cbn in V. cbn [bind].
      unfold outcome, head_in. cbn [h_len h_val h_major]. repeat split; try lia. intros _.
      assert (H : has b p (x :: be 8 v)).
      { apply has_cons. split; [|exact Hv]. now apply rd_has. }
      destruct H as (_ & _ & E). rewrite zlen_cons, zlen_be in E. replace (32 * m + 27) with x by lia. exact E. }
    destruct (a =? 31); [apply K; lia|exact I].
Qed.

Section Buffer.
  Variables (c u : bool) (b : bytes).
  Hypothesis B : bytes_ok b.
  Hypothesis HB : zlen b < 2^63.
  Hypothesis NH : c = true -> no_huge b.

  Definition rest (p : Z) : Z := Z.max 0 (zlen b - p).

  Lemma str_small p h : 0 <= p -> head_in b p h -> h_major h = 2 \/ h_major h = 3 -> c = true -> h_val h < 2^63.
  Proof.
    intros P (_ & _ & V & _ & S) M C. destruct (Z_lt_ge_dec (h_val h) (2^63)) as [H|H]; [exact H|].
    apply (NH C p (32 * h_major h + 27) (h_val h)); auto; [|apply S; lia]. destruct M as [-> | ->]; cbn; auto.
  Qed.
  Lemma wrap_range x : 0 <= wrap64 x < 2^64.
  Proof. unfold wrap64. apply Z.mod_pos_bound. lia. Qed.
  Lemma wrap_le x : 0 <= x -> wrap64 x <= x.
  Proof. intros H. unfold wrap64. now apply Z.mod_le. Qed.

  Lemma out_chunk m q : m = 2 \/ m = 3 -> 0 <= q ->
    outcome c u (fun x => match x with inl q' => 0 <= q' /\ (c = true -> rest q' < rest q) | inr r => 0 <= r <= zlen b /\ (c = true -> q < r) end)
            (skip_chunk b m q).
  Proof.
    intros M Q. unfold skip_chunk. apply out_req. intros L. destruct (rd_in b q) as [x Ex]; [lia|]. rewrite Ex. cbn [bind].
    destruct (x =? 255); [cbn; lia|].
    eapply out_bind; [apply (out_head c u b q B Q)|]. intros h HH. apply out_req. intros E. apply out_req. intros _. cbn [outcome].
    pose proof (wrap_range (q + wrap64 (h_len h + h_val h))). split; [lia|]. intros C.
    assert (V := str_small q h Q HH ltac:(lia) C). destruct HH as (H1 & H2 & H3 & _).
    rewrite (wrap64_small (h_len h + h_val h)) by lia. rewrite wrap64_small by lia. unfold rest. lia.
  Qed.

  Lemma out_until (step : Z -> res Z) (q : Z) : 0 <= q ->
    (q < zlen b -> outcome c u (fun r => 0 <= r <= zlen b /\ (c = true -> q < r)) (step q)) ->
    outcome c u (fun x => match x with inl q' => 0 <= q' /\ (c = true -> rest q' < rest q) | inr r => 0 <= r <= zlen b /\ (c = true -> q < r) end)
            (skip_until b step q).
  Proof.
    intros Q ST. unfold skip_until. apply out_req. intros L. destruct (rd_in b q) as [x Ex]; [lia|]. rewrite Ex. cbn [bind].
    destruct (x =? 255); [cbn; lia|].
    eapply out_bind; [apply ST; lia|]. intros r [R1 R2]. cbn. split; [lia|]. intros C. specialize (R2 C). unfold rest. lia.
  Qed.

  Definition lands (p : Z) (r : Z) : Prop := 0 <= r <= zlen b /\ (c = true -> p < r).

  Lemma out_skip : forall fuel p, 0 <= p -> (c = true -> rest p < Z.of_nat fuel) ->
    outcome c u (lands p) (skip fuel b p).
  Proof.
    induction fuel as [|f IH]; intros p P F.
    { cbn. destruct c; [|reflexivity]. specialize (F eq_refl). unfold rest in F. lia. }
    rewrite skip_S. eapply out_bind; [apply (out_head c u b p B P)|]. intros h HH. assert (HH' := HH). destruct HH' as (H1 & H2 & H3 & H4 & _).
    cbv zeta. set (q := p + h_len h) in *.
    assert (LQ : lands p q) by (unfold lands, q; lia).
    assert (FQ : c = true -> rest q < Z.of_nat f).
    { intros C. specialize (F C). unfold rest, q in *. lia. }
    assert (SK : forall q', q <= q' \/ (c = false /\ 0 <= q') -> outcome c u (lands q') (skip f b q')).
    { intros q' Q'. apply IH; [unfold q in Q'; lia|]. intros C. specialize (FQ C). destruct Q' as [Q' |[Q' _]]; [|congruence]. clear - FQ Q'. unfold rest in *. lia. }
    (* loops over items: the position stays at or after q (calm) and inside the buffer *)
    set (I := fun q' => 0 <= q' <= zlen b /\ (c = true -> q <= q')).
    assert (IQ : I q) by (unfold I, q; lia).
    assert (SK1 : forall q', I q' -> outcome c u I (skip f b q')).
    { intros q' [I1 I2]. eapply out_weak; [apply SK; destruct c; [left; now apply I2|right; split; [reflexivity|lia]]|].
      intros r [R1 R2]. split; [exact R1|]. intros C. specialize (R2 C). specialize (I2 C). lia. }
    assert (SK2 : forall q', I q' -> outcome c u I (q1 <- skip f b q' ;; skip f b q1)).
    { intros q' I1. eapply out_bind; [apply SK1, I1|exact SK1]. }
    assert (LI : forall r, I r -> lands p r).
    { intros r [R1 R2]. split; [exact R1|]. intros C. specialize (R2 C). unfold q in R2. lia. }
    (* indefinite loops *)
    assert (UN : forall step, (forall q', q <= q' \/ c = false /\ 0 <= q' -> q' < zlen b -> outcome c u (lands q') (step q')) ->
                 outcome c u (lands p) (floop f (skip_until b step) q)).
    { intros step ST.
      apply (out_floop c u (skip_until b step) (fun q' => 0 <= q' /\ (c = true -> q <= q')) rest (lands p)); [|intros; unfold rest; lia|split; [unfold q; lia|intros _; lia]|exact FQ].
      intros q' [Q1 Q2]. eapply out_weak; [apply out_until; [exact Q1|]|].
      - intros L. apply ST; [|exact L]. destruct c; [left; now apply Q2|right; split; [reflexivity|exact Q1]].
      - intros [r|r] [R1 R2]; [split; [split; [exact R1|]|exact R2]|split; [exact R1|]]; intros C; specialize (R2 C); specialize (Q2 C); unfold q, rest in *; lia. }
    assert (CH : forall m, m = 2 \/ m = 3 -> outcome c u (lands p) (floop f (skip_chunk b m) q)).
    { intros m M.
      apply (out_floop c u (skip_chunk b m) (fun q' => 0 <= q' /\ (c = true -> q <= q')) rest (lands p)); [|intros; unfold rest; lia|split; [unfold q; lia|intros _; lia]|exact FQ].
      intros q' [Q1 Q2]. eapply out_weak; [apply (out_chunk m q' M Q1)|].
      intros [r|r] [R1 R2]; [split; [split; [exact R1|]|exact R2]|split; [exact R1|]]; intros C; specialize (R2 C); specialize (Q2 C); unfold q, rest in *; lia. }
    destruct ((h_major h =? 0) || (h_major h =? 1)); [exact LQ|].
    destruct ((h_major h =? 2) || (h_major h =? 3)) eqn:E23.
    { destruct (negb (h_indef h)).
      - apply out_req. intros L. cbn [outcome]. pose proof (wrap_range (q + h_val h)). split; [lia|]. intros C.
        assert (V := str_small p h P HH ltac:(lia) C). rewrite wrap64_small by (unfold q; lia). unfold q. lia.
      - apply CH. lia. }
    destruct (h_major h =? 4).
    { destruct (negb (h_indef h)).
      - eapply out_weak; [apply (out_times c u _ I); [exact SK1|exact IQ]|exact LI].
      - apply UN. intros q' Q' _. now apply SK. }
    destruct (h_major h =? 5).
    { destruct (negb (h_indef h)).
      - eapply out_weak; [apply (out_times c u _ I); [exact SK2|exact IQ]|exact LI].
      - apply UN. intros q' Q' L. eapply out_bind; [apply SK, Q'|]. intros r [R1 R2].
        eapply out_weak; [apply SK|].
        + destruct c; [left; specialize (R2 eq_refl); lia|right; split; [reflexivity|lia]].
        + intros r' [S1 S2]. split; [exact S1|]. intros C. specialize (S2 C). specialize (R2 C). lia. }
    destruct (h_major h =? 6).
    { eapply out_weak; [apply SK; left; lia|]. intros r [R1 R2]. split; [exact R1|]. intros C. specialize (R2 C). unfold q in R2. lia. }
    destruct (h_addl h =? 25); [apply out_req; intros L; cbn; unfold lands, q in *; lia|].
    destruct (h_addl h =? 26); [apply out_req; intros L; cbn; unfold lands, q in *; lia|].
    destruct (h_addl h =? 27); [apply out_req; intros L; cbn; unfold lands, q in *; lia|].
    destruct (h_addl h =? 24); [apply out_req; intros L; cbn; unfold lands, q in *; lia|].
    exact LQ.
  Qed.

  (** ** Strings (ordinary, unhardened spans) *)
  Lemma addr_soft q : 0 <= q <= zlen b -> addr false b q = Ok q.
  Proof. intros H. apply addr_room; auto. Qed.
  Lemma out_mk_string q n : 0 <= q <= zlen b -> 0 <= n < 2^64 -> wrap64 (q + n) <= zlen b -> (c = true -> n < 2^63) ->
    outcome c u (fun _ => True) (mk_string b q n).
  Proof.
    intros Q N W V. unfold mk_string. destruct (i64_max <? n) eqn:E; unfold i64_max in E.
    - destruct c; [specialize (V eq_refl); lia|reflexivity].
    - rewrite wrap64_small in W by lia. rewrite rd_view_in; [exact I|]. unfold view_in. cbn. lia.
  Qed.
  Variable fuel : nat.
  Hypothesis FU : c = true -> zlen b < Z.of_nat fuel.
  Lemma FU' p : 0 <= p -> c = true -> rest p < Z.of_nat fuel.
  Proof. intros P C. specialize (FU C). pose proof (zlen_nonneg b). unfold rest. lia. Qed.

  Lemma out_str_chunk s : 0 <= fst s ->
    outcome c u (fun x => match x with inl s' => 0 <= fst s' /\ (c = true -> rest (fst s') < rest (fst s)) | inr _ => True end) (str_chunk false b s).
  Proof.
    destruct s as [q out]. cbn [fst]. intros Q. unfold str_chunk. apply out_req. intros L. destruct (rd_in b q) as [x Ex]; [lia|]. rewrite Ex. cbn [bind].
    destruct (x =? 255); [exact I|].
    eapply out_bind; [apply (out_head c u b q B Q)|]. intros h HH. assert (HH' := HH). destruct HH' as (H1 & H2 & H3 & _).
    apply out_req. intros E. cbv zeta. apply out_req. intros W.
    rewrite addr_soft by lia. cbn [bind].
    eapply out_bind; [apply out_mk_string; [lia|exact H3|lia|intros C; apply (str_small q h Q HH); [lia|exact C]]|].
    intros t _. cbn [outcome fst]. pose proof (wrap_range (q + h_len h + h_val h)). split; [lia|]. intros C.
    assert (V := str_small q h Q HH ltac:(lia) C). rewrite wrap64_small by lia. unfold rest. lia.
  Qed.
  Lemma out_asString p : 0 <= p -> outcome c u (fun _ => True) (c_asString false fuel (mkCView b p)).
  Proof.
    intros P. unfold c_asString, chd. cbn [cv_buf cv_pos].
    eapply out_bind; [apply (out_head c u b p B P)|]. intros h HH. assert (HH' := HH). destruct HH' as (H1 & H2 & H3 & _).
    apply out_req. intros E. cbv zeta. destruct (negb (h_indef h)).
    - apply out_req. intros W. rewrite addr_soft by lia. cbn [bind].
      apply out_mk_string; [lia|exact H3|lia|]. intros C. apply (str_small p h P HH); [lia|exact C].
    - apply (out_floop c u _ (fun s => 0 <= fst s) (fun s => rest (fst s))); [apply out_str_chunk|intros; unfold rest; lia|cbn; lia|].
      cbn [fst]. apply FU'. lia.
  Qed.

  (** ** Arrays *)
  Lemma out_size p : 0 <= p -> outcome c u (fun _ => True) (c_arraySize fuel (mkCView b p)).
  Proof.
    intros P. unfold c_arraySize, chd. cbn [cv_buf cv_pos].
    eapply out_bind; [apply (out_head c u b p B P)|]. intros h (H1 & H2 & H3 & _).
    apply out_req. intros _. destruct (negb (h_indef h)); [exact I|].
    apply (out_floop c u _ (fun s => 0 <= fst s) (fun s => rest (fst s))); [|intros; unfold rest; lia|cbn; lia|cbn [fst]; apply FU'; lia].
    intros [q n] Q. cbn [fst] in *. unfold size_step. apply out_req. intros L. destruct (rd_in b q) as [x Ex]; [lia|]. rewrite Ex. cbn [bind].
    destruct (x =? 255); [exact I|]. eapply out_bind; [apply (out_skip fuel q Q (FU' q Q))|]. intros r [R1 R2]. cbn [outcome fst].
    split; [lia|]. intros C. specialize (R2 C). unfold rest. lia.
  Qed.
  Lemma out_idx p i : 0 <= p -> outcome c u (inside b) (c_idx fuel (mkCView b p) i).
  Proof.
    intros P. unfold c_idx, chd. cbn [cv_buf cv_pos].
    eapply out_bind; [apply (out_head c u b p B P)|]. intros h (H1 & H2 & H3 & _).
    apply out_req. intros _. cbv zeta. destruct (negb (h_indef h)).
    - destruct (h_val h <=? i); [exact I|].
      eapply out_bind; [apply (out_times c u _ (fun q => 0 <= q <= zlen b)); [|lia]|].
      + intros q Q. eapply out_weak; [apply (out_skip fuel q ltac:(lia) (FU' q ltac:(lia)))|]. intros r [R _]. exact R.
      + intros q Q. split; [reflexivity|exact Q].
    - eapply out_bind.
      + apply (out_floop c u _ (fun s => 0 <= fst s) (fun s => rest (fst s)) (fun o => match o with Some w => inside b w | None => True end));
          [|intros; unfold rest; lia|cbn; lia|cbn [fst]; apply FU'; lia].
        intros [q n] Q. cbn [fst] in *. unfold idx_step. apply out_req. intros L. destruct (rd_in b q) as [x Ex]; [lia|]. rewrite Ex. cbn [bind].
        destruct (x =? 255); [exact I|]. destruct (n =? i); [cbn; unfold inside; cbn; split; [reflexivity|lia]|].
        eapply out_bind; [apply (out_skip fuel q Q (FU' q Q))|]. intros r [R1 R2]. cbn [outcome fst].
        split; [lia|]. intros C. specialize (R2 C). unfold rest. lia.
      + intros [w|] H; [exact H|exact I].
  Qed.

  (** ** Maps *)
  Lemma out_key p k : 0 <= p -> outcome c u (inside b) (c_key false fuel (mkCView b p) k).
  Proof.
    intros P. unfold c_key, chd. cbn [cv_buf cv_pos].
    eapply out_bind; [apply (out_head c u b p B P)|]. intros h (H1 & H2 & H3 & _).
    apply out_req. intros _. cbv zeta. destruct (negb (h_indef h)).
    - eapply out_bind; [apply (out_zloop c u _ (fun q => 0 <= q <= zlen b) (inside b)); [|lia]|].
      + intros q Q. unfold key_def. eapply out_bind; [apply out_asString; lia|]. intros s _.
        eapply out_bind; [apply (out_skip fuel q ltac:(lia) (FU' q ltac:(lia)))|]. intros r [R _].
        destruct (beq s k); [split; [reflexivity|exact R]|].
        eapply out_bind; [apply (out_skip fuel r ltac:(lia) (FU' r ltac:(lia)))|]. intros r' [R' _]. exact R'.
      + intros [q|w] H; [exact I|exact H].
    - eapply out_bind.
      + apply (out_floop c u _ (fun q => 0 <= q) rest (fun o => match o with Some w => inside b w | None => True end));
          [|intros; unfold rest; lia|lia|apply FU'; lia].
        intros q Q. unfold key_ind. apply out_req. intros L. destruct (rd_in b q) as [x Ex]; [lia|]. rewrite Ex. cbn [bind].
        destruct (x =? 255); [exact I|]. eapply out_bind; [apply out_asString; lia|]. intros s _.
        eapply out_bind; [apply (out_skip fuel q ltac:(lia) (FU' q ltac:(lia)))|]. intros r [R R2].
        destruct (beq s k); [split; [reflexivity|exact R]|].
        eapply out_bind; [apply (out_skip fuel r ltac:(lia) (FU' r ltac:(lia)))|]. intros r' [R' R2']. cbn [outcome].
        split; [lia|]. intros C. specialize (R2 C). specialize (R2' C). unfold rest. lia.
      + intros [w|] H; [exact H|exact I].
  Qed.
  (** contains on an indefinite-length map *)
  Lemma out_contains_ind q k : 0 <= q ->
    outcome c u (fun _ => True) (floop fuel (contains_ind false fuel b k) q).
  Proof.
    intros Q0. apply (out_floop c u _ (fun q => 0 <= q) rest); [|intros; unfold rest; lia|exact Q0|apply FU'; exact Q0].
    intros q' Q. unfold contains_ind. apply out_req. intros L. destruct (rd_in b q') as [x Ex]; [lia|]. rewrite Ex. cbn [bind].
    destruct (x =? 255); [exact I|]. eapply out_bind; [apply out_asString; lia|]. intros s _.
    eapply out_bind; [apply (out_skip fuel q' ltac:(lia) (FU' q' ltac:(lia)))|]. intros r [R R2].
    destruct (beq s k); [exact I|].
    eapply out_bind; [apply (out_skip fuel r ltac:(lia) (FU' r ltac:(lia)))|]. intros r' [R' R2']. cbn [outcome].
    split; [lia|]. intros C. specialize (R2 C). specialize (R2' C). unfold rest. lia.
  Qed.
  (** contains in general may read out of bounds (UB admitted). *)
  Lemma out_contains p k : u = true -> 0 <= p -> outcome c u (fun _ => True) (c_contains false fuel (mkCView b p) k).
  Proof.
    intros U P. unfold c_contains, chd. cbn [cv_buf cv_pos].
    eapply out_bind; [apply (out_head c u b p B P)|]. intros h (H1 & H2 & H3 & _).
    destruct (negb (h_major h =? 5)); [exact I|]. cbv zeta. destruct (negb (h_indef h)); [|apply out_contains_ind; lia].
    eapply out_bind; [apply (out_zloop c u _ (fun q => 0 <= q <= zlen b) (fun _ => True)); [|lia]|intros [q|w] _; exact I].
    intros q Q. unfold contains_def. eapply out_bind; [apply (out_head c u b q B ltac:(lia))|]. intros kh (K1 & K2 & K3 & _).
    eapply (out_bind c u (fun _ => True)).
    - destruct (_ && _).
      + rewrite addr_soft by lia. cbn [bind]. unfold sv_is. destruct (_ =? _); [|exact I].
        unfold rd_view. destruct (_ && _); [exact I|exact U].
      + eapply out_bind; [apply out_asString; lia|]. intros; exact I.
    - intros e _. destruct e; [exact I|].
      eapply out_bind; [apply (out_skip fuel q ltac:(lia) (FU' q ltac:(lia)))|]. intros r [R _].
      eapply out_bind; [apply (out_skip fuel r ltac:(lia) (FU' r ltac:(lia)))|]. intros r' [R' _]. exact R'.
  Qed.
  Lemma out_view m p : c = true -> m = 2 \/ m = 3 -> 0 <= p -> outcome c u (view_in b) (c_view false m (mkCView b p)).
  Proof.
    intros C M P. unfold c_view, chd. cbn [cv_buf cv_pos].
    eapply out_bind; [apply (out_head c u b p B P)|]. intros h HH. assert (HH' := HH). destruct HH' as (H1 & H2 & H3 & _).
    apply out_req. intros E. apply out_req. intros _. cbv zeta. apply out_req. intros W.
    rewrite addr_soft by lia. cbn [bind outcome]. assert (V := str_small p h P HH ltac:(lia) C).
    rewrite wrap64_small in W by lia. unfold view_in. cbn. lia.
  Qed.
End Buffer.

(** ** Scalars, on every view of every buffer *)
Section Scalars.
  Variables (b : bytes) (w : cview).
  Hypothesis B : bytes_ok b.
  Hypothesis W : inside b w.
  Lemma hd_safe {A} (k : chead -> res A) : (forall h, head_in b (cv_pos w) h -> outcome true false any (k h)) -> safe any (h <- chd w ;; k h).
  Proof.
    intros K. apply out_safe. unfold chd. destruct W as [-> P]. eapply out_bind; [apply out_head; [exact B|lia]|exact K].
  Qed.
  Lemma is_safe p : safe any (c_is p w).
  Proof. apply hd_safe. intros; exact I. Qed.
  Lemma asBool_safe : safe any (c_asBool w).
  Proof. apply hd_safe. intros. apply out_req. intros; exact I. Qed.
  Lemma asInt_safe iw : safe any (c_asInt iw w).
  Proof.
    unfold c_asInt, c_asInt64. apply out_safe. eapply (out_bind _ _ any).
    - unfold chd. destruct W as [-> P]. eapply out_bind; [apply out_head; [exact B|lia]|]. intros h _. apply out_req. intros _.
      destruct (h_major h =? 0); [exact I|]. destruct (i64_max <? h_val h); exact I.
    - intros x _. destruct iw; try (apply out_req; intros _; exact I). exact I.
  Qed.
  Lemma asUInt_safe iw : safe any (c_asUInt iw w).
  Proof.
    unfold c_asUInt, c_asUInt64. apply out_safe. eapply (out_bind _ _ any).
    - unfold chd. destruct W as [-> P]. eapply out_bind; [apply out_head; [exact B|lia]|]. intros h _. apply out_req. intros _. exact I.
    - intros x _. destruct iw; try (apply out_req; intros _; exact I). exact I.
  Qed.

  Lemma get_be_in p n : (n <= 8)%nat -> 0 <= p -> p + Z.of_nat n <= zlen b -> exists v, get_be b p n 0 = Ok v.
  Proof. intros N P L. destruct (get_be_at b p n B N P L) as (v & E & _). eauto. Qed.
  Lemma get_be_ub : forall n p v, 0 <= p <= zlen b -> zlen b < p + Z.of_nat n -> get_be b p n v = UB.
  Proof.
    induction n as [|n IH]; intros p v P L.
    - cbn [get_be]. lia.
    - cbn [get_be]. destruct (rd b p) as [x|e| |] eqn:E; try reflexivity.
      + cbn [bind]. apply rd_inv in E. apply IH; lia.
      + unfold rd in E. destruct (get b p); discriminate.
      + unfold rd in E. destruct (get b p); discriminate.
  Qed.
End Scalars.

Lemma rd_out b p : zlen b <= p -> rd b p = UB.
Proof.
  intros H. destruct (rd b p) as [x|e| |] eqn:E; try reflexivity; [apply rd_inv in E; lia|unfold rd in E; destruct (get b p); discriminate|unfold rd in E; destruct (get b p); discriminate].
Qed.

(** asDouble: exact condition for staying inside the buffer. *)
Lemma asDouble_safe b p : bytes_ok b -> 0 <= p ->
  (forall x n, rd b p = Ok x -> float_size x = Some n -> p + n <= zlen b) -> safe any (c_asDouble (mkCView b p)).
Proof.
  intros B P H. unfold c_asDouble, chd. cbn [cv_buf cv_pos]. unfold read_head.
  destruct (p <? zlen b) eqn:L; [|exact I]. cbn [require bind]. destruct (rd_in b p) as [x Ex]; [lia|]. rewrite Ex. cbn [bind].
  assert (Bx := rd_byte _ _ _ B Ex). destruct (byte_head x Bx) as (M & A & SP). specialize (H x). cbv zeta.
  set (m := Z.shiftr x 5) in *. set (a := Z.land x 31) in *.
  destruct (m =? 7) eqn:E7.
  - destruct (a =? 25) eqn:E1.
    { assert (X : float_size x = Some 3) by (replace x with 249 by lia; reflexivity). specialize (H 3 Ex X). unfold p_float. cbn [bind h_major h_addl h_len]. rewrite E7, E1. cbn [andb orb require bind].
      destruct (rd_in b (p + 1)) as [y ->]; [lia|]. cbn [bind]. destruct (rd_in b (p + 1 + 1)) as [z ->]; [lia|]. exact I. }
    destruct (a =? 26) eqn:E2.
    { assert (X : float_size x = Some 5) by (replace x with 250 by lia; reflexivity). specialize (H 5 Ex X). unfold p_float. cbn [bind h_major h_addl h_len]. rewrite E7, E2, E1. cbn [andb orb require bind].
      destruct (get_be_in b B (p + 1) 4) as [y ->]; try lia. exact I. }
    destruct (a =? 27) eqn:E3.
    { assert (X : float_size x = Some 9) by (replace x with 251 by lia; reflexivity). specialize (H 9 Ex X). unfold p_float. cbn [bind h_major h_addl h_len]. rewrite E7, E2, E1, E3. cbn [andb orb require bind].
      destruct (get_be_in b B (p + 1) 8) as [y ->]; try lia. exact I. }
    destruct (a =? 24) eqn:E4; [destruct (p + 2 <=? zlen b); [|exact I]|destruct (a =? 31)]; unfold p_float; cbn [bind require h_major h_addl h_len]; rewrite E1, E2, E3, andb_false_r; exact I.
  - destruct (a <? 24); [unfold p_float; cbn [bind h_major]; rewrite E7; exact I|].
    destruct (a =? 24).
    { destruct (p + 2 <=? zlen b) eqn:L2; [|exact I]. cbn [require bind]. destruct (rd_in b (p + 1)) as [y ->]; [lia|]. unfold p_float. cbn [bind h_major]. rewrite E7. exact I. }
    destruct (a =? 25).
    { destruct (p + 3 <=? zlen b) eqn:L2; [|exact I]. cbn [require bind]. destruct (get_be_in b B (p + 1) 2) as [y ->]; try lia. unfold p_float. cbn [bind h_major]. rewrite E7. exact I. }
    destruct (a =? 26).
    { destruct (p + 5 <=? zlen b) eqn:L2; [|exact I]. cbn [require bind]. destruct (get_be_in b B (p + 1) 4) as [y ->]; try lia. unfold p_float. cbn [bind h_major]. rewrite E7. exact I. }
    destruct (a =? 27).
    { destruct (p + 9 <=? zlen b) eqn:L2; [|exact I]. cbn [require bind]. destruct (get_be_in b B (p + 1) 8) as [y ->]; try lia. unfold p_float. cbn [bind h_major]. rewrite E7. exact I. }
    destruct (a =? 31); [unfold p_float; cbn [bind h_major]; rewrite E7; exact I|exact I].
Qed.
Lemma asDouble_ub b p x n : 0 <= p -> rd b p = Ok x -> float_size x = Some n -> zlen b < p + n ->
  c_asDouble (mkCView b p) = UB.
Proof.
  intros P E F L. pose proof (rd_inv _ _ _ E) as R. unfold c_asDouble, chd. cbn [cv_buf cv_pos]. unfold read_head.
  replace (p <? zlen b) with true by lia. cbn [require bind]. rewrite E. cbn [bind]. unfold float_size in F.
  destruct (x =? 249) eqn:E1; [|destruct (x =? 250) eqn:E2; [|destruct (x =? 251) eqn:E3; [|discriminate]]].
  - replace x with 249 by lia. injection F as <-. change (Z.shiftr 249 5) with 7. change (Z.land 249 31) with 25.
    cbn [Z.eqb Pos.eqb bind p_float require h_major h_addl h_len andb orb]. destruct (rd b (p + 1)) as [y|e| |] eqn:Ey; try reflexivity.
    + cbn [bind]. now rewrite rd_out by lia.
    + unfold rd in Ey. destruct (get b (p + 1)); discriminate.
    + unfold rd in Ey. destruct (get b (p + 1)); discriminate.
  - replace x with 250 by lia. injection F as <-. change (Z.shiftr 250 5) with 7. change (Z.land 250 31) with 26.
    cbn [Z.eqb Pos.eqb bind p_float require h_major h_addl h_len andb orb]. rewrite get_be_ub by lia. reflexivity.
  - replace x with 251 by lia. injection F as <-. change (Z.shiftr 251 5) with 7. change (Z.land 251 31) with 27.
    cbn [Z.eqb Pos.eqb bind p_float require h_major h_addl h_len andb orb]. rewrite get_be_ub by lia. reflexivity.
Qed.

(** ** Everything reachable *)
Lemma reach_inside c b fuel w : bytes_ok b -> zlen b < 2^63 -> (c = true -> no_huge b /\ zlen b < Z.of_nat fuel) ->
  reach (cbor_reader false fuel) (cb_open b) w -> inside b w.
Proof.
  intros B HB HC R. induction R as [|w1 i w2 R IH Hi E|w1 k w2 R IH Hk E].
  - split; [reflexivity|]. cbn. pose proof (zlen_nonneg b). lia.
  - destruct w1 as [b1 p]. destruct IH as [EB P]. cbn [cv_buf cv_pos] in *. subst b1. cbn [cbor_reader r_idx] in E.
    pose proof (out_idx false false b B HB ltac:(discriminate) fuel ltac:(discriminate) p i ltac:(lia)) as O. rewrite E in O. exact O.
  - destruct w1 as [b1 p]. destruct IH as [EB P]. cbn [cv_buf cv_pos] in *. subst b1. cbn [cbor_reader r_key] in E.
    pose proof (out_key false false b B HB ltac:(discriminate) fuel ltac:(discriminate) p k ltac:(lia)) as O. rewrite E in O. exact O.
Qed.
