(** NarrowFacts.v -- [narrow] rounds to nearest even and inverts the widening of floats. *)

From Coq Require Import ZArith List Bool Lia ZifyBool.
From Verif Require Import Base BaseFacts FloatModel FloatSpec FloatFacts NarrowModel NarrowSpec.
Open Scope Z_scope.

(** ** Rounding a quotient *)
Lemma rne_near a d n : 0 < d -> Z.abs (a - d * rne a d) <= Z.abs (a - d * n) /\
  (Z.abs (a - d * rne a d) = Z.abs (a - d * n) -> n <> rne a d -> Z.even (rne a d) = true).
Proof.
  intros D. unfold rne. pose proof (Z.div_mod a d ltac:(lia)) as E. pose proof (Z.mod_pos_bound a d D) as R.
  set (q := a / d) in *. set (r := a mod d) in *. clearbody q r. subst a.
  assert (G : n <= q - 1 \/ n = q \/ n = q + 1 \/ q + 2 <= n) by lia.
  destruct (2 * r <? d) eqn:A; [|destruct (d <? 2 * r) eqn:B; [|destruct (Z.even q) eqn:C]].
  - split; [|intros EQ NE; exfalso; apply NE]; destruct G as [G|[-> |[-> |G]]]; try nia; auto.
  - split; [|intros EQ NE; exfalso; apply NE]; destruct G as [G|[-> |[-> |G]]]; try nia; auto.
  - split; [|intros; exact C]. destruct G as [G|[-> |[-> |G]]]; nia.
  - split; [destruct G as [G|[-> |[-> |G]]]; nia|]. intros _ _. rewrite Z.even_add, C. reflexivity.
Qed.
Lemma rne_bounds a d lo hi : 0 < d -> d * lo <= a <= d * hi -> lo <= rne a d <= hi.
Proof.
  intros D B. unfold rne. pose proof (Z.div_mod a d ltac:(lia)) as E. pose proof (Z.mod_pos_bound a d D) as R.
  set (q := a / d) in *. set (r := a mod d) in *. clearbody q r. subst a.
  assert (lo <= q) by nia. assert (q <= hi) by nia.
  assert (r = 0 \/ q + 1 <= hi) by nia.
  destruct (2 * r <? d) eqn:A; [lia|]. destruct (d <? 2 * r) eqn:Bb; [lia|]. destruct (Z.even q); lia.
Qed.
Lemma rne_exact q d : 0 < d -> rne (q * d) d = q.
Proof. intros D. unfold rne. rewrite Z.div_mul, Z.mod_mul by lia. replace (2 * 0 <? d) with true by lia. reflexivity. Qed.

(** ** Magnitudes of float patterns *)
Definition top : Z := 255 * 2^23.
Definition V (y : Z) : Z := if y <? 2^23 then y * 2^925 else (2^23 + y mod 2^23) * 2^(925 + y / 2^23 - 1).

Lemma grid k q : 925 <= k -> (k = 925 /\ 0 <= q \/ 2^23 <= q) -> q <= 2^24 -> V ((k - 925) * 2^23 + q) = q * 2^k.
Proof.
  intros K L U. unfold V. destruct (_ <? _) eqn:E.
  - assert (k = 925) as -> by lia. reflexivity.
  - assert (Hq : 2^23 <= q) by (destruct L as [[-> L]|L]; lia).
    destruct (Z.eq_dec q (2^24)) as [-> |NE].
    + replace ((k - 925) * 2^23 + 2^24) with ((k - 923) * 2^23) by ring. rewrite Z.mod_mul, Z.div_mul by lia.
      replace (925 + (k - 923) - 1) with (1 + k) by ring. rewrite Z.pow_add_r by lia. lia.
    + replace ((k - 925) * 2^23 + q) with ((q - 2^23) + (k - 924) * 2^23) by ring. rewrite Z.mod_add, Z.div_add by lia.
      rewrite Z.mod_small, Z.div_small by lia. f_equal; [ring|f_equal; lia].
Qed.
(** Every pattern is on a grid. *)
Lemma V_form y : 0 <= y -> exists k q, 925 <= k /\ (k = 925 /\ 0 <= q \/ 2^23 <= q) /\ q < 2^24 /\ y = (k - 925) * 2^23 + q.
Proof.
  intros H. destruct (Z_lt_le_dec y (2^24)) as [L|L].
  - exists 925, y. lia.
  - exists (924 + y / 2^23), (2^23 + y mod 2^23). pose proof (Z.div_mod y (2^23) ltac:(lia)). pose proof (Z.mod_pos_bound y (2^23) ltac:(lia)).
    assert (2 <= y / 2^23) by (apply Z.div_le_lower_bound; lia). lia.
Qed.
Lemma pow_step k : 0 <= k -> 2^(k+1) = 2 * 2^k.
Proof. intros. rewrite Z.pow_add_r by lia. lia. Qed.
Lemma V_next y : 0 <= y -> V y < V (y + 1).
Proof.
  intros H. destruct (V_form y H) as (k & q & K & Q & U & ->). rewrite grid by (auto; lia).
  replace ((k - 925) * 2^23 + q + 1) with ((k - 925) * 2^23 + (q + 1)) by ring. rewrite grid; [|lia|lia|lia].
  assert (0 < 2^k) by (apply Z.pow_pos_nonneg; lia). nia.
Qed.
Lemma V_mono x y : 0 <= x -> x < y -> V x < V y.
Proof.
  intros H L. replace y with (x + Z.of_nat (Z.to_nat (y - x))) by lia. assert (N : (0 < Z.to_nat (y - x))%nat) by lia.
  set (n := Z.to_nat (y - x)) in *. clearbody n. clear y L. induction n as [|[|n] IH]; [lia|apply V_next; lia|].
  eapply Z.lt_trans; [apply IH; lia|]. replace (x + Z.of_nat (S (S n))) with (x + Z.of_nat (S n) + 1) by lia. apply V_next. lia.
Qed.

(** ** Nearest among all patterns *)
Definition pat (u : Z) : Z := let k := Z.max 925 (Z.log2 u - 23) in (k - 925) * 2^23 + rne u (2^k).
Lemma pat_spec u : 0 <= u -> exists k, 925 <= k /\ pat u = (k - 925) * 2^23 + rne u (2^k) /\ u < 2^24 * 2^k /\
  (k = 925 \/ 2^23 * 2^k <= u).
Proof.
  intros H. exists (Z.max 925 (Z.log2 u - 23)). split; [lia|]. split; [reflexivity|].
  destruct (Z.eq_dec u 0) as [-> |NZ].
  { cbn [Z.log2]. split; [|left; lia]. assert (0 < 2^Z.max 925 (0 - 23)) by (apply Z.pow_pos_nonneg; lia). lia. }
  pose proof (Z.log2_spec u ltac:(lia)) as (A & B). destruct (Z_le_gt_dec 925 (Z.log2 u - 23)) as [L|L].
  - rewrite Z.max_r by lia. rewrite <- !Z.pow_add_r by lia. replace (23 + (Z.log2 u - 23)) with (Z.log2 u) by lia.
    replace (24 + (Z.log2 u - 23)) with (Z.succ (Z.log2 u)) by lia. lia.
  - rewrite Z.max_l by lia. split; [|now left]. rewrite <- Z.pow_add_r by lia. eapply Z.lt_le_trans; [exact B|]. apply Z.pow_le_mono_r; lia.
Qed.
Lemma pat_near u y : 0 <= u -> 0 <= y -> Z.abs (u - V (pat u)) <= Z.abs (u - V y) /\
  (Z.abs (u - V (pat u)) = Z.abs (u - V y) -> y <> pat u -> pat u mod 2 = 0).
Proof.
  intros HU HY. destruct (pat_spec u HU) as (k & K & -> & UP & LO).
  assert (D : 0 < 2^k) by (apply Z.pow_pos_nonneg; lia).
  assert (RB : (k = 925 /\ 0 <= rne u (2^k) \/ 2^23 <= rne u (2^k)) /\ rne u (2^k) <= 2^24).
  { destruct LO as [-> |LO].
    - pose proof (rne_bounds u (2^925) 0 (2^24) D ltac:(lia)). lia.
    - pose proof (rne_bounds u (2^k) (2^23) (2^24) D ltac:(lia)). lia. }
  destruct RB as (RL & RU). rewrite grid by assumption.
  assert (PAR : ((k - 925) * 2^23 + rne u (2^k)) mod 2 = 0 <-> Z.even (rne u (2^k)) = true).
  { replace ((k - 925) * 2^23 + rne u (2^k)) with (rne u (2^k) + ((k - 925) * 2^22) * 2) by ring. rewrite Z.mod_add by lia. rewrite Zmod_even. destruct (Z.even _); lia. }
  rewrite PAR. clear PAR.
  assert (ON : forall q, (k = 925 /\ 0 <= q \/ 2^23 <= q) -> q <= 2^24 -> y = (k - 925) * 2^23 + q ->
            Z.abs (u - rne u (2^k) * 2^k) <= Z.abs (u - V y) /\
            (Z.abs (u - rne u (2^k) * 2^k) = Z.abs (u - V y) -> y <> (k - 925) * 2^23 + rne u (2^k) -> Z.even (rne u (2^k)) = true)).
  { intros q Q1 Q2 ->. rewrite grid by assumption. destruct (rne_near u (2^k) q D) as (N & E). rewrite (Z.mul_comm (rne _ _)), (Z.mul_comm q).
    split; [exact N|]. intros EQ NE. apply E; [exact EQ|]. intros ->. now apply NE. }
  destruct (Z_le_gt_dec y ((k - 925) * 2^23 + 2^24)) as [YU|YU].
  - destruct (Z_le_gt_dec (if k =? 925 then 0 else (k - 925) * 2^23 + 2^23) y) as [YL|YL].
    + apply (ON (y - (k - 925) * 2^23)); [destruct (k =? 925) eqn:E; lia|lia|lia].
    + destruct (k =? 925) eqn:E; [lia|]. destruct LO as [-> |LO]; [lia|].
      assert (V y < 2^23 * 2^k).
      { rewrite <- (grid k (2^23)) by lia. apply V_mono; lia. }
      destruct (rne_near u (2^k) (2^23) D) as (N & _). split; [|intros EQ; exfalso]; lia.
  - assert (2^24 * 2^k < V y).
    { rewrite <- (grid k (2^24)) by lia. apply V_mono; lia. }
    destruct (rne_near u (2^k) (2^24) D) as (N & _). split; [|intros EQ; exfalso]; lia.
Qed.
Lemma pat_nonneg u : 0 <= u -> 0 <= pat u.
Proof.
  intros HU. destruct (pat_spec u HU) as (k & K & -> & UP & LO). assert (D : 0 < 2^k) by (apply Z.pow_pos_nonneg; lia).
  destruct LO as [-> |LO].
  - pose proof (rne_bounds u (2^925) 0 (2^24) D ltac:(lia)). lia.
  - pose proof (rne_bounds u (2^k) (2^23) (2^24) D ltac:(lia)). lia.
Qed.
(** ... and among those up to infinity. *)
Lemma min_near u y : 0 <= u -> 0 <= y <= top -> Z.abs (u - V (Z.min top (pat u))) <= Z.abs (u - V y) /\
  (Z.abs (u - V (Z.min top (pat u))) = Z.abs (u - V y) -> y <> Z.min top (pat u) -> Z.min top (pat u) mod 2 = 0).
Proof.
  intros HU HY. destruct (Z_le_gt_dec (pat u) top) as [L|G].
  - rewrite Z.min_r by lia. apply pat_near; lia.
  - rewrite Z.min_l by lia. split; [|reflexivity].
    destruct (Z.eq_dec y top) as [-> |NE]; [lia|].
    assert (V y < V top) by (apply V_mono; lia). assert (V top < V (pat u)) by (apply V_mono; unfold top in *; lia).
    (* otherwise top would be closer than pat u *)
    destruct (pat_near u top HU ltac:(unfold top; lia)) as (N & _). lia.
Qed.

(** ** Patterns and values *)
Lemma f32_split y : is_f32 y -> exists s z, (s = 0 \/ s = 1) /\ 0 <= z < 2^31 /\ y = s * 2^31 + z /\
  f32_sign y = s /\ f32_exp y = z / 2^23 /\ f32_man y = z mod 2^23.
Proof.
  intros H. unfold is_f32 in H. exists (y / 2^31), (y mod 2^31).
  pose proof (Z.div_mod y (2^31) ltac:(lia)) as E. pose proof (Z.mod_pos_bound y (2^31) ltac:(lia)) as B.
  assert (S : 0 <= y / 2^31 < 2) by (split; [apply Z.div_pos; lia|apply Z.div_lt_upper_bound; lia]).
  set (s := y / 2^31) in *. set (z := y mod 2^31) in *.
  assert (Hs : s = 0 \/ s = 1) by lia. split; [exact Hs|]. split; [exact B|]. split; [lia|].
  unfold f32_sign, f32_exp, f32_man. fold s. clearbody s z. subst y. clear H.
  assert (Q : 0 <= z / 2^23 < 2^8) by (split; [apply Z.div_pos; lia|apply Z.div_lt_upper_bound; lia]).
  replace (2^31 * s + z) with (z + (s * 2^8) * 2^23) by ring. rewrite Z.div_add, Z.mod_add by lia.
  replace (z / 2^23 + s * 2^8) with (z / 2^23 + s * 2^8) by ring. rewrite Z.mod_add by lia. rewrite (Z.mod_small (z / 2^23)) by lia.
  rewrite (Z.mod_small s) by lia. auto.
Qed.
Lemma V_top : V top = 2^1202.
Proof. vm_compute. reflexivity. Qed.
Lemma f32_mag s z : (s = 0 \/ s = 1) -> 0 <= z < 2^31 ->
  (is_nan (f32_value (s * 2^31 + z)) <-> top < z) /\
  (z <= top -> negative (f32_value (s * 2^31 + z)) = (s =? 1) /\ magnitude (f32_value (s * 2^31 + z)) = V z).
Proof.
  intros Hs Hz. destruct (f32_split (s * 2^31 + z) ltac:(unfold is_f32; lia)) as (s' & z' & Hs' & Hz' & E & F1 & F2 & F3).
  assert (s' = s /\ z' = z) as (-> & ->) by lia. rewrite f32_value_fields. cbn zeta. rewrite F1, F2, F3. clear E F1 F2 F3 Hs' Hz'.
  assert (SG : negb (s =? 0) = (s =? 1)) by lia. rewrite SG.
  pose proof (Z.div_mod z (2^23) ltac:(lia)) as E. pose proof (Z.mod_pos_bound z (2^23) ltac:(lia)) as B. unfold is_nan.
  destruct (z / 2^23 =? 255) eqn:E1.
  - assert (z / 2^23 = 255) as E1' by lia. destruct (z mod 2^23 =? 0) eqn:E2.
    + assert (z = top) as -> by (unfold top; lia). split; [split; [discriminate|lia]|]. intros _. split; [reflexivity|]. symmetry. apply V_top.
    + split; [split; [intros _; unfold top; lia|reflexivity]|]. unfold top. lia.
  - assert (LT : z / 2^23 < 256) by (apply Z.div_lt_upper_bound; lia). assert (TP : z <= top) by (unfold top; lia).
    destruct (z / 2^23 =? 0) eqn:E2.
    + split; [split; [discriminate|lia]|]. intros _. split; [reflexivity|]. cbn [magnitude]. unfold V. replace (z <? 2^23) with true by lia.
      rewrite Z.mod_small by lia. reflexivity.
    + split; [split; [discriminate|lia]|]. intros _. split; [reflexivity|]. cbn [magnitude]. unfold V.
      assert (0 <= z / 2^23) by (apply Z.div_pos; lia). replace (z <? 2^23) with false by lia. reflexivity.
Qed.
Lemma V_inj x y : 0 <= x -> 0 <= y -> V x = V y -> x = y.
Proof. intros A B E. destruct (Z.lt_trichotomy x y) as [L|[L|L]]; auto; [pose proof (V_mono x y A L)|pose proof (V_mono y x B L)]; lia. Qed.
Lemma f32_inj a b : is_f32 a -> is_f32 b -> ~ is_nan (f32_value a) -> ~ is_nan (f32_value b) ->
  negative (f32_value a) = negative (f32_value b) -> magnitude (f32_value a) = magnitude (f32_value b) -> a = b.
Proof.
  intros A B. destruct (f32_split a A) as (s & x & Hs & Hx & -> & _). destruct (f32_split b B) as (t & y & Ht & Hy & -> & _).
  destruct (f32_mag s x Hs Hx) as (N1 & M1), (f32_mag t y Ht Hy) as (N2 & M2). rewrite N1, N2. intros L1 L2.
  destruct (M1 ltac:(lia)) as (-> & ->), (M2 ltac:(lia)) as (-> & ->). intros S M. apply V_inj in M; lia.
Qed.

Lemma Fnum_inj a b c d : Fnum a b = Fnum c d -> a = c /\ b = d.
Proof. intros E. split; [exact (f_equal negative E)|exact (f_equal magnitude E)]. Qed.
Lemma mk32_top s z : mk32 s 0 0 + z = s * 2^31 + z.
Proof. unfold mk32. ring. Qed.
Theorem narrow_nearest x s u : 0 <= x < 2^64 -> f64_value x = Fnum s u -> nearest (f64_value x) (narrow x).
Proof.
  intros Hx E. destruct (f64_ranges x) as (Rs & Re & Rm).
  assert (EX : f64_exp x <> 2047 /\ s = (f64_sign x =? 1) /\ u = (if f64_exp x =? 0 then f64_man x else (2^52 + f64_man x) * 2^(f64_exp x - 1))).
  { rewrite <- (f64_join x Hx) in E. rewrite f64_value_mk in E by assumption. destruct (f64_exp x =? 2047) eqn:E1.
    - destruct (f64_man x =? 0); discriminate.
    - split; [lia|]. destruct (f64_exp x =? 0); apply Fnum_inj in E as (<- & <-); (split; [clear - Rs; lia|reflexivity]). }
  destruct EX as (E1 & -> & UE).
  assert (U : 0 <= u).
  { rewrite UE. destruct (f64_exp x =? 0) eqn:E2; [lia|]. apply Z.mul_nonneg_nonneg; [lia|apply Z.pow_nonneg; lia]. }
  assert (NW : narrow x = f64_sign x * 2^31 + Z.min top (pat u)).
  { unfold narrow. replace (f64_exp x =? 2047) with false by lia. cbv zeta. rewrite <- UE. apply mk32_top. }
  rewrite NW, E. set (t := f64_sign x) in *. assert (T : t = 0 \/ t = 1) by lia. clearbody t. clear E UE E1 NW Rs Re Rm Hx.
  pose proof (pat_nonneg u U) as PN.
  assert (RB : 0 <= Z.min top (pat u) <= top) by (unfold top in *; lia).
  assert (T31 : top < 2^31) by (unfold top; lia).
  destruct (f32_mag t (Z.min top (pat u)) T ltac:(lia)) as (N & M). destruct (M ltac:(lia)) as (MS & MM).
  unfold nearest. split; [unfold is_f32; lia|]. split; [rewrite N; lia|]. split; [exact MS|].
  intros y Hy NY SY. destruct (f32_split y Hy) as (s' & z & Hs' & Hz & -> & _).
  destruct (f32_mag s' z Hs' Hz) as (N2 & M2). rewrite N2 in NY. destruct (M2 ltac:(lia)) as (MS2 & MM2). rewrite MM, MM2. cbn [magnitude].
  rewrite MS2 in SY. cbn [negative] in SY. assert (s' = t) as -> by lia.
  destruct (min_near u z U ltac:(lia)) as (D1 & D2). split; [exact D1|]. intros EQ NE. specialize (D2 EQ ltac:(lia)).
  replace (t * 2^31 + Z.min top (pat u)) with (Z.min top (pat u) + (t * 2^30) * 2) by ring. now rewrite Z.mod_add by lia.
Qed.
Lemma narrow_inf x s : 0 <= x < 2^64 -> f64_value x = Finf s -> is_f32 (narrow x) /\ f32_value (narrow x) = Finf s.
Proof.
  intros Hx E. destruct (f64_ranges x) as (Rs & Re & Rm). rewrite <- (f64_join x Hx), f64_value_mk in E by assumption.
  destruct (f64_exp x =? 2047) eqn:E1; [|destruct (f64_exp x =? 0); discriminate]. destruct (f64_man x =? 0) eqn:E2; [|discriminate]. injection E as <-.
  unfold narrow. rewrite E1, E2. cbv zeta. split; [apply mk32_range; lia|].
  rewrite f32_value_fields. destruct (mk32_fields (f64_sign x) 255 0) as (-> & -> & ->); try lia. reflexivity.
Qed.
Lemma narrow_nan x : 0 <= x < 2^64 -> f64_value x = Fnan -> is_f32 (narrow x) /\ f32_value (narrow x) = Fnan.
Proof.
  intros Hx E. destruct (f64_ranges x) as (Rs & Re & Rm). rewrite <- (f64_join x Hx), f64_value_mk in E by assumption.
  destruct (f64_exp x =? 2047) eqn:E1; [|destruct (f64_exp x =? 0); discriminate]. destruct (f64_man x =? 0) eqn:E2; [discriminate|].
  unfold narrow. rewrite E1, E2. cbv zeta.
  assert (0 <= f64_man x / 2^29 < 2^23) by (split; [apply Z.div_pos; lia|apply Z.div_lt_upper_bound; lia]).
  assert (L : 0 < Z.lor (f64_man x / 2^29) (2^22) < 2^23).
  { assert (0 <= Z.lor (f64_man x / 2^29) (2^22)) by (apply Z.lor_nonneg; lia).
    assert (Z.lor (f64_man x / 2^29) (2^22) <> 0) by (rewrite Z.lor_eq_0_iff; lia). split; [lia|].
    apply Z.log2_lt_pow2; [lia|]. rewrite Z.log2_lor by lia. apply Z.max_lub_lt; [|apply Z.log2_lt_pow2; lia].
    destruct (Z.eq_dec (f64_man x / 2^29) 0) as [-> |]; [cbn; lia|apply Z.log2_lt_pow2; lia]. }
  split; [apply mk32_range; lia|]. rewrite f32_value_fields. destruct (mk32_fields (f64_sign x) 255 (Z.lor (f64_man x / 2^29) (2^22))) as (-> & -> & ->); try lia.
  cbv zeta. replace (Z.lor (f64_man x / 2^29) (2^22) =? 0) with false by lia. reflexivity.
Qed.

(** ** Floats survive widening and narrowing *)
Lemma widen_u64 f : is_f32 f -> 0 <= f32_to_f64 f < 2^64.
Proof.
  intros Hf. destruct (f32_ranges f) as (Rs & Re & Rm). unfold f32_to_f64, mk64.
  destruct (f32_exp f =? 255) eqn:E1.
  - destruct (f32_man f =? 0); [lia|]. pose proof (lor_pos (f32_man f * 2^29) (2^51) ltac:(lia) ltac:(lia)). lia.
  - destruct (f32_exp f =? 0) eqn:E2; [|lia]. destruct (f32_man f =? 0) eqn:E3; [lia|]. cbv zeta.
    assert (Hk : 0 <= Z.log2 (f32_man f) < 23) by (split; [apply Z.log2_nonneg|apply Z.log2_lt_pow2; lia]).
    pose proof (Z.log2_spec (f32_man f) ltac:(lia)) as Hl. set (k := Z.log2 (f32_man f)) in *. clearbody k. rewrite Z.pow_succ_r in Hl by lia.
    assert (P : 2^52 = 2^k * 2^(52 - k)) by (rewrite <- Z.pow_add_r by lia; f_equal; lia).
    assert (0 < 2^(52-k)) by (apply Z.pow_pos_nonneg; lia).
    assert (0 <= (f32_man f - 2^k) * 2^(52 - k) < 2^52) by (rewrite P; clear P; nia). lia.
Qed.
Theorem narrow_id f : is_f32 f -> ~ is_nan (f32_value f) -> narrow (f32_to_f64 f) = f.
Proof.
  intros Hf NN. pose proof (f32_exact f) as E. pose proof (widen_u64 f Hf) as W. destruct (f32_value f) as [|s|s u] eqn:F; [now destruct NN|..].
  - destruct (narrow_inf _ s W E) as (A & B). apply f32_inj; auto; rewrite ?B, ?F; auto; discriminate.
  - destruct (narrow_nearest _ s u W E) as (A & B & C & D). rewrite E in *. specialize (D f Hf ltac:(rewrite F; discriminate) ltac:(now rewrite F)).
    destruct D as (D & _). rewrite F in D. cbn [magnitude] in D.
    apply f32_inj; auto; rewrite ?F; auto. cbn [magnitude]. lia.
Qed.
Theorem narrow_exact x y : 0 <= x < 2^64 -> f64_to_f32 x = Some y -> narrow x = y.
Proof.
  intros Hx E. destruct (narrow_widen x y Hx E) as (Hy & <-). apply narrow_id; [exact Hy|]. intros N. red in N.
  rewrite <- f32_exact in N. unfold f64_to_f32 in E. destruct (f64_ranges (f32_to_f64 y)) as (Rs & Re & Rm).
  rewrite <- (f64_join _ Hx), f64_value_mk in N by assumption.
  destruct (f64_exp (f32_to_f64 y) =? 2047); [|destruct (f64_exp (f32_to_f64 y) =? 0); discriminate].
  destruct (f64_man (f32_to_f64 y) =? 0); discriminate.
Qed.
(** A NaN comes back quiet. *)
Theorem narrow_nan_id f : is_f32 f -> is_nan (f32_value f) -> narrow (f32_to_f64 f) = Z.lor f (2^22).
Proof.
  intros Hf N. red in N. rewrite f32_value_fields in N. cbv zeta in N. destruct (f32_ranges f) as (Rs & Re & Rm).
  destruct (f32_exp f =? 255) eqn:E1; [|destruct (f32_exp f =? 0); discriminate]. destruct (f32_man f =? 0) eqn:E2; [discriminate|].
  unfold f32_to_f64. rewrite E1, E2. cbv zeta.
  pose proof (lor_pos (f32_man f * 2^29) (2^51) ltac:(lia) ltac:(lia)) as L.
  assert (D : Z.lor (f32_man f * 2^29) (2^51) / 2^29 = Z.lor (f32_man f) (2^22)).
  { rewrite <- !Z.shiftr_div_pow2, Z.shiftr_lor by lia. rewrite <- Z.shiftl_mul_pow2, Z.shiftr_shiftl_l by lia. reflexivity. }
  unfold narrow. destruct (mk64_fields (f32_sign f) 2047 (Z.lor (f32_man f * 2^29) (2^51))) as (-> & -> & ->); try lia.
  change (2047 =? 2047) with true. cbv iota zeta. replace (Z.lor (f32_man f * 2^29) (2^51) =? 0) with false by lia. rewrite D, <- Z.lor_assoc, Z.lor_diag.
  destruct (f32_split f Hf) as (s & z & Hs & Hz & E & F1 & F2 & F3). rewrite F1, F3 in *. unfold mk32.
  pose proof (Z.div_mod z (2^23) ltac:(lia)) as EZ. pose proof (Z.mod_pos_bound z (2^23) ltac:(lia)) as BZ.
  assert (EF : f = z mod 2^23 + (s * 2^8 + 255) * 2^23) by lia.
  set (m := z mod 2^23) in *. clearbody m. rewrite EF. clear - BZ Hs.
  assert (G : forall a b, 0 <= a < 2^23 -> a + b * 2^23 = Z.lor a (b * 2^23)).
  { intros a b A. assert (LZ : Z.land a (b * 2^23) = 0); [|rewrite <- Z.lxor_lor by exact LZ; apply Z.add_nocarry_lxor; exact LZ]. apply Z.bits_inj'. intros n Hn.
    rewrite Z.land_spec, Z.bits_0. destruct (Z_lt_le_dec n 23) as [Ln|Ln].
    - rewrite <- Z.shiftl_mul_pow2, Z.shiftl_spec_low by lia. apply andb_false_r.
    - rewrite (Z.bits_above_log2 a); [reflexivity|lia|]. destruct (Z.eq_dec a 0) as [-> |]; [cbn; lia|]. assert (Z.log2 a < 23) by (apply Z.log2_lt_pow2; lia). lia. }
  assert (LB : 0 <= Z.lor m (2^22) < 2^23).
  { split; [apply Z.lor_nonneg; lia|]. assert (Z.lor m (2^22) <> 0) by (rewrite Z.lor_eq_0_iff; lia). assert (0 <= Z.lor m (2^22)) by (apply Z.lor_nonneg; lia).
    apply Z.log2_lt_pow2; [lia|]. rewrite Z.log2_lor by lia. apply Z.max_lub_lt; [|cbn; lia].
    destruct (Z.eq_dec m 0) as [-> |]; [cbn; lia|apply Z.log2_lt_pow2; lia]. }
  replace (s * 2^31 + 255 * 2^23 + Z.lor m (2^22)) with (Z.lor m (2^22) + (s * 2^8 + 255) * 2^23) by ring.
  rewrite (G m) by lia. rewrite (G (Z.lor m (2^22))) by lia. rewrite <- !Z.lor_assoc. f_equal. apply Z.lor_comm.
Qed.
(** Ties to even decide: between two even patterns there is an odd one. *)
Lemma nearest_le d s x y : (s = 0 \/ s = 1) -> 0 <= x < y -> y <= top ->
  nearest d (s * 2^31 + x) -> nearest d (s * 2^31 + y) -> False.
Proof.
  intros Hs X Y (A & B & C & D) (A' & B' & C' & D'). assert (T31 : top < 2^31) by (unfold top; lia).
  destruct (D _ A' B' C') as (L & T), (D' _ A B C) as (L' & T').
  specialize (T ltac:(lia) ltac:(lia)). specialize (T' ltac:(lia) ltac:(lia)).
  assert (P : x + 1 < y).
  { destruct (Z.eq_dec (x + 1) y) as [E|]; [exfalso|lia]. rewrite <- E in T'. clear - T T'.
    replace (s * 2^31 + x) with (x + (s * 2^30) * 2) in T by ring. replace (s * 2^31 + (x + 1)) with (x + 1 + (s * 2^30) * 2) in T' by ring.
    rewrite Z.mod_add in T, T' by lia. revert T T'. rewrite !Zmod_even, Z.even_add. destruct (Z.even x); cbn; lia. }
  destruct (f32_mag s (x + 1) Hs ltac:(lia)) as (N & M). destruct (M ltac:(lia)) as (M1 & M2).
  destruct (f32_mag s x Hs ltac:(lia)) as (_ & Mx). destruct (Mx ltac:(lia)) as (Mx1 & Mx2).
  destruct (f32_mag s y Hs ltac:(lia)) as (_ & My). destruct (My ltac:(lia)) as (My1 & My2).
  destruct (D (s * 2^31 + (x + 1))) as (Q & _); [unfold is_f32; lia|rewrite N; lia|rewrite <- C; congruence|].
  pose proof (V_mono x (x + 1) ltac:(lia) ltac:(lia)). pose proof (V_mono (x + 1) y ltac:(lia) ltac:(lia)).
  rewrite Mx2, My2, M2 in *. lia.
Qed.
Theorem nearest_unique d r r' : nearest d r -> nearest d r' -> r = r'.
Proof.
  intros R R'. assert (R0 := R). assert (R0' := R'). destruct R0 as (A & B & C & _), R0' as (A' & B' & C' & _).
  destruct (f32_split r A) as (s & x & Hs & Hx & -> & _). destruct (f32_split r' A') as (t & y & Ht & Hy & -> & _).
  destruct (f32_mag s x Hs Hx) as (N1 & M1), (f32_mag t y Ht Hy) as (N2 & M2). rewrite N1 in B. rewrite N2 in B'.
  destruct (M1 ltac:(lia)) as (S1 & _), (M2 ltac:(lia)) as (S2 & _). assert (t = s) as -> by (rewrite S1 in C; rewrite S2, <- C in C'; clear - C' Hs Ht; lia).
  destruct (Z.lt_trichotomy x y) as [L|[-> |L]]; [exfalso|reflexivity|exfalso].
  - apply (nearest_le d s x y); auto; lia.
  - apply (nearest_le d s y x); auto; lia.
Qed.
