(** DecFacts.v -- the rounding of SpecFloat is rounding to nearest. *)

From Coq Require Import ZArith Bool Lia ZifyBool ZifyNat Floats.SpecFloat.
From Verif Require Import FloatModel FloatSpec FloatFacts HalfModel DecSpec JTextModel.
Open Scope Z_scope.
Ltac Zify.zify_post_hook ::= idtac.

Notation fe := (fexp prec emax).
Lemma fe_eq e : fe e = Z.max (e - 53) (-1074). Proof. reflexivity. Qed.
Lemma digits_log p : Zpos (digits2_pos p) = Z.log2 (Zpos p) + 1.
Proof.
  induction p as [p IH|p IH|]; cbn [digits2_pos]; [| |reflexivity]; rewrite Pos2Z.inj_succ, IH.
  - change (Zpos p~1) with (2 * Zpos p + 1). rewrite Z.log2_succ_double by lia. lia.
  - change (Zpos p~0) with (2 * Zpos p). rewrite Z.log2_double by lia. lia.
Qed.
Lemma zdigits m : 0 < m -> 2 ^ (Zdigits2 m - 1) <= m < 2 ^ Zdigits2 m /\ 0 < Zdigits2 m.
Proof.
  intros M. destruct m as [|p|p]; try lia. cbn [Zdigits2]. pose proof (Z.log2_spec (Zpos p) M) as S. pose proof (Z.log2_nonneg (Zpos p)).
  rewrite digits_log. replace (Z.log2 (Zpos p) + 1 - 1) with (Z.log2 (Zpos p)) by lia. change (Z.succ (Z.log2 (Zpos p))) with (Z.log2 (Zpos p) + 1) in S. lia.
Qed.
Lemma zdigits_nonneg m : 0 <= Zdigits2 m. Proof. destruct m; cbn; lia. Qed.

(** ** Where a number [X / D] lies with respect to a record *)
Definition unit_at (D e : Z) : Z := 2 ^ (e + 1074) * D.
Definition lies (X u : Z) (r : shr_record) : Prop :=
  let m := shr_m r in
  match shr_r r, shr_s r with
  | false, false => X = m * u
  | false, true => m * u < X /\ 2 * X < (2 * m + 1) * u
  | true, false => 2 * X = (2 * m + 1) * u
  | true, true => (2 * m + 1) * u < 2 * X /\ X < (m + 1) * u
  end.
Lemma shr1_m r : 0 <= shr_m r -> shr_m (shr_1 r) = shr_m r / 2.
Proof.
  destruct r as [m r s]. cbn [shr_m]. intros M. destruct m as [|[p|p|]|p]; try lia; cbn [shr_1 shr_m]; try reflexivity.
  - apply (Z.div_unique_pos _ _ _ 1); lia.
  - apply (Z.div_unique_pos _ _ _ 0); lia.
Qed.
Lemma shr1_lies X u r : 0 < u -> 0 <= shr_m r -> lies X u r -> lies X (2 * u) (shr_1 r).
Proof.
  destruct r as [m r s]. unfold lies. cbn [shr_m shr_r shr_s]. intros U M H.
  destruct m as [|[p|p|]|p]; try lia; cbn [shr_1 shr_m shr_r shr_s]; destruct r, s; cbn [orb]; try lia;
    try (change (Zpos p~1) with (2 * Zpos p + 1) in H); try (change (Zpos p~0) with (2 * Zpos p) in H); lia.
Qed.
Lemma shr_iter X D : 0 < D -> forall p r e, -1074 <= e -> 0 <= shr_m r -> lies X (unit_at D e) r ->
  lies X (unit_at D (e + Zpos p)) (iter_pos shr_1 p r) /\ shr_m (iter_pos shr_1 p r) = shr_m r / 2 ^ Zpos p.
Proof.
  intros HD.
  assert (S1 : forall r e, -1074 <= e -> 0 <= shr_m r -> lies X (unit_at D e) r -> lies X (unit_at D (e + 1)) (shr_1 r)).
  { intros r e E M H. replace (unit_at D (e + 1)) with (2 * unit_at D e).
    - apply shr1_lies; auto. unfold unit_at. assert (0 < 2 ^ (e + 1074)) by (apply Z.pow_pos_nonneg; lia). nia.
    - unfold unit_at. replace (e + 1 + 1074) with (1 + (e + 1074)) by lia. rewrite (Z.pow_add_r 2 1) by lia. change (2 ^ 1) with 2. ring. }
  induction p as [p IH|p IH|]; intros r e E M H; cbn [iter_pos].
  - assert (M1 : 0 <= shr_m (shr_1 r)) by (rewrite shr1_m by lia; apply Z.div_pos; lia).
    destruct (IH (shr_1 r) (e + 1) ltac:(lia) M1 (S1 r e E M H)) as (A & B).
    assert (M2 : 0 <= shr_m (iter_pos shr_1 p (shr_1 r))) by (rewrite B; apply Z.div_pos; [lia|apply Z.pow_pos_nonneg; lia]).
    assert (EE : -1074 <= e + 1 + Z.pos p) by lia. destruct (IH _ _ EE M2 A) as (A' & B'). split.
    + replace (e + Z.pos p~1) with (e + 1 + Z.pos p + Z.pos p) by lia. exact A'.
    + rewrite B', B, shr1_m by lia. assert (PP : 0 < 2 ^ Z.pos p) by (apply Z.pow_pos_nonneg; lia). rewrite !Z.div_div by lia.
      f_equal. replace (Z.pos p~1) with (1 + Z.pos p + Z.pos p) by lia. rewrite !Z.pow_add_r by lia. change (2 ^ 1) with 2. ring.
  - destruct (IH r e E M H) as (A & B).
    assert (M2 : 0 <= shr_m (iter_pos shr_1 p r)) by (rewrite B; apply Z.div_pos; [lia|apply Z.pow_pos_nonneg; lia]).
    assert (EE : -1074 <= e + Z.pos p) by lia. destruct (IH _ _ EE M2 A) as (A' & B'). split.
    + replace (e + Z.pos p~0) with (e + Z.pos p + Z.pos p) by lia. exact A'.
    + rewrite B', B. assert (PP : 0 < 2 ^ Z.pos p) by (apply Z.pow_pos_nonneg; lia). rewrite !Z.div_div by lia.
      f_equal. replace (Z.pos p~0) with (Z.pos p + Z.pos p) by lia. rewrite !Z.pow_add_r by lia. reflexivity.
  - split; [now apply S1|]. now rewrite shr1_m.
Qed.
Lemma loc_m m l : shr_m (shr_record_of_loc m l) = m. Proof. destruct l as [|[]]; reflexivity. Qed.
Lemma loc_loc m l : loc_of_shr_record (shr_record_of_loc m l) = l. Proof. destruct l as [|[]]; reflexivity. Qed.

(** Shifting to the exponent of the format. *)
Lemma shr_fexp_lies X D m e l : 0 < D -> 0 <= m -> -1074 <= e -> lies X (unit_at D e) (shr_record_of_loc m l) -> e <= fe (Zdigits2 m + e) ->
  exists r e', shr_fexp prec emax m e l = (r, e') /\ lies X (unit_at D e') r /\ -1074 <= e' /\ 0 <= shr_m r < 2 ^ 53 /\ (e' = -1074 \/ 2 ^ 52 <= shr_m r).
Proof.
  intros HD M E H F. unfold shr_fexp, shr.
  destruct (Z.eq_dec m 0) as [->|NZ].
  { cbn [Zdigits2] in *. rewrite fe_eq in *. assert (e = -1074) by lia. subst e. cbn.
    exists (shr_record_of_loc 0 l), (-1074). repeat split; auto; rewrite loc_m; lia. }
  destruct (zdigits m ltac:(lia)) as ((B1 & B2) & B3). rewrite fe_eq in *.
  set (n := Z.max (Zdigits2 m + e - 53) (-1074) - e) in *.
  destruct n as [|p|p] eqn:N; [| |lia].
  - exists (shr_record_of_loc m l), e. repeat split; auto; rewrite loc_m; try lia.
    + assert (Zdigits2 m <= 53) by lia. assert (2 ^ Zdigits2 m <= 2 ^ 53) by (apply Z.pow_le_mono_r; lia). lia.
    + destruct (Z.eq_dec e (-1074)); [now left|right]. assert (Zdigits2 m = 53) as D53 by lia. rewrite D53 in B1. exact B1.
  - destruct (shr_iter X D HD p (shr_record_of_loc m l) e E ltac:(rewrite loc_m; lia) H) as (A & B).
    exists (iter_pos shr_1 p (shr_record_of_loc m l)), (e + Z.pos p). repeat split; auto; rewrite ?B, ?loc_m; try lia.
    + apply Z.div_pos; [lia|apply Z.pow_pos_nonneg; lia].
    + apply Z.div_lt_upper_bound; [apply Z.pow_pos_nonneg; lia|]. rewrite <- Z.pow_add_r by lia.
      eapply Z.lt_le_trans; [exact B2|]. apply Z.pow_le_mono_r; lia.
    + destruct (Z.eq_dec (e + Z.pos p) (-1074)); [now left|right].
      apply Z.div_le_lower_bound; [apply Z.pow_pos_nonneg; lia|]. rewrite <- Z.pow_add_r by lia.
      eapply Z.le_trans; [|exact B1]. apply Z.pow_le_mono_r; lia.
Qed.

(** ** The units of a double *)
Lemma double_units d s u : f64_value d = Fnum s u -> exists M E, u = M * 2 ^ E /\ 0 <= M < 2 ^ 53 /\ 0 <= E <= 2045.
Proof.
  unfold f64_value, ieee. change (2 ^ 11 - 1) with 2047. set (x := d / 2 ^ 52 mod 2 ^ 11). set (m := d mod 2 ^ 52).
  assert (0 <= x < 2048) by (apply Z.mod_pos_bound; lia). assert (0 <= m < 2 ^ 52) by (apply Z.mod_pos_bound; lia).
  destruct (x =? 2047) eqn:A; [destruct (m =? 0); discriminate|]. destruct (x =? 0) eqn:B; intros K.
  - exists m, 0. assert (u = m * 2 ^ 0) by congruence. lia.
  - exists (2 ^ 52 + m), (0 + x - 1). assert (u = (2 ^ 52 + m) * 2 ^ (0 + x - 1)) by congruence. lia.
Qed.
(** No double strictly between two neighbours of the format. *)
Lemma no_between M E m0 e : 0 <= M < 2 ^ 53 -> 0 <= E -> 0 <= e -> 0 <= m0 -> (e = 0 \/ 2 ^ 52 <= m0) ->
  M * 2 ^ E <= m0 * 2 ^ e \/ (m0 + 1) * 2 ^ e <= M * 2 ^ E.
Proof.
  intros HM HE He Hm C. destruct (Z_le_gt_dec e E) as [L|L].
  - replace (2 ^ E) with (2 ^ (E - e) * 2 ^ e) by (rewrite <- Z.pow_add_r by lia; f_equal; lia).
    assert (0 < 2 ^ e) by (apply Z.pow_pos_nonneg; lia).
    destruct (Z_le_gt_dec (M * 2 ^ (E - e)) m0); [left|right]; nia.
  - left. destruct C as [->|C]; [lia|]. replace (2 ^ e) with (2 ^ (e - E - 1) * 2 * 2 ^ E).
    + assert (0 < 2 ^ E) by (apply Z.pow_pos_nonneg; lia). assert (0 < 2 ^ (e - E - 1)) by (apply Z.pow_pos_nonneg; lia).
      rewrite Z.mul_assoc. apply Z.mul_le_mono_nonneg_r; [lia|]. change (2 ^ 53) with (2 * 2 ^ 52) in HM. nia.
    + replace (2 ^ (e - E - 1) * 2) with (2 ^ (e - E - 1) * 2 ^ 1) by lia. rewrite <- !Z.pow_add_r by lia. f_equal. lia.
Qed.

(** The double a finite result denotes. *)
Lemma bits_finite s m e : -1074 <= e <= 971 -> 0 < Zpos m < 2 ^ 53 -> (e = -1074 \/ 2 ^ 52 <= Zpos m) ->
  f64_value (to_bits (S754_finite s m e)) = Fnum s (Zpos m * 2 ^ (e + 1074)) /\ 0 <= to_bits (S754_finite s m e) < 2 ^ 64 /\
  Z.even (to_bits (S754_finite s m e)) = Z.even (Zpos m).
Proof.
  intros E M C. cbn [to_bits].
  assert (SG : 0 <= (if s then 1 else 0) < 2) by (destruct s; lia).
  assert (SN : negb ((if s then 1 else 0) =? 0) = s) by (destruct s; reflexivity).
  assert (EV : forall x y, Z.even (mk64 (if s then 1 else 0) x y) = Z.even y).
  { intros x y. unfold mk64. change (2 ^ 63) with (2 * 2 ^ 62). change (2 ^ 52) with (2 * 2 ^ 51).
    replace ((if s then 1 else 0) * (2 * 2 ^ 62) + x * (2 * 2 ^ 51) + y) with (y + 2 * ((if s then 1 else 0) * 2 ^ 62 + x * 2 ^ 51)) by ring.
    now rewrite Z.even_add_mul_2. }
  destruct (Zpos m <? 2 ^ 52) eqn:L.
  - assert (e = -1074) by lia. subst e. rewrite EV, f64_value_mk by lia. cbn [Z.eqb]. change (0 =? 2047) with false. cbv iota.
    repeat split; [rewrite SN; f_equal; lia| |]; unfold mk64; destruct s; lia.
  - rewrite EV, f64_value_mk by lia. replace (e + 1075 =? 2047) with false by lia. replace (e + 1075 =? 0) with false by lia.
    repeat split.
    + rewrite SN. f_equal. replace (e + 1075 - 1) with (e + 1074) by lia. f_equal. lia.
    + unfold mk64. destruct s; lia.
    + unfold mk64. destruct s; lia.
    + change (2 ^ 52) with (2 * 2 ^ 51). replace (Z.pos m - 2 * 2 ^ 51) with (Z.pos m + 2 * (- 2 ^ 51)) by ring. now rewrite Z.even_add_mul_2.
Qed.

(** ** Rounding *)
Definition rounds (neg : bool) (X D d : Z) : Prop :=
  let limit := (2 ^ 54 - 1) * 2 ^ 2044 in
  0 <= d < 2 ^ 64 /\
  (limit * D <= X /\ f64_value d = Finf neg \/
   X < limit * D /\ exists u, f64_value d = Fnum neg u /\
     forall d' s' u', f64_value d' = Fnum s' u' ->
       u' = u \/ Z.abs (X - u * D) < Z.abs (X - u' * D) \/ Z.abs (X - u * D) = Z.abs (X - u' * D) /\ Z.even d = true).
Lemma round_aux neg X D m e l : 0 < D -> 0 <= m -> -1074 <= e -> lies X (unit_at D e) (shr_record_of_loc m l) -> e <= fe (Zdigits2 m + e) ->
  rounds neg X D (to_bits (binary_round_aux prec emax neg m e l)).
Proof.
  intros HD M E H F. unfold binary_round_aux.
  destruct (shr_fexp_lies X D m e l HD M E H F) as (r & e' & -> & L & E' & R & C).
  set (m0 := shr_m r) in *. set (P := 2 ^ (e' + 1074)). assert (HP : 0 < P) by (apply Z.pow_pos_nonneg; lia).
  unfold unit_at in L. fold P in L.
  (* the rounded mantissa *)
  set (m1 := round_nearest_even m0 (loc_of_shr_record r)).
  assert (RN : (m1 = m0 \/ m1 = m0 + 1) /\ m0 * (P * D) <= X < (m0 + 1) * (P * D) /\
               (m1 = m0 -> 2 * X <= (2 * m0 + 1) * (P * D) /\ (2 * X = (2 * m0 + 1) * (P * D) -> Z.even m1 = true)) /\
               (m1 = m0 + 1 -> (2 * m0 + 1) * (P * D) <= 2 * X /\ (2 * X = (2 * m0 + 1) * (P * D) -> Z.even m1 = true))).
  { assert (0 < P * D) by nia. destruct r as [rm [] []]; unfold lies in L; cbn [shr_m shr_r shr_s loc_of_shr_record] in *; subst m1 m0; cbn [round_nearest_even shr_m].
    - repeat split; try lia; intros; lia.
    - destruct (Z.even rm) eqn:EV; repeat split; try lia; intros; try lia; auto.
      rewrite Z.even_add, EV. reflexivity.
    - repeat split; try lia; intros; lia.
    - repeat split; try lia; intros; lia. }
  destruct RN as (M1 & XB & RL & RG).
  assert (Rm : 0 <= m1 <= 2 ^ 53) by lia.
  (* nearest among all doubles *)
  assert (NEAR : forall d' s' u', f64_value d' = Fnum s' u' ->
    u' = m1 * P \/ Z.abs (X - m1 * P * D) < Z.abs (X - u' * D) \/ Z.abs (X - m1 * P * D) = Z.abs (X - u' * D) /\ Z.even m1 = true).
  { intros d' s' u' V. destruct (double_units _ _ _ V) as (MM & EE & -> & BM & BE).
    pose proof (no_between MM EE m0 (e' + 1074) BM ltac:(lia) ltac:(lia) ltac:(lia) ltac:(lia)) as NB. fold P in NB.
    set (u' := MM * 2 ^ EE) in *. clearbody u'. clear V BM BE.
    destruct NB as [NB|NB].
    - assert (U : u' * D <= m0 * (P * D)) by nia.
      destruct M1 as [M1|M1].
      + destruct (Z.eq_dec u' (m1 * P)) as [|NE]; [now left|right]. left. rewrite M1 in *. assert (u' < m0 * P) by lia. assert (u' * D < m0 * P * D) by nia. lia.
      + right. destruct (RG M1) as (G1 & G2). destruct (Z.eq_dec (2 * X) ((2 * m0 + 1) * (P * D))) as [TE|TN].
        * destruct (Z.eq_dec (u' * D) (m0 * (P * D))); [right; split; [rewrite M1; lia|auto]|left; rewrite M1; lia].
        * left. rewrite M1. lia.
    - assert (U : (m0 + 1) * (P * D) <= u' * D) by nia.
      destruct M1 as [M1|M1].
      + right. destruct (RL M1) as (G1 & G2). destruct (Z.eq_dec (2 * X) ((2 * m0 + 1) * (P * D))) as [TE|TN].
        * destruct (Z.eq_dec (u' * D) ((m0 + 1) * (P * D))); [right; split; [rewrite M1; lia|auto]|left; rewrite M1; lia].
        * left. rewrite M1. lia.
      + destruct (Z.eq_dec u' (m1 * P)) as [|NE]; [now left|right]. left. rewrite M1 in *. assert ((m0 + 1) * P < u') by lia. assert ((m0 + 1) * P * D < u' * D) by nia. lia. }
  (* the second normalisation *)
  assert (N2 : exists m2 e2, shr_fexp prec emax m1 e' loc_Exact = (Build_shr_record m2 false false, e2) /\
     m2 * 2 ^ (e2 + 1074) = m1 * P /\ 0 <= m2 < 2 ^ 53 /\ (e2 = -1074 \/ 2 ^ 52 <= m2) /\ -1074 <= e2 /\
     (e2 = e' /\ m2 = m1 \/ e2 = e' + 1 /\ m1 = 2 ^ 53 /\ m2 = 2 ^ 52)).
  { unfold shr_fexp. cbn [shr_record_of_loc]. destruct (Z.eq_dec m1 (2 ^ 53)) as [->|NE].
    - exists (2 ^ 52), (e' + 1). rewrite fe_eq. replace (Zdigits2 (2 ^ 53)) with 54 by reflexivity.
      replace (Z.max (54 + e' - 53) (-1074) - e') with 1 by lia. cbn [shr]. repeat split; try lia.
      + subst P. replace (e' + 1 + 1074) with (1 + (e' + 1074)) by lia. rewrite (Z.pow_add_r 2 1) by lia. lia.
    - exists m1, e'. rewrite fe_eq.
      assert (DG : Zdigits2 m1 <= 53).
      { destruct (Z.eq_dec m1 0) as [->|]; [cbn; lia|]. destruct (zdigits m1 ltac:(lia)) as ((B1 & B2) & B3).
        destruct (Z_le_gt_dec (Zdigits2 m1) 53); [assumption|]. assert (2 ^ 53 <= 2 ^ (Zdigits2 m1 - 1)) by (apply Z.pow_le_mono_r; lia). lia. }
      assert (SH : Z.max (Zdigits2 m1 + e' - 53) (-1074) - e' <= 0) by lia.
      unfold shr. destruct (Z.max (Zdigits2 m1 + e' - 53) (-1074) - e') eqn:Q; [| |]; try lia; repeat split; auto; lia. }
  destruct N2 as (m2 & e2 & -> & EQ & B2 & C2 & E2 & W). cbn [shr_m].
  assert (EVN : Z.even m1 = true -> Z.even m2 = true).
  { destruct W as [(_ & ->)|(_ & _ & ->)]; [auto|intros _; reflexivity]. }
  assert (SG : 0 <= (if neg then 1 else 0) < 2) by (destruct neg; lia).
  assert (SN : negb ((if neg then 1 else 0) =? 0) = neg) by (destruct neg; reflexivity).
  rewrite <- EQ in NEAR. clear EQ.
  destruct m2 as [|m2|m2]; [| |lia].
  - (* zero *)
    assert (m1 = 0 /\ e2 = e') as [Z1 Z2] by lia. subst e2. assert (e' = -1074) by lia.
    split; [cbn [to_bits]; unfold mk64; destruct neg; lia|]. right. split.
    + replace P with 1 in XB by (subst P; rewrite H0; reflexivity). assert (m0 = 0) by lia. subst m0. rewrite H1 in XB.
      assert (1 <= (2 ^ 54 - 1) * 2 ^ 2044) as LIM by (assert (0 < 2 ^ 2044) by (apply Z.pow_pos_nonneg; lia); lia).
      set (lim := (2 ^ 54 - 1) * 2 ^ 2044) in *. clearbody lim. nia.
    + exists 0. split; [cbn [to_bits]; rewrite f64_value_mk by lia; change (0 =? 2047) with false; change (0 =? 0) with true; cbv iota; now rewrite SN|].
      intros d' s' u' V. destruct (NEAR d' s' u' V) as [N|[N|(N & EV)]]; [left; lia|right; left; lia|right; right]. split; [lia|]. cbn [to_bits]. unfold mk64. destruct neg; reflexivity.
  - change (emax - prec) with 971. destruct (Zle_bool e2 971) eqn:OV.
    + apply Zle_bool_imp_le in OV. destruct (bits_finite neg m2 e2 ltac:(lia) ltac:(lia) C2) as (V & RG2 & EV).
      split; [exact RG2|]. right. split.
      * assert (LT : 2 * X < (2 ^ 54 - 1) * 2 ^ 2045 * D).
        { destruct (Z.eq_dec e' 971) as [E971|NE].
          - assert (m1 < 2 ^ 53) by lia. subst P. rewrite E971 in *. change (971 + 1074) with 2045 in *. set (P := 2 ^ 2045) in *. clearbody P.
            assert (0 < P * D) by nia.
            destruct M1 as [M1|M1].
            + destruct (RL M1) as (G1 & G2). destruct (Z.eq_dec m1 (2 ^ 53 - 1)) as [Q|Q].
              * assert (Z.even m1 = false) by (rewrite Q; reflexivity). assert (2 * X <> (2 * m0 + 1) * (P * D)) by (intros TT; rewrite (G2 TT) in *; discriminate).
                rewrite <- M1, Q in *. lia.
              * assert (m0 + 1 <= 2 ^ 53 - 1) by lia. nia.
            + assert (m0 + 1 <= 2 ^ 53 - 1) by lia. nia.
          - assert (PL : 2 * P <= 2 ^ 2045). { subst P. replace (2 * 2 ^ (e' + 1074)) with (2 ^ (1 + (e' + 1074))) by (rewrite Z.pow_add_r by lia; reflexivity). apply Z.pow_le_mono_r; lia. }
            set (Q := 2 ^ 2045) in *. clearbody Q P. assert (m0 + 1 <= 2 ^ 53) by lia. assert ((m0 + 1) * (P * D) <= 2 ^ 53 * (P * D)) by nia. nia. }
        replace (2 ^ 2045) with (2 * 2 ^ 2044) in LT by (change 2045 with (1 + 2044); rewrite Z.pow_add_r by lia; reflexivity).
        set (Q := 2 ^ 2044) in *. clearbody Q. lia.
      * exists (Zpos m2 * 2 ^ (e2 + 1074)). split; [exact V|]. intros d' s' u' V'. rewrite EV.
        destruct (NEAR d' s' u' V') as [N|[N|(N & EV')]]; [now left|right; now left|right; right]. split; [exact N|auto].
    + assert (OV' : 972 <= e2) by (destruct (Z_le_gt_dec e2 971) as [G|G]; [apply Zle_imp_le_bool in G; congruence|lia]).
      split; [cbn [to_bits]; unfold mk64; destruct neg; lia|]. left. split.
      * assert (GT : (2 ^ 54 - 1) * 2 ^ 2045 * D <= 2 * X).
        { assert (PG : 2 ^ 2045 <= P) by (subst P; apply Z.pow_le_mono_r; lia).
          destruct W as [(W1 & W2)|(W1 & W2 & W3)].
          - assert (PG2 : 2 * 2 ^ 2045 <= P). { subst P. replace (2 * 2 ^ 2045) with (2 ^ (1 + 2045)) by (rewrite Z.pow_add_r by lia; reflexivity). apply Z.pow_le_mono_r; lia. }
            assert (2 ^ 52 <= m0) by lia. set (Q := 2 ^ 2045) in *. assert (0 < Q) by (apply Z.pow_pos_nonneg; lia). clearbody Q P.
            assert (2 ^ 52 * (2 * Q * D) <= m0 * (P * D)) by nia. nia.
          - set (Q := 2 ^ 2045) in *. assert (0 < Q) by (apply Z.pow_pos_nonneg; lia). clearbody Q P.
            destruct M1 as [M1|M1]; [lia|]. destruct (RG M1) as (G1 & _). assert (2 * m0 + 1 = 2 ^ 54 - 1) as Q1 by lia. rewrite Q1 in G1. nia. }
        replace (2 ^ 2045) with (2 * 2 ^ 2044) in GT by (change 2045 with (1 + 2044); rewrite Z.pow_add_r by lia; reflexivity).
        set (Q := 2 ^ 2044) in *. clearbody Q. lia.
      * cbn [to_bits]. rewrite f64_value_mk by lia. change (2047 =? 2047) with true. change (0 =? 0) with true. cbv iota. now rewrite SN.
Qed.

Lemma zdigits_log m : 0 < m -> Zdigits2 m = Z.log2 m + 1.
Proof. destruct m as [|p|p]; try lia. intros _. cbn [Zdigits2]. apply digits_log. Qed.
Lemma fe_mono a b : a <= b -> fe a <= fe b. Proof. rewrite !fe_eq. lia. Qed.

(** A whole number. *)
Lemma round_whole neg p : rounds neg (Zpos p * 2 ^ 1074) 1 (to_bits (binary_round prec emax neg p 0)).
Proof.
  unfold binary_round, shl_align. set (ex := fe (Zpos (digits2_pos p) + 0)).
  assert (EX : -1074 <= ex /\ ex = Z.max (Z.log2 (Zpos p) + 1 - 53) (-1074)).
  { subst ex. rewrite fe_eq, digits_log, Z.add_0_r. lia. }
  pose proof (Z.log2_nonneg (Zpos p)) as LN.
  assert (L0 : lies (Zpos p * 2 ^ 1074) (unit_at 1 0) (shr_record_of_loc (Zpos p) loc_Exact)).
  { unfold lies, unit_at. cbn [shr_record_of_loc shr_m shr_r shr_s]. rewrite Z.mul_1_r. reflexivity. }
  destruct (ex - 0) as [|n|n] eqn:N.
  - apply round_aux; try lia; [exact L0|]. rewrite fe_eq, zdigits_log by lia. lia.
  - apply round_aux; try lia; [exact L0|]. rewrite fe_eq, zdigits_log by lia. lia.
  - assert (SP : Zpos (shift_pos n p) = Zpos p * 2 ^ Zpos n).
    { rewrite shift_pos_correct. rewrite Z.mul_comm. reflexivity. }
    apply round_aux; try lia.
    + unfold lies, unit_at. cbn [shr_record_of_loc shr_m shr_r shr_s]. rewrite SP, Z.mul_1_r, <- Z.mul_assoc, <- Z.pow_add_r by lia. do 2 f_equal. lia.
    + rewrite SP, fe_eq, zdigits_log by (assert (0 < 2 ^ Z.pos n) by (apply Z.pow_pos_nonneg; lia); nia). rewrite Z.log2_mul_pow2 by lia. lia.
Qed.

(** A fraction. *)
Lemma round_fraction neg m T : 0 < m -> 0 < T -> Z.even T = true ->
  rounds neg (m * 2 ^ 1074) T (to_bits (let '(q, e', l) := SFdiv_core_binary prec emax m 0 T 0 in binary_round_aux prec emax neg q e' l)).
Proof.
  intros HM HT ET. unfold SFdiv_core_binary. set (e' := Z.min (fe (Zdigits2 m + 0 - (Zdigits2 T + 0))) (0 - 0)).
  assert (EF : -1074 <= e' <= 0 /\ e' <= fe (Zdigits2 m - Zdigits2 T)).
  { subst e'. rewrite !Z.add_0_r. pose proof (fe_eq (Zdigits2 m - Zdigits2 T)). lia. }
  set (m' := match 0 - 0 - e' with Z0 => m | Zpos _ => Z.shiftl m (0 - 0 - e') | Zneg _ => 0 end).
  assert (M' : m' = m * 2 ^ (- e')).
  { subst m'. destruct (0 - 0 - e') eqn:Q; [replace (- e') with 0 by lia; rewrite Z.mul_1_r; reflexivity| |lia].
    rewrite Z.shiftl_mul_pow2 by lia. do 2 f_equal. lia. }
  clearbody m' e'. destruct EF as (E1 & E2).
  pose proof (Z_div_mod m' T ltac:(lia)) as DM. destruct (Z.div_eucl m' T) as [q r]. destruct DM as (DQ & DR).
  assert (PE : 0 < 2 ^ (- e')) by (apply Z.pow_pos_nonneg; lia).
  assert (PU : 0 < 2 ^ (e' + 1074)) by (apply Z.pow_pos_nonneg; lia).
  assert (Q0 : 0 <= q) by (assert (0 < m') by nia; nia).
  assert (X : m * 2 ^ 1074 = (T * q + r) * 2 ^ (e' + 1074)).
  { rewrite <- DQ, M', <- Z.mul_assoc, <- Z.pow_add_r by lia. do 2 f_equal. lia. }
  apply round_aux; auto; try lia.
  - rewrite X. unfold lies, unit_at, new_location, new_location_even. rewrite ET. set (P := 2 ^ (e' + 1074)) in *. clearbody P.
    destruct (Zeq_bool r 0) eqn:RZ; [apply Zeq_bool_eq in RZ|apply Zeq_bool_neq in RZ]; [cbn [shr_record_of_loc shr_m shr_r shr_s]; subst r; ring|].
    destruct (Z.compare_spec (2 * r) T) as [C|C|C]; cbn [shr_record_of_loc shr_m shr_r shr_s].
    + replace (2 * ((T * q + r) * P)) with (2 * T * q * P + (2 * r) * P) by ring. rewrite C. ring.
    + split; [|]; assert (0 < r * P) by nia; assert (2 * r * P < T * P) by nia; nia.
    + split; [|]; assert (T * P < 2 * r * P) by nia; assert (r * P < T * P) by nia; nia.
  - eapply Z.le_trans; [exact E2|]. apply fe_mono.
    destruct (zdigits m HM) as ((A1 & A2) & A3). destruct (zdigits T HT) as ((B1 & B2) & B3). pose proof (zdigits_nonneg q).
    destruct (Z_le_gt_dec (Zdigits2 m - Zdigits2 T - e') 0) as [|G]; [lia|].
    set (k := Zdigits2 m - Zdigits2 T - e' - 1). assert (K : 0 <= k) by lia.
    assert (QB : 2 ^ k <= q).
    { assert (QD : q = m' / T) by (apply (Z.div_unique_pos _ _ _ r); lia). rewrite QD. apply Z.div_le_lower_bound; [lia|].
      rewrite M'. apply Z.le_trans with (2 ^ Zdigits2 T * 2 ^ k).
      - assert (0 < 2 ^ k) by (apply Z.pow_pos_nonneg; lia). nia.
      - rewrite <- Z.pow_add_r by lia. apply Z.le_trans with (2 ^ (Zdigits2 m - 1) * 2 ^ (- e')); [|nia].
        rewrite <- Z.pow_add_r by lia. apply Z.pow_le_mono_r; lia. }
    assert (0 < q) by (assert (0 < 2 ^ k) by (apply Z.pow_pos_nonneg; lia); lia).
    rewrite (zdigits_log q) by lia. assert (k <= Z.log2 q) by (apply Z.log2_le_pow2; lia). lia.
Qed.

Lemma round_zero neg D : 0 < D -> rounds neg 0 D (to_bits (S754_zero neg)).
Proof.
  intros HD. cbn [to_bits]. assert (SG : 0 <= (if neg then 1 else 0) < 2) by (destruct neg; lia).
  split; [unfold mk64; destruct neg; lia|]. right. split.
  - assert (0 < 2 ^ 2044) by (apply Z.pow_pos_nonneg; lia). set (Q := 2 ^ 2044) in *. clearbody Q. nia.
  - exists 0. split.
    + rewrite f64_value_mk by lia. change (0 =? 2047) with false. change (0 =? 0) with true. cbv iota. now destruct neg.
    + intros d' s' u' _. destruct (Z.eq_dec u' 0); [now left|right; left]. nia.
Qed.

(** ** The rounding of a decimal *)
Theorem dec_double_nearest neg m e : 0 <= m -> nearest_double neg m e (dec_double neg m e).
Proof.
  intros M. change (rounds neg (m * 10 ^ Z.max e 0 * 2 ^ 1074) (10 ^ Z.max (- e) 0) (dec_double neg m e)).
  unfold dec_double, dec_sf. destruct (m =? 0) eqn:Z0.
  { replace m with 0 by lia. rewrite !Z.mul_0_l. apply round_zero. apply Z.pow_pos_nonneg; lia. }
  destruct (0 <=? e) eqn:E.
  - replace (Z.max e 0) with e by lia. replace (Z.max (- e) 0) with 0 by lia. change (10 ^ 0) with 1.
    assert (0 < m * 10 ^ e) by (assert (0 < 10 ^ e) by (apply Z.pow_pos_nonneg; lia); nia).
    destruct (m * 10 ^ e) as [|p|p]; try lia. destruct neg; cbn [cond_Zopp Z.opp binary_normalize]; apply round_whole.
  - replace (Z.max e 0) with 0 by lia. replace (Z.max (- e) 0) with (- e) by lia. change (10 ^ 0) with 1. rewrite Z.mul_1_r.
    apply round_fraction; [lia|apply Z.pow_pos_nonneg; lia|]. rewrite Z.even_pow by lia. reflexivity.
Qed.
