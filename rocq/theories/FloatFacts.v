(** FloatFacts.v -- the conversions of FloatModel/HalfModel are exact. *)

From Coq Require Import ZArith List Bool Lia.
From Coq Require Import ZifyBool.
From Verif Require Import Base BaseFacts FloatModel HalfModel FloatSpec.
Import ListNotations.
Open Scope Z_scope.

Definition feq (a b : fval) : bool :=
  match a, b with
  | Fnan, Fnan => true
  | Finf s, Finf t => eqb s t
  | Fnum s x, Fnum t y => eqb s t && (x =? y)
  | _, _ => false
  end.
Lemma feq_eq a b : feq a b = true -> a = b.
Proof.
  destruct a, b; cbn; try discriminate; try reflexivity; intros H.
  - apply eqb_prop in H. congruence.
  - apply andb_prop in H as [H1 H2]. apply eqb_prop in H1. apply Z.eqb_eq in H2. congruence.
Qed.

(** ** Half precision: decode_f16 (double arithmetic) computes f16_to_f64.  The mantissa arithmetic
    is checked for the 1024 fractions; sign and exponent are handled symbolically. *)
Lemma fexp_id d e : d = 53 -> -1074 <= e -> SpecFloat.fexp prec emax (d + e) = e.
Proof. intros -> H. unfold SpecFloat.fexp, SpecFloat.emin, prec, emax. lia. Qed.
Lemma round_id s m e : Zpos (SpecFloat.digits2_pos m) = 53 -> -1074 <= e <= 971 ->
  SpecFloat.binary_round prec emax s m e = SpecFloat.S754_finite s m e.
Proof.
  intros D E. unfold SpecFloat.binary_round. rewrite fexp_id by lia. unfold SpecFloat.shl_align. rewrite Z.sub_diag.
  unfold SpecFloat.binary_round_aux, SpecFloat.shr_fexp. cbn [SpecFloat.Zdigits2]. rewrite fexp_id, Z.sub_diag by lia.
  cbn [SpecFloat.shr SpecFloat.shr_record_of_loc SpecFloat.shr_m SpecFloat.loc_of_shr_record SpecFloat.round_nearest_even SpecFloat.Zdigits2].
  rewrite fexp_id, Z.sub_diag by lia. cbn [SpecFloat.shr SpecFloat.shr_m].
  replace (e <=? emax - prec) with true by (unfold emax, prec; lia). reflexivity.
Qed.
Definition mant_ok (frac : Z) : bool :=
  match d_add (of_int 1) (d_div (of_int frac) (of_int 1024)) with
  | SpecFloat.S754_finite false m e => (Zpos m =? 2^52 + frac * 2^42) && (Zpos (SpecFloat.digits2_pos m) =? 53) && (e =? -52)
  | _ => false
  end.
Lemma mant_all frac : 0 <= frac < 1024 -> mant_ok frac = true.
Proof. revert frac. apply (forall_upto _ 1024). vm_cast_no_check (eq_refl true). Qed.
Definition sub_bits (s m : Z) : Z := let k := Z.log2 m in mk64 s (k - 24 + 1023) ((m - 2^k) * 2^(52 - k)).
Definition sub_ok (frac : Z) : bool :=
  (frac =? 0) ||
  ((to_bits (d_mul (of_int (-1)) (d_ldexp (of_int frac) (-24))) =? sub_bits 1 frac) &&
   (to_bits (d_mul (of_int 1) (d_ldexp (of_int frac) (-24))) =? sub_bits 0 frac)).
Lemma sub_all frac : 0 <= frac < 1024 -> sub_ok frac = true.
Proof. revert frac. apply (forall_upto _ 1024). vm_cast_no_check (eq_refl true). Qed.

Lemma h_fields h : h_sign h = h / 2^15 mod 2 /\ h_exp h = h / 2^10 mod 2^5 /\ h_frac h = h mod 2^10.
Proof.
  unfold h_sign, h_exp, h_frac. change 1 with (Z.ones 1) at 1. change 31 with (Z.ones 5). change 1023 with (Z.ones 10).
  rewrite !Z.land_ones, !Z.shiftr_div_pow2 by lia. auto.
Qed.
Lemma decode_f16_spec h : 0 <= h < 65536 -> decode_f16 h = f16_to_f64 h.
Proof.
  intros H. destruct (h_fields h) as (ES & EE & EF). unfold decode_f16, decode_f16_sf, f16_to_f64. cbv zeta. rewrite ES, EE, EF.
  assert (S : 0 <= h / 2^15 mod 2 < 2) by (apply Z.mod_pos_bound; lia).
  assert (X : 0 <= h / 2^10 mod 2^5 < 2^5) by (apply Z.mod_pos_bound; lia).
  assert (F : 0 <= h mod 2^10 < 2^10) by (apply Z.mod_pos_bound; lia).
  set (s := h / 2^15 mod 2) in *. set (e := h / 2^10 mod 2^5) in *. set (f := h mod 2^10) in *. clearbody s e f. clear h H ES EE EF.
  assert (SS : s = 0 \/ s = 1) by lia.
  destruct (e =? 0) eqn:E0.
  - replace (e =? 31) with false by lia. destruct (f =? 0) eqn:F0; [destruct SS as [-> | ->]; reflexivity|].
    pose proof (sub_all f F) as K. unfold sub_ok in K. rewrite F0 in K. cbn [orb] in K. apply andb_prop in K. destruct K as [K1 K2].
    apply Z.eqb_eq in K1. apply Z.eqb_eq in K2. destruct SS as [-> | ->]; cbn [Z.eqb negb]; [exact K2|exact K1].
  - destruct (e =? 31) eqn:E31; [destruct (f =? 0); destruct SS as [-> | ->]; reflexivity|].
    pose proof (mant_all f F) as K. unfold mant_ok in K. destruct (d_add (of_int 1) (d_div (of_int f) (of_int 1024))) as [?|?| |[] m x]; try discriminate.
    apply andb_prop in K. destruct K as [K K3]. apply andb_prop in K. destruct K as [K1 K2].
    apply Z.eqb_eq in K1. apply Z.eqb_eq in K2. apply Z.eqb_eq in K3. subst x. unfold d_ldexp, SpecFloat.SFldexp.
    rewrite round_id by lia.
    assert (T : forall b, to_bits (SpecFloat.S754_finite b m (-52 + (e - 15))) = mk64 (if b then 1 else 0) (e + 1008) (f * 2^42)).
    { intros b. unfold to_bits. replace (Zpos m <? 2^52) with false by lia. f_equal; lia. }
    destruct SS as [-> | ->]; cbn [Z.eqb negb SpecFloat.SFopp]; apply T.
Qed.

Lemma div_mod_unique a b q r : 0 <= r < b -> a = q * b + r -> a / b = q /\ a mod b = r.
Proof.
  intros Hr ->. split.
  - symmetry. apply Z.div_unique with r; [lia|ring].
  - symmetry. apply Z.mod_unique with q; [lia|ring].
Qed.
Lemma mk64_fields s e m : 0 <= s < 2 -> 0 <= e < 2^11 -> 0 <= m < 2^52 ->
  f64_sign (mk64 s e m) = s /\ f64_exp (mk64 s e m) = e /\ f64_man (mk64 s e m) = m.
Proof.
  intros Hs He Hm. unfold f64_sign, f64_exp, f64_man, mk64.
  destruct (div_mod_unique (s * 2^63 + e * 2^52 + m) (2^52) (s * 2^11 + e) m Hm) as [D M]; [lia|].
  destruct (div_mod_unique (s * 2^63 + e * 2^52 + m) (2^63) s (e * 2^52 + m)) as [D' _]; [lia|lia|].
  destruct (div_mod_unique (s * 2^11 + e) (2^11) s e He) as [_ M2]; [lia|].
  rewrite D, D', M, M2. rewrite Z.mod_small by lia. auto.
Qed.
Lemma mk32_fields s e m : 0 <= s < 2 -> 0 <= e < 2^8 -> 0 <= m < 2^23 ->
  f32_sign (mk32 s e m) = s /\ f32_exp (mk32 s e m) = e /\ f32_man (mk32 s e m) = m.
Proof.
  intros Hs He Hm. unfold f32_sign, f32_exp, f32_man, mk32.
  destruct (div_mod_unique (s * 2^31 + e * 2^23 + m) (2^23) (s * 2^8 + e) m Hm) as [D M]; [lia|].
  destruct (div_mod_unique (s * 2^31 + e * 2^23 + m) (2^31) s (e * 2^23 + m)) as [D' _]; [lia|lia|].
  destruct (div_mod_unique (s * 2^8 + e) (2^8) s e He) as [_ M2]; [lia|].
  rewrite D, D', M, M2. rewrite Z.mod_small by lia. auto.
Qed.
Lemma mk32_range s e m : 0 <= s < 2 -> 0 <= e < 2^8 -> 0 <= m < 2^23 -> 0 <= mk32 s e m < 2^32.
Proof. unfold mk32. lia. Qed.

Lemma f32_ranges x : 0 <= f32_sign x < 2 /\ 0 <= f32_exp x < 2^8 /\ 0 <= f32_man x < 2^23.
Proof. unfold f32_sign, f32_exp, f32_man. repeat split; apply Z.mod_pos_bound; lia. Qed.
Lemma f64_ranges x : 0 <= f64_sign x < 2 /\ 0 <= f64_exp x < 2^11 /\ 0 <= f64_man x < 2^52.
Proof. unfold f64_sign, f64_exp, f64_man. repeat split; apply Z.mod_pos_bound; lia. Qed.
Lemma f64_join x : 0 <= x < 2^64 -> mk64 (f64_sign x) (f64_exp x) (f64_man x) = x.
Proof.
  intros H. unfold mk64, f64_sign, f64_exp, f64_man.
  assert (x / 2^63 mod 2 = x / 2^63) as -> .
  { apply Z.mod_small. split; [apply Z.div_pos; lia|apply Z.div_lt_upper_bound; lia]. }
  assert (E : x / 2^52 / 2^11 = x / 2^63) by (rewrite Z.div_div by lia; reflexivity).
  pose proof (Z.div_mod x (2^52) ltac:(lia)). pose proof (Z.div_mod (x / 2^52) (2^11) ltac:(lia)).
  rewrite E in H1. lia.
Qed.
Lemma f64_value_mk s e m : 0 <= s < 2 -> 0 <= e < 2^11 -> 0 <= m < 2^52 ->
  f64_value (mk64 s e m) =
  if e =? 2047 then (if m =? 0 then Finf (negb (s =? 0)) else Fnan)
  else if e =? 0 then Fnum (negb (s =? 0)) m
  else Fnum (negb (s =? 0)) ((2^52 + m) * 2^(e - 1)).
Proof.
  intros Hs He Hm. destruct (mk64_fields s e m Hs He Hm) as (A & B & C).
  unfold f64_value, ieee. unfold f64_sign in A. unfold f64_exp in B. unfold f64_man in C.
  change (52 + 11) with 63. change (2^11 - 1) with 2047. rewrite A, B, C.
  change (0 + e - 1) with (e - 1). rewrite Z.mul_1_r. reflexivity.
Qed.
Definition sub_val (m : Z) : bool := (m =? 0) ||
  (feq (f64_value (sub_bits 0 m)) (Fnum false (m * 2^1050)) && feq (f64_value (sub_bits 1 m)) (Fnum true (m * 2^1050))).
Lemma sub_val_all m : 0 <= m < 1024 -> sub_val m = true.
Proof. revert m. apply (forall_upto _ 1024). vm_cast_no_check (eq_refl true). Qed.
Lemma half_exact h : 0 <= h < 65536 -> f64_value (decode_f16 h) = f16_value h.
Proof.
  intros H. rewrite decode_f16_spec by exact H. unfold f16_to_f64, f16_value, ieee. cbv zeta. change (10 + 5) with 15.
  assert (S : 0 <= h / 2^15 mod 2 < 2) by (apply Z.mod_pos_bound; lia).
  assert (X : 0 <= h / 2^10 mod 2^5 < 2^5) by (apply Z.mod_pos_bound; lia).
  assert (F : 0 <= h mod 2^10 < 2^10) by (apply Z.mod_pos_bound; lia).
  set (s := h / 2^15 mod 2) in *. set (e := h / 2^10 mod 2^5) in *. set (f := h mod 2^10) in *. clearbody s e f. clear h H.
  assert (SS : s = 0 \/ s = 1) by lia. change (2^5 - 1) with 31.
  destruct (e =? 31) eqn:E31; [destruct (f =? 0); destruct SS as [-> | ->]; reflexivity|].
  destruct (e =? 0) eqn:E0.
  - destruct (f =? 0) eqn:F0; [apply Z.eqb_eq in F0; subst f; destruct SS as [-> | ->]; reflexivity|].
    pose proof (sub_val_all f F) as K. unfold sub_val in K. rewrite F0 in K. cbn [orb] in K. apply andb_prop in K. destruct K as [K1 K2].
    apply feq_eq in K1. apply feq_eq in K2. unfold sub_bits in K1, K2. destruct SS as [-> | ->]; cbn [Z.eqb negb]; [exact K1|exact K2].
  - rewrite f64_value_mk by lia. replace (e + 1008 =? 2047) with false by lia. replace (e + 1008 =? 0) with false by lia. f_equal.
    replace (2^52 + f * 2^42) with ((2^10 + f) * 2^42) by (change (2^52) with (2^10 * 2^42); ring).
    rewrite <- Z.mul_assoc, <- Z.pow_add_r by lia. do 2 f_equal. lia.
Qed.

Lemma f32_value_fields x :
  f32_value x = let s := negb (f32_sign x =? 0) in
    if f32_exp x =? 255 then (if f32_man x =? 0 then Finf s else Fnan)
    else if f32_exp x =? 0 then Fnum s (f32_man x * 2^925)
    else Fnum s ((2^23 + f32_man x) * 2^(925 + f32_exp x - 1)).
Proof. reflexivity. Qed.

Lemma lor_pos a b : 0 <= a < 2^52 -> 0 < b < 2^52 -> 0 < Z.lor a b < 2^52.
Proof.
  intros Ha Hb. assert (0 <= Z.lor a b) by (apply Z.lor_nonneg; lia).
  assert (Z.lor a b <> 0) by (rewrite Z.lor_eq_0_iff; lia).
  split; [lia|]. apply Z.log2_lt_pow2; [lia|]. rewrite Z.log2_lor by lia.
  apply Z.max_lub_lt; [|apply Z.log2_lt_pow2; lia].
  destruct (Z.eq_dec a 0) as [->|]; [cbn; lia|apply Z.log2_lt_pow2; lia].
Qed.

Lemma f32_exact x : f64_value (f32_to_f64 x) = f32_value x.
Proof.
  destruct (f32_ranges x) as (Hs & He & Hm). rewrite f32_value_fields. cbn zeta. unfold f32_to_f64.
  set (s := f32_sign x) in *. set (e := f32_exp x) in *. set (m := f32_man x) in *. clearbody s e m.
  cbn zeta.
  destruct (e =? 255) eqn:E1.
  - destruct (m =? 0) eqn:E2.
    + rewrite f64_value_mk by lia. cbn [Z.eqb]. reflexivity.
    + pose proof (lor_pos (m * 2^29) (2^51) ltac:(lia) ltac:(lia)) as L.
      rewrite f64_value_mk by lia. change (2047 =? 2047) with true. cbv iota.
      destruct (Z.lor (m * 2^29) (2^51) =? 0) eqn:E3; [lia|reflexivity].
  - destruct (e =? 0) eqn:E2.
    + destruct (m =? 0) eqn:E3.
      * rewrite f64_value_mk by lia. assert (m = 0) as -> by lia. reflexivity.
      * assert (Hk : 0 <= Z.log2 m < 23).
        { split; [apply Z.log2_nonneg|apply Z.log2_lt_pow2; lia]. }
        pose proof (Z.log2_spec m ltac:(lia)) as Hl. set (k := Z.log2 m) in *. clearbody k.
        rewrite Z.pow_succ_r in Hl by lia.
        assert (P : 2^52 = 2^k * 2^(52 - k)) by (rewrite <- Z.pow_add_r by lia; f_equal; lia).
        assert (0 < 2^(52-k)) by (apply Z.pow_pos_nonneg; lia).
        assert (0 <= (m - 2^k) * 2^(52 - k) < 2^52) by (rewrite P; clear P; nia).
        rewrite f64_value_mk by lia.
        destruct (k - 149 + 1023 =? 2047) eqn:F1; [lia|]. destruct (k - 149 + 1023 =? 0) eqn:F2; [lia|].
        f_equal. rewrite P. replace (2^k * 2^(52-k) + (m - 2^k) * 2^(52-k)) with (m * 2^(52-k)) by ring.
        rewrite <- Z.mul_assoc, <- Z.pow_add_r by lia. f_equal. f_equal. lia.
    + rewrite f64_value_mk by lia.
      destruct (e + 896 =? 2047) eqn:F1; [lia|]. destruct (e + 896 =? 0) eqn:F2; [lia|].
      f_equal. replace (2^52 + m * 2^29) with ((2^23 + m) * 2^29) by ring.
      rewrite <- Z.mul_assoc, <- Z.pow_add_r by lia. f_equal. f_equal. lia.
Qed.

Lemma Some_inj {A} (a b : A) : Some a = Some b -> a = b.
Proof. congruence. Qed.
Lemma narrow_widen b x : 0 <= b < 2^64 -> f64_to_f32 b = Some x ->
  0 <= x < 2^32 /\ f32_to_f64 x = b.
Proof.
  intros Hb. destruct (f64_ranges b) as (Hs & He & Hm). unfold f64_to_f32.
  pose proof (f64_join b Hb) as J.
  set (s := f64_sign b) in *. set (e := f64_exp b) in *. set (m := f64_man b) in *. clearbody s e m.
  rewrite <- J. clear J Hb. cbn zeta.
  assert (K : forall s e m, 0 <= s < 2 -> 0 <= e < 2^8 -> 0 <= m < 2^23 ->
    0 <= mk32 s e m < 2^32 /\ f32_to_f64 (mk32 s e m) =
    if e =? 255 then
      if m =? 0 then mk64 s 2047 0 else mk64 s 2047 (Z.lor (m * 2^29) (2^51))
    else if e =? 0 then
      if m =? 0 then mk64 s 0 0
      else mk64 s (Z.log2 m - 149 + 1023) ((m - 2^Z.log2 m) * 2^(52 - Z.log2 m))
    else mk64 s (e + 896) (m * 2^29)).
  { intros s' e' m' A B C. split; [now apply mk32_range|].
    destruct (mk32_fields s' e' m' A B C) as (F & G & H). unfold f32_to_f64. rewrite F, G, H. reflexivity. }
  destruct (e =? 2047) eqn:E1.
  { destruct (m =? 0) eqn:E2; [|discriminate]. intros X; apply Some_inj in X; subst x.
    destruct (K s 255 0) as [R ->]; [lia|lia|lia|]. split; [exact R|].
    cbn [Z.eqb Pos.eqb]. f_equal; lia. }
  destruct (e =? 0) eqn:E2.
  { destruct (m =? 0) eqn:E3; [|discriminate]. intros X; apply Some_inj in X; subst x.
    destruct (K s 0 0) as [R ->]; [lia|lia|lia|]. split; [exact R|]. cbn [Z.eqb]. f_equal; lia. }
  destruct ((897 <=? e) && (e <=? 1150)) eqn:E3.
  { destruct (m mod 2^29 =? 0) eqn:E4; [|discriminate]. intros X; apply Some_inj in X; subst x.
    pose proof (Z.div_mod m (2^29) ltac:(lia)).
    assert (0 <= m / 2^29 < 2^23) by (split; [apply Z.div_pos; lia|apply Z.div_lt_upper_bound; lia]).
    destruct (K s (e - 896) (m / 2^29)) as [R ->]; [lia|lia|lia|]. split; [exact R|].
    destruct (e - 896 =? 255) eqn:F1; [lia|]. destruct (e - 896 =? 0) eqn:F2; [lia|]. f_equal; lia. }
  destruct ((874 <=? e) && (e <=? 896)) eqn:E4; [|discriminate].
  destruct ((2^52 + m) mod 2^(926 - e) =? 0) eqn:E5; [|discriminate]. intros X; apply Some_inj in X; subst x.
  assert (Hd : 0 < 2^(926-e)) by (apply Z.pow_pos_nonneg; lia).
  assert (P : 2^52 = 2^(926-e) * 2^(e - 874)) by (rewrite <- Z.pow_add_r by lia; f_equal; lia).
  pose proof (Z.div_mod (2^52 + m) (2^(926-e)) ltac:(lia)) as D.
  set (q := (2^52 + m) / 2^(926-e)) in *. clearbody q.
  assert (D' : 2^52 + m = 2^(926-e) * q) by lia. clear D E5.
  assert (Hq : 2^(e - 874) <= q < 2 * 2^(e-874)).
  { split.
    - apply Z.mul_le_mono_pos_l with (2^(926-e)); [exact Hd|]. rewrite <- P, <- D'. lia.
    - apply Z.mul_lt_mono_pos_l with (2^(926-e)); [exact Hd|].
      rewrite <- D'. replace (2^(926-e) * (2 * 2^(e-874))) with (2 * (2^(926-e) * 2^(e-874))) by ring.
      rewrite <- P. lia. }
  assert (Hlog : Z.log2 q = e - 874).
  { apply Z.log2_unique; [lia|]. rewrite Z.pow_succ_r by lia. lia. }
  assert (Hq2 : 2^(e-874) <= 2^22) by (apply Z.pow_le_mono_r; lia).
  assert (0 < 2^(e-874)) by (apply Z.pow_pos_nonneg; lia).
  destruct (K s 0 q) as [R ->]; [lia|lia|change (2^23) with (2 * 2^22); lia|]. split; [exact R|].
  cbn [Z.eqb]. destruct (q =? 0) eqn:F1; [lia|].
  rewrite Hlog. f_equal; [lia|].
  replace (52 - (e - 874)) with (926 - e) by lia. lia.
Qed.
