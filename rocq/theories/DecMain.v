(** DecMain.v -- the nearest double is unique; every finite double can be spelled as a decimal. *)

From Coq Require Import ZArith List Bool String Lia ZifyBool ZifyNat.
From Verif Require Import Base BaseFacts Spec SpecFacts HalfModel B64Model TextSpec JsonSpec JsonModel JsonWrite JsonMain FloatSpec FloatModel FloatFacts DecSpec DecFacts JTextModel JTextSpec JTextFacts JTextPrint.
Import ListNotations.
Open Scope Z_scope.
Ltac Zify.zify_post_hook ::= idtac.

(** The units of the double with the bits [b] below its sign. *)
Definition mag (b : Z) : Z :=
  let x := b / 2 ^ 52 in let m := b mod 2 ^ 52 in if x =? 0 then m else (2 ^ 52 + m) * 2 ^ (x - 1).
Lemma mag_step b : 0 <= b -> mag b < mag (b + 1).
Proof.
  intros B. unfold mag. pose proof (Z_div_mod_eq_full b (2 ^ 52)) as Q. pose proof (Z.mod_pos_bound b (2 ^ 52) ltac:(lia)) as R.
  assert (X : 0 <= b / 2 ^ 52) by (apply Z.div_pos; lia).
  set (x := b / 2 ^ 52) in *. set (m := b mod 2 ^ 52) in *. clearbody x m.
  destruct (Z.eq_dec (m + 1) (2 ^ 52)) as [L|L].
  - assert ((b + 1) / 2 ^ 52 = x + 1) as -> by (symmetry; apply (Z.div_unique_pos _ _ _ 0); lia).
    assert ((b + 1) mod 2 ^ 52 = 0) as -> by (symmetry; apply (Z.mod_unique_pos _ _ (x + 1)); lia).
    replace (x + 1 =? 0) with false by lia. replace (x + 1 - 1) with x by lia.
    destruct (x =? 0) eqn:X0; [replace x with 0 by lia; change (2 ^ 0) with 1; lia|].
    replace (2 ^ x) with (2 * 2 ^ (x - 1)) by (rewrite <- (Z.pow_succ_r 2) by lia; f_equal; lia).
    assert (0 < 2 ^ (x - 1)) by (apply Z.pow_pos_nonneg; lia). nia.
  - assert ((b + 1) / 2 ^ 52 = x) as -> by (symmetry; apply (Z.div_unique_pos _ _ _ (m + 1)); lia).
    assert ((b + 1) mod 2 ^ 52 = m + 1) as -> by (symmetry; apply (Z.mod_unique_pos _ _ x); lia).
    destruct (x =? 0) eqn:X0; [lia|]. assert (0 < 2 ^ (x - 1)) by (apply Z.pow_pos_nonneg; lia). nia.
Qed.
Lemma mag_lt b c : 0 <= b < c -> mag b < mag c.
Proof.
  intros H. replace c with (b + 1 + (c - b - 1)) by lia. assert (G : 0 <= c - b - 1) by lia. revert G. generalize (c - b - 1).
  assert (B : 0 <= b) by lia. clear H. intros k K. pattern k. apply natlike_ind; [rewrite Z.add_0_r; now apply mag_step| |exact K].
  intros j J IH. etransitivity; [exact IH|]. replace (b + 1 + Z.succ j) with (b + 1 + j + 1) by lia. apply mag_step. lia.
Qed.
Lemma mag_inj b c : 0 <= b -> 0 <= c -> mag b = mag c -> b = c.
Proof. intros B C E. destruct (Z.lt_trichotomy b c) as [L|[L|L]]; [pose proof (mag_lt _ _ (conj B L)); lia|exact L|pose proof (mag_lt _ _ (conj C L)); lia]. Qed.

Definition sgn (s : bool) : Z := if s then 1 else 0.
Lemma split64 d : 0 <= d < 2 ^ 64 -> exists s b, d = sgn s * 2 ^ 63 + b /\ 0 <= b < 2 ^ 63.
Proof. intros D. destruct (Z_lt_le_dec d (2 ^ 63)); [exists false, d|exists true, (d - 2 ^ 63)]; unfold sgn; lia. Qed.
Lemma value_of s b : 0 <= b < 2 ^ 63 -> f64_value (sgn s * 2 ^ 63 + b) =
  if b / 2 ^ 52 =? 2047 then (if b mod 2 ^ 52 =? 0 then Finf s else Fnan) else Fnum s (mag b).
Proof.
  intros B. pose proof (Z_div_mod_eq_full b (2 ^ 52)) as Q. pose proof (Z.mod_pos_bound b (2 ^ 52) ltac:(lia)) as R.
  assert (X : 0 <= b / 2 ^ 52 < 2 ^ 11) by (split; [apply Z.div_pos; lia|apply Z.div_lt_upper_bound; lia]).
  assert (E : sgn s * 2 ^ 63 + b = mk64 (sgn s) (b / 2 ^ 52) (b mod 2 ^ 52)) by (unfold mk64; lia).
  rewrite E, f64_value_mk by (unfold sgn; destruct s; lia). unfold mag. replace (negb (sgn s =? 0)) with s by (destruct s; reflexivity).
  destruct (b / 2 ^ 52 =? 2047); [reflexivity|]. destruct (b / 2 ^ 52 =? 0); reflexivity.
Qed.
Lemma finite_bits d s u : 0 <= d < 2 ^ 64 -> f64_value d = Fnum s u ->
  exists b, d = sgn s * 2 ^ 63 + b /\ 0 <= b < 2047 * 2 ^ 52 /\ u = mag b.
Proof.
  intros D V. destruct (split64 d D) as (s' & b & -> & B). rewrite value_of in V by lia.
  destruct (b / 2 ^ 52 =? 2047) eqn:X; [destruct (b mod 2 ^ 52 =? 0); discriminate|]. exists b.
  assert (s' = s /\ mag b = u) as (-> & <-) by (split; congruence). repeat split; [lia|].
  assert (b / 2 ^ 52 < 2048) by (apply Z.div_lt_upper_bound; lia). pose proof (Z_div_mod_eq_full b (2 ^ 52)). pose proof (Z.mod_pos_bound b (2 ^ 52) ltac:(lia)). lia.
Qed.
Lemma bits_value s b : 0 <= b < 2047 * 2 ^ 52 -> f64_value (sgn s * 2 ^ 63 + b) = Fnum s (mag b).
Proof.
  intros B. rewrite value_of by lia. assert (b / 2 ^ 52 < 2047) by (apply Z.div_lt_upper_bound; lia). replace (b / 2 ^ 52 =? 2047) with false by lia. reflexivity.
Qed.
Lemma inf_bits d s : 0 <= d < 2 ^ 64 -> f64_value d = Finf s -> d = sgn s * 2 ^ 63 + 2047 * 2 ^ 52.
Proof.
  intros D V. destruct (split64 d D) as (s' & b & -> & B). rewrite value_of in V by lia.
  destruct (b / 2 ^ 52 =? 2047) eqn:X; [|discriminate]. destruct (b mod 2 ^ 52 =? 0) eqn:M; [|discriminate].
  assert (s' = s) as -> by congruence. pose proof (Z_div_mod_eq_full b (2 ^ 52)). lia.
Qed.
Lemma finite_inj d d' s u : 0 <= d < 2 ^ 64 -> 0 <= d' < 2 ^ 64 -> f64_value d = Fnum s u -> f64_value d' = Fnum s u -> d = d'.
Proof.
  intros D D' V V'. destruct (finite_bits _ _ _ D V) as (b & -> & B & U). destruct (finite_bits _ _ _ D' V') as (b' & -> & B' & U').
  assert (b = b') by (apply mag_inj; lia). lia.
Qed.

Theorem nearest_unique neg m e d d' : 0 <= m -> nearest_double neg m e d -> nearest_double neg m e d' -> d = d'.
Proof.
  intros HM. unfold nearest_double, units. set (n := m * 10 ^ Z.max e 0 * 2 ^ 1074). set (k := 10 ^ Z.max (- e) 0).
  assert (K : 0 < k) by (apply Z.pow_pos_nonneg; lia). set (lim := (2 ^ 54 - 1) * 2 ^ 2044). clearbody n k lim.
  intros (D & [(A1 & A2)|(A1 & u & A2 & A3)]) (D' & [(B1 & B2)|(B1 & u' & B2 & B3)]); try lia.
  { rewrite (inf_bits _ _ D A2), (inf_bits _ _ D' B2). reflexivity. }
  assert (EVN : forall s b, Z.even (sgn s * 2 ^ 63 + b) = Z.even b).
  { intros s b. change (2 ^ 63) with (2 * 2 ^ 62). replace (sgn s * (2 * 2 ^ 62) + b) with (b + 2 * (sgn s * 2 ^ 62)) by ring. apply Z.even_add_mul_2. }
  destruct (finite_bits _ _ _ D A2) as (b & -> & Hb & Ub). destruct (finite_bits _ _ _ D' B2) as (b' & -> & Hb' & Ub').
  assert (C : u' = u \/ (Z.abs (n - u * k) = Z.abs (n - u' * k) /\ Z.even b = true /\ Z.even b' = true)).
  { destruct (A3 _ _ _ B2) as [E|[E|(E & E1)]]; [now left| |]; destruct (B3 _ _ _ A2) as [F|[F|(F & F1)]]; try (left; lia); try lia.
    right. rewrite EVN in E1, F1. auto. }
  destruct C as [C|(C & E1 & E2)]; [assert (b = b') by (apply mag_inj; lia); lia|].
  assert (ODD : forall x, Z.even x = true -> Z.even (x + 1) = false) by (intros x H; rewrite Z.even_add, H; reflexivity).
  destruct (Z.lt_trichotomy b b') as [L|[L|L]]; [|lia|].
  - assert (L2 : b + 1 < b') by (destruct (Z.eq_dec (b + 1) b') as [Q|Q]; [pose proof (ODD b E1); congruence|lia]).
    pose proof (mag_step b ltac:(lia)). pose proof (mag_lt (b + 1) b' ltac:(lia)).
    pose proof (A3 _ _ _ (bits_value neg (b + 1) ltac:(lia))) as W. set (w := mag (b + 1)) in *.
    assert (u * k < w * k) by nia. assert (w * k < u' * k) by nia. lia.
  - assert (L2 : b' + 1 < b) by (destruct (Z.eq_dec (b' + 1) b) as [Q|Q]; [pose proof (ODD b' E2); congruence|lia]).
    pose proof (mag_step b' ltac:(lia)). pose proof (mag_lt (b' + 1) b ltac:(lia)).
    pose proof (A3 _ _ _ (bits_value neg (b' + 1) ltac:(lia))) as W. set (w := mag (b' + 1)) in *.
    assert (u' * k < w * k) by nia. assert (w * k < u * k) by nia. lia.
Qed.

(** ** Spelling: a double of [u] units is u * 5^1074 * 10^-1074. *)
Definition exact_text (d : Z) : bytes :=
  match f64_value d with
  | Fnum s u => (if s then [45] else []) ++ dec (u * 5 ^ 1074) ++ codes "e-1074"
  | _ => []
  end.
Lemma exact_spelled d s u : 0 <= d < 2 ^ 64 -> f64_value d = Fnum s u -> value dec_double (VDbl d) (exact_text d).
Proof.
  intros D V. unfold exact_text. rewrite V.
  assert (U : 0 <= u). { destruct (double_units _ _ _ V) as (M & E & -> & ? & ?). assert (0 < 2 ^ E) by (apply Z.pow_pos_nonneg; lia). nia. }
  assert (P5 : 0 < 5 ^ 1074) by (apply Z.pow_pos_nonneg; lia).
  set (n := u * 5 ^ 1074). assert (N : 0 <= n) by (subst n; nia).
  destruct (dec_nat n N) as (I & DN).
  assert (EQ : dec_double s n (-1074) = d).
  { pose proof (dec_double_nearest s n (-1074) N) as (R & H). set (d' := dec_double s n (-1074)) in *. clearbody d'.
    change (Z.max (-1074) 0) with 0 in H. change (Z.max (- -1074) 0) with 1074 in H. change (10 ^ 0) with 1 in H. rewrite Z.mul_1_r in H.
    assert (X : n * 2 ^ 1074 = u * 10 ^ 1074).
    { subst n. change 10 with (5 * 2) at 1. rewrite Z.pow_mul_l. ring. }
    rewrite X in H. assert (K : 0 < 10 ^ 1074) by (apply Z.pow_pos_nonneg; lia).
    destruct H as [(H1 & _)|(_ & u' & H1 & H2)].
    - exfalso. destruct (double_units _ _ _ V) as (M & E & UU & MB & EB).
      assert (PL : 2 ^ E <= 2 ^ 2045) by (apply Z.pow_le_mono_r; lia). assert (PE : 0 < 2 ^ E) by (apply Z.pow_pos_nonneg; lia).
      replace (2 ^ 2045) with (2 * 2 ^ 2044) in PL by (change 2045 with (1 + 2044); rewrite Z.pow_add_r by lia; reflexivity).
      assert (PQ : 0 < 2 ^ 2044) by (apply Z.pow_pos_nonneg; lia). set (Q := 2 ^ 2044) in *. set (k := 10 ^ 1074) in *. set (T := 2 ^ E) in *. clearbody Q k T.
      clear - UU MB PL PE PQ H1 K.
      assert (M * T <= (2 ^ 53 - 1) * (2 * Q)) by (apply Z.mul_le_mono_nonneg; lia).
      assert (u < (2 ^ 54 - 1) * Q) by lia. assert (u * k < (2 ^ 54 - 1) * Q * k) by (apply Z.mul_lt_mono_pos_r; assumption). lia.
    - assert (u' = u).
      { destruct (H2 _ _ _ V) as [E|[E|(E & _)]]; [lia| |]; set (k := 10 ^ 1074) in *; clearbody k; replace (u * k - u * k) with 0 in E by ring; [lia|].
        assert ((u - u') * k = 0) by lia. nia. }
      subst u'. now apply (finite_inj d' d s u). }
  assert (VR := v_real dec_double s (if s then [45] else []) (dec n) [] (Some (-1074)) [] (codes "e-1074")).
  rewrite app_nil_r, DN in VR. change (-1074 - zlen []) with (-1074) in VR. rewrite EQ in VR. apply VR.
  - destruct s; auto.
  - exact I.
  - left. auto.
  - right. exists 101, [45], [49; 48; 55; 52]. split; [now left|]. split; [discriminate|]. split; [repeat constructor; unfold digit; lia|]. split; [reflexivity|]. right. right. auto.
  - right. discriminate.
Qed.

Lemma finite_spelled : forall v, val_ok v -> doubles_finite v -> spells_doubles dec_double exact_text v.
Proof.
  unfold doubles_finite, spells_doubles. induction v as [| | | |d| | |l IH|l IH] using val_ind'; intros V F; try (split; exact I).
  - cbn [every] in F. destruct F as (F & _). unfold finite in F. cbn [val_ok] in V. unfold is_u64, u64_max in V. split; [|exact I].
    destruct (f64_value d) as [| |s u] eqn:E; try easy. apply (exact_spelled d s u); [lia|exact E].
  - apply every_arr. apply every_arr in F. apply val_ok_arr in V. destruct F as (_ & F). split; [exact I|].
    rewrite Forall_forall in *. intros x IN. apply IH; auto.
  - apply every_map. apply every_map in F. apply val_ok_map in V. destruct F as (_ & F). split; [exact I|].
    rewrite Forall_forall in *. intros x IN. apply IH; auto. apply V; auto.
Qed.

(** ** All roundings of decimals agree *)
Lemma decimal_nonneg l : Forall digit l -> 0 <= decimal l.
Proof.
  induction 1 as [|c l D _ IH]; cbn [decimal]; [lia|]. unfold digit in D. pose proof (zlen_nonneg l). assert (0 < 10 ^ zlen l) by (apply Z.pow_pos_nonneg; lia). nia.
Qed.
Lemma int_digits l : int_part l -> Forall digit l.
Proof. intros [-> | (c & l' & -> & C & D)]; constructor; auto; unfold digit; lia. Qed.
Lemma frac_digits f l : fraction f l -> Forall digit f.
Proof. intros [(-> & _) | (_ & D & _)]; auto. Qed.
Lemma roundings_agree r1 r2 : ieee_rounding r1 -> ieee_rounding r2 -> forall neg m e, 0 <= m -> r1 neg m e = r2 neg m e.
Proof. intros H1 H2 neg m e M. eapply nearest_unique; [exact M|now apply H1|now apply H2]. Qed.
Lemma grammar_agree r1 r2 : (forall neg m e, 0 <= m -> r1 neg m e = r2 neg m e) ->
  (forall t l, value r1 t l -> value r2 t l) /\ (forall t l, elems r1 t l -> elems r2 t l) /\ (forall t l, members r1 t l -> members r2 t l).
Proof.
  intros A. apply (grammar_ind r1 (fun t l _ => value r2 t l) (fun t l _ => elems r2 t l) (fun t l _ => members r2 t l)); intros; try (now constructor).
  rewrite A; [now apply v_real|]. apply decimal_nonneg, Forall_app. split; [now apply int_digits|eapply frac_digits; eassumption].
Qed.
Lemma text_agree r1 r2 : ieee_rounding r1 -> ieee_rounding r2 -> forall b t, text r1 b t -> text r2 b t.
Proof.
  intros H1 H2 b t (w1 & l & w2 & -> & W1 & V & W2). exists w1, l, w2. repeat split; auto.
  exact (proj1 (grammar_agree r1 r2 (roundings_agree r1 r2 H1 H2)) t l V).
Qed.
Lemma dec_ieee : ieee_rounding dec_double. Proof. intros neg m e M. now apply dec_double_nearest. Qed.
Lemma spells_agree r1 r2 : ieee_rounding r1 -> ieee_rounding r2 -> forall dtext v, spells_doubles r1 dtext v -> spells_doubles r2 dtext v.
Proof.
  intros H1 H2 dtext v. unfold spells_doubles. apply every_mono. intros x. destruct x; auto.
  exact (proj1 (grammar_agree r1 r2 (roundings_agree r1 r2 H1 H2)) _ _).
Qed.

(** Integer tokens out of range go through [of_int], which rounds the same way. *)
Lemma of_int_dec (neg : bool) n : 0 < n -> to_bits (of_int (if neg then - n else n)%Z) = dec_double neg n 0.
Proof.
  intros N. unfold dec_double, dec_sf, of_int. replace (n =? 0) with false by lia. change (0 <=? 0) with true. change (10 ^ 0) with 1. rewrite Z.mul_1_r.
  destruct n as [|p|p]; try lia. destruct neg; reflexivity.
Qed.
