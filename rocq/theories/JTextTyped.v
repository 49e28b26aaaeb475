(** JTextTyped.v -- the tree of an opened JSON text consists of 64-bit numbers and of bytes. *)

From Coq Require Import ZArith List Bool Lia ZifyBool ZifyNat.
From Coq Require Import Floats.SpecFloat.
From Verif Require Import Base BaseFacts Spec SpecFacts FloatModel FloatSpec HalfModel B64Model B64Spec Utf8Model Utf8Spec JsonModel JsonSpec JTextSpec JTextModel JTextFacts JTextPrint JTextMain.
Import ListNotations.
Open Scope Z_scope.
Ltac Zify.zify_post_hook ::= idtac.

(** ** A rounded double has 64 bits *)
Lemma shr_1_m r : 0 <= shr_m r -> shr_m (shr_1 r) = shr_m r / 2.
Proof.
  destruct r as [m r s]. cbn [shr_m]. destruct m as [|[p|p|]|p]; cbn [shr_1 shr_m]; intros H; try reflexivity; [| |lia].
  - rewrite (Pos2Z.inj_xI p), (Z.mul_comm 2), Z.div_add_l by lia. change (1 / 2) with 0. lia.
  - rewrite (Pos2Z.inj_xO p), (Z.mul_comm 2), Z.div_mul by lia. reflexivity.
Qed.
Lemma shr_1_neg r : shr_m r <= 0 -> shr_m (shr_1 r) <= 0.
Proof. destruct r as [m r s]. destruct m as [|[p|p|]|[p|p|]]; cbn [shr_1 shr_m]; lia. Qed.
Lemma iter_shr_m p : forall r, 0 <= shr_m r -> shr_m (iter_pos shr_1 p r) = shr_m r / 2 ^ Zpos p.
Proof.
  assert (P : forall q x, 0 <= x -> 0 <= x / 2 ^ Zpos q) by (intros; apply Z.div_pos; [assumption|apply Z.pow_pos_nonneg; lia]).
  assert (Q : forall q, 0 < 2 ^ Zpos q) by (intros; apply Z.pow_pos_nonneg; lia).
  induction p as [p IH|p IH|]; intros r H; cbn [iter_pos].
  - assert (H1 : 0 <= shr_m (shr_1 r)) by (rewrite shr_1_m by assumption; apply Z.div_pos; lia).
    rewrite IH by (rewrite IH by assumption; auto). rewrite IH by assumption. rewrite shr_1_m by assumption.
    rewrite !Z.div_div by (try lia; auto; specialize (Q p); lia). f_equal. rewrite (Pos2Z.inj_xI p). replace (2 * Z.pos p + 1) with (1 + (Zpos p + Zpos p)) by lia.
    rewrite !Z.pow_add_r by lia. lia.
  - rewrite IH by (rewrite IH by assumption; auto). rewrite IH by assumption.
    rewrite !Z.div_div by (try lia; auto; specialize (Q p); lia). f_equal. rewrite (Pos2Z.inj_xO p). replace (2 * Z.pos p) with (Zpos p + Zpos p) by lia.
    rewrite !Z.pow_add_r by lia. lia.
  - rewrite shr_1_m by assumption. reflexivity.
Qed.
Lemma iter_shr_neg p : forall r, shr_m r <= 0 -> shr_m (iter_pos shr_1 p r) <= 0.
Proof. induction p as [p IH|p IH|]; intros r H; cbn [iter_pos]; auto using shr_1_neg. Qed.
Lemma digits2_bound p : Zpos p < 2 ^ Zpos (digits2_pos p).
Proof.
  induction p as [p IH|p IH|]; cbn [digits2_pos]; try rewrite Pos2Z.inj_succ, Z.pow_succ_r by lia; [rewrite (Pos2Z.inj_xI p)|rewrite (Pos2Z.inj_xO p)|]; try lia.
Qed.
Definition fits (f : spec_float) : Prop :=
  match f with S754_finite _ m e => Zpos m < 2^53 /\ -1074 <= e <= 971 | _ => True end.
Lemma loc_m m l : shr_m (shr_record_of_loc m l) = m.
Proof. destruct l as [|[]]; reflexivity. Qed.
Lemma shr_fits m e l r e' p : shr_fexp prec emax m e l = (r, e') -> shr_m r = Zpos p -> Zpos p < 2^53 /\ -1074 <= e'.
Proof.
  unfold shr_fexp, fexp, emin. change (3 - emax - prec) with (-1074). unfold prec. set (d := Zdigits2 m). intros E M.
  assert (POS : 0 < m).
  { destruct (Z_lt_le_dec 0 m) as [|N]; [assumption|]. exfalso. unfold shr in E. destruct (_ - e) as [|n|n]; injection E as <- <-; rewrite ?loc_m in M; try lia.
    pose proof (iter_shr_neg n (shr_record_of_loc m l)) as X. rewrite loc_m in X. lia. }
  assert (D : m < 2 ^ d) by (subst d; destruct m; try lia; apply digits2_bound). assert (D0 : 0 <= d) by (subst d; destruct m; cbn; lia).
  remember (Z.max (d + e - 53) (-1074) - e) as n eqn:N. unfold shr in E. destruct n as [|n|n]; injection E as <- <-; rewrite ?loc_m in M.
  - assert (d <= 53) by lia. pose proof (Z.pow_le_mono_r 2 d 53 ltac:(lia) ltac:(lia)). lia.
  - rewrite iter_shr_m in M by (rewrite loc_m; lia). rewrite loc_m in M. split; [|lia]. rewrite <- M. apply Z.div_lt_upper_bound; [apply Z.pow_pos_nonneg; lia|].
    rewrite <- Z.pow_add_r by lia. pose proof (Z.pow_le_mono_r 2 d (Zpos n + 53) ltac:(lia) ltac:(lia)). lia.
  - assert (d <= 53) by lia. pose proof (Z.pow_le_mono_r 2 d 53 ltac:(lia) ltac:(lia)). lia.
Qed.
Lemma round_fits s m e l : fits (binary_round_aux prec emax s m e l).
Proof.
  unfold binary_round_aux. destruct (shr_fexp prec emax m e l) as [r1 e1]. destruct (shr_fexp prec emax _ e1 loc_Exact) as [r2 e2] eqn:E.
  destruct (shr_m r2) as [|p|p] eqn:M; [exact I| |exact I]. destruct (e2 <=? emax - prec) eqn:L; [|exact I]. destruct (shr_fits _ _ _ _ _ _ E M). split; [assumption|]. unfold emax, prec in L. lia.
Qed.
Lemma normalize_fits m e s : fits (binary_normalize prec emax m e s).
Proof. unfold binary_normalize. destruct m as [|p|p]; [exact I|unfold binary_round; destruct (shl_align _ _ _); apply round_fits..]. Qed.
Lemma to_bits_range f : fits f -> is_u64 (to_bits f).
Proof.
  unfold is_u64, to_bits, mk64, u64_max. destruct f as [s|s| |s m e]; cbn [fits]; intros F.
  - destruct s; lia.
  - destruct s; lia.
  - lia.
  - destruct (Zpos m <? 2^52) eqn:L; destruct s; lia.
Qed.
Lemma dec_double_range neg m e : is_u64 (dec_double neg m e).
Proof.
  apply to_bits_range. unfold dec_sf. destruct (m =? 0); [exact I|]. destruct (0 <=? e); [apply normalize_fits|].
  destruct (SFdiv_core_binary _ _ _ _ _ _) as [[q e'] l]. apply round_fits.
Qed.

(** ** The tree *)
Definition doubles_ok : val -> Prop := every (fun v => match v with VDbl d => is_u64 d | _ => True end).
Lemma doubles_arr l : Forall doubles_ok l -> doubles_ok (VArr l).
Proof. intros F. apply every_arr. split; [exact I|exact F]. Qed.
Lemma doubles_map l : Forall (fun kx => doubles_ok (snd kx)) l -> doubles_ok (VMap l).
Proof. intros F. apply every_map. split; [exact I|exact F]. Qed.
Lemma value_doubles : (forall t l, value dec_double t l -> doubles_ok t) /\ (forall xs l, elems dec_double xs l -> Forall doubles_ok xs) /\
  (forall xs l, members dec_double xs l -> Forall (fun kx => doubles_ok (snd kx)) xs).
Proof.
  apply grammar_ind; intros; try (apply doubles_arr; auto; constructor); try (apply doubles_map; auto; constructor); try (constructor; auto; fail); try (split; [exact I|exact I]).
  split; [apply dec_double_range|exact I].
Qed.
Lemma big_ok z w : yy_big z = Some w -> val_ok w.
Proof. unfold yy_big. destruct (is_finite _); [|discriminate]. intros E. injection E as <-. apply to_bits_range, normalize_fits. Qed.
Lemma read_ok t : json_text t -> tree_ok t -> doubles_ok t -> forall w, yy_read t = Some w -> val_ok w.
Proof.
  induction t as [|b|z|z|d|s|s|l IH|l IH] using val_ind'; intros J T D w; cbn [yy_read]; intros E.
  - now injection E as <-.
  - now injection E as <-.
  - destruct (_ <=? _) eqn:L in E; [injection E as <-|exact (big_ok _ _ E)]. destruct J as [J _]. cbn [val_ok]. unfold is_i64, i64_min, i64_max in *. lia.
  - destruct (_ <=? _) eqn:L in E; [injection E as <-|exact (big_ok _ _ E)]. destruct J as [J _]. cbn [val_ok]. unfold is_u64, u64_max in *. lia.
  - destruct (is_finite d); [|discriminate E]. injection E as <-. apply D.
  - destruct (utf8_valid s); [|discriminate E]. injection E as <-. apply J.
  - discriminate E.
  - match type of E with option_map _ ?m = _ => destruct m as [r|] eqn:G; [|discriminate E] end. injection E as <-. apply val_ok_arr.
    apply every_arr in J, T, D. destruct J as [_ J], T as [_ T], D as [_ D]. revert r G. induction l as [|x l IL]; intros r G; [injection G as <-; constructor|].
    apply Forall_cons_iff in IH, J, T, D. destruct IH as [IX IH], J as [JX J], T as [TX T], D as [DX D].
    destruct (yy_read x) as [y|]; [|discriminate G]. match type of G with match ?m with _ => _ end = _ => destruct m as [r'|] eqn:G'; [|discriminate G] end.
    injection G as <-. constructor; [exact (IX JX TX DX y eq_refl)|exact (IL IH J T D r' eq_refl)].
  - match type of E with option_map _ ?m = _ => destruct m as [r|] eqn:G; [|discriminate E] end. injection E as <-. apply val_ok_map.
    apply every_map in J, T, D. destruct J as [_ J], T as [K T], D as [_ D]. revert r G. induction l as [|[k x] l IL]; intros r G; [injection G as <-; constructor|].
    apply Forall_cons_iff in IH, J, K, T, D. destruct IH as [IX IH], J as [JX J], K as [KX K], T as [TX T], D as [DX D]. cbn [fst snd] in *.
    destruct (utf8_valid k); [|discriminate G]. destruct (yy_read x) as [y|]; [|discriminate G]. match type of G with match ?m with _ => _ end = _ => destruct m as [r'|] eqn:G'; [|discriminate G] end.
    injection G as <-. constructor; [exact (conj KX (IX JX TX DX y eq_refl))|exact (IL IH J K T D r' eq_refl)].
Qed.
Theorem open_text_ok b w : bytes_ok b -> json_open_text b = Ok w -> val_ok w.
Proof.
  intros B O. apply open_text_iff in O. destruct O as (t & T & O). unfold json_open in O. destruct (yy_read t) as [r|] eqn:R; [|discriminate O]. injection O as ->.
  destruct (text_tree b t B T) as [J K]. refine (read_ok t J K _ w R). destruct T as (w1 & l & w2 & _ & _ & V & _). exact (proj1 value_doubles t l V).
Qed.
