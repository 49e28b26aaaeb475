(** Properties_Dec.v -- C85: the doubles of JSON numbers are IEEE 754 roundings, and every finite double has a text.

    [ieee_rounding real] (DecSpec.v): [real neg m e] is the double nearest to (-1)^neg * m * 10^e, ties to even,
    infinite from half a unit above the largest double on. *)

From Coq Require Import ZArith List Bool String Lia ZifyBool.
From Verif Require Import Base Spec HalfModel B64Model TextSpec JsonSpec JsonModel JsonMain FloatSpec DecSpec DecFacts DecMain
  JTextModel JTextSpec JTextFacts JTextPrint JTextMain Properties_JText.
Import ListNotations.
Open Scope Z_scope.
Ltac Zify.zify_post_hook ::= idtac.

(** There is such a rounding, and only one. *)
Theorem C85_rounding_exists : ieee_rounding dec_double.
Proof. exact dec_ieee. Qed.
Print Assumptions C85_rounding_exists.
Theorem C85_rounding_unique : forall neg m e d d', 0 <= m -> nearest_double neg m e d -> nearest_double neg m e d' -> d = d'.
Proof. exact nearest_unique. Qed.
Print Assumptions C85_rounding_unique.
(** 0.1; the tie 2^53 + 1 goes to the even 2^53; 1e400 overflows; 1e-400 is zero. *)
Example C85_rounding_case : dec_double false 1 (-1) = 4591870180066957722 /\ dec_double true (2 ^ 53 + 1) 0 = dec_double true (2 ^ 53) 0 /\
  f64_value (dec_double false 1 400) = Finf false /\ f64_value (dec_double true 1 (-400)) = Fnum true 0 /\
  f64_value (dec_double false 5 (-324)) = Fnum false 1.
Proof. repeat split; vm_compute; reflexivity. Qed.

(** ** What is read *)
Theorem C85_accepts_ieee_json : forall real, ieee_rounding real -> forall b w,
  json_open_text b = Ok w <-> exists t, text real b t /\ json_open t = Ok w.
Proof.
  intros real R b w. rewrite open_text_iff. split; intros (t & T & O); exists t; (split; [|exact O]).
  - exact (text_agree dec_double real dec_ieee R b t T).
  - exact (text_agree real dec_double R dec_ieee b t T).
Qed.
Print Assumptions C85_accepts_ieee_json.
(** A number with a fraction or an exponent is read as the double nearest to it, and rejected if that is infinite. *)
Theorem C85_number_nearest : forall neg i f lf x lx d, int_part i -> fraction f lf -> exponent x lx -> (f <> [] \/ x <> None) ->
  nearest_double neg (decimal (i ++ f)) (match x with Some x => x | None => 0 end - zlen f) d ->
  let r := json_open_text ((if neg then [45] else []) ++ i ++ lf ++ lx) in
  (finite d -> r = Ok (VDbl d)) /\ (~ finite d -> r = Throw EDeser).
Proof.
  intros neg i f lf x lx d I F X NE N. set (m := decimal (i ++ f)) in *. set (e := match x with Some x => x | None => 0 end - zlen f) in *.
  assert (M : 0 <= m) by (apply decimal_nonneg, Forall_app; split; [now apply int_digits|eapply frac_digits; eassumption]).
  assert (E : dec_double neg m e = d) by (eapply nearest_unique; [exact M|now apply dec_ieee|exact N]).
  cbv zeta. rewrite (open_text_of _ (VDbl d)).
  - unfold json_open. cbn [yy_read]. pose proof (finite_iff d) as FI. destruct (is_finite d); split; intros H; try reflexivity; exfalso; intuition congruence.
  - rewrite <- E. exists [], ((if neg then [45] else []) ++ i ++ lf ++ lx), []. rewrite app_nil_r. split; [reflexivity|]. split; [constructor|]. split; [|constructor].
    apply v_real; auto. destruct neg; auto.
Qed.
Print Assumptions C85_number_nearest.

Example C85_number_case : int_part [48] /\ fraction [49] (codes ".1") /\ exponent (Some 23) (codes "E+23") /\
  json_open_text (codes "-0.1E+23") = Ok (VDbl (dec_double true 1 22)) /\ finite (dec_double true 1 22).
Proof.
  split; [now left|]. split; [right; split; [discriminate|]; split; [repeat constructor; lia|reflexivity]|].
  split; [right; exists 69, [43], [50; 51]; split; [now right|]; split; [discriminate|]; split; [repeat constructor; lia|]; split; [reflexivity|]; right; left; split; reflexivity|].
  split; vm_compute; [reflexivity|exact I].
Qed.
(** An integer that fits 64 bits is read as it stands, any other as the double nearest to it. *)
Theorem C85_integer_exact : forall l, int_part l ->
  (decimal l < 2 ^ 64 -> json_open_text l = Ok (VUInt (decimal l))) /\
  (decimal l <= 2 ^ 63 -> json_open_text (45 :: l) = Ok (VInt (- decimal l))).
Proof.
  intros l I. split; intros B.
  - rewrite (open_text_of _ (VUInt (decimal l))).
    + unfold json_open. cbn [yy_read]. unfold u64_max. replace (decimal l <=? 18446744073709551615) with true by lia. reflexivity.
    + exists [], l, []. rewrite app_nil_r. split; [reflexivity|]. split; [constructor|]. split; [now constructor|constructor].
  - rewrite (open_text_of _ (VInt (- decimal l))).
    + unfold json_open. cbn [yy_read]. unfold i64_min. replace (-9223372036854775808 <=? - decimal l) with true by lia. reflexivity.
    + exists [], (45 :: l), []. rewrite app_nil_r. split; [reflexivity|]. split; [constructor|]. split; [now constructor|constructor].
Qed.
Print Assumptions C85_integer_exact.
Theorem C85_integer_nearest : forall (neg : bool) l d, int_part l -> (if neg then 2 ^ 63 < decimal l else 2 ^ 64 <= decimal l) ->
  nearest_double neg (decimal l) 0 d ->
  let r := json_open_text ((if neg then [45] else []) ++ l) in
  (finite d -> r = Ok (VDbl d)) /\ (~ finite d -> r = Throw EDeser).
Proof.
  intros neg l d I B N. assert (P : 0 < decimal l) by (destruct neg; lia).
  assert (E : dec_double neg (decimal l) 0 = d) by (eapply nearest_unique; [|apply dec_ieee|exact N]; lia).
  cbv zeta. rewrite (open_text_of _ (if neg then VInt (- decimal l) else VUInt (decimal l))).
  - pose proof (of_int_dec neg (decimal l) P) as O. rewrite E in O. pose proof (finite_iff d) as FI.
    assert (Y : yy_read (if neg then VInt (- decimal l) else VUInt (decimal l)) = if is_finite d then Some (VDbl d) else None).
    { destruct neg; cbn [yy_read].
      - unfold i64_min. replace (-9223372036854775808 <=? - decimal l) with false by lia. unfold yy_big. rewrite O. reflexivity.
      - unfold u64_max. replace (decimal l <=? 18446744073709551615) with false by lia. unfold yy_big. rewrite O. reflexivity. }
    unfold json_open. rewrite Y. destruct (is_finite d); split; intros H; try reflexivity; exfalso; intuition congruence.
  - exists [], ((if neg then [45] else []) ++ l), []. rewrite app_nil_r. split; [reflexivity|]. split; [constructor|]. split; [destruct neg; now constructor|constructor].
Qed.
Print Assumptions C85_integer_nearest.
Example C85_integer_case : json_open_text (codes "-9223372036854775808") = Ok (VInt (-9223372036854775808)) /\
  json_open_text (codes "-9223372036854775809") = Ok (VDbl (dec_double true 9223372036854775809 0)) /\
  json_open_text (codes "18446744073709551616") = Ok (VDbl 4895412794951729152).
Proof. repeat split; vm_compute; reflexivity. Qed.

(** ** Every finite double has a text *)
Theorem C85_doubles_spellable : forall real, ieee_rounding real ->
  exists dtext, forall v, val_ok v -> doubles_finite v -> spells_doubles real dtext v.
Proof.
  intros real R. exists exact_text. intros v V F. apply (spells_agree dec_double real dec_ieee R). now apply finite_spelled.
Qed.
Print Assumptions C85_doubles_spellable.
Example C85_spellable_case : doubles_finite jdemo /\ exact_text 0 = codes "0e-1074" /\ exact_text (2 ^ 63) = codes "-0e-1074".
Proof. split; [vm_compute; tauto|]. split; vm_compute; reflexivity. Qed.

(** ** What is written, for any such text of doubles *)
Theorem C85_written_is_ieee_json : forall real, ieee_rounding real -> forall dbg dtext v d,
  val_ok v -> spells_doubles real dtext v -> serialize (json_writer dbg) v = Ok d ->
  text real (jprint dtext d) (as_json (cut_keys v)).
Proof.
  intros real R dbg dtext v d V SP S. apply (text_agree dec_double real dec_ieee R). apply (C84_written_is_json dbg dtext v d V); [|exact S].
  exact (spells_agree real dec_double R dec_ieee dtext v SP).
Qed.
Print Assumptions C85_written_is_ieee_json.
(** The round trip, with nothing assumed of the value beyond what JSON can carry. *)
Theorem C85_round_trip_possible : exists dtext, forall dbg v, val_ok v -> json_ok v ->
  exists b w, json_finish_text dtext (serialize (json_writer dbg) v) = Ok b /\ json_open_text b = Ok w /\
    shows json_reader json_table w (as_json v).
Proof. exists exact_text. intros dbg v V J. apply text_round_trip; auto. apply finite_spelled; [exact V|apply J]. Qed.
Print Assumptions C85_round_trip_possible.
