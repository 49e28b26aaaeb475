(** Utf8Facts.v -- the validator accepts exactly UTF-8. *)

From Coq Require Import ZArith List Bool Lia ZifyBool ZifyNat.
From Verif Require Import Base BaseFacts Spec SpecFacts Utf8Model Utf8Spec.
Import ListNotations.
Open Scope Z_scope.
Ltac Zify.zify_post_hook ::= Z.div_mod_to_equations.

Lemma utf8_cons a s1 : utf8_valid (a :: s1) =
    if a <=? 127 then utf8_valid s1
    else if cont 194 223 a then
      match s1 with b :: s2 => cont 128 191 b && utf8_valid s2 | _ => false end
    else if cont 224 239 a then
      match s1 with
      | b :: c :: s3 =>
          cont (if a =? 224 then 160 else 128) (if a =? 237 then 159 else 191) b &&
          cont 128 191 c && utf8_valid s3
      | _ => false
      end
    else if cont 240 244 a then
      match s1 with
      | b :: c :: d :: s4 =>
          cont (if a =? 240 then 144 else 128) (if a =? 244 then 143 else 191) b &&
          cont 128 191 c && cont 128 191 d && utf8_valid s4
      | _ => false
      end
    else false.
Proof. reflexivity. Qed.
Lemma utf8_code_valid c s : scalar c -> utf8_valid (utf8_code c ++ s) = utf8_valid s.
Proof.
  intros H. unfold scalar in H. unfold utf8_code.
  destruct (c <? 128) eqn:E1; [|destruct (c <? 2048) eqn:E2; [|destruct (c <? 65536) eqn:E3]]; cbn [app]; rewrite utf8_cons.
  - replace (c <=? 127) with true by lia. reflexivity.
  - assert (A : 2 <= c / 64 <= 31) by lia. assert (B : 0 <= c mod 64 < 64) by lia.
    replace (192 + c / 64 <=? 127) with false by lia. unfold cont.
    replace (_ && _) with true by lia. replace ((128 <=? _) && _) with true by lia. reflexivity.
  - assert (A : 0 <= c / 4096 <= 15) by lia. assert (B : 0 <= c mod 64 < 64) by lia. assert (C : 0 <= c / 64 mod 64 < 64) by lia.
    assert (D : c / 4096 = 0 -> 32 <= c / 64 mod 64) by lia. assert (F : c / 4096 = 13 -> c / 64 mod 64 < 32) by lia.
    replace (224 + c / 4096 <=? 127) with false by (clear - A; lia). unfold cont.
    replace (_ && _) with false by (clear - A; lia). replace ((224 <=? _) && _) with true by (clear - A; lia).
    replace (224 + c / 4096 =? 224) with (c / 4096 =? 0) by (clear - A; lia).
    replace (224 + c / 4096 =? 237) with (c / 4096 =? 13) by (clear - A; lia).
    generalize dependent (c / 4096). intros a A D F. generalize dependent (c / 64 mod 64). intros b' C D F. generalize dependent (c mod 64). intros d B.
    clear - A B C D F.
    destruct (a =? 0) eqn:Z1; destruct (a =? 13) eqn:Z2;
      repeat match goal with |- context [(?x <=? ?y) && (?z <=? ?t)] => replace ((x <=? y) && (z <=? t)) with true by lia end; reflexivity.
  - assert (A : 0 <= c / 262144 <= 4) by lia. assert (B : 0 <= c mod 64 < 64) by lia. assert (C : 0 <= c / 64 mod 64 < 64) by lia.
    assert (C' : 0 <= c / 4096 mod 64 < 64) by lia.
    assert (D : c / 262144 = 0 -> 16 <= c / 4096 mod 64) by lia. assert (F : c / 262144 = 4 -> c / 4096 mod 64 < 16) by lia.
    replace (240 + c / 262144 <=? 127) with false by (clear - A; lia). unfold cont.
    replace (_ && _) with false by (clear - A; lia). replace ((224 <=? _) && _) with false by (clear - A; lia).
    replace ((240 <=? _) && _) with true by (clear - A; lia).
    replace (240 + c / 262144 =? 240) with (c / 262144 =? 0) by (clear - A; lia).
    replace (240 + c / 262144 =? 244) with (c / 262144 =? 4) by (clear - A; lia).
    generalize dependent (c / 262144). intros a A D F. generalize dependent (c / 4096 mod 64). intros b' C' D F.
    generalize dependent (c / 64 mod 64). intros d C. generalize dependent (c mod 64). intros e B.
    clear - A B C C' D F.
    destruct (a =? 0) eqn:Z1; destruct (a =? 4) eqn:Z2;
      repeat match goal with |- context [(?x <=? ?y) && (?z <=? ?t)] => replace ((x <=? y) && (z <=? t)) with true by lia end; reflexivity.
Qed.
Lemma utf8_complete s : is_utf8 s -> utf8_valid s = true.
Proof.
  intros (cs & OK & ->). induction OK as [|c cs Hc _ IH]; [reflexivity|]. cbn [flat_map]. now rewrite utf8_code_valid.
Qed.
Lemma is_utf8_cons c s : scalar c -> is_utf8 s -> is_utf8 (utf8_code c ++ s).
Proof. intros Hc (cs & OK & ->). exists (c :: cs). split; [now constructor|reflexivity]. Qed.
Lemma utf8_sound : forall n s, (length s <= n)%nat -> bytes_ok s -> utf8_valid s = true -> is_utf8 s.
Proof.
  induction n as [|n IH]; intros s L OK V.
  - destruct s; [|cbn in L; lia]. exists []. split; [constructor|reflexivity].
  - destruct s as [|a s1]; [exists []; split; [constructor|reflexivity]|].
    rewrite utf8_cons in V. apply bytes_ok_cons in OK. destruct OK as [Oa OK]. unfold is_byte in Oa. cbn [length] in L. unfold cont in V.
    destruct (a <=? 127) eqn:E1.
    { replace (a :: s1) with (utf8_code a ++ s1) by (unfold utf8_code; replace (a <? 128) with true by lia; reflexivity).
      apply is_utf8_cons; [unfold scalar; lia|]. apply IH; [lia|exact OK|exact V]. }
    destruct ((194 <=? a) && (a <=? 223)) eqn:E2.
    { destruct s1 as [|b s2]; [discriminate|]. apply andb_prop in V. destruct V as [V1 V]. apply bytes_ok_cons in OK. destruct OK as [_ OK].
      set (c := (a - 192) * 64 + (b - 128)).
      assert (R : 128 <= c < 2048 /\ c / 64 = a - 192 /\ c mod 64 = b - 128) by (unfold c; clear - E2 V1; lia). clearbody c. destruct R as (R1 & R2 & R3).
      replace (a :: b :: s2) with (utf8_code c ++ s2).
      - apply is_utf8_cons; [unfold scalar; lia|]. apply IH; [cbn in L; lia|exact OK|exact V].
      - unfold utf8_code. replace (c <? 128) with false by lia. replace (c <? 2048) with true by lia. rewrite R2, R3. cbn [app].
        repeat (f_equal; try lia). }
    destruct ((224 <=? a) && (a <=? 239)) eqn:E3.
    { destruct s1 as [|b [|d s3]]; try discriminate. apply andb_prop in V. destruct V as [V1 V]. apply andb_prop in V1. destruct V1 as [V1 V2].
      apply bytes_ok_cons in OK. destruct OK as [_ OK]. apply bytes_ok_cons in OK. destruct OK as [_ OK].
      set (c := (a - 224) * 4096 + (b - 128) * 64 + (d - 128)).
      assert (R : 2048 <= c < 65536 /\ (c < 55296 \/ 57344 <= c) /\ c / 4096 = a - 224 /\ c / 64 mod 64 = b - 128 /\ c mod 64 = d - 128).
      { unfold c. clear - E3 V1 V2. destruct (a =? 224) eqn:Z1; destruct (a =? 237) eqn:Z2; lia. }
      clearbody c. destruct R as (R1 & R2 & R3 & R4 & R5).
      replace (a :: b :: d :: s3) with (utf8_code c ++ s3).
      - apply is_utf8_cons; [unfold scalar; clear - R1 R2; lia|]. apply IH; [cbn in L; lia|exact OK|exact V].
      - unfold utf8_code. replace (c <? 128) with false by (clear - R1; lia). replace (c <? 2048) with false by (clear - R1; lia).
        replace (c <? 65536) with true by (clear - R1; lia).
        rewrite R3, R4, R5. cbn [app]. clear. repeat (f_equal; try lia). }
    destruct ((240 <=? a) && (a <=? 244)) eqn:E4; [|discriminate].
    destruct s1 as [|b [|d [|e s4]]]; try discriminate. apply andb_prop in V. destruct V as [V1 V]. apply andb_prop in V1. destruct V1 as [V1 V3].
    apply andb_prop in V1. destruct V1 as [V1 V2].
    apply bytes_ok_cons in OK. destruct OK as [_ OK]. apply bytes_ok_cons in OK. destruct OK as [_ OK]. apply bytes_ok_cons in OK. destruct OK as [_ OK].
    set (c := (a - 240) * 262144 + (b - 128) * 4096 + (d - 128) * 64 + (e - 128)).
    assert (R : 65536 <= c < 1114112 /\ c / 262144 = a - 240 /\ c / 4096 mod 64 = b - 128 /\ c / 64 mod 64 = d - 128 /\ c mod 64 = e - 128).
    { unfold c. clear - E4 V1 V2 V3. destruct (a =? 240) eqn:Z1; destruct (a =? 244) eqn:Z2; lia. }
    clearbody c. destruct R as (R1 & R3 & R4 & R5 & R6).
    replace (a :: b :: d :: e :: s4) with (utf8_code c ++ s4).
    + apply is_utf8_cons; [unfold scalar; clear - R1; lia|]. apply IH; [cbn in L; lia|exact OK|exact V].
    + unfold utf8_code. replace (c <? 128) with false by (clear - R1; lia). replace (c <? 2048) with false by (clear - R1; lia).
      replace (c <? 65536) with false by (clear - R1; lia).
      rewrite R3, R4, R5, R6. cbn [app]. clear. repeat (f_equal; try lia).
Qed.
Lemma utf8_iff s : bytes_ok s -> utf8_valid s = true <-> is_utf8 s.
Proof. intros OK. split; [now apply (utf8_sound (length s))|apply utf8_complete]. Qed.

Lemma texts_arr l : texts_utf8 (VArr l) <-> Forall texts_utf8 l.
Proof.
  cbn. induction l as [|x l IH]; [split; constructor|].
  split; [intros [A B]; constructor; tauto|inversion 1; subst; tauto].
Qed.
Lemma texts_map l : texts_utf8 (VMap l) <-> Forall (fun kx => is_utf8 (fst kx) /\ texts_utf8 (snd kx)) l.
Proof.
  cbn. induction l as [|[k x] l IH]; [split; constructor|].
  split; [intros (A & B & C); constructor; tauto|inversion 1; subst; cbn in *; tauto].
Qed.
