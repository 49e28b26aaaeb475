(** MsgWitness.v -- concrete inputs on which the MessagePack code misbehaves. *)

From Coq Require Import ZArith List Bool Lia ZifyBool ZifyNat.
From Verif Require Import Base BaseFacts Spec SpecFacts MsgModel MsgSpec MsgFacts MsgMain MsgSafe.
Import ListNotations.
Open Scope Z_scope.
Ltac Zify.zify_post_hook ::= Z.div_mod_to_equations.

(** A string of 2^32-5 bytes. *)
Lemma huge_exists : exists s, bytes_ok s /\ zlen s = 2^32 - 5.
Proof. exists (repeat 0 (Z.to_nat (2^32 - 5))). split; [apply bytes_ok_repeat0|]. rewrite zlen_repeat. lia. Qed.

Lemma skip_stuck w m : m = 219 \/ m = 198 -> starts w [m; 255; 255; 255; 251] -> skip w = Ok 0.
Proof.
  intros M S. unfold skip. cbn [mp_skip].
  rewrite (starts_nonempty _ _ _ S), (starts_at0 _ _ _ S). cbn [negb require bind].
  assert (L := starts_len _ _ S). change (zlen [m; 255; 255; 255; 251]) with 5 in L.
  assert (R : mp_read_be32 (ms_buf w) (sp_ptr w 1) = Ok (2^32 - 5)).
  { apply read_be32_be; [|lia]. destruct S as [H _]. apply has_cons in H. exact (proj2 H). }
  rewrite R. unfold require. replace (ms_len w <? 5) with false by lia. destruct M as [-> | ->]; reflexivity.
Qed.

Section Huge.
Context (huge : bytes) (huge_ok : bytes_ok huge) (huge_len : zlen huge = 2^32 - 5).

Lemma huge_skip : item_ok (MStr F32 huge) /\
  forall suf, skip (mp_open (enc (MStr F32 huge) ++ suf)) = Ok 0.
Proof.
  split.
  - split; [exact huge_ok|]. cbn [str_cap]. rewrite huge_len. lia.
  - intros suf. apply (skip_stuck _ 219); [now left|]. cbn [enc str_hdr]. rewrite huge_len.
    change (be 4 (2^32 - 5)) with [255; 255; 255; 251]. cbn [app].
    split; [apply (has_app_l [219; 255; 255; 255; 251] (huge ++ suf)), has_self|].
    cbn [mp_open ms_len]. rewrite !zlen_cons, zlen_app. pose proof (zlen_nonneg huge). pose proof (zlen_nonneg suf). rewrite zlen_nil. lia.
Qed.

Lemma huge_element : exists b w, val_ok (VArr [VStr huge]) /\ lengths_below (2^32) (VArr [VStr huge]) /\
  serialize mp_writer (VArr [VStr huge]) = Ok b /\ r_idx mp_reader (mp_open b) 0 = Ok w /\
  r_isString mp_reader w = Ok false.
Proof.
  exists ([145; 219; 255; 255; 255; 251] ++ huge), (mkSpan ([145; 219; 255; 255; 255; 251] ++ huge) 1 0).
  split; [split; [exact huge_ok|exact I]|].
  split; [cbn [lengths_below]; rewrite huge_len; split; [reflexivity|split; [lia|exact I]]|].
  split.
  { unfold serialize. rewrite mp_run. cbn [w_init mp_writer w_finish snd events flat_map mp_emit app].
    rewrite huge_len. rewrite app_nil_r. change (pack_array (zlen [VStr huge])) with [145].
    change (pack_str (2^32 - 5)) with [219; 255; 255; 255; 251]. reflexivity. }
  split; [|reflexivity].
  cbn [mp_reader r_idx]. set (b := [145; 219; 255; 255; 255; 251] ++ huge). unfold mp_idx.
  assert (LB : zlen b = 2^32 + 1) by (unfold b; rewrite zlen_app, huge_len; reflexivity).
  assert (HB : has b 0 [145; 219; 255; 255; 255; 251]) by (apply has_app_l, has_self). clearbody b.
  assert (S : starts (mp_open b) [145; 219; 255; 255; 255; 251]).
  { split; [exact HB|]. cbn [mp_open ms_len]. rewrite LB. reflexivity || (change (zlen [145; 219; 255; 255; 255; 251]) with 6; lia). }
  unfold arr_info. rewrite (starts_at0 _ _ _ S). cbn [bind]. change (Z.land 145 240 =? 144) with true. cbv iota. cbn [bind].
  change (Z.land 145 15) with 1. change (negb (1 <=? 0)) with true. cbn [require bind].
  unfold skip_seq. rewrite zloop_0. cbn [bind]. unfold subspan. cbn [mp_open ms_len ms_buf ms_off]. rewrite LB.
  change (1 <=? 2^32 + 1) with true. cbv iota. cbn [bind].
  rewrite (skip_stuck (mkSpan b (0 + 1) (2^32 + 1 - 1)) 219); [|now left|].
  - cbn [bind]. unfold subspan2. cbn [mp_open ms_len ms_buf ms_off]. rewrite LB. reflexivity.
  - destruct S as [H _]. apply has_cons in H. split; [exact (proj2 H)|discriminate].
Qed.
End Huge.
