(** TextMain.v -- from serialized messages to their dumps. *)

From Coq Require Import ZArith List Bool String Lia ZifyBool Permutation.
From Verif Require Import Base BaseFacts Spec SpecFacts TextSpec MsgModel MsgSpec MsgMain FlexModel FlexSpec FlexFacts TextModel TextFacts TextInj TextZera.
From Verif Require TransAll.
Import ListNotations.
Open Scope Z_scope.

Theorem mp_text fl v : val_ok v -> lengths_below (2^32 - 5) v ->
  exists b n, serialize mp_writer v = Ok b /\
    forall fuel, (n <= fuel)%nat -> mp_to_string fl fuel (mp_open b) = Ok (pretty (colon_leaf fl escaped) escaped 0 v).
Proof.
  intros OK LB. exists (enc (item_of v)), (S (levels v)). split.
  - unfold serialize. rewrite mp_run. cbn [mp_writer w_finish w_init snd app].
    rewrite emit_events; auto. exact (MsgMain.lengths_mono (2^32-5) (2^32) ltac:(lia) v LB).
  - intros fuel F. unfold mp_to_string. apply mp_dump_ok; try assumption. now apply open_spans.
Qed.

Theorem flex_text fl dbg srt v : sorts srt -> val_ok v -> flex_ok v ->
  exists b, serialize (flex_writer dbg srt) v = Ok b /\
    fx_to_string fl (flex_open b) = txt "Flex " ++ pretty (bar_leaf fl as_written escaped) escaped 0 (in_key_order v).
Proof.
  intros S OK FO. destruct (flex_calls dbg srt v _ (events_calls v)) as (s & R & FI). exists (Some (built srt v)). split.
  - unfold serialize. now rewrite R.
  - unfold fx_to_string. cbn [flex_open]. rewrite (built_emb srt v S FO), fx_dump_ok; [reflexivity|]. now apply TransAll.val_ok_order.
Qed.

Lemma no_doubles_order v : no_doubles v -> no_doubles (in_key_order v).
Proof.
  induction v as [| | | | | | |l IH|l IH] using val_ind'; intros H; try exact H.
  - cbn [in_key_order]. unfold no_doubles in *. apply every_arr in H. apply every_arr. destruct H as (_ & H). split; [exact I|].
    rewrite Forall_map. rewrite Forall_forall in *. auto.
  - cbn [in_key_order]. unfold no_doubles in *. apply every_map in H. apply every_map. destruct H as (_ & H). split; [exact I|].
    eapply Permutation_Forall; [apply Permutation_sym, by_key_perm|]. rewrite Forall_map. cbn [snd]. rewrite Forall_forall in *. auto.
Qed.

Theorem mp_text_determines fl v w a b n : val_ok v -> val_ok w -> lengths_below (2^32 - 5) v -> lengths_below (2^32 - 5) w ->
  no_doubles v -> no_doubles w -> serialize mp_writer v = Ok a -> serialize mp_writer w = Ok b ->
  (forall fuel, (n <= fuel)%nat -> mp_to_string fl fuel (mp_open a) = mp_to_string fl fuel (mp_open b)) -> alike v w.
Proof.
  intros V W LV LW NV NW A B H.
  destruct (mp_text fl v V LV) as (a' & n1 & A' & TA), (mp_text fl w W LW) as (b' & n2 & B' & TB).
  rewrite A in A'. rewrite B in B'. injection A' as <-. injection B' as <-.
  specialize (H (n + n1 + n2)%nat ltac:(lia)). rewrite TA, TB in H by lia. injection H as H.
  now apply (pretty_determines (colon_leaf fl escaped) v w (colon_decodable fl)).
Qed.
Theorem flex_text_determines fl dbg srt v w a b : sorts srt -> val_ok v -> val_ok w -> flex_ok v -> flex_ok w ->
  no_doubles v -> no_doubles w -> serialize (flex_writer dbg srt) v = Ok a -> serialize (flex_writer dbg srt) w = Ok b ->
  fx_to_string fl (flex_open a) = fx_to_string fl (flex_open b) -> alike (in_key_order v) (in_key_order w).
Proof.
  intros S V W LV LW NV NW A B H.
  destruct (flex_text fl dbg srt v S V LV) as (a' & A' & TA), (flex_text fl dbg srt w S W LW) as (b' & B' & TB).
  rewrite A in A'. rewrite B in B'. injection A' as <-. injection B' as <-. rewrite TA, TB in H. apply app_inv_head in H.
  apply (pretty_determines (bar_leaf fl as_written escaped) _ _ (bar_decodable fl as_written)); auto using TransAll.val_ok_order, no_doubles_order.
Qed.
