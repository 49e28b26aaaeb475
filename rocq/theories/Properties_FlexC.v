(** Properties_FlexC.v -- C87: FlexBuffers exchanged with other programs; C72 for FlexBuffers.

    Vocabulary: [message al B far typed v] in FlexBFormat.v: the bytes [B] are, as the format's description has it, a message for the
    value [v] ([al]: where numbers may be; [far]: with numbers out of line; [typed]: with typed vectors); [in_key_order], [flex_ok], [flex_table] in FlexSpec.v;
    [shows], [calls] in Spec.v. *)

From Coq Require Import ZArith List Bool Lia ZifyBool.
From Verif Require Import Base BaseFacts Spec SpecFacts FlexModel FlexSpec FlexFacts FlexBModel FlexBSpec FlexBFormat FlexBFacts FlexBWrite FlexBSim FlexBMain FlexBSize FlexBConf Properties_Flex Properties_FlexB.
Import ListNotations.
Open Scope Z_scope.

(** ** Reading: whoever wrote the message, whatever widths, indirections and sharing they chose *)
Theorem C87_read_partial : forall al far fuel B v, message al B far false v -> zlen B < 2 ^ 63 -> (64 <= fuel)%nat ->
  exists r, fb_open B = Ok r /\ shows (flexb_reader B fuel) flex_table r v.
Proof. intros al far fuel B v. exact (message_shows al B far fuel v). Qed.
Print Assumptions C87_read_partial.

(** Not with typed vectors: the message of [1, 2, 3] as a vector of integers is an array of size 0. *)
Ltac lie n := match goal with |- lies ?B ?p ?l => exists (firstn (Z.to_nat p) B), (skipn (Z.to_nat (p + n)) B); split; reflexivity end.
Ltac num l := split; [cbn; auto 9|]; split; [reflexivity || exact I|]; exists l; split; [lie (zlen l)|]; split; reflexivity.
Lemma typed_123 : message aligned [3; 1; 2; 3; 3; 44; 1] false true (VArr [VInt 1; VInt 2; VInt 3]).
Proof.
  exists 1, (4 * 11 + 0). split; [lie 2|]. apply (lays_typed aligned _ false true 4 1 0 1 11 1); [reflexivity|now left|lia|exists 3; split; [num [3]|reflexivity]|num [3]|].
    intros i x G. pose proof (get_some _ _ _ G) as R. change (zlen _) with 3 in R. assert (i = 0 \/ i = 1 \/ i = 2) as [-> |[-> | ->]] by lia; injection G as <-;
      apply (lays_int aligned _ false true _ _ 0); try lia; (split; [cbn; lia|]); [num [1]|num [2]|num [3]].
Qed.
Theorem C87_typed_refuted : exists B r, message aligned B false true (VArr [VInt 1; VInt 2; VInt 3]) /\ bytes_ok B /\
  fb_open B = Ok r /\ r_isArray (flexb_reader B 64) r = Ok true /\ r_arraySize (flexb_reader B 64) r = Ok 0 /\
  r_idx (flexb_reader B 64) r 0 = Throw EDeser.
Proof.
  exists [3; 1; 2; 3; 3; 44; 1]. eexists. split; [exact typed_123|]. split; [repeat constructor; discriminate|]. repeat split; vm_compute; reflexivity.
Qed.
Print Assumptions C87_typed_refuted.

(** ** Writing: what finish() returns is a message of the format for the written value, maps in key order, every number
    in line and at a multiple of its width *)
Theorem C87_written_partial : forall dbg srt v es, key_sort srt -> flex_ok v -> calls v es -> Forall ev_ok es ->
  let WB := flexb_writer dbg (srt (bval * bval)%type) in
  exists s b, run WB (w_init WB) es = (s, Ok tt) /\ snd (w_finish WB s) = Ok b /\ (zlen b < 2 ^ 62 -> message aligned b false false (in_key_order v)).
Proof. intros dbg srt v es KS OK C EV. exact (written_message dbg srt KS v es OK C EV). Qed.
Print Assumptions C87_written_partial.
Theorem C87_serialize_partial : forall dbg srt v, key_sort srt -> val_ok v -> flex_ok v -> room v < 2 ^ 61 ->
  exists b, serialize (flexb_writer dbg (srt (bval * bval)%type)) v = Ok b /\ message aligned b false false (in_key_order v).
Proof.
  intros dbg srt v KS V OK RM. pose proof (events_ev_ok v V) as EV. destruct (written_message dbg srt KS v _ OK (events_calls v) EV) as (s & b & R & FI & M).
  assert (L : zlen b <= room v + 17).
  { rewrite <- (calls_room v _ (events_calls v)). apply (histories_size dbg srt KS (events v)); [exact EV|]. rewrite run_is_catch; rewrite R; [exact FI|reflexivity]. }
  exists b. unfold serialize. rewrite R. split; [exact FI|]. apply M. lia.
Qed.
Print Assumptions C87_serialize_partial.

(** ** Bytes are a message for at most one value. *)
Theorem C87_one_value : forall al1 al2 far1 far2 B v1 v2, message al1 B far1 false v1 -> message al2 B far2 false v2 -> v1 = v2.
Proof. exact message_det. Qed.
Print Assumptions C87_one_value.

(** C72: equal messages, even with something in front of them, come from equal values (maps in key order). *)
Theorem C72_flex_partial : forall d1 d2 srt1 srt2 v1 v2 b1 b2 s t, key_sort srt1 -> key_sort srt2 ->
  val_ok v1 -> val_ok v2 -> flex_ok v1 -> flex_ok v2 -> room v1 < 2 ^ 61 -> room v2 < 2 ^ 61 ->
  serialize (flexb_writer d1 (srt1 (bval * bval)%type)) v1 = Ok b1 -> serialize (flexb_writer d2 (srt2 (bval * bval)%type)) v2 = Ok b2 ->
  s ++ b1 = t ++ b2 -> in_key_order v1 = in_key_order v2.
Proof.
  intros d1 d2 srt1 srt2 v1 v2 b1 b2 s t K1 K2 V1 V2 F1 F2 R1 R2 S1 S2 E.
  destruct (C87_serialize_partial d1 srt1 v1 K1 V1 F1 R1) as (c1 & Q1 & M1). destruct (C87_serialize_partial d2 srt2 v2 K2 V2 F2 R2) as (c2 & Q2 & M2).
  rewrite S1 in Q1. injection Q1 as <-. rewrite S2 in Q2. injection Q2 as <-. apply (message_pre _ s) in M1; [|now apply key_order_tidy]. apply (message_pre _ t) in M2; [|now apply key_order_tidy].
  rewrite E in M1. exact (message_det _ _ _ _ _ _ _ M1 M2).
Qed.
Print Assumptions C72_flex_partial.

(** A message no Flex writer of this library makes: [1000, 7], the first number out of line.  And the hypotheses of the others. *)
Example C87_case :
  message aligned [232; 3; 2; 3; 7; 25; 8; 4; 40; 1] true false (VArr [VInt 1000; VUInt 7]) /\
  (exists r r0, fb_open [232; 3; 2; 3; 7; 25; 8; 4; 40; 1] = Ok r /\ r_idx (flexb_reader [232; 3; 2; 3; 7; 25; 8; 4; 40; 1] 64) r 0 = Ok r0 /\
     r_asInt (flexb_reader [232; 3; 2; 3; 7; 25; 8; 4; 40; 1] 64) I64 r0 = Ok 1000) /\
  serialize (flexb_writer true by_key) (VArr [VInt 1000; VUInt 7]) <> Ok [232; 3; 2; 3; 7; 25; 8; 4; 40; 1] /\
  val_ok fdemo /\ flex_ok fdemo /\ room fdemo < 2 ^ 61 /\ key_sort (@by_key).
Proof.
  split; [|split; [|split; [|split; [apply fdemo_ok|split; [apply C33_case|split; [reflexivity|apply by_key_sort]]]]]].
  - exists 1, (4 * 10 + 0). split; [lie 2|].
    apply (lays_arr aligned _ true false 7 1 0 3 (fun i => if i =? 0 then 4 * 6 + 1 else 4 * 2 + 0)); [lia|exists 4; split; [num [4]|reflexivity]|num [2]| |];
      intros i x G; pose proof (get_some _ _ _ G) as R; change (zlen _) with 2 in R; assert (i = 0 \/ i = 1) as [-> | ->] by lia; injection G as <-.
    + lie 1.
    + lie 1.
    + apply (lays_indirect_int aligned _ true false _ _ 1 0); [lia|reflexivity|exists 3; split; [num [3]|reflexivity]|]. split; [cbn; lia|]. num [232; 3].
    + apply (lays_uint aligned _ true false _ _ 0); [lia|]. num [7].
  - do 2 eexists. repeat split; vm_compute; reflexivity.
  - vm_compute. discriminate.
Qed.
