(** Properties_Finish.v -- C65: a root serializer after finish(). *)

From Coq Require Import ZArith List Bool Lia.
From Verif Require Import Base BaseFacts Spec SpecFacts ZeraModel JsonModel FlexModel FlexSpec FlexFacts FinishFacts.
From Verif Require MsgModel CborModel.
Import ListNotations.
Open Scope Z_scope.

(** ** C65

    Full statement: once finish() has returned a message, a second finish() returns the same message or throws, and a
    second value written after it is either returned by the next finish() or refused by an exception.  Proved in full
    for ZERA and JSON; second values for MessagePack and CBOR.  Refuted: a second finish() of MessagePack, CBOR and
    FlexBuffers returns an empty buffer, and FlexBuffers loses a second scalar. *)

(** ZERA: the same message again, after any history. *)
Theorem C65_zera_finish_again : forall s s' b, w_finish zera_writer s = (s', Ok b) -> w_finish zera_writer s' = (s', Ok b).
Proof. intros s s' b F. now apply (zera_finish_again s s' b). Qed.
Print Assumptions C65_zera_finish_again.
(** No second message: if all later calls return and finish() does, there were none. *)
Theorem C65_zera_no_second_message : forall es s s' b es2 s2 b2, Forall ev_ok es -> Forall ev_ok es2 ->
  run zera_writer (w_init zera_writer) es = (s, Ok tt) -> w_finish zera_writer s = (s', Ok b) ->
  run zera_writer s' es2 = (s2, Ok tt) -> snd (w_finish zera_writer s2) = Ok b2 -> es2 = [] /\ b2 = b.
Proof. exact zera_no_second. Qed.
Print Assumptions C65_zera_no_second_message.
Example C65_zera_case : exists s s' b s2, run zera_writer (w_init zera_writer) [EBeginArr 1; EInt 1; EEndArr] = (s, Ok tt) /\
  w_finish zera_writer s = (s', Ok b) /\ zlen b = 64 /\ run zera_writer s' [EInt 2] = (s2, Throw ESer) /\ s2 = s'.
Proof. do 4 eexists. split; [vm_compute; reflexivity|]. split; [vm_compute; reflexivity|]. split; [vm_compute; reflexivity|]. split; [vm_compute; reflexivity|]. reflexivity. Qed.

(** JSON: from any state, whatever is called after finish(), the next finish() throws. *)
Theorem C65_json_finish_again : forall dbg s es, let W := json_writer dbg in
  snd (w_finish W (fst (run_catch W (fst (w_finish W s)) es))) = Throw ERuntime.
Proof. exact json_finished. Qed.
Print Assumptions C65_json_finish_again.
Example C65_json_case : forall dbg, let W := json_writer dbg in exists s,
  run W (w_init W) [EBeginArr 1; EInt 1; EEndArr] = (s, Ok tt) /\ snd (w_finish W s) = Ok (VArr [VUInt 1]) /\
  snd (run_catch W (fst (w_finish W s)) [EInt 2; EBin [1]]) = [Throw EBadAlloc; Throw EBadAlloc].
Proof.
  intros dbg W. exists (fst (run W (w_init W) [EBeginArr 1; EInt 1; EEndArr])). subst W. destruct dbg; repeat split; vm_compute; reflexivity.
Qed.

(** MessagePack and CBOR: a second value is written as by a new serializer. *)
Theorem C65_msgpack_second_value_partial : forall s es, let W := MsgModel.mp_writer in
  run W (fst (w_finish W s)) es = run W (w_init W) es.
Proof. reflexivity. Qed.
Print Assumptions C65_msgpack_second_value_partial.
Theorem C65_cbor_second_value_partial : forall v w es1 es2 s, let W := CborModel.cbor_writer in
  calls v es1 -> calls w es2 -> run W (w_init W) es1 = (s, Ok tt) ->
  match run W (w_init W) es2, run W (fst (w_finish W s)) es2 with
  | (a, Ok _), (b, Ok _) => snd (w_finish W a) = snd (w_finish W b)
  | (_, x), (_, y) => x = y
  end.
Proof. exact cbor_afresh. Qed.
Print Assumptions C65_cbor_second_value_partial.
Example C65_cbor_case : let W := CborModel.cbor_writer in exists s a,
  run W (w_init W) (events (VMap [([97], VInt 1)])) = (s, Ok tt) /\
  run W (fst (w_finish W s)) (events (VArr [VBool true])) = (a, Ok tt) /\ snd (w_finish W a) = Ok [129; 245].
Proof. do 2 eexists. split; [vm_compute; reflexivity|]. split; [vm_compute; reflexivity|]. vm_compute; reflexivity. Qed.

(** A second finish() returns an empty buffer: always for MessagePack and FlexBuffers, after any complete value for CBOR.
    FlexBuffers reads it as null. *)
Theorem C65_finish_again_empty_refuted :
  (forall s, let W := MsgModel.mp_writer in snd (w_finish W (fst (w_finish W s))) = Ok []) /\
  (forall dbg srt s, let W := flex_writer dbg srt in snd (w_finish W (fst (w_finish W s))) = Ok None) /\
  (forall s, let W := CborModel.cbor_writer in snd (w_finish W (fst (w_finish W s))) = Ok []) /\
  flex_open None = XNull.
Proof.
  split; [reflexivity|]. split; [|split; [|reflexivity]].
  - intros dbg srt s W. cbn [W flex_writer w_finish]. unfold f_finish at 2. destruct (fs_finished s) eqn:E; cbn [fst]; unfold f_finish; [now rewrite E|reflexivity].
  - intros s W. cbn [W CborModel.cbor_writer w_finish]. unfold CborModel.cw_finish at 2. destruct (CborModel.cw_root s); reflexivity.
Qed.
Print Assumptions C65_finish_again_empty_refuted.
(** FlexBuffers: a second scalar is lost without an exception.  (Strings and containers would leave bytes without a root
    in the returned buffer; the model does not show them.) *)
Theorem C65_flex_second_value_refuted : forall dbg, let W := flex_writer dbg (@by_key fx) in exists s a,
  run W (w_init W) (events (VInt 1)) = (s, Ok tt) /\ snd (w_finish W s) = Ok (Some (XInt 1)) /\
  run W (fst (w_finish W s)) (events (VInt 2)) = (a, Ok tt) /\ snd (w_finish W a) = Ok None.
Proof.
  intros dbg W. pose (s := fst (run W (w_init W) (events (VInt 1)))). exists s, (fst (run W (fst (w_finish W s)) (events (VInt 2)))). subst s W.
  destruct dbg; repeat split; vm_compute; reflexivity.
Qed.
Print Assumptions C65_flex_second_value_refuted.
