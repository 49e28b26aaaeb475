(** Properties_Says.v -- C76: translate copies what any source says, no more and no less. *)

From Coq Require Import ZArith List Bool Lia ZifyBool ZifyNat.
From Verif Require Import Base BaseFacts Spec SpecFacts TransModel TransSpec TransFacts TransMain SaysSpec SaysFacts SaysTyped.
From Verif Require ZeraModel MsgModel CborModel JsonModel FlexModel JTextModel JTextTyped FlexBModel FlexBTyped.
Import ListNotations.
Open Scope Z_scope.

(** The readers translate() can be given: any bytes at all for the five formats, and any JSON or FlexBuffers tree. *)
Inductive source : forall {V}, reader V -> V -> Prop :=
| src_zera b w : bytes_ok b -> ZeraModel.zera_open b = Ok w -> source ZeraModel.zera_reader w
| src_msgpack b : bytes_ok b -> source MsgModel.mp_reader (MsgModel.mp_open b)
| src_cbor hard fuel b : bytes_ok b -> source (CborModel.cbor_reader hard fuel) (CborModel.cb_open b)
| src_json text w : JsonModel.json_open text = Ok w -> val_ok w -> source JsonModel.json_reader w
| src_flex fuel x : fx_ok x -> source (FlexModel.flex_reader fuel) (FlexModel.flex_open (Some x))
| src_json_text b w : bytes_ok b -> JTextModel.json_open_text b = Ok w -> source JsonModel.json_reader w
| src_flex_bytes fuel b r : bytes_ok b -> FlexBModel.fb_open b = Ok r -> source (FlexBModel.flexb_reader b fuel) r.

Lemma source_typed {V} (R : reader V) w : source R w -> well_typed R w.
Proof.
  intros [b v B E|b B|hard fuel b B|text v E O|fuel x O|b v B E|fuel b r B E].
  - apply (zera_well_typed b B). clear B. unfold ZeraModel.zera_open in E. destruct (ZeraModel.parse_header b) as [h|?| |]; cbn [bind] in E; try discriminate E.
    repeat match type of E with bind (require ?c _) _ = _ => destruct c; cbn [require bind] in E; [|discriminate E] end. injection E as <-. reflexivity.
  - exact (msgpack_well_typed b B (MsgModel.mp_open b) eq_refl).
  - exact (cbor_well_typed hard b B fuel (CborModel.cb_open b) eq_refl).
  - exact (json_well_typed _ O).
  - exact (flex_well_typed fuel _ O).
  - apply json_well_typed. exact (JTextTyped.open_text_ok b v B E).
  - exact (FlexBTyped.flexb_well_typed b B fuel r).
Qed.

(** A source that says [x] is translated exactly as [x] is written: the same document, or the same exception. *)
Theorem C76_translate_says : forall V S O V' (R : reader V) (W : writer S O) (open : O -> res V') w x, says R w x ->
  exists n, forall fuel, (n <= fuel)%nat -> translate R W open fuel w = bind (serialize W x) open.
Proof. intros V S O V' R W open w x H. exists (Datatypes.S (height x)). intros fuel L. exact (says_translates R W open x w H fuel ltac:(lia)). Qed.

(** It says one thing only. *)
Theorem C76_says_one_thing : forall V (R : reader V) w x y, says R w x -> says R w y -> x = y.
Proof. intros V R w x y. exact (says_fun R x w y). Qed.

(** translate succeeds exactly when the source says something that the writer takes and the destination's constructor accepts. *)
Theorem C76_translate_copies : forall V (R : reader V) w, source R w -> forall S O V' (W : writer S O) (open : O -> res V') w',
  (exists fuel, translate R W open fuel w = Ok w') <-> (exists x b, says R w x /\ val_ok x /\ serialize W x = Ok b /\ open b = Ok w').
Proof.
  intros V R w SRC S O V' W open w'. split.
  - intros (fuel & E). exact (translate_copies R W open fuel w w' (source_typed R w SRC) E).
  - intros (x & b & X1 & _ & X2 & X3). exists (Datatypes.S (height x)). rewrite (says_translates R W open x w X1 (Datatypes.S (height x)) ltac:(lia)), X2. exact X3.
Qed.

(** With one of the library's formats as destination, the result shows that value. *)
Theorem C76_translate_shows : forall V (R : reader V) w, source R w -> forall Q, is_protocol Q -> forall fuel w',
  translate R (p_writer Q) (p_open Q) fuel w = Ok w' ->
  exists x, says R w x /\ val_ok x /\ (p_ok Q x -> exists n, forall f, (n <= f)%nat -> shows (p_reader Q f) (p_table Q) w' (p_norm Q x)).
Proof.
  intros V R w SRC Q HQ fuel w' E. destruct (translate_copies R _ _ fuel w w' (source_typed R w SRC) E) as (x & b & X1 & X2 & X3 & X4).
  exists x. split; [exact X1|]. split; [exact X2|]. intros P. destruct (protocol_round_trip Q x HQ X2 P) as (b2 & w2 & n & Y1 & Y2 & Y3). exists n.
  rewrite X3 in Y1. injection Y1 as <-. rewrite X4 in Y2. injection Y2 as <-. exact Y3.
Qed.
Print Assumptions C76_translate_says.
Print Assumptions C76_says_one_thing.
Print Assumptions C76_translate_copies.
Print Assumptions C76_translate_shows.

Ltac yes := split; [eexists; split; [reflexivity|vm_compute; reflexivity]|
  intros m q L N; repeat (destruct m as [|m]; [cbn in N; injection N as <-; vm_compute; reflexivity|]); exfalso; lia].
(** A hand-made CBOR message that no writer here produces: an indefinite-length array of the half float 1.0, a map with the number 3 in two bytes and -1. *)
Example C76_cbor_case :
  let b := [159; 249; 60; 0; 161; 97; 97; 24; 3; 32; 255] in
  let w := CborModel.cb_open b in let R := CborModel.cbor_reader false 20 in
  let x := VArr [VDbl (1023 * 2^52); VMap [([97], VInt 3)]; VInt (-1)] in
  source R w /\ says R w x /\ translate R (p_writer P_msgpack) (p_open P_msgpack) 9 w = Ok (MsgModel.mp_open [147; 203; 63; 240; 0; 0; 0; 0; 0; 0; 129; 161; 97; 3; 255]).
Proof.
  intros b w R x. split; [apply src_cbor; subst b; okay|]. split; [|vm_compute; reflexivity].
  apply says_arr. split; [yes|]. split; [vm_compute; reflexivity|]. cbn [says_elems]. repeat split.
  - exists (CborModel.mkCView b 1). split; [vm_compute; reflexivity|]. split; [yes|vm_compute; reflexivity].
  - exists (CborModel.mkCView b 4). split; [vm_compute; reflexivity|]. apply says_map. split; [yes|]. split; [vm_compute; reflexivity|]. cbn [says_entries]. split; [|exact I].
    exists (CborModel.mkCView b 7). split; [vm_compute; reflexivity|]. split; [yes|vm_compute; reflexivity].
  - exists (CborModel.mkCView b 9). split; [vm_compute; reflexivity|]. split; [yes|vm_compute; reflexivity].
Qed.
(** A MessagePack map with an integer key says nothing (mapKeys throws), so it has no translation at all. *)
Example C76_msgpack_case : source MsgModel.mp_reader (MsgModel.mp_open [129; 1; 192]) /\ forall x, ~ says MsgModel.mp_reader (MsgModel.mp_open [129; 1; 192]) x.
Proof.
  split; [apply src_msgpack; okay|]. intros x H. destruct (C76_translate_says _ _ _ _ MsgModel.mp_reader MsgModel.mp_writer (fun b => Ok b) _ x H) as (n & E).
  specialize (E (S n) ltac:(lia)). change (translate _ _ _ _ _) with (@Throw bytes EDeser) in E. unfold serialize in E. change (w_init MsgModel.mp_writer) with (@nil Z) in E.
  assert (G : forall es s, run MsgModel.mp_writer s es = (s ++ flat_map MsgModel.mp_emit es, Ok tt)).
  { clear. induction es as [|e es IH]; intros s; cbn [run flat_map]; [now rewrite app_nil_r|]. cbn [MsgModel.mp_writer w_step]. fold MsgModel.mp_writer. now rewrite IH, app_assoc. }
  rewrite G in E. discriminate E.
Qed.
(** Bytes: a JSON text and a hand-made FlexBuffers message, [7] in both. *)
Example C76_bytes_case :
  (exists w, JTextModel.json_open_text [91; 55; 93] = Ok w /\ source JsonModel.json_reader w /\
    translate JsonModel.json_reader (p_writer P_msgpack) (p_open P_msgpack) 9 w = Ok (MsgModel.mp_open [145; 7])) /\
  (let b := [1; 7; 4; 2; 40; 1] in exists r, FlexBModel.fb_open b = Ok r /\ source (FlexBModel.flexb_reader b 9) r /\
    translate (FlexBModel.flexb_reader b 9) (p_writer P_msgpack) (p_open P_msgpack) 9 r = Ok (MsgModel.mp_open [145; 7])).
Proof.
  split.
  - exists (VArr [VUInt 7]). split; [vm_compute; reflexivity|]. split; [apply (src_json_text [91; 55; 93]); [okay|vm_compute; reflexivity]|vm_compute; reflexivity].
  - exists (FlexBModel.mkRef 3 1 1 10). split; [vm_compute; reflexivity|]. split; [apply src_flex_bytes; [okay|vm_compute; reflexivity]|vm_compute; reflexivity].
Qed.
