(** Properties_FlexB.v -- C86: FlexBuffers messages as bytes.

    FlexModel.v (C32, C33, C55-C57, ...) describes messages as trees; here the builder and the references work on
    bytes (FlexBModel.v), and every byte message is shown to answer as the tree does.
    [dbg]: build without NDEBUG; [srt]: any sort by key that looks at the keys only. *)

From Coq Require Import ZArith List Bool Lia ZifyBool.
From Verif Require Import Base BaseFacts Spec SpecFacts FlexModel FlexSpec FlexFacts FlexBModel FlexBSpec FlexBFacts FlexBWrite FlexBSim FlexBMain FlexBSize FlexBTrans TransModel Properties_Flex.
From Verif Require TransAll ZeraModel MsgModel JsonModel.
Import ListNotations.
Open Scope Z_scope.

(** ** Whatever calls are made, in any order, exceptions caught: the calls end alike on bytes and on trees, and so
    does finish(); the message written (below 2^62 bytes, with any bytes in front of it) can be opened, and every
    accessor, at any depth, answers as on the tree. *)
Theorem C86_histories_partial : forall dbg srt es, key_sort srt -> Forall ev_ok es ->
  let WB := flexb_writer dbg (srt (bval * bval)%type) in let WT := flex_writer dbg (srt fx) in
  snd (run_catch WB (w_init WB) es) = snd (run_catch WT (w_init WT) es) /\
  alike (fun b o => zlen b < 2 ^ 62 ->
      (exists x, o = Some x) /\
      forall pre, exists r, fb_open (pre ++ b) = Ok r /\ forall fuel n, same n (flexb_reader (pre ++ b) fuel) (flex_reader fuel) r (flex_open o))
    (snd (w_finish WB (fst (run_catch WB (w_init WB) es)))) (snd (w_finish WT (fst (run_catch WT (w_init WT) es)))).
Proof. intros dbg srt es KS EV. exact (histories dbg srt KS es EV). Qed.
Print Assumptions C86_histories_partial.

(** The outcomes do not depend on sizes, nor on what the sort does. *)
Theorem C86_outcomes : forall dbg srtb srtt es,
  let WB := flexb_writer dbg srtb in let WT := flex_writer dbg srtt in
  snd (run_catch WB (w_init WB) es) = snd (run_catch WT (w_init WT) es) /\
  alike (fun _ _ => True) (snd (w_finish WB (fst (run_catch WB (w_init WB) es)))) (snd (w_finish WT (fst (run_catch WT (w_init WT) es)))).
Proof.
  intros dbg srtb srtt es WB WT. destruct (catch_like dbg srtb srtt es _ _ (likes_init dbg srtb srtt)) as (R & K). split; [exact R|]. exact (finish_like dbg _ _ K).
Qed.
Print Assumptions C86_outcomes.

(** What is written are bytes. *)
Theorem C86_bytes : forall dbg srt es b, key_sort srt -> Forall ev_ok es ->
  let WB := flexb_writer dbg (srt (bval * bval)%type) in
  snd (w_finish WB (fst (run_catch WB (w_init WB) es))) = Ok b -> bytes_ok b.
Proof. intros dbg srt es b KS EV. exact (histories_bytes dbg srt KS es b EV). Qed.
Print Assumptions C86_bytes.

(** ** Round trip, in bytes: for every sequence of calls that describes the value *)
Theorem C86_round_trip_partial : forall dbg srt fuel v es, key_sort srt -> flex_ok v -> (64 <= fuel)%nat -> calls v es -> Forall ev_ok es ->
  let WB := flexb_writer dbg (srt (bval * bval)%type) in
  exists s b, run WB (w_init WB) es = (s, Ok tt) /\ snd (w_finish WB s) = Ok b /\ bytes_ok b /\
    (zlen b < 2 ^ 62 -> forall pre, exists r, fb_open (pre ++ b) = Ok r /\ shows (flexb_reader (pre ++ b) fuel) flex_table r (in_key_order v)).
Proof. intros dbg srt fuel v es KS OK F C EV. exact (round_trip dbg srt KS fuel v es OK F C EV). Qed.
Print Assumptions C86_round_trip_partial.
Theorem C86_serialize_partial : forall dbg srt fuel v, key_sort srt -> val_ok v -> flex_ok v -> room v < 2 ^ 61 -> (64 <= fuel)%nat ->
  exists b r, serialize (flexb_writer dbg (srt (bval * bval)%type)) v = Ok b /\ bytes_ok b /\ zlen b <= room v + 17 /\
    fb_open b = Ok r /\ shows (flexb_reader b fuel) flex_table r (in_key_order v).
Proof.
  intros dbg srt fuel v KS V OK RM F. pose proof (events_ev_ok v V) as EV. destruct (round_trip dbg srt KS fuel v _ OK F (events_calls v) EV) as (s & b & R & FI & BO & SH).
  assert (L : zlen b <= room v + 17).
  { rewrite <- (calls_room v _ (events_calls v)). apply (histories_size dbg srt KS (events v)); [exact EV|]. rewrite run_is_catch; rewrite R; [exact FI|reflexivity]. }
  destruct (SH ltac:(lia) []) as (r & O & SW). exists b, r. unfold serialize. rewrite R. auto.
Qed.
Print Assumptions C86_serialize_partial.

(** ** No history of calls needs more bytes than its calls account for. *)
Theorem C86_size : forall dbg srt es b, key_sort srt -> Forall ev_ok es ->
  let WB := flexb_writer dbg (srt (bval * bval)%type) in
  snd (w_finish WB (fst (run_catch WB (w_init WB) es))) = Ok b -> zlen b <= evs_room es + 17.
Proof. intros dbg srt es b KS EV. exact (histories_size dbg srt KS es b EV). Qed.
Print Assumptions C86_size.
Theorem C86_size_value : forall v es, calls v es -> evs_room es = room v.
Proof. exact calls_room. Qed.
Print Assumptions C86_size_value.

(** ** Copying: into whatever writer, a byte message is copied as its tree is. *)
Theorem C86_translate_partial : forall dbg srt es b o, key_sort srt -> Forall ev_ok es ->
  let WB := flexb_writer dbg (srt (bval * bval)%type) in let WT := flex_writer dbg (srt fx) in
  snd (w_finish WB (fst (run_catch WB (w_init WB) es))) = Ok b -> zlen b < 2 ^ 62 ->
  snd (w_finish WT (fst (run_catch WT (w_init WT) es))) = Ok o ->
  forall pre, exists r, fb_open (pre ++ b) = Ok r /\
    forall S O V (W : writer S O) (open : O -> res V) n fuel, translate (flexb_reader (pre ++ b) n) W open fuel r = translate (flex_reader n) W open fuel (flex_open o).
Proof.
  intros dbg srt es b o KS EV WB WT EB L ET pre. destruct (histories dbg srt KS es EV) as (_ & A). subst WB WT. rewrite EB, ET in A. destruct (A L) as (_ & Q). destruct (Q pre) as (r & O & SM). exists r. split; [exact O|].
  intros. apply translate_same. intros m. apply SM.
Qed.
Print Assumptions C86_translate_partial.

Lemma by_key_sort : key_sort (@by_key).
Proof. split; [intros; apply by_key_sorts|intros; apply by_key_map]. Qed.

(** The bytes are those of the format: {"a":12}; ["foo","bar","baz"]; a key used twice is written once; numbers
    that need two bytes are aligned. *)
Lemma fdemo_ok : val_ok fdemo.
Proof. unfold fdemo. okay. Qed.
Example C86_case : key_sort (@by_key) /\ val_ok fdemo /\ flex_ok fdemo /\ Forall ev_ok (events fdemo) /\
  serialize (flexb_writer true by_key) (VMap [([97], VInt 12)]) = Ok [97; 0; 1; 3; 1; 1; 1; 12; 4; 2; 36; 1] /\
  serialize (flexb_writer true by_key) (VArr [VStr [102; 111; 111]; VStr [98; 97; 114]; VStr [98; 97; 122]]) =
    Ok [3; 102; 111; 111; 0; 3; 98; 97; 114; 0; 3; 98; 97; 122; 0; 3; 15; 11; 7; 20; 20; 20; 6; 40; 1] /\
  serialize (flexb_writer true by_key) (VArr [VMap [([97], VNull)]; VMap [([97], VBool true)]]) =
    Ok [97; 0; 1; 3; 1; 1; 1; 0; 0; 1; 10; 1; 1; 1; 1; 104; 2; 10; 4; 36; 36; 4; 40; 1] /\
  serialize (flexb_writer true by_key) (VArr [VInt (-1); VUInt 300]) = Ok [2; 0; 255; 255; 44; 1; 5; 9; 6; 41; 1] /\
  room fdemo = 425 /\
  (exists b, serialize (flexb_writer true by_key) fdemo = Ok b /\ zlen b = 124).
Proof.
  split; [apply by_key_sort|]. split; [apply fdemo_ok|]. split; [apply C33_case|]. split; [apply events_ev_ok, fdemo_ok|].
  repeat split; try (vm_compute; reflexivity). eexists. split; vm_compute; reflexivity.
Qed.

(** ** What does not hold *)

(** Bytes after a message matter (other protocols: C73): the integer 5 with two more bytes reads as 1. *)
Theorem C73_flex_refuted : exists b t r, serialize (flexb_writer true by_key) (VInt 5) = Ok b /\ fb_open (b ++ t) = Ok r /\
  r_isInt (flexb_reader (b ++ t) 64) r = Ok true /\ r_asInt (flexb_reader (b ++ t) 64) I64 r = Ok 1.
Proof. exists [5; 4; 1], [4; 1]. eexists. repeat split; vm_compute; reflexivity. Qed.
Print Assumptions C73_flex_refuted.
(** A truncated message reads outside its bytes, or answers something else (other protocols: C74): the first two
    bytes of 5, and the first four bytes of [7, 4, 1], which read as the integer 7. *)
Theorem C74_flex_refuted :
  (exists b t r, serialize (flexb_writer true by_key) (VInt 5) = Ok (b ++ t) /\ fb_open b = Ok r /\
     r_isInt (flexb_reader b 64) r = Ok true /\ r_asInt (flexb_reader b 64) I64 r = UB) /\
  (exists b t r, serialize (flexb_writer true by_key) (VArr [VInt 7; VUInt 4; VInt 1]) = Ok (b ++ t) /\ fb_open b = Ok r /\
     r_isInt (flexb_reader b 64) r = Ok true /\ r_asInt (flexb_reader b 64) I64 r = Ok 7).
Proof.
  split; [exists [5; 4], [1]|exists [3; 7; 4; 1], [4; 8; 4; 6; 40; 1]]; eexists; repeat split; vm_compute; reflexivity.
Qed.
Print Assumptions C74_flex_refuted.
(** Arbitrary bytes are not safe to open (other protocols: C06, C16, C20): one byte is read out of bounds by the constructor, the
    string of [255, 20, 1] lies outside, and in a message of six bytes an array is its own first element, so that
    walking down it never ends (other protocols: C07, C21). *)
Theorem C86_arbitrary_bytes_refuted :
  (forall x, fb_open [x] = UB) /\
  (exists r, fb_open [255; 20; 1] = Ok r /\ r_isString (flexb_reader [255; 20; 1] 64) r = Ok true /\ r_asString (flexb_reader [255; 20; 1] 64) r = UB) /\
  (exists b r, fb_open b = Ok r /\ bytes_ok b /\ r_isArray (flexb_reader b 64) r = Ok true /\ r_arraySize (flexb_reader b 64) r = Ok 1 /\
     exists w, r_idx (flexb_reader b 64) r 0 = Ok w /\ r_idx (flexb_reader b 64) w 0 = Ok w).
Proof.
  split; [reflexivity|]. split; [eexists; repeat split; vm_compute; reflexivity|].
  exists [1; 0; 40; 2; 40; 1]. eexists. split; [vm_compute; reflexivity|]. split; [repeat constructor; discriminate|]. repeat split; try (vm_compute; reflexivity).
  eexists. split; vm_compute; reflexivity.
Qed.
Print Assumptions C86_arbitrary_bytes_refuted.
(** Copying that message recurses without bound, into every destination but CBOR. *)
Theorem C77_flex_cyclic_refuted : exists b r, bytes_ok b /\ zlen b = 6 /\ fb_open b = Ok r /\ forall n fuel w,
  r_idx (flexb_reader b n) r 0 = Ok w ->
  (forall V' (open : _ -> res V'), translate (flexb_reader b n) ZeraModel.zera_writer open fuel w = NoFuel) /\
  (forall V' (open : _ -> res V'), translate (flexb_reader b n) MsgModel.mp_writer open fuel w = NoFuel) /\
  (forall dbg V' (open : _ -> res V'), translate (flexb_reader b n) (JsonModel.json_writer dbg) open fuel w = NoFuel) /\
  (forall dbg srt V' (open : _ -> res V'), translate (flexb_reader b n) (flexb_writer dbg srt) open fuel w = NoFuel).
Proof.
  exists [1; 0; 40; 2; 40; 1]. eexists. split; [repeat constructor; discriminate|]. split; [reflexivity|]. split; [vm_compute; reflexivity|]. intros n fuel w E.
  assert (W : w = mkRef 1 1 1 10) by (vm_compute in E; congruence). subst w.
  assert (L : forall S O V' (W : writer S O) (open : O -> res V') I, TransAll.swallows W I -> translate (flexb_reader [1; 0; 40; 2; 40; 1] n) W open fuel (mkRef 1 1 1 10) = NoFuel).
  { intros S O V' W open I [I0 H]. unfold translate. rewrite (TransAll.never_done _ W I); auto; vm_compute; reflexivity. }
  split; [|split; [|split]]; intros.
  - exact (L _ _ _ _ _ _ TransAll.swallow_zera).
  - exact (L _ _ _ _ _ _ TransAll.swallow_msgpack).
  - exact (L _ _ _ _ _ _ (TransAll.swallow_json dbg)).
  - exact (L _ _ _ _ _ _ (TransAll.swallow_flexb dbg srt)).
Qed.
Print Assumptions C77_flex_cyclic_refuted.
