(** Properties_Translate.v -- properties C34-C36 (translate) and the translate part of C07.

    Vocabulary: [protocol], [exposed], [same_value], [first_wins], [small_uints] in TransSpec.v; the five protocols
    [P_zera] ... [P_flex] at the top of TransMain.v ([hard]: built with standard library assertions, [dbg]: built
    without NDEBUG, [srt]: any sorting function); [shows], [serialize] in Spec.v; the model of translate.hpp in
    TransModel.v.  [fuel] bounds recursion: the theorems hold for every large enough bound. *)

From Coq Require Import ZArith List Bool Lia ZifyBool.
From Verif Require Import Base BaseFacts Spec SpecFacts FloatSpec B64Spec Utf8Spec.
From Verif Require Import ZeraModel ZeraSpec JsonModel JsonSpec FlexModel FlexSpec FlexFacts.
From Verif Require MsgModel MsgSpec CborModel CborSpec CborMain JsonFacts JsonMain.
From Verif Require Import TransModel TransSpec TransFacts TransMain TransAll.
Import ListNotations.
Open Scope Z_scope.

(** {"b": [7u, -300, 1.5, null], "a": {"x": blob 00 ff, "y": "hi"}} *)
Definition sample : val := VMap [([98], VArr [VUInt 7; VInt (-300); VDbl 4609434218613702656; VNull]);
  ([97], VMap [([120], VBlob [0; 255]); ([121], VStr [104; 105])])].
Lemma sample_ok : val_ok sample. Proof. unfold sample. okay. Qed.
Lemma ascii_utf8 s : Forall (fun c => 0 <= c < 128) s -> is_utf8 s.
Proof.
  intros H. exists s. split; [apply (Forall_impl _ (P := fun c => 0 <= c < 128)); [|exact H]; intros c L; left; lia|].
  induction H as [|c s L H IH]; [reflexivity|]. cbn [flat_map]. unfold utf8_code at 1. replace (c <? 128) with true by lia. cbn [app]. congruence.
Qed.
Lemma sample_utf8 : texts_utf8 sample. Proof. cbn. repeat split; auto; apply ascii_utf8; repeat constructor; lia. Qed.

(** ** C34: translate preserves the value

    Full statement: for all protocols P, Q and every tree both can carry, the translated tree reads back equal.
    Proved for trees that satisfy [p_exact P] in addition: every tree for ZERA, MessagePack and FlexBuffers sources;
    for CBOR and JSON sources trees without integers of 2^63 or more, and for JSON also without arrays that look
    like an encoded blob.  The refutations below show that these two restrictions are needed. *)
Theorem C34_translate_preserves_partial : forall P Q v, is_protocol P -> is_protocol Q ->
  val_ok v -> distinct_keys v -> p_ok P v -> p_exact P v -> p_ok Q (p_order P v) ->
  exists b w b' w' x n, serialize (p_writer P) v = Ok b /\ p_open P b = Ok w /\
    same_value (p_order P v) x /\ serialize (p_writer Q) x = Ok b' /\ p_open Q b' = Ok w' /\
    forall fuel, (n <= fuel)%nat ->
      translate (p_reader P fuel) (p_writer Q) (p_open Q) fuel w = Ok w' /\ shows (p_reader Q fuel) (p_table Q) w' (p_norm Q x).
Proof. exact translate_preserves. Qed.
Print Assumptions C34_translate_preserves_partial.
Example C34_case : val_ok sample /\ distinct_keys sample /\ (forall P, is_protocol P -> p_ok P sample /\ p_exact P sample).
Proof.
  split; [exact sample_ok|]. split; [cbn; repeat split; repeat constructor; cbn; intuition discriminate|].
  intros P [| |hard|dbg|dbg srt S|dbg srt S]; cbn [p_ok p_exact P_zera P_msgpack P_cbor P_json P_flex P_flexb].
  - split; [vm_compute; intuition congruence|exact I].
  - split; [vm_compute; intuition congruence|exact I].
  - split; [|vm_compute; intuition congruence]. split; [exact sample_utf8|]. split; [vm_compute; congruence|]. split; [now right|]. intros b E. vm_compute in E. injection E as <-. reflexivity.
  - split; [|split; vm_compute; intuition congruence]. split; [vm_compute; intuition|]. split; [exact sample_utf8|].
    assert (K : forall c, 0 < c -> good_key [c]) by (intros c H; split; [discriminate|intros [E|[]]; lia]). unfold every_key. cbn. repeat (split || constructor); apply K; lia.
  - split; [|exact I]. cbn. repeat split; repeat constructor; cbn; intuition discriminate.
  - split; [|exact I]. split; [|reflexivity]. cbn. repeat split; repeat constructor; cbn; intuition discriminate.
Qed.

(** Whatever the source -- any view that shows a tree, also one that no serializer wrote -- the copy makes exactly the
    writer calls of the exposed tree; so translate succeeds or fails as serializing that tree does. *)
Theorem C34_translate_reserializes : forall V S O V' (R : reader V) (T : val -> table) (W : writer S O) (open : O -> res V') v x w fuel,
  table_ok T -> val_ok v -> shows R T w v -> exposed T v = Some x -> (height v < fuel)%nat ->
  translate R W open fuel w = (b <- serialize W x ;; open b).
Proof.
  intros V S O V' R T W open v x w fuel TO OK SH E F. unfold translate. rewrite (write_value_ok R W T TO v OK x w fuel _ SH E F).
  unfold run_res, serialize. destruct (run W (w_init W) (events x)) as [s []]; reflexivity.
Qed.
Print Assumptions C34_translate_reserializes.
Example C34_reserialize_case : table_ok ideal /\ exposed ideal sample = Some sample /\ height sample = 2%nat.
Proof. split; [split; split; reflexivity|]. split; reflexivity. Qed.

(** A JSON array of three strings can come out as a blob. *)
Theorem C34_json_array_refuted : forall dbg Q, is_protocol Q ->
  let v := VArr [VStr tag_text; VStr [65; 65; 61; 61]; VStr enc_text] in
  exists b w n, serialize (json_writer dbg) v = Ok b /\ json_open b = Ok w /\
    forall fuel, (n <= fuel)%nat -> translate json_reader (p_writer Q) (p_open Q) fuel w = (b' <- serialize (p_writer Q) (VBlob [0]) ;; p_open Q b').
Proof.
  intros dbg Q IQ v. apply (translate_reserializes (P_json dbg) Q v (VBlob [0])); [constructor|unfold v; okay| |].
  - split; [vm_compute; intuition|]. split; [|vm_compute; intuition]. cbn. repeat split; auto; apply ascii_utf8; repeat constructor; lia.
  - apply copy_json_blob. vm_compute. reflexivity.
Qed.
Print Assumptions C34_json_array_refuted.

(** ** C35: large unsigned integers

    Full statement: for every pair of protocols.  Proved for ZERA, MessagePack and FlexBuffers sources (inside larger
    trees: C34); refuted for CBOR and JSON sources, for every value from 2^63 on. *)
Theorem C35_translate_uint64_partial : forall P Q z, is_protocol P -> is_protocol Q ->
  P = P_zera \/ P = P_msgpack \/ (exists dbg srt, P = P_flex dbg srt) \/ (exists dbg srt, P = P_flexb dbg srt) -> is_u64 z ->
  exists b w b' w' x n, serialize (p_writer P) (VUInt z) = Ok b /\ p_open P b = Ok w /\
    (x = VUInt z \/ x = VInt z /\ z < 2^63) /\ serialize (p_writer Q) x = Ok b' /\ p_open Q b' = Ok w' /\
    forall fuel, (n <= fuel)%nat ->
      translate (p_reader P fuel) (p_writer Q) (p_open Q) fuel w = Ok w' /\ shows (p_reader Q fuel) (p_table Q) w' (p_norm Q x).
Proof. exact translate_uint. Qed.
Print Assumptions C35_translate_uint64_partial.
Example C35_case : is_u64 (2^64 - 1). Proof. unfold is_u64, u64_max. lia. Qed.

Theorem C35_cbor_json_uint64_refuted : forall P Q z, (exists hard, P = P_cbor hard) \/ (exists dbg, P = P_json dbg) -> is_protocol Q -> 2^63 <= z < 2^64 ->
  exists b w b' w' n, serialize (p_writer P) (VUInt z) = Ok b /\ p_open P b = Ok w /\
    serialize (p_writer Q) (VInt (z - 2^64)) = Ok b' /\ p_open Q b' = Ok w' /\
    forall fuel, (n <= fuel)%nat ->
      translate (p_reader P fuel) (p_writer Q) (p_open Q) fuel w = Ok w' /\ shows (p_reader Q fuel) (p_table Q) w' (p_norm Q (VInt (z - 2^64))).
Proof. exact translate_big_uint. Qed.
Print Assumptions C35_cbor_json_uint64_refuted.
Example C35_refuted_case : 2^63 <= 2^64 - 1 < 2^64. Proof. lia. Qed.

(** ** C36: repeated map keys

    Refuted: {"a": 1, "a": 2} arrives as {"a": 1, "a": 1} from every source that keeps both entries (FlexBuffers
    does not, C33).  Proved instead: every entry survives under its key, in order, with the value of the first
    occurrence of that key. *)
Theorem C36_translate_first_wins_partial : forall P Q v, is_protocol P -> is_protocol Q ->
  val_ok v -> p_ok P v -> p_exact P v -> p_ok Q (first_wins (p_order P v)) ->
  exists b w b' w' x n, serialize (p_writer P) v = Ok b /\ p_open P b = Ok w /\
    same_value (first_wins (p_order P v)) x /\ serialize (p_writer Q) x = Ok b' /\ p_open Q b' = Ok w' /\
    forall fuel, (n <= fuel)%nat ->
      translate (p_reader P fuel) (p_writer Q) (p_open Q) fuel w = Ok w' /\ shows (p_reader Q fuel) (p_table Q) w' (p_norm Q x).
Proof. exact translate_first_wins. Qed.
Print Assumptions C36_translate_first_wins_partial.
Theorem C36_translate_repeated_keys_refuted : exists v, v = VMap [([97], VInt 1); ([97], VInt 2)] /\
  forall P Q, P = P_zera \/ P = P_msgpack \/ (exists hard, P = P_cbor hard) \/ (exists dbg, P = P_json dbg) -> is_protocol Q ->
  exists b w n, serialize (p_writer P) v = Ok b /\ p_open P b = Ok w /\
    forall fuel, (n <= fuel)%nat -> translate (p_reader P fuel) (p_writer Q) (p_open Q) fuel w =
      (b' <- serialize (p_writer Q) (VMap [([97], VInt 1); ([97], VInt 1)]) ;; p_open Q b').
Proof.
  eexists. split; [reflexivity|]. intros P Q HP IQ.
  assert (IP : is_protocol P) by (destruct HP as [-> |[-> |[[h ->]|[d ->]]]]; constructor).
  apply (translate_reserializes P Q); [exact IP|okay| |].
  - destruct HP as [-> |[-> |[[h ->]|[d ->]]]]; cbn [p_ok P_zera P_msgpack P_cbor P_json].
    + vm_compute. intuition congruence.
    + vm_compute. intuition congruence.
    + split; [cbn; repeat split; auto; apply ascii_utf8; repeat constructor; lia|]. split; [vm_compute; congruence|]. split; [now right|]. intros b E. vm_compute in E. injection E as <-. reflexivity.
    + split; [vm_compute; intuition|]. split; [cbn; repeat split; auto; apply ascii_utf8; repeat constructor; lia|].
      assert (K : good_key [97]) by (split; [discriminate|intros [E|[]]; lia]). cbn. repeat (split || constructor); apply K.
  - destruct HP as [-> |[-> |[[h ->]|[d ->]]]]; reflexivity.
Qed.
Print Assumptions C36_translate_repeated_keys_refuted.
Example C36_case : first_wins (VMap [([97], VInt 1); ([98], VNull); ([97], VInt 2)]) = VMap [([97], VInt 1); ([98], VNull); ([97], VInt 1)].
Proof. reflexivity. Qed.

(** ** C07: translate need not terminate

    A 48-byte ZERA buffer that every check accepts, holding an array whose only element is the array itself: copying
    it recurses without bound, into every destination except CBOR (whose encoder limits nesting). *)
Theorem C07_translate_cyclic_refuted : exists b w, zera_open b = Ok w /\ bytes_ok b /\ zlen b = 48 /\
  forall Q, Q = P_zera \/ Q = P_msgpack \/ (exists dbg, Q = P_json dbg) \/ (exists dbg srt, Q = P_flex dbg srt) \/ (exists dbg srt, Q = P_flexb dbg srt) -> forall fuel, translate zera_reader (p_writer Q) (p_open Q) fuel w = NoFuel.
Proof.
  exists ouroboros, ouroboros_view. split; [exact ouroboros_open|]. split; [unfold ouroboros; cbn [repeat app]; okay|]. split; [reflexivity|].
  intros Q [-> |[-> |[[dbg ->]|[(dbg & srt & ->)|(dbg & srt & ->)]]]] fuel.
  - exact (ouroboros_loops _ _ _ swallow_zera fuel).
  - exact (ouroboros_loops _ _ _ swallow_msgpack fuel).
  - exact (ouroboros_loops _ _ _ (swallow_json dbg) fuel).
  - exact (ouroboros_loops _ _ _ (swallow_flex dbg srt) fuel).
  - exact (ouroboros_loops _ _ _ (swallow_flexb dbg _) fuel).
Qed.
Print Assumptions C07_translate_cyclic_refuted.
