(** Properties_Json.v -- C28..C31: JSON.

    [dbg] is the build without NDEBUG.  Documents are syntax trees (see JsonModel.v). *)

From Coq Require Import ZArith List Bool Lia ZifyBool.
From Verif Require Import Base BaseFacts Spec SpecFacts FloatSpec B64Spec Utf8Spec JsonModel JsonSpec JsonFacts JsonWrite JsonMain JsonSeq.
Import ListNotations.
Open Scope Z_scope.

Definition jdemo : val :=
  VMap [ ([97], VInt (-5)); ([98], VArr [VNull; VBool true; VUInt (2^64 - 1); VInt 300; VBlob [1; 2; 255]]);
         ([97], VStr [195; 169]); ([99; 0], VDbl (2^62)) ].
Definition jgood : val :=
  VMap [ ([97], VInt (-5)); ([98], VArr [VNull; VBool true; VUInt (2^64 - 1); VInt 300; VBlob [1; 2; 255]]);
         ([97], VStr [195; 169]); ([99], VDbl (2^62)) ].
Lemma ascii_utf8 c : 0 <= c < 128 -> is_utf8 [c].
Proof. intros H. exists [c]. split; [apply Forall_cons; [left; lia|apply Forall_nil]|]. cbn. unfold utf8_code. destruct (Z.ltb_spec c 128); [reflexivity|lia]. Qed.
Lemma eacute_utf8 : is_utf8 [195; 169].
Proof. exists [233]. split; [apply Forall_cons; [left; lia|apply Forall_nil]|reflexivity]. Qed.

(** ** C28: round trip

    Full statement: every tree with finite doubles and arbitrary string keys.  Missing: empty keys and, in
    builds without NDEBUG, keys with a NUL (the writer throws logic_error); text that is not UTF-8 (finish()
    throws); in builds with NDEBUG keys are cut at their first NUL.  Signed and unsigned non-negative
    integers are the same token; a blob is the array ["~b", text, "base64"] ([as_json]); [json_table] says
    which questions each node answers. *)
Theorem C28_json_round_trip_partial : forall dbg v, val_ok v -> json_ok v ->
  exists d w, serialize (json_writer dbg) v = Ok d /\ json_open d = Ok w /\ shows json_reader json_table w (as_json v).
Proof. exact json_round_trip. Qed.
Print Assumptions C28_json_round_trip_partial.
Example C28_case : val_ok jgood /\ json_ok jgood.
Proof.
  split; [unfold jgood; okay|]. unfold json_ok. split; [|split].
  - vm_compute. intuition.
  - cbn. repeat split; auto using eacute_utf8; apply ascii_utf8; lia.
  - assert (K : forall c, 0 < c -> good_key [c]) by (intros c H; split; [discriminate|intros [E|[]]; lia]).
    unfold every_key. cbn. repeat (split || constructor); apply K; lia.
Qed.

(** What happens on every tree: written and read back, or one of the two errors. *)
Theorem C28_json_outcome : forall dbg v, val_ok v ->
  (every_key (key_ok dbg) v /\ doubles_finite v /\ texts_utf8 (cut_keys v) /\
     exists d, serialize (json_writer dbg) v = Ok d /\ json_open d = Ok (as_json (cut_keys v))) \/
  (every_key (key_ok dbg) v /\ ~ (doubles_finite v /\ texts_utf8 (cut_keys v)) /\ serialize (json_writer dbg) v = Throw ERuntime) \/
  (~ every_key (key_ok dbg) v /\ serialize (json_writer dbg) v = Throw ELogic).
Proof. exact json_write. Qed.
Print Assumptions C28_json_outcome.
Example C28_outcome_case : val_ok jdemo /\ serialize (json_writer true) jdemo = Throw ELogic /\
  serialize (json_writer false) jdemo = Ok (as_json (cut_keys jdemo)) /\ cut_keys jdemo <> jdemo.
Proof. split; [unfold jdemo; okay|]. split; [reflexivity|]. split; [vm_compute; reflexivity|]. vm_compute. discriminate. Qed.

(** Any JSON text at all: a DeserializationError, or a document all of whose nodes answer by [json_table]. *)
Theorem C28_json_any_text : forall t, json_text t ->
  json_open t = Throw EDeser \/ exists w, json_open t = Ok w /\ json_doc w /\ shows json_reader json_table w w.
Proof. exact json_any. Qed.
Print Assumptions C28_json_any_text.
Example C28_text_case : let t := VArr [VUInt (2^64); VInt (-2^63); VMap [([97], VNull); ([97], VUInt 1)]] in
  json_text t /\ exists w, json_open t = Ok w /\ r_key json_reader w [97] = Throw EDeser.
Proof. cbv zeta. split; [vm_compute; intuition congruence|]. eexists. split; [vm_compute; reflexivity|reflexivity]. Qed.

(** Refutations: the empty key cannot be written; with NDEBUG the keys "a\0b" and "a\0c" become one. *)
Theorem C28_json_round_trip_refuted :
  (forall dbg, serialize (json_writer dbg) (VMap [([], VNull)]) = Throw ELogic) /\
  exists d w, serialize (json_writer false) (VMap [([97; 0; 98], VBool true); ([97; 0; 99], VBool false)]) = Ok d /\ json_open d = Ok w /\
    r_contains json_reader w [97; 0; 98] = Ok false /\ r_mapKeys json_reader w = Ok [[97]; [97]].
Proof. split; [intros dbg; reflexivity|]. do 2 eexists. repeat split; vm_compute; reflexivity. Qed.
Print Assumptions C28_json_round_trip_refuted.

(** ** C29: blobs

    Full statement: different trees give different documents, and isBlob() is true only of blobs.  Proved
    for trees in which no array has the blob form itself; refuted otherwise. *)
Theorem C29_json_unambiguous_partial : forall v1 v2, val_ok v1 -> val_ok v2 -> no_blob_form v1 -> no_blob_form v2 ->
  as_json v1 = as_json v2 -> signless v1 = signless v2.
Proof. exact json_injective. Qed.
Theorem C29_json_isBlob_partial : forall v, val_ok v -> no_blob_form v ->
  r_isBlob json_reader (as_json v) = Ok (match v with VBlob _ => true | _ => false end) /\
  (forall b, v = VBlob b -> r_asBlob json_reader (as_json v) = Ok b).
Proof. intros v V N. split; [now apply isBlob_json|]. intros b ->. now apply asBlob_json. Qed.
(** On any document: exactly the arrays of that form. *)
Theorem C29_json_isBlob_exact : forall w, r_isBlob json_reader w = Ok true <-> exists s, w = VArr [VStr [126; 98]; VStr s; VStr [98; 97; 115; 101; 54; 52]].
Proof.
  intros w. cbn [json_reader r_isBlob]. rewrite isBlob_spec. split.
  - destruct w as [| | | | | | |[|[| | | | |t| | |] [|[| | | | |s| | |] [|[| | | | |e| | |] [|? ?]]]]|]; try discriminate. cbn [blob_text].
    destruct (beq t tag_text) eqn:A; [|discriminate]. destruct (beq e enc_text) eqn:B; [|discriminate]. intros _. apply beq_eq in A, B. subst. now exists s.
  - intros [s ->]. reflexivity.
Qed.
Print Assumptions C29_json_unambiguous_partial.
Print Assumptions C29_json_isBlob_partial.
Print Assumptions C29_json_isBlob_exact.
Example C29_case : no_blob_form jgood /\ as_json (VBlob [1; 2; 255]) = VArr [VStr [126; 98]; VStr [65; 81; 76; 47]; VStr [98; 97; 115; 101; 54; 52]].
Proof. split; [vm_compute; intuition|reflexivity]. Qed.
Theorem C29_json_unambiguous_refuted : forall dbg, exists d,
  serialize (json_writer dbg) (VArr [VStr [126; 98]; VStr []; VStr [98; 97; 115; 101; 54; 52]]) = Ok d /\
  serialize (json_writer dbg) (VBlob []) = Ok d /\
  exists w, json_open d = Ok w /\ r_isBlob json_reader w = Ok true /\ r_asBlob json_reader w = Ok [].
Proof. intros dbg. eexists. split; [vm_compute; reflexivity|]. split; [reflexivity|]. eexists. repeat split; vm_compute; reflexivity. Qed.
Print Assumptions C29_json_unambiguous_refuted.

(** ** C30: integers

    Full statement: the accessors return the stored integer or throw.  Proved when the integer fits the
    accessor's type, and for negative numbers through unsigned accessors; refuted otherwise. *)
Theorem C30_json_ints_partial : forall dbg z v, v = VInt z /\ is_i64 z \/ v = VUInt z /\ is_u64 z ->
  exists d w, serialize (json_writer dbg) v = Ok d /\ json_open d = Ok w /\ forall iw,
    (smin iw <= z <= smax iw -> r_asInt json_reader iw w = Ok z) /\
    (0 <= z <= umax iw -> r_asUInt json_reader iw w = Ok z) /\
    (z < 0 -> r_asUInt json_reader iw w = Throw EDeser).
Proof.
  intros dbg z v H. assert (J : val_ok v /\ json_ok v) by (destruct H as [[-> H]|[-> H]]; (split; [exact H|split; [split; exact I|split; [exact I|split; exact I]]])). destruct J as [V J].
  destruct (json_round_trip dbg v V J) as (d & w & S & O & SH). exists d, w. split; [exact S|]. split; [exact O|].
  assert (OB : observes json_reader w (json_table (as_json v))) by (destruct H as [[-> H]|[-> H]]; cbn [as_json] in *; [destruct (z <? 0)|]; exact (proj1 SH)).
  destruct OB as (_ & _ & _ & _ & _ & _ & _ & _ & _ & _ & A & B & _). intros iw. specialize (A iw). specialize (B iw). rewrite A, B. pose proof (iw_bits iw) as IW.
  assert (E : exists t, as_json v = t /\ (t = VInt z /\ z < 0 \/ t = VUInt z /\ 0 <= z)).
  { eexists. split; [reflexivity|]. destruct H as [[-> H]|[-> H]]; cbn [as_json]; [destruct (z <? 0) eqn:Z0; [left|right]; split; auto; lia|right]. split; [reflexivity|]. unfold is_u64 in H. lia. }
  destruct E as (t & -> & E). unfold smin, smax, umax. assert (P : 2 ^ ibits iw <> 0) by (apply Z.pow_nonzero; lia).
  destruct E as [[-> Z0]|[-> Z0]]; cbn [json_table t_asInt t_asUInt or_throw]; repeat split; intros K; try (exfalso; clear - K Z0; lia); try reflexivity.
  - rewrite to_signed_id; [reflexivity|lia|clear - K; lia].
  - rewrite to_signed_id; [reflexivity|lia|clear - K; lia].
  - rewrite Z.mod_small; [reflexivity|clear - K; lia].
Qed.
Print Assumptions C30_json_ints_partial.
Example C30_case : is_i64 (-129) /\ smin I16 <= -129 <= smax I16 /\ is_u64 (2^64 - 1) /\ 0 <= 2^64 - 1 <= umax I64.
Proof. vm_compute. intuition congruence. Qed.
Theorem C30_json_ints_refuted : forall dbg, exists d1 d2 w1 w2,
  serialize (json_writer dbg) (VInt 300) = Ok d1 /\ json_open d1 = Ok w1 /\
    r_asInt json_reader I8 w1 = Ok 44 /\ r_asUInt json_reader I8 w1 = Ok 44 /\
  serialize (json_writer dbg) (VUInt (2^63)) = Ok d2 /\ json_open d2 = Ok w2 /\
    r_isInt json_reader w2 = Ok true /\ r_asInt json_reader I64 w2 = Ok (-2^63).
Proof. intros dbg. do 4 eexists. repeat split; vm_compute; reflexivity. Qed.
Print Assumptions C30_json_ints_refuted.

(** ** C31: call sequences

    Full statement: misuse always throws, otherwise finish() yields the described value.  Proved: a
    sequence that makes every call of one value is accepted (unless a key is not) and finish() gives that
    value; every accepted sequence can be completed to such a sequence; misuse throws logic_error and has
    no effect.  Missing: finish() does not report open containers or a dangling key -- it closes and drops
    them; key("") counts as no key. *)
Theorem C31_json_values_accepted : forall dbg v es, calls v es -> Forall ev_ok es ->
  match run (json_writer dbg) (w_init (json_writer dbg)) es with
  | (s, Ok _) => every_key (key_ok dbg) v /\ document v (snd (w_finish (json_writer dbg) s))
  | (_, r) => ~ every_key (key_ok dbg) v /\ r = Throw ELogic
  end.
Proof. exact calls_outcome. Qed.
Theorem C31_json_accepted_are_prefixes_partial : forall dbg es s, Forall ev_ok es -> ~ In (EKey []) es ->
  run (json_writer dbg) (w_init (json_writer dbg)) es = (s, Ok tt) ->
  es = [] \/ exists es' v, calls v (es ++ es').
Proof. exact accepted_prefix. Qed.
Theorem C31_json_finish_closes_partial : forall dbg es s, Forall ev_ok es -> ~ In (EKey []) es ->
  run (json_writer dbg) (w_init (json_writer dbg)) es = (s, Ok tt) ->
  es = [] /\ snd (w_finish (json_writer dbg) s) = Ok VNull \/
  exists es1 cl v, (es = es1 \/ exists k, es = es1 ++ [EKey k]) /\ Forall is_end cl /\ calls v (es1 ++ cl) /\
    document v (snd (w_finish (json_writer dbg) s)).
Proof. exact finish_any. Qed.
(** Misuse caught by the caller: every call returns or throws logic_error, and finish() sees only the calls
    that returned. *)
Theorem C31_json_misuse_has_no_effect : forall dbg es s outs, Forall ev_ok es ->
  run_catch (json_writer dbg) (w_init (json_writer dbg)) es = (s, outs) ->
  Forall (fun r => r = Ok tt \/ r = Throw ELogic) outs /\
  run (json_writer dbg) (w_init (json_writer dbg)) (returned es outs) = (s, Ok tt).
Proof. intros dbg es s outs OK. now apply history. Qed.
Print Assumptions C31_json_values_accepted.
Print Assumptions C31_json_accepted_are_prefixes_partial.
Print Assumptions C31_json_finish_closes_partial.
Print Assumptions C31_json_misuse_has_no_effect.
Example C31_case : calls (VMap [([97], VArr [VInt 1])]) [EBeginMap 7; EKey [97]; EBeginArr 0; EInt 1; EEndArr; EEndMap].
Proof.
  change [EBeginMap 7; EKey [97]; EBeginArr 0; EInt 1; EEndArr; EEndMap] with (EBeginMap 7 :: ((EKey [97] :: (EBeginArr 0 :: ([EInt 1] ++ []) ++ [EEndArr]) ++ []) ++ [EEndMap])).
  repeat constructor.
Qed.
Example C31_misuse_case : forall dbg,
  let es := [EBeginMap 1; EInt 3; EKey [97]; EKey [98]; EEndArr; EEndMap; EInt 4; EEndMap; ENull] in
  exists s, run_catch (json_writer dbg) (w_init (json_writer dbg)) es =
    (s, [Ok tt; Throw ELogic; Ok tt; Throw ELogic; Throw ELogic; Throw ELogic; Ok tt; Ok tt; Throw ELogic]) /\
    snd (w_finish (json_writer dbg) s) = Ok (VMap [([97], VUInt 4)]).
Proof. intros dbg. eexists. split; [destruct dbg; vm_compute; reflexivity|vm_compute; reflexivity]. Qed.
Lemma calls_ends v es e : calls v (es ++ [e]) -> e <> EBeginArr 0 /\ (forall k, e <> EKey k).
Proof.
  intros C. assert (H : forall l (a b : ev), l ++ [a] = [b] -> a = b) by (intros [|x l] a b E; [now injection E|destruct l; discriminate]).
  inversion C as [E|? E|? E|? E|? E|? E|? E|n l es' CL E|n l es' CL E]; subst; try (match goal with E0 : [_] = _ |- _ => symmetry in E0; apply H in E0; subst end; split; [discriminate|intros; discriminate]).
  - change (EBeginArr n :: es' ++ [EEndArr]) with ((EBeginArr n :: es') ++ [EEndArr]) in *. match goal with E0 : _ = _ |- _ => apply app_inj_tail in E0; destruct E0 as [_ <-] end. split; [discriminate|intros; discriminate].
  - change (EBeginMap n :: es' ++ [EEndMap]) with ((EBeginMap n :: es') ++ [EEndMap]) in *. match goal with E0 : _ = _ |- _ => apply app_inj_tail in E0; destruct E0 as [_ <-] end. split; [discriminate|intros; discriminate].
Qed.
Theorem C31_json_misuse_reported_refuted : forall dbg, exists es1 es2 es3,
  (forall v, ~ calls v es1) /\ (forall v, ~ calls v es2) /\ (forall v, ~ calls v es3) /\
  Forall (fun es => exists s d, run (json_writer dbg) (w_init (json_writer dbg)) es = (s, Ok tt) /\ snd (w_finish (json_writer dbg) s) = Ok d) [es1; es2; es3].
Proof.
  intros dbg. exists [EBeginArr 0], [EBeginMap 0; EKey [97]], [EBeginMap 0; EKey []; EEndMap]. split; [|split; [|split]].
  - intros v C. apply (calls_ends v [] (EBeginArr 0)) in C. now destruct C.
  - intros v C. apply (calls_ends v [EBeginMap 0] (EKey [97])) in C. destruct C as [_ C]. now apply (C [97]).
  - intros v C. inversion C as [| | | | | | | |n l es CL E]. subst. change [EKey []; EEndMap] with ([EKey []] ++ [EEndMap]) in *.
    match goal with E0 : _ ++ _ = _ |- _ => apply app_inj_tail in E0; destruct E0 as [-> _] end. inversion CL as [|k x l' e1 e2 CX CL' EE]; subst.
    destruct e1; [inversion CX|discriminate].
  - repeat constructor; do 2 eexists; (split; [reflexivity|reflexivity]).
Qed.
Print Assumptions C31_json_misuse_reported_refuted.
