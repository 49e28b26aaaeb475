(** Properties_Build.v -- properties C37 (builders), C38 (dynamic values), C39 (serialize without argument).

    Vocabulary: expressions [bexp], [dyn] and the model in BuildModel.v; [denotes], [static], [sound] in
    BuildSpec.v; [events], [run], [serialize], [shows] in Spec.v; [protocol] in TransSpec.v. *)

From Coq Require Import ZArith List Bool Lia ZifyBool.
From Verif Require Import Base BaseFacts Spec SpecFacts FloatSpec FloatModel FloatFacts BuildModel BuildSpec BuildFacts.
From Verif Require Import ZeraModel ZeraSpec JsonModel JsonSpec FlexModel FlexSpec.
From Verif Require MsgModel CborModel CborSpec CborMain.
From Verif Require Import TransSpec TransMain.
Import ListNotations.
Open Scope Z_scope.

(** zmap<"n","m">(zvec(1, -2, 2.5f, "x"), dyn {"k": [true, serializable(map {a: 1u})]}) *)
Definition bdemo : bexp := BZmap [([110; 0], BVec [BUInt 1; BInt (-2); BFloat 1075838976; BCStr [120; 0; 9]]);
  ([109; 0], BDyn (DMap [([107], DArr [DBool true; DSer (BAssoc [([97], BUInt 1)])])]))].
Definition bdemo_value : val := VMap [([110], VArr [VUInt 1; VInt (-2); VDbl 4612811918334230528; VStr [120]]);
  ([109], VMap [([107], VArr [VBool true; VMap [([97], VUInt 1)]])])].
Lemma bdemo_denotes : denotes bdemo bdemo_value.
Proof.
  unfold bdemo, bdemo_value. apply d_zmap. constructor; [|constructor; [|constructor]]; cbn [fst snd]; (split; [reflexivity|]).
  - apply d_vec. repeat constructor. apply (d_cstr [120] [9]). intros [E|[]]; discriminate E.
  - apply d_dyn, dd_map. constructor; [|constructor]. split; [reflexivity|]. apply dd_arr. constructor; [constructor|]. constructor; [|constructor].
    apply dd_ser, d_assoc. constructor; [|constructor]. split; [reflexivity|constructor].
Qed.

(** ** C37: a serialized expression makes exactly the calls of the value it stands for

    [events] is one balanced value with exact element counts; nothing else reaches the writer, whatever the writer
    and its state, also when it throws half way. *)
Theorem C37_builders_emit_value : forall e v S O (W : writer S O) s, denotes e v -> put e (w_step W) s = run W s (events v).
Proof. exact put_run. Qed.
Print Assumptions C37_builders_emit_value.
Theorem C37_every_expression_has_value : forall e, sound e -> exists v, denotes e v.
Proof. exact (proj1 sound_denotes). Qed.
Print Assumptions C37_every_expression_has_value.
Example C37_case : denotes bdemo bdemo_value /\ sound bdemo.
Proof. split; [exact bdemo_denotes|]. cbn. repeat split; auto; [exists [110]|exists [109]]; reflexivity. Qed.

(** What is written is read back, in every protocol. *)
Theorem C37_build_round_trip : forall P e v, is_protocol P -> denotes e v -> val_ok v -> p_ok P v ->
  exists b w n, build (p_writer P) e = Ok b /\ p_open P b = Ok w /\ forall fuel, (n <= fuel)%nat -> shows (p_reader P fuel) (p_table P) w (p_norm P v).
Proof. intros P e v IP D V OK. rewrite (build_serialize e v _ _ _ D). now apply protocol_round_trip. Qed.
Print Assumptions C37_build_round_trip.
(** Floats are written as the double with the same value. *)
Theorem C37_float_exact : forall x v, denotes (BFloat x) v -> exists d, v = VDbl d /\ f64_value d = f32_value x.
Proof. intros x v D. inversion D. subst. eexists. split; [reflexivity|apply f32_exact]. Qed.
Print Assumptions C37_float_exact.

(** ** C38: a dynamic value is serialized as the static expression *)
Theorem C38_dynamic_as_static : forall d S O (W : writer S O), build W (BDyn d) = build W (static d).
Proof. intros d S O W. unfold build. change (put (BDyn d) (w_step W) (w_init W)) with (put_dyn d (w_step W) (w_init W)). now rewrite dyn_static. Qed.
Print Assumptions C38_dynamic_as_static.
(** Anywhere inside a larger expression too: the calls from any state are the same. *)
Theorem C38_dynamic_calls : forall d S O (W : writer S O) s, put (BDyn d) (w_step W) s = put (static d) (w_step W) s.
Proof. intros d S O W s. exact (dyn_static d S (w_step W) s). Qed.
Print Assumptions C38_dynamic_calls.
(** A payload behind the type-erased proxy is written as the payload itself. *)
Theorem C38_proxy_transparent : forall e S O (W : writer S O) s, put (BDyn (DSer e)) (w_step W) s = put e (w_step W) s.
Proof. intros e S O W s. exact (dyn_static (DSer e) S (w_step W) s). Qed.
Print Assumptions C38_proxy_transparent.
Example C38_case : static (DMap [([107], DArr [DBool true; DSer (BUInt 1)])]) = BZmap [([107; 0], BVec [BBool true; BUInt 1])] /\
  build MsgModel.mp_writer (BDyn (DMap [([107], DArr [DBool true; DSer (BUInt 1)])])) = Ok [129; 161; 107; 146; 195; 1].
Proof. split; vm_compute; reflexivity. Qed.

(** Converting a single C++ value to dyn::Value first changes nothing, where plain char is signed. *)
Theorem C38_value_constructors_partial : forall cs e r, dyn_of cs e = Some r -> cs = true \/ (forall z, e <> BChar z) ->
  forall S O (W : writer S O), match r with Ok d => build W (BDyn d) = build W e | UB => build W e = UB | _ => False end.
Proof.
  intros cs e r E C S O W. destruct e; try discriminate E; try (injection E as <-; reflexivity).
  - injection E as <-. destruct C as [-> |C]; [reflexivity|]. now destruct (C z).
  - cbn [dyn_of] in E. injection E as <-. unfold build. cbn [put]. unfold c_string. destruct (existsb (Z.eqb 0) mem); reflexivity.
Qed.
Print Assumptions C38_value_constructors_partial.
Example C38_constructor_case : dyn_of true (BChar (-1)) = Some (Ok (DInt (-1))) /\ dyn_of true (BCStr [97; 0; 98]) = Some (Ok (DStr [97])).
Proof. split; reflexivity. Qed.
(** Where it is unsigned, dyn::Value('a') is written as uint64, zvec('a') as int64; ZERA messages differ. *)
Theorem C38_unsigned_char_refuted : exists z d, dyn_of false (BChar z) = Some (Ok d) /\
  build zera_writer (BDyn d) <> build zera_writer (BChar z).
Proof. exists 97, (DUInt 97). split; [reflexivity|]. vm_compute. discriminate. Qed.
Print Assumptions C38_unsigned_char_refuted.

(** ** C39: serialize<P>() reads as null

    Full statement: for every protocol.  MessagePack yields an empty buffer, which does not read as null. *)
Theorem C39_empty_is_null_partial : forall P, is_protocol P ->
  P = P_zera \/ (exists hard, P = P_cbor hard) \/ (exists dbg, P = P_json dbg) \/ (exists dbg srt, P = P_flex dbg srt) \/ (exists dbg srt, P = P_flexb dbg srt) ->
  exists b w n, build_nothing (p_writer P) = Ok b /\ p_open P b = Ok w /\ forall fuel, (n <= fuel)%nat -> shows (p_reader P fuel) (p_table P) w VNull.
Proof.
  intros P IP N.
  assert (E : build_nothing (p_writer P) = serialize (p_writer P) VNull /\ p_norm P VNull = VNull /\ p_ok P VNull).
  { destruct N as [-> |[[hard ->]|[[dbg ->]|[(dbg & srt & ->)|(dbg & srt & ->)]]]]; (split; [vm_compute; reflexivity|]); (split; [reflexivity|]).
    - vm_compute. intuition congruence.
    - split; [exact I|]. split; [vm_compute; congruence|]. split; [now right|]. intros b E. vm_compute in E. injection E as <-. reflexivity.
    - split; [split; exact I|]. split; [exact I|split; exact I].
    - split; exact I.
    - split; [split; exact I|reflexivity]. }
  destruct E as (E & NM & OK). destruct (protocol_round_trip P VNull IP I OK) as (b & w & n & S1 & O1 & SH). rewrite NM in SH. exists b, w, n. rewrite E. auto.
Qed.
Print Assumptions C39_empty_is_null_partial.
Theorem C39_msgpack_empty_refuted : build_nothing MsgModel.mp_writer = Ok [] /\
  r_isNull MsgModel.mp_reader (MsgModel.mp_open []) = Ok false /\ serialize MsgModel.mp_writer VNull = Ok [192].
Proof. repeat split; reflexivity. Qed.
Print Assumptions C39_msgpack_empty_refuted.
