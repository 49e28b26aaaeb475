(** Properties_Float.v -- C66: asFloat().

    Vocabulary: [narrow], [asFloat] in NarrowModel.v; [nearest], [value_at], [view_at] in NarrowSpec.v; [f32_value],
    [f64_value] in FloatSpec.v; [denotes] in BuildSpec.v; [protocol] in TransSpec.v. *)

From Coq Require Import ZArith List Bool Lia.
From Verif Require Import Base BaseFacts Spec SpecFacts FloatSpec FloatModel FloatFacts NarrowModel NarrowSpec NarrowFacts NarrowMain.
From Verif Require Import BuildModel BuildSpec BuildFacts ZeraModel ZeraSpec JsonModel JsonSpec FlexModel FlexSpec.
From Verif Require MsgModel CborModel CborSpec CborMain.
From Verif Require Import TransSpec TransMain.
Import ListNotations.
Open Scope Z_scope.

(** ** C66 *)

(** Every position of every message: asFloat() narrows the double there and throws DeserializationError on anything else. *)
Theorem C66_asFloat_everywhere : forall P e v, is_protocol P -> denotes e v -> val_ok v -> p_ok P v ->
  exists b w n, build (p_writer P) e = Ok b /\ p_open P b = Ok w /\ forall fuel, (n <= fuel)%nat ->
    forall p x, value_at (p_norm P v) p = Some x ->
    exists w', view_at (p_reader P fuel) w p = Ok w' /\
      asFloat (p_reader P fuel) w' = match x with VDbl d => Ok (narrow d) | _ => Throw EDeser end.
Proof. exact floats_round_trip. Qed.
Print Assumptions C66_asFloat_everywhere.

(** Narrowing a finite double: the nearest float, ties to even, infinity from half a unit above the largest float. *)
Theorem C66_narrow_nearest : forall x s u, 0 <= x < 2^64 -> f64_value x = Fnum s u -> nearest (f64_value x) (narrow x).
Proof. exact narrow_nearest. Qed.
Print Assumptions C66_narrow_nearest.
(** There is only one such float. *)
Theorem C66_nearest_unique : forall d r r', nearest d r -> nearest d r' -> r = r'.
Proof. exact nearest_unique. Qed.
Print Assumptions C66_nearest_unique.
Theorem C66_narrow_infinite : forall x s, 0 <= x < 2^64 -> f64_value x = Finf s -> f32_value (narrow x) = Finf s.
Proof. intros x s H E. now apply narrow_inf. Qed.
Print Assumptions C66_narrow_infinite.
Theorem C66_narrow_nan : forall x, 0 <= x < 2^64 -> f64_value x = Fnan -> f32_value (narrow x) = Fnan.
Proof. intros x H E. now apply narrow_nan. Qed.
Print Assumptions C66_narrow_nan.
(** 0.1 (a tie-free case), 2^24 + 1 (a tie, to even), 2^24 + 3 (a tie, to even), a subnormal tie, and 2^128 - 2^103 *)
Example C66_narrow_case :
  map narrow [4591870180066957722; 4715268810125344768; 4715268811199086592; 3931642474694443008; 5183643171103440896; 9223372036854775808] =
    [1036831949; 1266679808; 1266679810; 0; 2139095040; 2147483648].
Proof. vm_compute. reflexivity. Qed.
Example C66_narrow_case_values : exists u, f64_value 4591870180066957722 = Fnum false u.
Proof. eexists. unfold f64_value, ieee. reflexivity. Qed.

(** A float of the program, anywhere in a message of any protocol, comes back bit for bit. *)
Theorem C66_floats_round_trip : forall P e v, is_protocol P -> denotes e v -> val_ok v -> p_ok P v ->
  exists b w n, build (p_writer P) e = Ok b /\ p_open P b = Ok w /\ forall fuel, (n <= fuel)%nat ->
    forall p f, is_f32 f -> ~ is_nan (f32_value f) -> value_at (p_norm P v) p = Some (VDbl (f32_to_f64 f)) ->
    exists w', view_at (p_reader P fuel) w p = Ok w' /\ asFloat (p_reader P fuel) w' = Ok f.
Proof.
  intros P e v IP D V OK. destruct (floats_round_trip P e v IP D V OK) as (b & w & n & S & O & H). exists b, w, n. split; [exact S|]. split; [exact O|].
  intros fuel F p f Hf N E. destruct (H fuel F p _ E) as (w' & A & B). exists w'. split; [exact A|]. rewrite B. now rewrite narrow_id.
Qed.
Print Assumptions C66_floats_round_trip.
(** A NaN comes back as the same NaN, made quiet. *)
Theorem C66_nans_round_trip : forall P e v, is_protocol P -> denotes e v -> val_ok v -> p_ok P v ->
  exists b w n, build (p_writer P) e = Ok b /\ p_open P b = Ok w /\ forall fuel, (n <= fuel)%nat ->
    forall p f, is_f32 f -> is_nan (f32_value f) -> value_at (p_norm P v) p = Some (VDbl (f32_to_f64 f)) ->
    exists w', view_at (p_reader P fuel) w p = Ok w' /\ asFloat (p_reader P fuel) w' = Ok (Z.lor f (2^22)).
Proof.
  intros P e v IP D V OK. destruct (floats_round_trip P e v IP D V OK) as (b & w & n & S & O & H). exists b, w, n. split; [exact S|]. split; [exact O|].
  intros fuel F p f Hf N E. destruct (H fuel F p _ E) as (w' & A & B). exists w'. split; [exact A|]. rewrite B. now rewrite narrow_nan_id.
Qed.
Print Assumptions C66_nans_round_trip.

(** {"n": [1, 2.5f, NaN]} in MessagePack *)
Definition fdemo : bexp := BZmap [([110; 0], BVec [BUInt 1; BFloat 1075838976; BFloat 2143289345])].
Definition fdemo_value : val := VMap [([110], VArr [VUInt 1; VDbl 4612811918334230528; VDbl (f32_to_f64 2143289345)])].
Example C66_case : denotes fdemo fdemo_value /\ val_ok fdemo_value /\ p_ok P_msgpack fdemo_value /\ p_ok P_zera fdemo_value /\
  value_at (p_norm P_msgpack fdemo_value) [Entry [110]; Elem 1] = Some (VDbl (f32_to_f64 1075838976)) /\
  value_at (p_norm P_msgpack fdemo_value) [Entry [110]; Elem 2] = Some (VDbl (f32_to_f64 2143289345)) /\
  f32_value 2143289345 = Fnan /\ f32_value 1075838976 = Fnum false (5 * 2^1073).
Proof.
  split; [|split; [|split; [|split; [|split; [|split; [|split]]]]]]; try reflexivity.
  - unfold fdemo, fdemo_value. apply d_zmap. constructor; [|constructor]. split; [reflexivity|]. cbn [snd]. apply d_vec. repeat constructor.
  - okay; unfold u64_max; lia.
  - cbn. repeat split; lia.
  - vm_compute. repeat split; discriminate.
Qed.
Example C66_case_run :
  (w <- build MsgModel.mp_writer fdemo ;; x <- view_at MsgModel.mp_reader (MsgModel.mp_open w) [Entry [110]; Elem 1] ;; asFloat MsgModel.mp_reader x) = Ok 1075838976.
Proof. vm_compute. reflexivity. Qed.
