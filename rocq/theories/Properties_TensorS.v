(** Properties_TensorS.v -- C89: an accepted tensor has the element type and the dimensions that are in the message.

    [describes R buf k shape] (TensorStored): the accessors, asked directly for 64 bits, find the number [k] at buf[0] and at
    buf[1] an array of exactly the numbers [shape]. [source] is any bytes at all in any of the five formats. *)

From Coq Require Import ZArith List Bool Lia ZifyBool ZifyNat String.
From Verif Require Import Base BaseFacts Spec TensorModel TensorSpec TensorFacts TensorStored JsonFacts Properties_Says.
From Verif Require ZeraModel MsgModel CborModel JsonModel JTextModel FlexModel FlexBModel.
Import ListNotations.
Open Scope Z_scope.

(** The formats whose asInt32 checks the range. *)
Inductive checked_source : forall {V}, reader V -> V -> Prop :=
| chk_zera b w : bytes_ok b -> ZeraModel.zera_open b = Ok w -> checked_source ZeraModel.zera_reader w
| chk_msgpack b : bytes_ok b -> checked_source MsgModel.mp_reader (MsgModel.mp_open b)
| chk_cbor hard fuel b : bytes_ok b -> checked_source (CborModel.cbor_reader hard fuel) (CborModel.cb_open b).
Lemma checked_is_source {V} (R : reader V) w : checked_source R w -> source R w.
Proof. intros [b v B E|b B|hard fuel b B]; econstructor; eassumption. Qed.
Lemma in_range x : negb ((x <? smin I32) || (smax I32 <? x)) = true -> to_signed (ibits I32) x = x.
Proof. intros C. apply to_signed_id; [reflexivity|]. change (ibits I32) with 32. change (smin I32) with (- 2 ^ 31) in C. change (smax I32) with (2 ^ 31 - 1) in C. change (32 - 1) with 31. lia. Qed.
Lemma checked_checks {V} (R : reader V) w : checked_source R w -> checks R.
Proof.
  intros [b v B E|b B|hard fuel b B] c z; cbn [r_asInt ZeraModel.zera_reader MsgModel.mp_reader CborModel.cbor_reader]; [unfold ZeraModel.zv_asInt|unfold MsgModel.mp_asInt|unfold CborModel.c_asInt];
    intros H; step H; destruct (negb _) eqn:C in H; cbn [require bind] in H; try discriminate H; rewrite (in_range _ C) in H; injection H as <-; match goal with Q : ?f c = Ok _ |- bind (?f c) _ = _ => rewrite Q end; reflexivity.
Qed.
Lemma source_reduces {V} (R : reader V) w : source R w -> reduces R.
Proof.
  assert (W : forall {V} (R : reader V), checks R -> (forall c z, r_asInt R I32 c = Ok z -> to_signed 32 z = z) -> reduces R).
  { intros V' R' C N c z H. exists z. split; [exact (C c z H)|exact (N c z H)]. }
  intros [b v B E|b B|hard fuel b B|text v E O|fuel x O|b v B E|fuel b r B E].
  - apply W; [exact (checked_checks _ _ (chk_zera b v B E))|]. intros c z H. cbn [r_asInt ZeraModel.zera_reader] in H. unfold ZeraModel.zv_asInt in H. step H. destruct (negb _) in H; cbn [require bind] in H; [|discriminate H]. injection H as <-. apply (to_signed_twice 32 32). lia.
  - apply W; [exact (checked_checks _ _ (chk_msgpack b B))|]. intros c z H. cbn [r_asInt MsgModel.mp_reader] in H. unfold MsgModel.mp_asInt in H. step H. destruct (negb _) in H; cbn [require bind] in H; [|discriminate H]. injection H as <-. apply (to_signed_twice 32 32). lia.
  - apply W; [exact (checked_checks _ _ (chk_cbor hard fuel b B))|]. intros c z H. cbn [r_asInt CborModel.cbor_reader] in H. unfold CborModel.c_asInt in H. step H. destruct (negb _) in H; cbn [require bind] in H; [|discriminate H]. injection H as <-. apply (to_signed_twice 32 32). lia.
  - intros c z H. cbn [r_asInt JsonModel.json_reader] in *. unfold JsonModel.j_asInt in *. destruct (JsonModel.yy_is_int c); [|discriminate H]. injection H as <-. eexists. split; [reflexivity|]. apply (to_signed_twice 32 64). lia.
  - intros c z H. cbn [r_asInt FlexModel.flex_reader] in *. unfold FlexModel.x_asInt in *. destruct c; try discriminate H. injection H as <-. eexists. split; [reflexivity|]. apply (to_signed_twice 32 64). lia.
  - intros c z H. cbn [r_asInt JsonModel.json_reader] in *. unfold JsonModel.j_asInt in *. destruct (JsonModel.yy_is_int c); [|discriminate H]. injection H as <-. eexists. split; [reflexivity|]. apply (to_signed_twice 32 64). lia.
  - intros c z H. cbn [r_asInt FlexBModel.flexb_reader] in *. unfold FlexBModel.fb_asInt in *. destruct (_ || _) in *; cbn [require bind] in *; [|discriminate H]. step H. injection H as <-. rewrite E0. cbn [bind]. eexists. split; [reflexivity|]. apply (to_signed_twice 32 64). lia.
Qed.

(** ** All five formats: the dimensions are exactly those in the message, the type's index is the one there reduced to 32 bits *)
Theorem C89_tensor_views_partial : forall V (R : reader V) blob_at t D buf v, source R buf -> as_xtensor_view R blob_at t D buf = Ok v ->
  exists k, describes R buf k (xv_shape v) /\ to_signed 32 k = dtype_index t.
Proof. intros V R blob_at t D buf v S. exact (view_described R blob_at t D buf v _ (narrow_reduces R t (source_reduces R buf S)) (source_typed R buf S)). Qed.
Theorem C89_tensors_partial : forall V (R : reader V) blob_at t D buf a, source R buf -> as_xtensor R blob_at t D buf = Ok a ->
  exists k, describes R buf k (x_shape a) /\ to_signed 32 k = dtype_index t.
Proof. intros V R blob_at t D buf a S. exact (array_described R blob_at t D buf a _ (narrow_reduces R t (source_reduces R buf S)) (source_typed R buf S)). Qed.
Theorem C89_matrix_views_partial : forall V (R : reader V) blob_at t nr nc rm buf v, source R buf -> as_eigen_view R blob_at t nr nc rm buf = Ok v ->
  exists k, describes R buf k [ev_rows v; ev_cols v] /\ to_signed 32 k = dtype_index t.
Proof. intros V R blob_at t nr nc rm buf v S. exact (eview_described R blob_at t nr nc rm buf v _ (narrow_reduces R t (source_reduces R buf S)) (source_typed R buf S)). Qed.
Theorem C89_matrices_partial : forall V (R : reader V) blob_at t nr nc rm buf a, source R buf -> as_eigen R blob_at t nr nc rm buf = Ok a ->
  exists k, describes R buf k [m_rows a; m_cols a] /\ to_signed 32 k = dtype_index t.
Proof. intros V R blob_at t nr nc rm buf a S. exact (matrix_described R blob_at t nr nc rm buf a _ (narrow_reduces R t (source_reduces R buf S)) (source_typed R buf S)). Qed.
Print Assumptions C89_tensor_views_partial.
Print Assumptions C89_tensors_partial.
Print Assumptions C89_matrix_views_partial.
Print Assumptions C89_matrices_partial.

(** ** MessagePack, CBOR and ZERA: the type's index too *)
Theorem C89_tensor_views_checked : forall V (R : reader V) blob_at t D buf v, checked_source R buf -> as_xtensor_view R blob_at t D buf = Ok v -> describes R buf (dtype_index t) (xv_shape v).
Proof. intros V R blob_at t D buf v S H. destruct (view_described R blob_at t D buf v _ (narrow_checks R t (checked_checks R buf S)) (source_typed R buf (checked_is_source R buf S)) H) as (k & K & ->). exact K. Qed.
Theorem C89_tensors_checked : forall V (R : reader V) blob_at t D buf a, checked_source R buf -> as_xtensor R blob_at t D buf = Ok a -> describes R buf (dtype_index t) (x_shape a).
Proof. intros V R blob_at t D buf a S H. destruct (array_described R blob_at t D buf a _ (narrow_checks R t (checked_checks R buf S)) (source_typed R buf (checked_is_source R buf S)) H) as (k & K & ->). exact K. Qed.
Theorem C89_matrix_views_checked : forall V (R : reader V) blob_at t nr nc rm buf v, checked_source R buf -> as_eigen_view R blob_at t nr nc rm buf = Ok v -> describes R buf (dtype_index t) [ev_rows v; ev_cols v].
Proof. intros V R blob_at t nr nc rm buf v S H. destruct (eview_described R blob_at t nr nc rm buf v _ (narrow_checks R t (checked_checks R buf S)) (source_typed R buf (checked_is_source R buf S)) H) as (k & K & ->). exact K. Qed.
Theorem C89_matrices_checked : forall V (R : reader V) blob_at t nr nc rm buf a, checked_source R buf -> as_eigen R blob_at t nr nc rm buf = Ok a -> describes R buf (dtype_index t) [m_rows a; m_cols a].
Proof. intros V R blob_at t nr nc rm buf a S H. destruct (matrix_described R blob_at t nr nc rm buf a _ (narrow_checks R t (checked_checks R buf S)) (source_typed R buf (checked_is_source R buf S)) H) as (k & K & ->). exact K. Qed.
Print Assumptions C89_tensor_views_checked.
Print Assumptions C89_tensors_checked.
Print Assumptions C89_matrix_views_checked.
Print Assumptions C89_matrices_checked.

(** ** JSON: [4294967301,[2],["~b","AQIDBA==","base64"]] has the number 2^32 + 5 for a type and is accepted as type 5 *)
Definition wide_type : bytes := [91; 52; 50; 57; 52; 57; 54; 55; 51; 48; 49; 44; 91; 50; 93; 44; 91; 34; 126; 98; 34; 44; 34; 65; 81; 73; 68; 66; 65; 61; 61; 34; 44; 34; 98; 97; 115; 101; 54; 52; 34; 93; 93].
Theorem C89_json_type_refuted : exists w a, JTextModel.json_open_text wide_type = Ok w /\ as_xtensor JsonModel.json_reader (fun _ => (false, 0)) TU16 None w = Ok a /\
  describes JsonModel.json_reader w (2 ^ 32 + 5) (x_shape a) /\ ~ describes JsonModel.json_reader w (dtype_index TU16) (x_shape a).
Proof.
  do 2 eexists. split; [vm_compute; reflexivity|]. split; [vm_compute; reflexivity|]. split.
  - do 2 eexists. split; [vm_compute; reflexivity|]. split; [vm_compute; reflexivity|]. split; [vm_compute; reflexivity|]. split; [reflexivity|]. split; [vm_compute; reflexivity|].
    intros i d G. cbn [x_shape] in G. assert (i = 0). { unfold get in G. change (zlen [2]) with 1 in G. destruct ((0 <=? i) && (i <? 1)) eqn:Q in G; [lia|discriminate G]. }
    subst i. injection G as <-. eexists. split; [vm_compute; reflexivity|]. left. split; vm_compute; reflexivity.
  - intros (w0 & w1 & I0 & A & _). vm_compute in I0. injection I0 as <-. vm_compute in A. discriminate A.
Qed.
Print Assumptions C89_json_type_refuted.

(** FlexBuffers: the same in the bytes that the library writes for [2^32 + 5, [2], blob of four bytes] *)
Definition wide_flex : bytes := [1; 2; 8; 4; 1; 2; 3; 4; 3; 0; 0; 0; 0; 0; 0; 0; 5; 0; 0; 0; 1; 0; 0; 0; 23; 0; 0; 0; 0; 0; 0; 0; 28; 0; 0; 0; 0; 0; 0; 0; 7; 40; 100; 27; 43; 1].
Theorem C89_flex_type_refuted : exists r a, FlexBModel.fb_open wide_flex = Ok r /\ as_xtensor (FlexBModel.flexb_reader wide_flex 64) (fun _ => (true, 8)) TU16 None r = Ok a /\
  describes (FlexBModel.flexb_reader wide_flex 64) r (2 ^ 32 + 5) (x_shape a) /\ ~ describes (FlexBModel.flexb_reader wide_flex 64) r (dtype_index TU16) (x_shape a).
Proof.
  do 2 eexists. split; [vm_compute; reflexivity|]. split; [vm_compute; reflexivity|]. split.
  - do 2 eexists. split; [vm_compute; reflexivity|]. split; [vm_compute; reflexivity|]. split; [vm_compute; reflexivity|]. split; [vm_compute; reflexivity|]. split; [vm_compute; reflexivity|].
    intros i d G. cbn [x_shape] in G. assert (i = 0). { unfold get in G. change (zlen [2]) with 1 in G. destruct ((0 <=? i) && (i <? 1)) eqn:Q in G; [lia|discriminate G]. }
    subst i. injection G as <-. eexists. split; [vm_compute; reflexivity|]. left. split; vm_compute; reflexivity.
  - intros (w0 & w1 & I0 & A & _). vm_compute in I0. injection I0 as <-. vm_compute in A. discriminate A.
Qed.
Print Assumptions C89_flex_type_refuted.

(** A 2 x 1 tensor is accepted and is a matrix too. A dimension of -1 or 2^32, or a type of 2^32 + 5, is not accepted, though
    the size of the blob would agree. *)
Definition two_by_one : bytes := [147; 5; 146; 2; 1; 196; 4; 1; 2; 3; 4].
Example C89_case :
  checked_source MsgModel.mp_reader (MsgModel.mp_open two_by_one) /\
  (exists v, as_xtensor_view MsgModel.mp_reader (fun _ => (true, 8)) TU16 None (MsgModel.mp_open two_by_one) = Ok v /\ xv_shape v = [2; 1]) /\
  (exists m, as_eigen MsgModel.mp_reader (fun _ => (true, 8)) TU16 None None false (MsgModel.mp_open two_by_one) = Ok m /\ [m_rows m; m_cols m] = [2; 1]) /\
  as_xtensor MsgModel.mp_reader (fun _ => (true, 8)) TU16 None (MsgModel.mp_open [147; 5; 146; 255; 0; 196; 0]) = Throw EDeser /\
  as_xtensor MsgModel.mp_reader (fun _ => (true, 8)) TU16 None (MsgModel.mp_open [147; 5; 145; 207; 0; 0; 0; 1; 0; 0; 0; 0; 196; 0]) = Throw EDeser /\
  as_xtensor MsgModel.mp_reader (fun _ => (true, 8)) TU16 None (MsgModel.mp_open [147; 207; 0; 0; 0; 1; 0; 0; 0; 5; 145; 0; 196; 0]) = Throw EDeser.
Proof.
  split; [apply chk_msgpack; unfold two_by_one; repeat constructor; lia|]. split; [eexists; split; vm_compute; reflexivity|]. split; [eexists; split; vm_compute; reflexivity|]. repeat split; vm_compute; reflexivity.
Qed.
