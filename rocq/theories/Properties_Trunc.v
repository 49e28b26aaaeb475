(** Properties_Trunc.v -- C74: a truncated message may refuse to answer but never answers wrongly.

    Vocabulary (TruncSpec.v): [never_lies R w' w] - every view reached from [w'] by a path of operator[] calls is reached by the same path from [w],
    and every answer it gives is the answer given there; [tells_only R T w' v] - every path answered leads to a part of [v], and every answer is
    that part's.  No hypothesis on the bytes, on the point of truncation or on what was cut off. *)

From Coq Require Import ZArith List Bool Lia ZifyBool.
From Verif Require Import Base BaseFacts Spec SpecFacts ZeraModel TruncSpec TruncFacts TruncZera TruncShows TrailFacts.
From Verif Require MsgModel MsgSpec TruncMsg CborModel CborSpec TruncCbor.
Import ListNotations.
Open Scope Z_scope.

(** ** Arbitrary bytes: [b] is what arrived of [b ++ t]. *)
Theorem C74_zera : forall b t w', zera_open b = Ok w' ->
  exists w, zera_open (b ++ t) = Ok w /\ never_lies zera_reader w' w.
Proof. exact zera_never_lies. Qed.
Print Assumptions C74_zera.
Theorem C74_msgpack_partial : forall b t, b <> [] -> never_lies MsgModel.mp_reader (MsgModel.mp_open b) (MsgModel.mp_open (b ++ t)).
Proof. exact TruncMsg.mp_never_lies. Qed.
Print Assumptions C74_msgpack_partial.
Theorem C74_cbor : forall hard fuel b t, never_lies (CborModel.cbor_reader hard fuel) (CborModel.cb_open b) (CborModel.cb_open (b ++ t)).
Proof. intros. apply TruncCbor.cbor_never_lies. Qed.
Print Assumptions C74_cbor.

(** ** Messages written by the library: the answers are the written value's. *)
Theorem C74_zera_written : forall v b t w', val_ok v -> serialize zera_writer v = Ok (b ++ t) -> zera_open b = Ok w' ->
  tells_only zera_reader ideal w' v.
Proof.
  intros v b t w' V S O. destruct (zera_never_lies b t w' O) as (w & O2 & N).
  destruct (zera_trail v (b ++ t) [] V S) as (w2 & O3 & H). rewrite app_nil_r in O3. assert (w2 = w) as -> by congruence.
  exact (never_lies_tells _ _ w' w v N H).
Qed.
Print Assumptions C74_zera_written.
Theorem C74_msgpack_written_partial : forall v b t, val_ok v -> MsgSpec.lengths_below (2^32 - 5) v -> b <> [] ->
  serialize MsgModel.mp_writer v = Ok (b ++ t) -> tells_only MsgModel.mp_reader MsgSpec.T_mp (MsgModel.mp_open b) v.
Proof.
  intros v b t V L NE S. eapply never_lies_tells; [apply (TruncMsg.mp_never_lies b t NE)|].
  pose proof (mp_trail v (b ++ t) [] V L S) as H. now rewrite app_nil_r in H.
Qed.
Print Assumptions C74_msgpack_written_partial.
(** [hard]: with or without library assertions; no exception for a final empty string (contrast C18). *)
Theorem C74_cbor_written : forall hard fuel v b t, val_ok v -> serialize CborModel.cbor_writer v = Ok (b ++ t) ->
  zlen (b ++ t) < 2^63 - 1 -> zlen (b ++ t) < Z.of_nat fuel - 1 ->
  tells_only (CborModel.cbor_reader hard fuel) CborSpec.T_cbor (CborModel.cb_open b) v.
Proof.
  intros hard fuel v b t V S L F.
  assert (zlen ((b ++ t) ++ [0]) = zlen (b ++ t) + 1) as Z by (rewrite zlen_app; reflexivity).
  pose proof (cbor_trail hard fuel v (b ++ t) [0] V S) as H.
  eapply never_lies_tells; [|apply H; [rewrite Z; lia|rewrite Z; lia|right; right; discriminate]].
  rewrite <- app_assoc. apply TruncCbor.cbor_never_lies.
Qed.
Print Assumptions C74_cbor_written.

(** MessagePack, nothing received at all: the type tests of an empty view are false, whatever was sent. *)
Theorem C74_msgpack_refuted : exists t, r_isNull MsgModel.mp_reader (MsgModel.mp_open []) = Ok false /\
  r_isNull MsgModel.mp_reader (MsgModel.mp_open ([] ++ t)) = Ok true.
Proof. exists [192]. split; reflexivity. Qed.
Print Assumptions C74_msgpack_refuted.

(** {"a":"xy","b":[1,"z"]} cut one byte before the end: "a", the size of "b" and its first element are still told (and right), the second is refused (CBOR);
    MessagePack forms a span past the end (UB, see C16, C20) when "b" is looked up. *)
Definition doc : val := VMap [([97], VStr [120; 121]); ([98], VArr [VUInt 1; VStr [122]])].
Definition mp_doc : bytes := [130; 161; 97; 162; 120; 121; 161; 98; 146; 1; 161].
Definition cb_doc : bytes := [162; 97; 97; 98; 120; 121; 97; 98; 130; 1; 97].
Definition told {V} (R : reader V) (w : V) (p : list step) {A} (op : V -> res A) : res A := x <- follow R w p ;; op x.
Example C74_case : val_ok doc /\ MsgSpec.lengths_below (2^32 - 5) doc /\
  serialize MsgModel.mp_writer doc = Ok (mp_doc ++ [122]) /\ serialize CborModel.cbor_writer doc = Ok (cb_doc ++ [122]) /\
  told (CborModel.cbor_reader true 20) (CborModel.cb_open cb_doc) [SKey [97]] (r_asString (CborModel.cbor_reader true 20)) = Ok [120; 121] /\
  told (CborModel.cbor_reader true 20) (CborModel.cb_open cb_doc) [SKey [98]] (r_arraySize (CborModel.cbor_reader true 20)) = Ok 2 /\
  told (CborModel.cbor_reader true 20) (CborModel.cb_open cb_doc) [SKey [98]; SIdx 0] (r_asInt (CborModel.cbor_reader true 20) I8) = Ok 1 /\
  told (CborModel.cbor_reader true 20) (CborModel.cb_open cb_doc) [SKey [98]; SIdx 1] (r_asString (CborModel.cbor_reader true 20)) = Throw EDeser /\
  told MsgModel.mp_reader (MsgModel.mp_open mp_doc) [SKey [97]] (r_asString MsgModel.mp_reader) = Ok [120; 121] /\
  told MsgModel.mp_reader (MsgModel.mp_open mp_doc) [SKey [98]; SIdx 0] (r_asInt MsgModel.mp_reader I8) = UB /\
  told MsgModel.mp_reader (MsgModel.mp_open (mp_doc ++ [122])) [SKey [98]; SIdx 0] (r_asInt MsgModel.mp_reader I8) = Ok 1.
Proof.
  split; [okay; unfold u64_max; lia|]. split; [cbn; lia|]. repeat split; vm_compute; reflexivity.
Qed.
(** ZERA: cut inside the arena the message still opens, the inline parts are told, the cut string is refused; cut before the arena it does not open. *)
Definition zlong : bytes := [115; 116; 114; 105; 110; 103; 32; 111; 102; 32; 49; 54; 32; 98; 121; 116].
Definition zdoc : val := VArr [VUInt 7; VStr zlong].
Definition zmsg : bytes := match serialize zera_writer zdoc with Ok b => b | _ => [] end.
Definition zcut (n : nat) : res zview := zera_open (firstn n zmsg).
Example C74_case_zera : serialize zera_writer zdoc = Ok zmsg /\ zlen zmsg = 96 /\
  (w <- zcut 90 ;; told zera_reader w [SIdx 0] (r_asUInt zera_reader I8)) = Ok 7 /\
  (w <- zcut 90 ;; told zera_reader w [SIdx 1] (r_isString zera_reader)) = Ok true /\
  (w <- zcut 90 ;; told zera_reader w [SIdx 1] (r_asString zera_reader)) = Throw EDeser /\
  (w <- zera_open zmsg ;; told zera_reader w [SIdx 1] (r_asString zera_reader)) = Ok zlong /\
  zcut 79 = Throw EDeser.
Proof.
  split; [|repeat split; vm_compute; reflexivity]. unfold zmsg. destruct (serialize zera_writer zdoc) eqn:E; [reflexivity|vm_compute in E; discriminate E..].
Qed.
