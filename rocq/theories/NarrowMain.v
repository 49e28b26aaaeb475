(** NarrowMain.v -- asFloat of every reader at every position of a message. *)

From Coq Require Import ZArith List Bool Lia ZifyBool ZifyNat.
From Verif Require Import Base BaseFacts Spec SpecFacts FloatSpec FloatModel FloatFacts NarrowModel NarrowSpec NarrowFacts.
From Verif Require Import BuildModel BuildSpec BuildFacts ZeraModel ZeraSpec JsonModel JsonSpec FlexModel FlexSpec.
From Verif Require MsgModel CborModel CborSpec CborMain.
From Verif Require Import TransSpec TransMain.
Import ListNotations.
Open Scope Z_scope.

Lemma elems_nth {V} (R : reader V) T w l : forall n i x, elems_ok R T w n l -> nth_error l i = Some x ->
  exists w', r_idx R w (n + Z.of_nat i) = Ok w' /\ shows R T w' x.
Proof.
  induction l as [|y l IH]; intros n i x E N; [destruct i; discriminate|]. destruct E as (H & E). destruct i as [|i].
  - cbn in N. injection N as ->. replace (n + Z.of_nat 0) with n by lia. exact H.
  - cbn in N. destruct (IH (n + 1) i x E N) as (w' & A & B). exists w'. split; [|exact B]. rewrite <- A. f_equal. lia.
Qed.
Lemma entries_find {V} (R : reader V) T w k l : forall seen x, entries_ok R T w seen l -> existsb (beq k) seen = false -> first_entry k l = Some x ->
  exists w', r_key R w k = Ok w' /\ shows R T w' x.
Proof.
  induction l as [|(k', y) l IH]; intros seen x E S N; [discriminate|]. destruct E as (H & E). cbn [first_entry] in N. destruct (beq k k') eqn:B.
  - injection N as ->. apply beq_eq in B as <-. exact (H S).
  - apply (IH (k' :: seen) x E); [|exact N]. cbn [existsb]. now rewrite B.
Qed.
Lemma shows_at {V} (R : reader V) T p : forall w v x, shows R T w v -> value_at v p = Some x -> exists w', view_at R w p = Ok w' /\ shows R T w' x.
Proof.
  induction p as [|q p IH]; intros w v x SH E.
  - injection E as <-. exists w. split; [reflexivity|exact SH].
  - cbn [value_at] in E. destruct q as [i|k], v; try discriminate.
    + destruct (nth_error l i) as [y|] eqn:N; [|discriminate]. apply shows_arr in SH as (_ & _ & _ & EL & _).
      destruct (elems_nth R T w l 0 i y EL N) as (w' & A & B). destruct (IH w' y x B E) as (w'' & C & D). exists w''. split; [|exact D].
      cbn [view_at]. change (0 + Z.of_nat i) with (Z.of_nat i) in A. now rewrite A.
    + destruct (first_entry k l) as [y|] eqn:N; [|discriminate]. apply shows_map in SH as (_ & _ & _ & _ & EL & _).
      destruct (entries_find R T w k l [] y EL eq_refl N) as (w' & A & B). destruct (IH w' y x B E) as (w'' & C & D). exists w''. split; [|exact D].
      cbn [view_at]. now rewrite A.
Qed.

Lemma table_double P v : is_protocol P -> t_asDouble (p_table P v) = match v with VDbl d => Some d | _ => None end.
Proof.
  intros []; destruct v; try reflexivity. cbn [p_table P_json]. unfold json_table. destruct (blob_text (VArr l)); reflexivity.
Qed.
Lemma shows_observes {V} (R : reader V) T w v : shows R T w v -> observes R w (T v).
Proof. destruct v; intros (H & _); exact H. Qed.
Theorem float_of_shows P fuel w v : is_protocol P -> shows (p_reader P fuel) (p_table P) w v ->
  asFloat (p_reader P fuel) w = match v with VDbl d => Ok (narrow d) | _ => Throw EDeser end.
Proof.
  intros IP SH. apply shows_observes in SH. destruct SH as (_ & _ & _ & _ & _ & _ & _ & _ & _ & _ & _ & _ & D & _).
  unfold asFloat. rewrite D, table_double by exact IP. destruct v; reflexivity.
Qed.

(** Any float of any expression comes back. *)
Theorem floats_round_trip P e v : is_protocol P -> denotes e v -> val_ok v -> p_ok P v ->
  exists b w n, build (p_writer P) e = Ok b /\ p_open P b = Ok w /\ forall fuel, (n <= fuel)%nat ->
    forall p x, value_at (p_norm P v) p = Some x ->
    exists w', view_at (p_reader P fuel) w p = Ok w' /\
      asFloat (p_reader P fuel) w' = match x with VDbl d => Ok (narrow d) | _ => Throw EDeser end.
Proof.
  intros IP D V OK. rewrite (build_serialize e v _ _ _ D). destruct (protocol_round_trip P v IP V OK) as (b & w & n & S & O & SH).
  exists b, w, n. split; [exact S|]. split; [exact O|]. intros fuel F p x E. destruct (shows_at _ _ p _ _ x (SH fuel F) E) as (w' & A & B).
  exists w'. split; [exact A|]. now apply float_of_shows.
Qed.
