(** MeanAll.v -- what written documents say. *)

From Coq Require Import ZArith List Bool Lia ZifyBool ZifyNat.
From Verif Require Import Base BaseFacts Spec SpecFacts TransModel TransSpec TransFacts TransMain TransAll SaysSpec SaysFacts MeanFacts MeanShows MeanZSpec.
From Verif Require ZeraModel ZeraTheorems ZeraHist MeanZera AlignFacts.
Import ListNotations.
Open Scope Z_scope.

Theorem written_says P v : is_protocol P -> val_ok v -> p_ok P v -> p_exact P v ->
  exists b w n x, serialize (p_writer P) v = Ok b /\ p_open P b = Ok w /\ same_value (first_wins (p_order P v)) x /\ forall fuel, (n <= fuel)%nat -> says (p_reader P fuel) w x.
Proof.
  intros IP V OK EX. destruct (copy_spec P v IP V EX) as (g & G & C & _ & V1). destruct (protocol_round_trip P v IP V OK) as (b & w & n & E & O & SH).
  exists b, w, n, (leafmap g (first_wins (p_order P v))). split; [exact E|]. split; [exact O|]. split; [exact (leafmap_same g G _ V1)|]. intros fuel F.
  exact (shows_says _ (p_table P) (tables_ok P IP) _ _ w (SH fuel F) C).
Qed.

Theorem zera_written v b : val_ok v -> serialize ZeraModel.zera_writer v = Ok b -> zlen b < 2^32 - 20 -> zera_stands_for b (first_wins v).
Proof.
  intros V E L. assert (OK : bytes_ok b).
  { destruct (AlignFacts.serialize_history _ _ _ E) as (s & outs & R & F). now destruct (ZeraHist.history_message _ s outs b (events_ev_ok v V) R F) as (? & ? & ? & ? & ? & _ & _ & _ & _ & _ & _ & _ & OK & _). }
  apply (MeanZera.zera_iff b _ OK L). rewrite ZeraTheorems.serialize_12 in E.
  destruct (ZeraTheorems.serialize_thr 12 v ltac:(lia) V) as [(_ & b' & w & E' & O & SH)|(_ & e & E' & _)]; [|congruence].
  assert (b' = b) as -> by congruence. exists w. split; [exact O|]. apply (shows_says _ ideal (tables_ok P_zera is_zera) v _ w SH). rewrite (seen_zera v V). now rewrite leafmap_id.
Qed.
