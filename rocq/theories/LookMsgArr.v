(** LookMsgArr.v -- indices against arraySize, and the views of a message that skip() accepts: MessagePack. *)

From Coq Require Import ZArith List Bool Lia ZifyBool ZifyNat.
From Verif Require Import Base BaseFacts Spec LookSpec MsgModel MsgSpec MsgFacts MsgSafe LookMsg.
Import ListNotations.
Open Scope Z_scope.

Lemma msgpack_index_out v n i : r_arraySize mp_reader v = Ok n -> n <= i -> r_idx mp_reader v i = Throw EDeser.
Proof.
  cbn [mp_reader r_arraySize r_idx]. unfold mp_arraySize, mp_idx. destruct (arr_info v) as [[m o]| | |]; cbn [bind]; try discriminate.
  intros H L. injection H as <-. replace (m <=? i) with true by lia. reflexivity.
Qed.

Section Root.
  Variable b : bytes.
  Hypothesis B : bytes_ok b.
  Hypothesis NH : no_huge b.
  Variable s : Z.
  Hypothesis SK : skip (mp_open b) = Ok s.
  Hypothesis L : s <= zlen b.
  Variable w : mspan.
  Hypothesis RE : reach mp_reader (mp_open b) w.

  Lemma root_item : wfs w /\ exists it, item_small it /\ starts w (enc it).
  Proof.
    destruct (skip_sound _ b NH (mp_open b) s (wfs_open b B) eq_refl SK) as [_ X]. destruct (X L) as (it & OK & S & _).
    destruct (item_reach _ _ (wfs_open _ B) OK S w RE) as (W & _ & it' & OK' & S'). eauto.
  Qed.
  Theorem msgpack_indices : indices_agree mp_reader w.
  Proof.
    intros n i A I0. destruct (i <? n) eqn:LT; [|apply (msgpack_index_out w n); [exact A|lia]].
    destruct root_item as (W & it & OK & S). cbn [mp_reader r_arraySize r_idx] in *.
    destruct (enc_marker _ _ OK) as (m & t & Em & K).
    destruct it; try (exfalso; assert (S' := S); rewrite Em in S'; rewrite (no_size w m t S') in A; [discriminate A|]; unfold kinds, tkinds in K; injection K as _ _ _ _ _ _ _ _ K; rewrite K; reflexivity).
    rewrite (size_item w _ _ _ OK S) in A. injection A as <-.
    destruct (nth_error l (Z.to_nat i)) as [x|] eqn:N; [|apply nth_error_None in N; unfold zlen in LT; lia].
    apply nth_error_split in N. destruct N as (l1 & l2 & -> & E). destruct (idx_item w _ l1 x l2 OK S) as (c & Ec & _). exists c. now replace i with (zlen l1) by (unfold zlen; lia).
  Qed.
  Theorem msgpack_lookups_safe : lookups_agree mp_reader w.
  Proof.
    intros ks key KO K. destruct (msgpack_lookups w ks key K) as (C & D). split; [exact C|]. destruct (existsb (beq key) ks); [|exact D]. destruct D as [D|D]; [exact D|].
    destruct root_item as (W & it & OK & S). destruct (item_ops_safe _ w it W eq_refl OK S) as (_ & _ & _ & _ & _ & _ & X & _). specialize (X key KO). cbn [mp_reader r_key] in D. rewrite D in X. destruct X.
  Qed.
End Root.
