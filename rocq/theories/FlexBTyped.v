(** FlexBTyped.v -- whatever the bytes, the answers of the FlexBuffers reader have the range of their C++ types. *)

From Coq Require Import ZArith List Bool Lia ZifyBool ZifyNat.
From Verif Require Import Base BaseFacts Spec SpecFacts FloatModel FloatSpec FloatFacts HalfModel NarrowFacts FlexBModel SaysSpec SaysFacts SaysTyped.
From Verif Require JTextTyped NarrowSpec ZeraTheorems LookMsg.
Import ListNotations.
Open Scope Z_scope.
Ltac Zify.zify_post_hook ::= idtac.

Lemma le_get_range l : bytes_ok l -> 0 <= le_get l < 256 ^ zlen l.
Proof.
  induction l as [|b l IH]; intros B; [cbn; lia|]. apply Forall_cons_iff in B. destruct B as [B0 B]. specialize (IH B). cbn [le_get]. rewrite zlen_cons, Z.add_comm, Z.pow_add_r by (pose proof (zlen_nonneg l); lia).
  change (256 ^ 1) with 256. unfold is_byte in B0. lia.
Qed.
Lemma class_cases w : width_class w = 1 \/ width_class w = 2 \/ width_class w = 4 \/ width_class w = 8.
Proof. unfold width_class. destruct (w <? 4), (w <? 2), (w <? 8); auto. Qed.

Section Bytes.
  Context (B : bytes) (BO : bytes_ok B).
  Lemma u_range p w : gives (fun z => 0 <= z < 256 ^ width_class w) (rd_u B p w).
  Proof.
    unfold rd_u. intros z E. destruct (rd_view B (p, width_class w)) as [l| | |] eqn:V; cbn [bind] in E; try discriminate E. injection E as <-.
    pose proof (gives_view B _ BO l V) as L. pose proof (LookMsg.rd_view_len _ _ _ V) as N. cbn [snd] in N. pose proof (le_get_range l L) as R. rewrite N in R. exact R.
  Qed.
  Lemma u_64 p w : gives is_u64 (rd_u B p w).
  Proof. eapply gives_impl; [|apply u_range]. intros z R. apply u64_of. destruct (class_cases w) as [E|[E|[E|E]]]; rewrite E in R; lia. Qed.
  Lemma s_64 p w : gives is_i64 (rd_s B p w).
  Proof. unfold rd_s. gany. apply gives_ok, signed_range. destruct (class_cases w) as [E|[E|[E|E]]]; rewrite E; lia. Qed.
  Lemma f_64 p w : gives is_u64 (rd_f B p w).
  Proof.
    unfold rd_f. eapply gives_bind; [apply u_range|]. intros z R. apply gives_ok. destruct (class_cases w) as [E|[E|[E|E]]]; rewrite E in *; cbn [Z.eqb Pos.eqb].
    1, 2: apply JTextTyped.to_bits_range, JTextTyped.normalize_fits.
    - apply u64_of, widen_u64. unfold NarrowSpec.is_f32. lia.
    - apply u64_of. lia.
  Qed.
  Lemma sized_ok t r : gives bytes_ok (fb_sized B t r).
  Proof. unfold fb_sized. gstep. gany. gany. apply gives_view, BO. Qed.
  Lemma until_nul_ok l k : bytes_ok l -> until_nul l = Some k -> bytes_ok k.
  Proof.
    revert k. induction l as [|c l IH]; intros k L E; cbn [until_nul] in E; [discriminate E|]. apply Forall_cons_iff in L. destruct L as [C L]. destruct (c =? 0); [injection E as <-; constructor|].
    destruct (until_nul l) as [k'|]; [|discriminate E]. injection E as <-. constructor; [exact C|]. now apply IH.
  Qed.
  Lemma key_at_ok kd kbw i : gives bytes_ok (fb_key_at B kd kbw i).
  Proof.
    unfold fb_key_at. gany. gstep; [apply gives_ok; constructor|]. gany. unfold c_string. gstep; [|gstep]. destruct (until_nul _) as [k|] eqn:K; [|gstep]. apply gives_ok.
    apply until_nul_ok in K; [exact K|]. apply ZeraTheorems.bytes_ok_skipn, BO.
  Qed.
  Lemma flexb_typed fuel r : typed (flexb_reader B fuel) r.
  Proof.
    unfold typed. cbn [flexb_reader r_asInt r_asUInt r_asDouble r_asStringView r_asBlob r_arraySize r_mapKeys].
    repeat match goal with |- (forall z, ?m = Ok z -> @?P z) /\ _ => split; [change (gives P m)|] | |- forall z, ?m = Ok z -> @?P z => change (gives P m) end.
    - unfold fb_asInt. gstep. gany. apply gives_ok, signed_range; cbn; lia.
    - unfold fb_asUInt. gstep. gany. apply gives_ok, u64_of. apply Z.mod_pos_bound; reflexivity.
    - unfold fb_asDouble. gstep. gstep; [apply f_64|]. gany. apply f_64.
    - apply sized_ok.
    - apply sized_ok.
    - unfold fb_arraySize. gstep. gstep; [|apply gives_ok; lia]. gany. eapply gives_impl; [|apply u_64]. unfold is_u64. lia.
    - unfold fb_mapKeys. gstep. gany. eapply gives_bind; [apply gives_any|]. intros [kd kbw] _. gany.
      apply (gives_bind (either (fun s : Z * list bytes => Forall bytes_ok (snd s)) (Forall bytes_ok))).
      + apply gives_zloop; [|constructor]. intros [i acc] A. apply (gives_bind bytes_ok); [apply key_at_ok|]. intros k K. apply gives_ok. cbn [either snd] in *. apply Forall_app. auto.
      + intros [[i acc]|acc] A; apply gives_ok; exact A.
  Qed.
  Theorem flexb_well_typed fuel r : well_typed (flexb_reader B fuel) r.
  Proof. intros w _. apply flexb_typed. Qed.
End Bytes.
