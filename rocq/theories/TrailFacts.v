(** TrailFacts.v -- readers of the binary protocols look only at the message, not at what follows it. *)

From Coq Require Import ZArith List Bool Lia ZifyBool ZifyNat.
From Verif Require Import Base BaseFacts Spec SpecFacts ZeraModel ZeraSpec ZeraFacts ZeraRep ZeraSim ZeraMain ZeraTheorems IdentZera.
From Verif Require MsgModel MsgSpec MsgFacts MsgMain IdentMsg CborModel CborSpec CborRead CborMain.
Import ListNotations.
Open Scope Z_scope.

Lemma layout_more root env arena t : zera_layout root env arena ++ t = zera_layout root env (arena ++ t).
Proof. rewrite !zera_layout_eq. now rewrite <- !app_assoc. Qed.
Theorem zera_trail v b t : val_ok v -> serialize zera_writer v = Ok b ->
  exists w, zera_open (b ++ t) = Ok w /\ shows zera_reader ideal w v.
Proof.
  intros V S. rewrite serialize_12 in S. destruct (thr_finish 12 v b ltac:(lia) V S) as (a & s & Z & A & F).
  destruct (finish_sim a s Z) as [_ G]. rewrite A in G.
  destruct G as (root & env & arena & vr & F1 & _ & _ & F2 & F3 & F4 & F5 & F6 & F7 & F8).
  assert (b = zera_layout root env arena) as -> by congruence. rewrite layout_more.
  exists (root_view root env (arena ++ t)). split; [now apply open_layout|].
  apply (vrep_mono _ _ [] t) in F8. rewrite app_nil_r in F8.
  eapply vrep_shows; eauto using root_view_frame, root_view_at.
Qed.
Theorem mp_trail v b t : val_ok v -> MsgSpec.lengths_below (2^32 - 5) v -> serialize MsgModel.mp_writer v = Ok b ->
  shows MsgModel.mp_reader MsgSpec.T_mp (MsgModel.mp_open (b ++ t)) v.
Proof.
  intros V L S. rewrite IdentMsg.mp_bytes in S; [|exact V|apply (MsgMain.lengths_mono (2^32-5)); [lia|exact L]].
  assert (b = MsgSpec.enc (MsgMain.item_of v)) as -> by congruence.
  apply MsgMain.mp_starts_shows; [exact V|exact L|]. split; cbn [MsgModel.mp_open MsgModel.ms_buf MsgModel.ms_off MsgModel.ms_len].
  - apply has_app_l, has_self.
  - rewrite zlen_app. pose proof (zlen_nonneg t). lia.
Qed.
Theorem cbor_trail hard fuel v b t : val_ok v -> serialize CborModel.cbor_writer v = Ok b -> zlen (b ++ t) < 2^63 -> zlen (b ++ t) < Z.of_nat fuel ->
  hard = false \/ CborSpec.last_empty v = false \/ t <> [] -> shows (CborModel.cbor_reader hard fuel) CborSpec.T_cbor (CborModel.cb_open (b ++ t)) v.
Proof.
  intros OK S HB HF HL. rewrite zlen_app in HB. pose proof (zlen_nonneg t).
  assert (b = CborSpec.enc (CborMain.item_of v)) as ->.
  { pose proof (CborMain.run_value v (w_init CborModel.cbor_writer)) as R. unfold CborMain.run_spec in R. unfold serialize in S.
    destruct (CborMain.writable _ v).
    - rewrite R in S. change (Ok (CborSpec.enc (CborMain.item_of v)) = Ok b) in S. congruence.
    - destruct R as [s' R]. rewrite R in S. discriminate S. }
  apply CborMain.cbor_shows; auto; [rewrite zlen_app; lia|apply CborMain.item_of_ok; [exact OK|lia]|].
  apply CborRead.has_sits; [apply has_app_l, has_self|]. rewrite CborMain.last_empty_item, zlen_app.
  destruct HL as [HL|[HL|HL]]; [auto|auto|]. right. right. destruct t; [congruence|]. rewrite zlen_cons in *. pose proof (zlen_nonneg t). lia.
Qed.
