(** HaltZera.v -- each question to the ZERA reader comes to an end; translation does if the values lie below their containers,
    and always into CBOR, whose encoder limits the nesting. *)

From Coq Require Import ZArith List Bool Lia ZifyBool ZifyNat.
From Verif Require Import Base BaseFacts Spec TransModel HaltFacts.
From Verif Require ZeraModel CborModel.
Import ListNotations.
Open Scope Z_scope.

Section Zera.
Import ZeraModel.
Lemma req_halts c e : halts any (require c e). Proof. destruct c; exact I. Qed.
Lemma vr_halts v : halts any (require_vr v).
Proof. unfold require_vr. destruct (zv_vr v); [|exact I]. hb (apply req_halts). exact I. Qed.
Lemma match_halts b p n k : halts any (key_matches b p n k). Proof. unfold key_matches. hany. Qed.
Ltac zh := repeat first
  [ exact I
  | match goal with
    | |- halts _ (if _ then _ else _) => apply halts_if; intros ?
    | |- halts _ (require_vr _) => apply vr_halts
    | |- halts _ (require _ _) => apply req_halts
    | |- halts _ (rd _ _) => apply halts_rd
    | |- halts _ (rd_view _ _) => apply halts_view
    | |- halts _ (key_matches _ _ _ _) => apply match_halts
    | |- halts _ (bind _ _) => eapply (halts_bind any); [|intros ? _ _]
    end ].
Lemma u16_halts b p : halts any (read_u16_le b p). Proof. unfold read_u16_le. zh. Qed.
Lemma u32_halts b p : halts any (read_u32_le b p). Proof. unfold read_u32_le. zh. Qed.
Lemma u64_halts b p : halts any (read_u64_le b p). Proof. unfold read_u64_le. do 2 (hb (apply u32_halts)). exact I. Qed.
Lemma env_halts v o n : halts any (env_ptr_at v o n). Proof. unfold env_ptr_at. zh. Qed.
Lemma arena_halts v o n : halts any (arena_view v o n). Proof. unfold arena_view. zh. Qed.
Lemma inl_halts v n : halts any (inline_bytes_view v n). Proof. unfold inline_bytes_view. zh. Qed.
Ltac zh ::= repeat first
  [ exact I
  | match goal with
    | |- halts _ (if _ then _ else _) => apply halts_if; intros ?
    | |- halts _ (require_vr _) => apply vr_halts
    | |- halts _ (require _ _) => apply req_halts
    | |- halts _ (rd _ _) => apply halts_rd
    | |- halts _ (rd_view _ _) => apply halts_view
    | |- halts _ (read_u16_le _ _) => apply u16_halts
    | |- halts _ (read_u32_le _ _) => apply u32_halts
    | |- halts _ (read_u64_le _ _) => apply u64_halts
    | |- halts _ (env_ptr_at _ _ _) => apply env_halts
    | |- halts _ (arena_view _ _ _) => apply arena_halts
    | |- halts _ (inline_bytes_view _ _) => apply inl_halts
    | |- halts _ (key_matches _ _ _ _) => apply match_halts
    | |- halts _ (bind (zloop _ _ _) _) => eapply (halts_bind (either any any)); [apply halts_zloop; [intros ? _|exact I]|intros [?|?] _ _]
    | |- halts _ (bind _ _) => eapply (halts_bind any); [|intros ? _ _]
    | |- halts _ (match ?w with I8 => _ | I16 => _ | I32 => _ | I64 => _ end) => destruct w
    end
  | progress unfold zv_is, zv_isBlob, zv_tag, zv_flags, zv_aux, zv_a, zv_b, zv_c, require_flags_ok, zv_bits ].
Lemma views_halts b l : halts any (rd_views b l).
Proof. induction l as [|w l IH]; cbn [rd_views]; [exact I|]. hb (apply halts_view). hb (apply IH). exact I. Qed.
Lemma zkeys_halts v : halts any (zv_keys v).
Proof.
  unfold zv_keys, zv_mapKeys. zh.
  all: try match goal with p : _ * _ |- _ => destruct p; unfold zk_deref, zk_incr; zh end.
Qed.
Theorem zera_answers v : answers zera_reader v.
Proof.
  constructor; intros; apply (halts_ne any); cbn [zera_reader r_isNull r_isBool r_isInt r_isUInt r_isFloat r_isString r_isBlob r_isMap r_isArray r_asBool r_asInt r_asUInt r_asDouble r_asStringView r_asBlob r_arraySize r_mapKeys r_idx r_key];
    unfold zv_asBool, zv_asInt, zv_asInt64, zv_asUInt, zv_asUInt64, zv_asDouble, zv_asStringView, zv_asString, zv_asBlob, zv_arraySize, zv_idx, zv_key; zh.
  - apply zkeys_halts. - apply views_halts.
Qed.
End Zera.

(** ** Into CBOR: the encoder's nesting limit stops the walk even on a cyclic message *)
Section Deep.
Import CborModel.
Context {V : Type} (R : reader V).
Variable good : V -> Prop.
Hypothesis ANS : forall w, good w -> answers R w.
Hypothesis IDX : forall w i c, good w -> r_idx R w i = Ok c -> good c.
Hypothesis KEY : forall w k c, good w -> r_key R w k = Ok c -> good c.

Definition sized (n : Z) (s : cwst) : Prop := zlen (cw_st s) = n.
Definition shift (e : ev) : Z := match e with EBeginArr _ | EBeginMap _ => 1 | EEndArr | EEndMap => -1 | _ => 0 end.
Definition opens (e : ev) : Prop := match e with EBeginArr _ | EBeginMap _ => True | _ => False end.
Lemma bump_len l : zlen (bump l) = zlen l.
Proof. destruct l as [|[[? ?] ?] ?]; cbn; reflexivity. Qed.
Lemma cemit s e : halts (fun s' => sized (zlen (cw_st s) + shift e) s' /\ (opens e -> zlen (cw_st s) < 1024)) (emit cbor_writer s e).
Proof.
  unfold emit. cbn [cbor_writer w_step]. destruct e; cbn [cw_step]; unfold cw_begin, cw_end, cw_value, sized, shift, opens, max_depth;
  repeat match goal with |- context [if ?c then _ else _] => destruct c eqn:? | |- context [match cw_st s with [] => _ | _ :: _ => _ end] => destruct (cw_st s) as [|[[? ?] ?] ?] end; cbn [halts cw_st]; auto; rewrite ?bump_len, ?zlen_cons; (split; [lia|]); try contradiction; lia.
Qed.
Theorem deep_halts : forall fuel w s, good w -> zlen (cw_st s) <= 1024 -> 1024 - zlen (cw_st s) < Z.of_nat fuel ->
  halts (sized (zlen (cw_st s))) (write_value R cbor_writer fuel w s).
Proof.
  induction fuel as [|f IH]; intros w s G B L; [lia|]. destruct (ANS w G) as [A1 A2 A3 A4 A5 A6 A7 A8 A9 B1 B2 B3 B4 B5 B6 B7 B8 B9 B10].
  cbn [write_value].
  assert (E0 : forall e, shift e = 0 -> halts (sized (zlen (cw_st s))) (emit cbor_writer s e)).
  { intros e X. eapply halts_impl; [|apply cemit]. cbn. intros s9 [HH _]. now rewrite X, Z.add_0_r in HH. }
  hb (apply ne_halts, A1). destruct a; [now apply E0|].
  hb (apply ne_halts, A2). destruct a; [hb (apply ne_halts, B1); now apply E0|].
  hb (apply ne_halts, A3). destruct a; [hb (apply ne_halts, B2); now apply E0|].
  hb (apply ne_halts, A4). destruct a; [hb (apply ne_halts, B3); now apply E0|].
  hb (apply ne_halts, A5). destruct a; [hb (apply ne_halts, B4); now apply E0|].
  hb (apply ne_halts, A6). destruct a; [hb (apply ne_halts, B5); now apply E0|].
  hb (apply ne_halts, A7). destruct a; [hb (apply ne_halts, B6); now apply E0|].
  hb (apply ne_halts, A8). destruct a.
  { hb (apply ne_halts, B8). hb (apply cemit). hb (apply ne_halts, B8).
    match goal with H : sized _ ?s1 /\ _ |- _ => destruct H as [D1 D2]; specialize (D2 I); unfold sized, shift in D1 end.
    eapply (halts_bind (sized (zlen (cw_st s) + 1))).
    - match goal with |- halts _ (write_keys _ _ _ _ ?l ?st) => revert D1; generalize l, st end. intros l. induction l as [|k l IHl]; intros st D1; cbn [write_keys]; [exact D1|].
      hb (apply cemit). match goal with H : sized _ _ /\ _ |- _ => destruct H as [D3 _]; unfold sized, shift in D3 end. hb (apply ne_halts, B10).
      match goal with H : r_key R w k = Ok ?c |- _ => pose proof (KEY _ _ _ G H) as G' end.
      hb (apply IH; [exact G'|lia|lia]). apply IHl. unfold sized in *. lia.
    - intros s2 _ D4. eapply halts_impl; [|apply cemit]. cbn. unfold sized, shift in *. intros s3 [HH _]. lia. }
  hb (apply ne_halts, A9). destruct a; [|exact I].
  hb (apply ne_halts, B7). hb (apply cemit).
  match goal with H : sized _ ?s1 /\ _ |- _ => destruct H as [D1 D2]; specialize (D2 I); unfold sized, shift in D1 end.
  eapply (halts_bind (either (fun p => sized (zlen (cw_st s) + 1) (snd p)) any)); [apply halts_zloop; [|exact D1]|].
  - intros [i st] D3. cbn [snd] in D3. unfold write_elem. hb (apply ne_halts, B9). match goal with H : r_idx R w i = Ok ?c |- _ => pose proof (IDX _ _ _ G H) as G' end.
    unfold sized in D3. hb (apply IH; [exact G'|lia|lia]). cbn [halts either snd]. unfold sized in *. lia.
  - intros [[? ?]|?] _ D4; [|exact I]. cbn [either snd] in D4. eapply halts_impl; [|apply cemit]. cbn. unfold sized, shift in *. intros s3 [HH _]. lia.
Qed.
End Deep.
