(** HaltMsg.v -- the MessagePack reader always comes to an end, and its elements are shorter than the whole. *)

From Coq Require Import ZArith List Bool Lia ZifyBool ZifyNat.
From Verif Require Import Base BaseFacts Spec SpecFacts MsgModel MsgSafe HaltFacts.
Import ListNotations.
Open Scope Z_scope.

Lemma at_halts v i : halts any (sp_at v i).
Proof. unfold sp_at. hany. Qed.
Lemma be16_halts b p : halts any (mp_read_be16 b p).
Proof. unfold mp_read_be16. hany. Qed.
Lemma be32_halts b p : halts any (mp_read_be32 b p).
Proof. unfold mp_read_be32. hany. Qed.
Lemma be64_halts b p : halts any (mp_read_be64 b p).
Proof. unfold mp_read_be64. hany. Qed.
Ltac mh := repeat first
  [ exact I
  | match goal with
    | |- halts _ (bind (require _ _) _) => apply halts_req; intros ?
    | |- halts _ (if _ then _ else _) => apply halts_if; intros ?
    | |- halts _ (sp_at _ _) => apply at_halts
    | |- halts _ (rd_view _ _) => apply halts_view
    | |- halts _ (mp_read_be16 _ _) => apply be16_halts
    | |- halts _ (mp_read_be32 _ _) => apply be32_halts
    | |- halts _ (mp_read_be64 _ _) => apply be64_halts
    | |- halts _ (bind _ _) => eapply (halts_bind any); [|intros ? _ _]
    end ].
Lemma is_halts p v : halts any (mp_is p v).
Proof. unfold mp_is. mh. Qed.
Lemma int_halts iw v : halts any (mp_asInt iw v).
Proof. unfold mp_asInt, mp_asInt64. eapply (halts_bind any); [mh|intros ? _ _]. destruct iw; mh. Qed.
Lemma uint_halts iw v : halts any (mp_asUInt iw v).
Proof. unfold mp_asUInt, mp_asUInt64, mp_asInt64. eapply (halts_bind any); [mh|intros ? _ _]. destruct iw; mh. Qed.
Lemma str_halts v : halts any (mp_asStringView v).
Proof. unfold mp_asStringView, str_info. mh. Qed.
Lemma bin_halts v : halts any (mp_asBlob v).
Proof. unfold mp_asBlob, bin_info. mh. Qed.
Lemma keyis_halts v k : halts any (mp_key_is v k).
Proof. unfold mp_key_is. hb (apply is_halts). hany. hb (apply str_halts). hany. Qed.
Lemma rdviews_halts b : forall l, halts any (mp_rd_views b l).
Proof. induction l as [|w l IH]; cbn [mp_rd_views]; [exact I|]. hb (apply halts_view). hb (exact IH). exact I. Qed.

Lemma sub_halts v o : wfs v -> 0 <= o -> halts (fun w => wfs w /\ ms_len w = ms_len v - o) (subspan v o).
Proof. intros W O. apply halts_both; [unfold subspan; destruct (_ <=? _); discriminate|]. intros w E. destruct (wfs_sub v o w W O E) as (H & _ & _ & L). auto. Qed.
Lemma first_halts v n : wfs v -> 0 <= n -> halts (fun w => wfs w /\ ms_len w <= ms_len v) (first v n).
Proof.
  intros W O. apply halts_both; [unfold first; destruct (_ <=? _); discriminate|]. intros w E. destruct (wfs_first v n w W O E) as (H & _ & _ & L).
  unfold first in E. destruct (n <=? ms_len v) eqn:C; [|discriminate E]. split; [exact H|lia].
Qed.
Lemma skip_halts v : wfs v -> halts (fun s => 0 <= s) (skip v).
Proof.
  intros W. apply halts_both; [|intros s E; exact (skip_nonneg v s W E)]. intros E. pose proof (skip_total (S (Z.to_nat (ms_len v))) v W) as T. unfold skip in E. rewrite E in T. cbn in T. lia.
Qed.
Ltac hsub := eapply halts_bind; [apply sub_halts; [assumption|lia]|intros ? ? [? ?]].
Ltac hskip := eapply halts_bind; [apply skip_halts; assumption|intros ? ? ?; cbv beta in *].
Ltac hfirst := eapply halts_bind; [apply first_halts; [assumption|lia]|intros ? ? [? ?]].

Lemma arr_halts v : halts (fun x => 1 <= snd x) (arr_info v).
Proof. apply halts_both; [apply (halts_ne any); unfold arr_info; mh|]. intros [n o] E. exact (arr_info_off v n o E). Qed.
Lemma shift_pos x k : 0 <= x -> 0 <= Z.shiftl x k. Proof. intros. now apply Z.shiftl_nonneg. Qed.
Lemma map_halts v : bytes_ok (ms_buf v) -> halts (fun x => 0 <= fst x /\ 1 <= snd x) (map_info v).
Proof.
  intros B. assert (RD : forall p, halts (fun x => 0 <= x) (rd (ms_buf v) p)).
  { intros p. apply halts_both; [apply (halts_ne any), halts_rd|]. intros x E. apply (rd_byte _ _ _ B) in E. destruct E. assumption. }
  unfold map_info, mp_read_be16, mp_read_be32. hb (apply at_halts). apply halts_if; intros _; [cbn [halts fst snd]; split; [apply Z.land_nonneg; right; lia|lia]|].
  apply halts_if; intros _.
  - apply (halts_bind (fun x => 0 <= x)); [|intros ? _ ?; cbn; lia]. do 2 (hb (apply RD)). apply Z.lor_nonneg. split; [now apply shift_pos|assumption].
  - apply halts_if; intros _; [|exact I]. apply (halts_bind (fun x => 0 <= x)); [|intros ? _ ?; cbn; lia]. do 4 (hb (apply RD)). cbn [halts].
    repeat (apply Z.lor_nonneg; split; auto using shift_pos).
Qed.

Lemma idx_halts v i : wfs v -> halts (fun c => wfs c /\ ms_len c < ms_len v) (mp_idx v i).
Proof.
  intros W. assert (H : halts (fun c => ms_len c < ms_len v) (mp_idx v i)).
  { unfold mp_idx. hb (apply arr_halts). destruct a as [n o]. cbn [snd] in *. apply halts_req. intros _.
    apply (halts_bind (fun off => 1 <= off)).
    { unfold skip_seq. eapply (halts_bind (either (fun off => 1 <= off) any)); [|intros [s|?] _ E; [exact E|exact I]]. apply halts_zloop; [|lia].
      intros off L. hsub. hskip. cbn. lia. }
    intros off _ L. hsub. hskip. unfold subspan2. destruct (_ && _) eqn:C; [cbn [halts ms_len]; lia|exact I]. }
  apply halts_both; [exact (halts_ne _ _ H)|]. intros c E. split; [exact (child_wfs v c W (idx_child v i c W E))|]. exact (halts_ok _ _ _ H E).
Qed.
Lemma key_halts v k : wfs v -> halts (fun c => wfs c /\ ms_len c < ms_len v) (mp_key v k).
Proof.
  intros W. assert (H : halts (fun c => ms_len c < ms_len v) (mp_key v k)).
  { unfold mp_key. hb (apply is_halts). apply halts_req. intros _. hb (apply map_halts, W). destruct a0 as [n o]. cbn [fst snd] in *.
    eapply (halts_bind (either (fun off => 1 <= off) (fun c => ms_len c < ms_len v))); [|intros [s|c] _ E; [exact I|exact E]]. apply halts_zloop; [|lia].
    intros off L. hsub. hskip. hfirst. hsub. hskip. hb (apply keyis_halts). apply halts_if; intros _; [|cbn; lia]. hfirst. cbn. lia. }
  apply halts_both; [exact (halts_ne _ _ H)|]. intros c E. split; [exact (child_wfs v c W (key_child v k c W E))|]. exact (halts_ok _ _ _ H E).
Qed.

(** The key iterator walks the same entries that end() has walked: it arrives. *)
Lemma keys_arrive v N end_off : wfs v -> forall n i off acc, i + Z.of_nat n = N -> 1 <= off ->
  nloop (R := unit) n (fun off => w <- subspan v off ;; ks <- skip w ;; w2 <- subspan v (off + ks) ;; vs <- skip w2 ;; Ok (inl (off + ks + vs))) off = Ok (inl end_off) ->
  halts (either (fun _ => False) any)
    (nloop (Datatypes.S n) (fun s => let '(i, off, acc) := s in
            if (i =? N) && (off =? end_off) then Ok (inr (rev acc)) else w <- mk_deref v off ;; off' <- mk_incr v off ;; Ok (inl (i + 1, off', w :: acc))) (i, off, acc)).
Proof.
  intros W. match goal with |- context [nloop (Datatypes.S _) ?F _] => set (body := F) end.
  induction n as [|n IH]; intros i off acc HI L E.
  - cbn [nloop] in E. injection E as <-. cbn [nloop]. unfold body. replace ((i =? N) && (off =? off)) with true by lia. exact I.
  - change (nloop (Datatypes.S (Datatypes.S n)) body (i, off, acc)) with
      (x <- body (i, off, acc) ;; match x with inl s' => nloop (Datatypes.S n) body s' | inr r => Ok (inr r) end).
    unfold body at 1. replace (i =? N) with false by lia. cbn [andb].
    cbn [nloop] in E. destruct (subspan v off) as [kspan| | |] eqn:E1; cbn [bind] in E; try discriminate.
    destruct (skip kspan) as [ksz| | |] eqn:E2; cbn [bind] in E; try discriminate.
    destruct (subspan v (off + ksz)) as [vspan| | |] eqn:E3; cbn [bind] in E; try discriminate.
    destruct (skip vspan) as [vsz| | |] eqn:E4; cbn [bind] in E; try discriminate.
    destruct (wfs_sub v off kspan W ltac:(lia) E1) as (W1 & _). pose proof (skip_nonneg _ _ W1 E2). destruct (wfs_sub v (off + ksz) vspan W ltac:(lia) E3) as (W3 & _). pose proof (skip_nonneg _ _ W3 E4).
    unfold mk_deref. rewrite E1. cbn [bind]. rewrite E2. cbn [bind].
    destruct (first kspan ksz) as [kd|?| |] eqn:E5; cbn [bind]; try exact I; [|unfold first in E5; destruct (_ <=? _); discriminate E5].
    pose proof (str_halts kd) as HS. destruct (mp_asStringView kd) as [w|?| |] eqn:E6; cbn [bind]; try exact I; [|destruct HS].
    unfold mk_incr. rewrite E1. cbn [bind]. rewrite E2. cbn [bind]. rewrite E3. cbn [bind]. rewrite E4. cbn [bind].
    rewrite Z.add_assoc. apply IH; [lia|lia|exact E].
Qed.
Lemma keys_halts v : wfs v -> halts any (mp_keys v).
Proof.
  intros W. unfold mp_keys. hb (apply is_halts). apply halts_req. intros _. hb (apply map_halts, W). destruct a0 as [n o]. cbn [fst snd] in *.
  assert (PH : halts any (skip_pairs skip v n o)).
  { unfold skip_pairs. eapply (halts_bind (either (fun off => 1 <= off) any)); [|intros [s|?] _ E; exact I]. apply halts_zloop; [|lia]. intros off L. hsub. hskip. hsub. hskip. cbn. lia. }
  hb (exact PH). match goal with H : skip_pairs skip v n o = Ok ?e |- _ => rename H into EP; set (end_off := e) in * end.
  unfold skip_pairs in EP. rewrite zloop_nloop in EP. rewrite zloop_nloop. replace (Z.to_nat (n + 1)) with (Datatypes.S (Z.to_nat n)) by lia.
  eapply (halts_bind (either (fun _ => False) any)); [|intros [s|r] _ K; [destruct K|exact I]].
  apply keys_arrive; [exact W|lia|lia|]. match type of EP with bind ?m _ = _ => destruct m as [[s|[]]|?| |]; cbn [bind] in EP; try discriminate EP end. injection EP as ->. reflexivity.
Qed.

Theorem msgpack_answers v : wfs v -> answers mp_reader v.
Proof.
  intros W. constructor; intros; apply (halts_ne any); cbn [mp_reader r_isNull r_isBool r_isInt r_isUInt r_isFloat r_isString r_isBlob r_isMap r_isArray r_asBool r_asInt r_asUInt r_asDouble r_asStringView r_asBlob r_arraySize r_mapKeys r_idx r_key];
    try apply is_halts.
  - unfold mp_asBool, mp_is. mh.
  - apply int_halts.
  - apply uint_halts.
  - unfold mp_asDouble, mp_is. mh.
  - hb (apply str_halts). mh.
  - hb (apply bin_halts). mh.
  - unfold mp_arraySize. hb (apply arr_halts). destruct a. exact I.
  - hb (apply keys_halts, W). apply rdviews_halts.
  - eapply halts_any, idx_halts, W.
  - eapply halts_any, key_halts, W.
Qed.
