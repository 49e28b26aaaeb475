(** ZeraTheorems.v -- ZERA writer and reader together. *)

From Coq Require Import ZArith List Bool Lia ZifyBool ZifyNat.
From Verif Require Import Base BaseFacts Spec SpecFacts ZeraModel ZeraFacts ZeraRep ZeraSpec ZeraSim
  ZeraMain ZeraRun.
Import ListNotations.
Open Scope Z_scope.
Ltac Zify.zify_post_hook ::= Z.div_mod_to_equations.

(** ** Runs *)
Lemma run_sim_thr t es : Forall ev_ok es -> forall a s, zsim a s ->
  zsim (fst (run amachine a es)) (fst (run (zera_writer_thr t) s es)) /\
  snd (run amachine a es) = snd (run (zera_writer_thr t) s es).
Proof.
  induction 1 as [|e es He Hes IH]; intros a s H; cbn [run]; [auto|].
  pose proof (step_sim a s e He H) as [S1 S2]. cbn [w_step zera_writer_thr amachine].
  destruct (astep a e) as [a1 r1], (zw_step s e) as [s1 r2]. cbn [fst snd] in S1, S2. subst r2.
  destruct r1 as [[]|x| |]; auto.
Qed.

Lemma run_thr_12 s es : run zera_writer s es = run (zera_writer_thr 12) s es.
Proof.
  revert s; induction es as [|e es IH]; intros s; cbn [run zera_writer zera_writer_thr w_step]; [reflexivity|].
  destruct (zw_step s e) as [s1 [u|x| |]]; auto.
Qed.

Lemma zsim_init_thr t : 0 <= t <= 12 ->
  zsim (mkA [] None 0 0 t) (w_init (zera_writer_thr t)).
Proof.
  intros H. cbn [w_init zera_writer_thr]. unfold set_inline_string_threshold, InlineMax.
  replace (12 <? t) with false by lia. cbn [fst].
  pose proof zsim_init as [E A T F R]. split; cbn in *; auto.
Qed.

(** ** The calls of one value, then finish() *)
Lemma thr_calls t v es : 0 <= t <= 12 -> calls v es -> Forall ev_ok es ->
  let W := zera_writer_thr t in
  match run W (w_init W) es with
  | (s, Ok _) =>
      fits_thr t v /\ (exists b w, snd (w_finish W s) = Ok b /\ zera_open b = Ok w /\ shows zera_reader ideal w v) \/
      ~ fits_thr t v /\ snd (w_finish W s) = Throw ESer
  | (s, Throw e) => ok_exn es e /\ ~ (fits_thr t v /\ Forall hint_ok es)
  | _ => False
  end.
Proof.
  intros Ht C E W. pose proof (run_sim_thr t es E _ _ (zsim_init_thr t Ht)) as [S1 S2].
  pose proof (run_finish v es t _ C eq_refl) as F. fold W in S1, S2.
  destruct (run amachine (mkA [] None 0 0 t) es) as [a' r], (run W (w_init W) es) as [s r'].
  cbn [fst snd] in *. subst r'. destruct r as [[]|e| |]; auto.
  destruct F as (_ & _ & [[F1 F2]|[F1 F2]]).
  - left. split; [exact F2|]. exact (finish_shows _ _ _ S1 F1).
  - right. split; [exact F2|]. destruct (finish_sim _ _ S1) as [_ G]. rewrite F1 in G. exact G.
Qed.

Lemma fits_hints t v : fits_thr t v -> Forall hint_ok (events v).
Proof.
  intros (_ & F & _). apply events_hints. unfold arena_ofs_of, env_size_of in F.
  pose proof (up16_le (20 + (env_need v + 16))). unfold u32_max in F. lia.
Qed.

Lemma serialize_thr t v : 0 <= t <= 12 -> val_ok v ->
  (fits_thr t v /\ exists b w, serialize (zera_writer_thr t) v = Ok b /\ zera_open b = Ok w /\
                               shows zera_reader ideal w v) \/
  (~ fits_thr t v /\ exists e, serialize (zera_writer_thr t) v = Throw e /\
                               (e = ESer \/ e = ELength /\ ~ Forall hint_ok (events v))).
Proof.
  intros Ht V. pose proof (thr_calls t v (events v) Ht (events_calls v) (events_ev_ok v V)) as F.
  cbv zeta in F. unfold serialize.
  destruct (run (zera_writer_thr t) (w_init (zera_writer_thr t)) (events v)) as [s [u|e| |]]; try contradiction.
  - destruct F as [F|[F1 F2]]; [left; exact F|right; eauto].
  - right. destruct F as [OK N]. split; [|exists e; auto].
    intros F. apply N. split; [exact F|]. eapply fits_hints; eauto.
Qed.

Lemma serialize_12 v : serialize zera_writer v = serialize (zera_writer_thr 12) v.
Proof. unfold serialize. change (w_init zera_writer) with (w_init (zera_writer_thr 12)). now rewrite run_thr_12. Qed.

(** ** Everything the writer holds is bytes *)
Definition ctx_bytes (c : zctx) : bytes := match c with CArr p _ => p | CMap p _ _ => p end.
Definition wbytes (s : zwst) : Prop :=
  bytes_ok (zw_env s) /\ bytes_ok (zw_arena s) /\ Forall (fun c => bytes_ok (ctx_bytes c)) (zw_st s).
Definition keeps {A} (m : wr A) : Prop := forall s, wbytes s -> wbytes (fst (m s)).

Lemma keeps_bind {A B} (m : wr A) (f : A -> wr B) : keeps m -> (forall a, keeps (f a)) -> keeps (wbind m f).
Proof.
  intros H1 H2 s Hs. unfold wbind. specialize (H1 s Hs). destruct (m s) as [s' [a|e| |]]; cbn [fst] in *; auto.
  now apply H2.
Qed.
Lemma bytes_ok_zeros n : bytes_ok (zeros n).
Proof. unfold zeros, bytes_ok. apply Forall_forall. intros x H. apply repeat_spec in H. subst. unfold is_byte. lia. Qed.
Lemma bytes_ok_firstn n (l : bytes) : bytes_ok l -> bytes_ok (firstn n l).
Proof. unfold bytes_ok. intros H. rewrite <- (firstn_skipn n l) in H. apply Forall_app in H. tauto. Qed.
Lemma bytes_ok_skipn n (l : bytes) : bytes_ok l -> bytes_ok (skipn n l).
Proof. unfold bytes_ok. intros H. rewrite <- (firstn_skipn n l) in H. apply Forall_app in H. tauto. Qed.
Lemma bytes_ok_overwrite o p l o' : bytes_ok o -> bytes_ok l -> overwrite o p l = Ok o' -> bytes_ok o'.
Proof.
  unfold overwrite. destruct ((0 <=? p) && (p + zlen l <=? zlen o)); [|discriminate].
  intros H1 H2 E. inversion E. subst. rewrite !bytes_ok_app.
  auto using bytes_ok_firstn, bytes_ok_skipn.
Qed.
Lemma bytes_ok_make_vr t f x a b c : is_byte t -> is_byte f -> bytes_ok (make_vr t f x a b c).
Proof.
  intros H1 H2. unfold make_vr. rewrite !bytes_ok_app.
  split; [repeat (constructor; auto)|].
  auto 10 using bytes_ok_u16_le, bytes_ok_u32_le.
Qed.

Lemma keeps_append l : bytes_ok l -> keeps (append_env_payload l).
Proof.
  intros H s (A & B & C). unfold append_env_payload. destruct (u32_max <? zlen (zw_env s)); cbn [fst].
  - repeat split; auto.
  - unfold wbytes. cbn [set_env zw_env zw_arena zw_st]. rewrite bytes_ok_app. auto.
Qed.
Lemma keeps_alloc n al : keeps (arena_alloc n al).
Proof.
  intros s (A & B & C). unfold arena_alloc.
  match goal with |- wbytes (fst (if ?x then _ else if ?y then _ else _)) => destruct x, y end; cbn [fst];
  unfold wbytes; cbn [set_arena zw_env zw_arena zw_st]; rewrite bytes_ok_app;
  (split; [auto|split; [|auto]]); (split; [|apply bytes_ok_zeros]);
  match goal with |- bytes_ok (if ?x then _ else _) => destruct x end; auto;
  rewrite bytes_ok_app; auto using bytes_ok_zeros.
Qed.
Lemma keeps_store o l : bytes_ok l -> keeps (arena_store o l).
Proof.
  intros H s (A & B & C). unfold arena_store. destruct (overwrite (zw_arena s) o l) eqn:E; cbn [fst];
    try (repeat split; auto; fail).
  unfold wbytes. cbn [set_arena zw_env zw_arena zw_st]. split; [auto|]. split; [|auto].
  eapply bytes_ok_overwrite; [exact B| |exact E]. exact H.
Qed.
Lemma keeps_deliver vr : bytes_ok vr -> keeps (deliver_vr vr).
Proof.
  intros H s (A & B & C). unfold deliver_vr. destruct (zw_st s) as [|[p n|p n [at_|]] st] eqn:E.
  - unfold write_root_vr. destruct (zw_root s); [cbn [fst]; unfold wbytes; rewrite E; auto|].
    apply keeps_bind; [now apply keeps_append| |].
    + intros o s' (A' & B' & C'). cbn [fst]. unfold wbytes. cbn. auto.
    + unfold wbytes. rewrite E. auto.
  - cbn [fst]. unfold wbytes. cbn [set_st zw_env zw_arena zw_st]. inversion C; subst.
    split; [auto|]. split; [auto|]. constructor; [|auto]. cbn [ctx_bytes] in *. rewrite bytes_ok_app. auto.
  - destruct (zlen p <? at_ + 16); [cbn [fst]; unfold wbytes; rewrite E; auto|].
    inversion C; subst. cbn [ctx_bytes] in *.
    destruct (overwrite p at_ vr) eqn:E2; cbn [fst]; unfold wbytes; cbn [set_st zw_env zw_arena zw_st]; rewrite ?E; auto.
    split; [auto|]. split; [auto|]. constructor; [|auto]. cbn [ctx_bytes].
    eapply bytes_ok_overwrite; [| |exact E2]; auto.
  - cbn [fst]. unfold wbytes. rewrite E. auto.
Qed.
Lemma bytes_ok_shape n : bytes_ok (shape_rank1 n).
Proof.
  unfold shape_rank1. rewrite bytes_ok_app. split; [repeat constructor; unfold is_byte; lia|].
  unfold bytes_ok. apply Forall_map, Forall_forall. intros x _. unfold is_byte. rewrite land_255. lia.
Qed.

Ltac vr_bytes := apply bytes_ok_make_vr; unfold is_byte, TNull, TBool, TI64, TU64, TF64, TString, TArray, TObject, TTyped; lia.

Lemma keeps_step e : ev_ok e -> keeps (fun s => zw_step s e).
Proof.
  intros He. destruct e; cbn [zw_step];
    try (intros s Hs; apply keeps_deliver; [vr_bytes|exact Hs]).
  - intros st Hs. unfold zw_string. destruct (zlen s <=? Z.min (zw_thr st) InlineMax).
    + destruct (overwrite (make_vr TString 1 (wrap16 (zlen s)) 0 0 0) 4 s) eqn:E; cbn [fst]; auto.
      apply keeps_deliver; [|exact Hs]. eapply bytes_ok_overwrite; [| |exact E]; [vr_bytes|exact He].
    + destruct (u32_max <? zlen s); [exact Hs|].
      revert st Hs. apply keeps_bind; [apply keeps_alloc|]. intros o.
      apply keeps_bind; [now apply keeps_store|]. intros _. apply keeps_deliver. vr_bytes.
  - intros st Hs. unfold zw_binary. destruct (u32_max <? zlen b); [exact Hs|].
    revert st Hs. apply keeps_bind; [apply keeps_alloc|]. intros o.
    apply keeps_bind; [now apply keeps_store|]. intros _.
    apply keeps_bind; [apply keeps_append, bytes_ok_shape|]. intros so. apply keeps_deliver. vr_bytes.
  - intros st (A & B & C). unfold zw_key. destruct (zw_st st) as [|[p n|p n [at_|]] r] eqn:E;
      try (cbn [fst]; unfold wbytes; rewrite E; auto; fail).
    destruct (u16_max <? zlen k); [cbn [fst]; unfold wbytes; rewrite E; auto|].
    cbn [fst]. unfold wbytes. cbn [set_st zw_env zw_arena zw_st]. inversion C; subst.
    split; [auto|]. split; [auto|]. constructor; [|auto]. cbn [ctx_bytes] in *.
    rewrite !bytes_ok_app. auto 10 using bytes_ok_u16_le, bytes_ok_zeros.
  - intros st (A & B & C). unfold zw_begin_array.
    destruct (reserve_ok (wrap64 (4 + wrap64 (n * 16)))); cbn [fst]; unfold wbytes; auto.
    cbn [set_st zw_env zw_arena zw_st]. split; [auto|]. split; [auto|]. constructor; [|auto]. apply bytes_ok_u32_le.
  - intros st (A & B & C). unfold zw_end_array. destruct (zw_st st) as [|[p n|p n [at_|]] r] eqn:E;
      try (cbn [fst]; unfold wbytes; rewrite E; auto; fail).
    inversion C; subst. cbn [ctx_bytes] in *.
    assert (Hs : wbytes (set_st st r)) by (unfold wbytes; auto).
    destruct (u32_max <? n); [exact Hs|]. unfold patch_count.
    destruct (zlen p <? 4); [exact Hs|]. revert Hs. generalize (set_st st r). intros s Hs.
    apply (keeps_bind (append_env_payload (u32_le n ++ skipn 4 p))); auto.
    + apply keeps_append. rewrite bytes_ok_app. auto using bytes_ok_u32_le, bytes_ok_skipn.
    + intros o. apply keeps_deliver. vr_bytes.
  - intros st (A & B & C). unfold zw_begin_map.
    destruct (reserve_ok (wrap64 (4 + wrap64 (n * 28)))); cbn [fst]; unfold wbytes; auto.
    cbn [set_st zw_env zw_arena zw_st]. split; [auto|]. split; [auto|]. constructor; [|auto]. apply bytes_ok_u32_le.
  - intros st (A & B & C). unfold zw_end_map. destruct (zw_st st) as [|[p n|p n [at_|]] r] eqn:E;
      try (cbn [fst]; unfold wbytes; rewrite E; auto; fail).
    + inversion C; subst. cbn [fst]. unfold wbytes. cbn [set_st zw_env zw_arena zw_st].
      split; [auto|]. split; [auto|]. constructor; [constructor|auto].
    + inversion C; subst. cbn [ctx_bytes] in *.
      assert (Hs : wbytes (set_st st r)) by (unfold wbytes; auto).
      unfold patch_count.
      destruct (zlen p <? 4); [exact Hs|]. revert Hs. generalize (set_st st r). intros s Hs.
      apply (keeps_bind (append_env_payload (u32_le n ++ skipn 4 p))); auto.
      * apply keeps_append. rewrite bytes_ok_app. auto using bytes_ok_u32_le, bytes_ok_skipn.
      * intros o. apply keeps_deliver. vr_bytes.
Qed.

Lemma keeps_run (W : writer zwst bytes) es : w_step W = zw_step -> Forall ev_ok es -> keeps (fun s => run W s es).
Proof.
  intros EW. induction 1 as [|e es He Hes IH]; intros s Hs; cbn [run]; [exact Hs|].
  rewrite EW. pose proof (keeps_step e He s Hs) as K. cbv beta in K.
  destruct (zw_step s e) as [s1 [u|x| |]]; cbn [fst] in *; auto.
Qed.
Lemma keeps_run_catch es : Forall ev_ok es -> forall s, wbytes s -> wbytes (fst (run_catch zera_writer s es)).
Proof.
  induction 1 as [|e es He Hes IH]; intros s Hs; cbn [run_catch]; [exact Hs|].
  pose proof (keeps_step e He s Hs) as K. cbv beta in K. cbn [w_step zera_writer].
  destruct (zw_step s e) as [s1 r]; cbn [fst] in *. specialize (IH s1 K).
  destruct (run_catch zera_writer s1 es) as [s2 rs]. exact IH.
Qed.

Lemma bytes_ok_le_bytes n z : bytes_ok (le_bytes n z).
Proof.
  unfold le_bytes, bytes_ok. apply Forall_map, Forall_forall. intros x _. unfold is_byte. lia.
Qed.
Lemma bytes_ok_layout root env arena : bytes_ok env -> bytes_ok arena -> bytes_ok (zera_layout root env arena).
Proof.
  intros H1 H2. unfold zera_layout. rewrite !bytes_ok_app.
  repeat split; auto using bytes_ok_le_bytes, bytes_ok_zeros.
  - repeat constructor; unfold is_byte; lia.
  - apply bytes_ok_zeros.
Qed.

(** ** Where the root ValueRef is *)
Definition root_last (s : zwst) : Prop :=
  forall r, zw_root s = Some r -> zw_st s = [] -> r + 16 = zlen (zw_env s).

Lemma root_last_deliver vr s : zlen vr = 16 -> (zw_root s = None \/ zw_st s <> []) ->
  root_last (fst (deliver_vr vr s)).
Proof.
  intros L H r. unfold deliver_vr. destruct (zw_st s) as [|[p n|p n [at_|]] st] eqn:E.
  - destruct H as [H|H]; [|congruence]. unfold write_root_vr, wbind, append_env_payload. rewrite H.
    destruct (u32_max <? zlen (zw_env s)) eqn:EU; cbn [fst zw_root zw_env zw_st set_env set_root].
    + rewrite H. discriminate.
    + intros R _. inversion R. rewrite zlen_app, L.
      pose proof (zlen_nonneg (zw_env s)). unfold u32_max in EU. rewrite wrap32_small; lia.
  - cbn. discriminate.
  - destruct (zlen p <? at_ + 16); [cbn [fst]; rewrite E; discriminate|].
    destruct (overwrite p at_ vr); cbn [fst set_st zw_st]; rewrite ?E; discriminate.
  - cbn [fst]. rewrite E. discriminate.
Qed.

(** A delivery at root level with the root already present is rejected. *)
Lemma deliver_root_some vr s r : zw_st s = [] -> zw_root s = Some r -> deliver_vr vr s = (s, Throw ESer).
Proof. intros A B. unfold deliver_vr, write_root_vr. now rewrite A, B. Qed.

Lemma deliver_ok_pre vr s s' : deliver_vr vr s = (s', Ok tt) -> zw_root s = None \/ zw_st s <> [].
Proof.
  intros D. destruct (zw_root s) eqn:R; [|now left]. right. intros E.
  rewrite (deliver_root_some _ _ _ E R) in D. discriminate.
Qed.
Lemma root_last_deliver_ok vr s s' : zlen vr = 16 -> deliver_vr vr s = (s', Ok tt) -> root_last s'.
Proof.
  intros L D. pose proof (root_last_deliver vr s L (deliver_ok_pre _ _ _ D)) as H. now rewrite D in H.
Qed.

Lemma wbind_ok {A B} (m : wr A) (f : A -> wr B) s s' b : wbind m f s = (s', Ok b) ->
  exists s1 a, m s = (s1, Ok a) /\ f a s1 = (s', Ok b).
Proof. unfold wbind. destruct (m s) as [s1 [a|e| |]]; intros; try discriminate. eauto. Qed.

Lemma zlen_overwrite o p l o' : overwrite o p l = Ok o' -> zlen o' = zlen o.
Proof.
  unfold overwrite. destruct ((0 <=? p) && (p + zlen l <=? zlen o)) eqn:E; [|discriminate].
  intros H. inversion H. unfold zlen in *. rewrite !app_length, firstn_length, skipn_length. lia.
Qed.

Lemma root_last_step e s s' : root_last s -> zw_step s e = (s', Ok tt) -> root_last s'.
Proof.
  intros J H. destruct e; cbn [zw_step] in H;
    try (eapply root_last_deliver_ok; [|exact H]; apply zlen_make_vr).
  - unfold zw_string in H. destruct (zlen s0 <=? Z.min (zw_thr s) InlineMax).
    + destruct (overwrite (make_vr TString 1 (wrap16 (zlen s0)) 0 0 0) 4 s0) eqn:E; try discriminate.
      eapply root_last_deliver_ok; [|exact H]. rewrite (zlen_overwrite _ _ _ _ E). apply zlen_make_vr.
    + destruct (u32_max <? zlen s0); [discriminate|].
      apply wbind_ok in H. destruct H as (s1 & o & H1 & H). apply wbind_ok in H. destruct H as (s2 & o2 & H2 & H).
      eapply root_last_deliver_ok; [|exact H]; apply zlen_make_vr.
  - unfold zw_binary in H. destruct (u32_max <? zlen b); [discriminate|].
    apply wbind_ok in H. destruct H as (s1 & o & H1 & H). apply wbind_ok in H. destruct H as (s2 & o2 & H2 & H).
    apply wbind_ok in H. destruct H as (s3 & o3 & H3 & H).
    eapply root_last_deliver_ok; [|exact H]; apply zlen_make_vr.
  - unfold zw_key in H. destruct (zw_st s) as [|[p n|p n [at_|]] st] eqn:E; try discriminate.
    destruct (u16_max <? zlen k); [discriminate|]. inversion H. intros r _. discriminate.
  - unfold zw_begin_array in H. destruct (reserve_ok (wrap64 (4 + wrap64 (n * 16)))); inversion H.
    intros r _. discriminate.
  - unfold zw_end_array in H. destruct (zw_st s) as [|[p n|p n [at_|]] st] eqn:E; try discriminate.
    destruct (u32_max <? n); [discriminate|]. unfold patch_count in H. destruct (zlen p <? 4); [discriminate|].
    apply wbind_ok in H. destruct H as (s1 & o & H1 & H).
    eapply root_last_deliver_ok; [|exact H]; apply zlen_make_vr.
  - unfold zw_begin_map in H. destruct (reserve_ok (wrap64 (4 + wrap64 (n * 28)))); inversion H.
    intros r _. discriminate.
  - unfold zw_end_map in H. destruct (zw_st s) as [|[p n|p n [at_|]] st] eqn:E; try discriminate.
    unfold patch_count in H. destruct (zlen p <? 4); [discriminate|].
    apply wbind_ok in H. destruct H as (s1 & o & H1 & H).
    eapply root_last_deliver_ok; [|exact H]; apply zlen_make_vr.
Qed.

Lemma root_last_run (W : writer zwst bytes) es : w_step W = zw_step -> forall s s', root_last s -> run W s es = (s', Ok tt) -> root_last s'.
Proof.
  intros EW. induction es as [|e es IH]; intros s s' J H; cbn [run] in H; [inversion H; now subst|].
  rewrite EW in H. destruct (zw_step s e) as [s1 [[]|x| |]] eqn:E; try discriminate.
  eapply IH; [|exact H]. eapply root_last_step; eauto.
Qed.

(** finish() does not change a writer that has a root, and encodes exactly its env, arena and root. *)
Lemma finish_bytes s b : snd (zw_finish s) = Ok b -> forall r, zw_root s = Some r ->
  fst (zw_finish s) = s /\ b = zera_layout r (zw_env s) (zw_arena s) /\ zw_st s = [].
Proof.
  intros H r R. unfold zw_finish in *. destruct (zw_st s) eqn:E; [|discriminate].
  rewrite R in *. unfold wbind, wret in *.
  destruct (u32_max <? zlen (zw_env s)) eqn:E1; [discriminate|].
  destruct (u32_max <? zlen (zw_arena s)) eqn:E2; [discriminate|].
  destruct (u32_max <? align_up (HeaderSize + wrap32 (zlen (zw_env s))) ArenaBaseAlign) eqn:E3; [discriminate|].
  cbn [fst snd] in *. split; [reflexivity|]. split; [|reflexivity].
  rewrite R in H. pose proof (zlen_nonneg (zw_env s)) as N.
  rewrite (wrap32_small (zlen (zw_env s))) in * by (unfold u32_max in *; lia).
  change HeaderSize with 20 in H, E3. change ArenaBaseAlign with 16 in *. rewrite up16_align in * by lia.
  pose proof (up16_ge (20 + zlen (zw_env s))) as UG.
  rewrite (wrap32_small (up16 (20 + zlen (zw_env s)))) in * by (unfold u32_max in *; lia).
  pose proof (finish_out r (zw_env s) (zw_arena s)) as FO. cbv zeta in FO. change HeaderSize with 20 in FO. rewrite FO in H by lia. now inversion H.
Qed.

Lemma thr_layout t v es s b : 0 <= t <= 12 -> calls v es -> Forall ev_ok es ->
  run (zera_writer_thr t) (w_init (zera_writer_thr t)) es = (s, Ok tt) ->
  snd (zw_finish s) = Ok b ->
  exists env arena, b = zera_layout (zlen env - 16) env arena /\
    zlen env = env_size_of v /\ zlen arena = arena_after t 0 v /\ bytes_ok b.
Proof.
  intros Ht C EO R F.
  pose proof (run_sim_thr t es EO _ _ (zsim_init_thr t Ht)) as [S1 S2].
  pose proof (run_finish v es t _ C eq_refl) as G.
  rewrite R in S1, S2. destruct (run amachine (mkA [] None 0 0 t) es) as [a' r]. cbn [fst snd] in *. subst r.
  destruct G as (Ea & _ & _). subst a'. pose proof S1 as [Z1 Z2 _ _ ZR]. cbn [a_env a_arena a_root] in *.
  unfold root_rel in ZR. destruct (zw_root s) as [r|] eqn:ER; [|contradiction].
  destruct (finish_bytes s b F r ER) as (_ & -> & Est).
  assert (J : root_last s).
  { eapply root_last_run; [|  |exact R]; [reflexivity|]. intros r0.
    cbn [w_init zera_writer_thr]. unfold set_inline_string_threshold. destruct (InlineMax <? t); discriminate. }
  specialize (J r ER Est).
  exists (zw_env s), (zw_arena s). replace (zlen (zw_env s) - 16) with r by lia.
  repeat split; auto.
  assert (WB : wbytes s).
  { pose proof (keeps_run (zera_writer_thr t) es eq_refl EO (w_init (zera_writer_thr t))) as K.
    cbv beta in K. rewrite R in K. cbn [fst] in K. apply K.
    cbn [w_init zera_writer_thr]. unfold set_inline_string_threshold.
    destruct (InlineMax <? t); repeat split; constructor. }
  destruct WB as (W1 & W2 & _). now apply bytes_ok_layout.
Qed.

(** ** Navigation stays inside the written value *)
Definition at_val (env arena : bytes) (v : zview) (x : val) : Prop :=
  zframe v env arena /\ exists vr, vr_at v vr /\ vrep env arena vr x.

Lemma at_val_shows env arena v x : at_val env arena v x -> shows zera_reader ideal v x.
Proof. intros (F & vr & A & R). eapply vrep_shows; eauto. Qed.

Lemma shows_not_arr v x i w : shows zera_reader ideal v x -> 0 <= i < 2^64 -> zv_idx v i = Ok w ->
  exists l, x = VArr l /\ i < zlen l.
Proof.
  intros S Hi E. destruct x;
    try (rewrite shows_leaf in S by exact I; destruct S as (_ & _ & S & _); specialize (S i Hi);
         cbn [r_idx zera_reader] in S; congruence).
  - rewrite shows_arr in S. destruct S as (_ & _ & S & _). exists l. split; [reflexivity|].
    destruct (Z.lt_ge_cases i (zlen l)) as [L|L]; [exact L|]. specialize (S i ltac:(lia)).
    cbn [r_idx zera_reader] in S. congruence.
  - rewrite shows_map in S. destruct S as (_ & _ & _ & _ & _ & _ & S). specialize (S i Hi).
    cbn [r_idx zera_reader] in S. congruence.
Qed.
Lemma shows_not_map v x k w : shows zera_reader ideal v x -> bytes_ok k -> zv_key v k = Ok w ->
  exists l, x = VMap l /\ existsb (beq k) (map fst l) = true.
Proof.
  intros S Hk E. destruct x;
    try (rewrite shows_leaf in S by exact I; destruct S as (_ & _ & _ & S & _); specialize (S k);
         cbn [r_key zera_reader] in S; congruence).
  - rewrite shows_arr in S. destruct S as (_ & _ & _ & _ & S & _). specialize (S k).
    cbn [r_key zera_reader] in S. congruence.
  - rewrite shows_map in S. destruct S as (_ & _ & _ & S & _). exists l. split; [reflexivity|].
    destruct (existsb (beq k) (map fst l)) eqn:X; [reflexivity|]. specialize (S k Hk X).
    cbn [r_key zera_reader] in S. congruence.
Qed.

Lemma at_val_idx env arena v l i w : at_val env arena v (VArr l) -> 0 <= i -> zv_idx v i = Ok w ->
  exists x, nth_error l (Z.to_nat i) = Some x /\ at_val env arena w x.
Proof.
  intros (F & vr & H & R) Hi E. inversion R as [| | | | | | | |l0 vrs ofs Hl Ho Hh HF|]; subst.
  unfold u32_max in *. pose proof (zlen_nonneg l) as Hl0.
  pose proof (vrep_all16 _ _ _ _ HF) as H16. pose proof (Forall2_zlen _ _ _ HF) as HL.
  pose proof (zlen_concat16 _ H16) as HC.
  pose proof (has_bound _ _ _ Hh) as [B1 B2]. rewrite zlen_app, zlen_u32_le, HC, HL in B2.
  destruct (vr_fields _ _ _ _ _ _ _ H) as (Ht & Hf & Hx & Ha & Hb & Hc); try (unfold u16r, u32r; lia).
  pose proof (zf_env_size _ _ _ F) as ES. pose proof (zf_env_max _ _ _ F) as EM. unfold u32_max in EM.
  assert (Hs : has (zv_buf v) (HeaderSize + ofs) (u32_le (zlen l) ++ concat vrs)).
  { eapply has_trans; eauto. apply (zf_env _ _ _ F). }
  rewrite has_app in Hs. destruct Hs as [Hcnt Hvrs]. rewrite zlen_u32_le in Hvrs.
  unfold zv_idx, require_flags_ok, require in E. rewrite Ht, Hf, Ha in E.
  cbn [bind] in E. change (TArray =? TArray) with true in E. change (TArray =? TString) with false in E.
  change (0 =? 0) with true in E. cbn [bind] in E. rewrite env_ptr_ok in E by lia. cbn [bind] in E.
  rewrite (read_u32_le_has _ _ (zlen l)) in E by (auto; lia). cbn [bind] in E.
  destruct (i <? zlen l) eqn:EL; cbn [bind] in E; [|discriminate].
  rewrite wrap32_small in E by lia. rewrite env_ptr_ok in E by lia. cbn [bind] in E.
  assert (w = zv_child v (HeaderSize + (ofs + 4 + 16 * i))) as -> by congruence.
  assert (exists pre vr x post l1 l2, vrs = pre ++ vr :: post /\ l = l1 ++ x :: l2 /\ zlen pre = i /\ zlen l1 = i /\
            vrep env arena vr x) as (pre & vr & x & post & l1 & l2 & -> & -> & P1 & P2 & P3).
  { clear - HF EL Hi. assert (Hn : (Z.to_nat i < length l)%nat) by (unfold zlen in EL; lia).
    remember (Z.to_nat i) as n eqn:En. assert (i = Z.of_nat n) by lia. subst i. clear En EL Hi.
    revert n Hn; induction HF as [|y z l1 l2 HR HF IH]; intros n Hn; cbn in Hn; [lia|].
    destruct n as [|n].
    - exists [], y, z, l1, [], l2. cbn. auto.
    - destruct (IH n ltac:(lia)) as (pre & vr & x & post & m1 & m2 & A & B & C & D & G).
      exists (y :: pre), vr, x, post, (z :: m1), m2. subst. rewrite !zlen_cons, C, D.
      repeat split; auto; lia. }
  exists x. split.
  - rewrite nth_error_app2; unfold zlen in P2; [|lia]. replace (Z.to_nat i - length l1)%nat with 0%nat by lia. reflexivity.
  - split; [now apply zframe_child|]. exists vr. split; [|exact P3].
    rewrite concat_app in Hvrs. cbn [concat] in Hvrs.
    rewrite has_app in Hvrs. destruct Hvrs as [Hv1 Hv2].
    rewrite has_app in Hv2. destruct Hv2 as [Hv2 _].
    rewrite Forall_app in H16. rewrite zlen_concat16 in Hv2 by tauto. rewrite P1 in Hv2.
    eexists; split; [reflexivity|]. cbn [zv_child zv_buf zv_env_size].
    replace (HeaderSize + (ofs + 4 + 16 * i)) with (HeaderSize + ofs + 4 + 16 * i) by lia.
    split; [exact Hv2|]. pose proof (vrep_len _ _ _ _ P3). unfold HeaderSize. lia.
Qed.

Lemma find_ofs_some key : forall es ofs p, es_ok es -> find_ofs key ofs es = Some p ->
  exists pre vr post, es = pre ++ (key, vr) :: post /\ existsb (beq key) (map fst pre) = false /\
    p = ofs + zlen (entries pre) + 4 + zlen key.
Proof.
  induction es as [|[k vr] es IH]; intros ofs p Hes H; cbn [find_ofs] in H; [discriminate|].
  inversion Hes as [|x y [Hk Hv] Hes']; subst. cbn [fst snd] in *.
  destruct (beq key k) eqn:E.
  - apply beq_eq in E. subst k. inversion H. exists [], vr, es. cbn. repeat split. lia.
  - destruct (IH _ _ Hes' H) as (pre & vr' & post & A & B & C). subst es p.
    exists ((k, vr) :: pre), vr', post. split; [reflexivity|]. cbn [map fst existsb]. rewrite E, B.
    split; [reflexivity|]. rewrite entries_cons, zlen_app, zlen_entry. cbn [fst snd]. lia.
Qed.

Lemma at_val_key env arena v l k w : at_val env arena v (VMap l) -> zv_key v k = Ok w ->
  exists l1 x l2, l = l1 ++ (k, x) :: l2 /\ existsb (beq k) (map fst l1) = false /\ at_val env arena w x.
Proof.
  intros (F & vr & H & R) E. inversion R as [| | | | | | | | |l0 es ofs Hl Ho Hh HF]; subst.
  unfold u32_max in *. pose proof (zlen_nonneg l) as Hl0. pose proof (Forall2_zlen _ _ _ HF) as HL.
  assert (Hes : es_ok es).
  { clear - HF. induction HF as [|e kx es l (A & B & C) HF IH]; [constructor|]. constructor; [|exact IH].
    cbv beta. rewrite A. split; [exact B|]. eapply vrep_len; eauto. }
  pose proof (has_bound _ _ _ Hh) as [B1 B2]. rewrite zlen_app, zlen_u32_le in B2.
  pose proof (zlen_nonneg (entries es)) as HE0.
  destruct (vr_fields _ _ _ _ _ _ _ H) as (Ht & Hf & Hx & Ha & Hb & Hc); try (unfold u16r, u32r; lia).
  pose proof (zf_env_size _ _ _ F) as ES. pose proof (zf_env_max _ _ _ F) as EM. unfold u32_max in EM.
  rewrite has_app in Hh. destruct Hh as [Hcnt Hent]. rewrite zlen_u32_le in Hent.
  assert (Hc2 : has (zv_buf v) (HeaderSize + ofs) (u32_le (zlen l))).
  { eapply has_trans; eauto. apply (zf_env _ _ _ F). }
  unfold zv_key, require_flags_ok, require in E. rewrite Ht, Hf, Ha in E.
  cbn [bind] in E. change (TObject =? TObject) with true in E. change (TObject =? TString) with false in E.
  change (0 =? 0) with true in E. cbn [bind] in E. rewrite env_ptr_ok in E by lia. cbn [bind] in E.
  rewrite (read_u32_le_has _ _ (zlen l)) in E by (auto; lia). cbn [bind] in E.
  rewrite wrap32_small in E by lia. rewrite <- HL in E.
  pose proof (key_loop v env arena F k es (ofs + 4) Hes Hent) as L.
  unfold key_body in L. unfold require in L. rewrite L in E. clear L.
  destruct (find_ofs k (ofs + 4) es) as [p|] eqn:Ep; cbn [bind] in E; [|discriminate].
  assert (w = zv_child v (HeaderSize + p)) as -> by congruence.
  destruct (find_ofs_some _ _ _ _ Hes Ep) as (pre & vr & post & -> & NB & ->).
  assert (exists l1 x l2, l = l1 ++ (k, x) :: l2 /\ map fst l1 = map fst pre /\ vrep env arena vr x)
    as (l1 & x & l2 & -> & M & RX).
  { clear - HF. apply Forall2_app_inv_l in HF. destruct HF as (l1 & l2 & H1 & H2 & ->).
    inversion H2 as [|e [k' x] l l' (A & B & C) H3]; subst. cbn [fst snd] in *. subst k'.
    exists l1, x, l'. split; [reflexivity|]. split; [|exact C].
    clear - H1. induction H1 as [|e kx es l (A & B & C) HF IH]; cbn [map]; [reflexivity|]. now rewrite A, IH. }
  exists l1, x, l2. rewrite M. split; [reflexivity|]. split; [exact NB|].
  split; [now apply zframe_child|]. exists vr. split; [|exact RX].
  rewrite entries_app, entries_cons in Hent. cbn [fst snd] in Hent.
  rewrite has_app in Hent. destruct Hent as [Hv1 Hv2].
  rewrite has_app in Hv2. destruct Hv2 as [Hv2 _].
  destruct (has_entry _ _ _ _ Hv2) as (_ & _ & Hv4 & Hv3).
  pose proof (has_bound _ _ _ Hv1). pose proof (has_bound _ _ _ Hv3).
  pose proof (has_bound _ _ _ Hv4). pose proof (zlen_nonneg (entries pre)).
  pose proof (zlen_nonneg k).
  pose proof (vrep_len _ _ _ _ RX) as HL16.
  eexists; split; [reflexivity|]. cbn [zv_child zv_buf zv_env_size].
  split; [eapply has_trans; [apply (zf_env _ _ _ F)|exact Hv3]|].
  split; [exact HL16|]. unfold HeaderSize in *. lia.
Qed.

Lemma at_val_reach env arena v x w : at_val env arena v x -> reach zera_reader v w ->
  exists y, at_val env arena w y.
Proof.
  intros A. induction 1 as [|w1 i w2 H IH Hi E|w1 k w2 H IH Hk E].
  - eauto.
  - destruct IH as (y & IH). cbn [r_idx zera_reader] in E.
    destruct (shows_not_arr _ _ _ _ (at_val_shows _ _ _ _ IH) Hi E) as (l & -> & _).
    destruct (at_val_idx _ _ _ _ _ _ IH (proj1 Hi) E) as (z & _ & Z). eauto.
  - destruct IH as (y & IH). cbn [r_key zera_reader] in E.
    destruct (shows_not_map _ _ _ _ (at_val_shows _ _ _ _ IH) Hk E) as (l & -> & _).
    destruct (at_val_key _ _ _ _ _ _ IH E) as (l1 & z & l2 & _ & _ & Z). eauto.
Qed.

(** A blob view of a written message. *)
Lemma at_val_blob env arena v x o n : at_val env arena v x -> zv_asBlob v = Ok (o, n) ->
  exists b, x = VBlob b /\ n = zlen b /\ (o - zv_arena v) mod 16 = 0 /\ has (zv_buf v) o b.
Proof.
  intros A E. pose proof (at_val_shows _ _ _ _ A) as S.
  assert (exists b, x = VBlob b) as (b & ->).
  { assert (O : observes zera_reader v (ideal x)) by (destruct x; cbn [shows] in S; tauto).
    destruct O as (_ & _ & _ & _ & _ & _ & O & _). cbn [r_isBlob zera_reader] in O.
    unfold zv_asBlob in E. rewrite O in E. destruct x; cbn in E; try discriminate. eauto. }
  destruct A as (F & vr & H & R). inversion R as [| | | | | | |b0 ofs sofs H1 H2 H3 H4 H5 H6| |]; subst.
  exists b. split; [reflexivity|].
  destruct (show_blob v env arena b ofs sofs F) as [_ B]; auto.
  rewrite B in E. inversion E; subst. split; [reflexivity|]. split; [|eapply has_trans; [apply (zf_arena _ _ _ F)|exact H4]].
  replace (zv_arena v + ofs - zv_arena v) with ofs by lia. exact H5.
Qed.
