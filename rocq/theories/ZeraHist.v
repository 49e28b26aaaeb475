(** ZeraHist.v -- finished ZERA messages of arbitrary writer histories. *)

From Coq Require Import ZArith List Bool Lia ZifyBool ZifyNat.
From Verif Require Import Base BaseFacts Spec SpecFacts ZeraModel ZeraSpec ZeraFacts ZeraRep ZeraSim
  ZeraMain ZeraRun ZeraTheorems ZeraSafe ZeraArb.
Import ListNotations.
Open Scope Z_scope.
Ltac Zify.zify_post_hook ::= Z.div_mod_to_equations.

(** The message of any history, with exceptions caught. *)
Lemma history_message es s outs b : Forall ev_ok es ->
  run_catch zera_writer zw_init es = (s, outs) -> snd (zw_finish s) = Ok b ->
  exists v root env arena w,
    snd (afinish (fst (arun_catch a_init es))) = Ok v /\ outs = snd (arun_catch a_init es) /\
    b = zera_layout root env arena /\ 0 <= root /\ root + 16 <= zlen env /\
    arena_ofs_of (zlen env) <= u32_max /\ zlen arena <= u32_max /\
    bytes_ok b /\ zera_open b = Ok w /\ zv_buf w = b /\ zv_arena w = arena_ofs_of (zlen env) /\
    at_val env arena w v.
Proof.
  intros EO R F.
  pose proof (run_catch_sim es EO _ _ zsim_init) as [S1 S2]. rewrite R in S1, S2. cbn [fst snd] in *.
  pose proof (finish_sim _ _ S1) as [_ FS].
  destruct (snd (afinish (fst (arun_catch a_init es)))) as [v|e| |] eqn:AF; try contradiction.
  2:{ rewrite F in FS. discriminate. }
  destruct FS as (root & env & arena & vr & F1 & E1 & E2 & F2 & F3 & F4 & F5 & F6 & F7 & F8).
  assert (b = zera_layout root env arena) as -> by congruence.
  exists v, root, env, arena, (root_view root env arena).
  assert (WB : wbytes zw_init) by (repeat split; constructor).
  pose proof (keeps_run_catch es EO _ WB) as KB. rewrite R in KB. cbn [fst] in KB.
  assert (BE : bytes_ok env /\ bytes_ok arena).
  { subst env arena. unfold zw_finish in F |- *. destruct (zw_st s) eqn:ES; [|discriminate].
    assert (KB2 : wbytes (fst (match zw_root s with
                               | None => write_root_vr (make_vr TNull 0 0 0 0 0)
                               | Some _ => wret tt end s))).
    { destruct (zw_root s) eqn:ER; [exact KB|]. unfold write_root_vr. rewrite ER.
      apply keeps_bind; [apply keeps_append; vr_bytes| |exact KB].
      intros o s1 (A & B & C). cbn [fst]. unfold wbytes. cbn. auto. }
    unfold wbind in *.
    destruct (match zw_root s with
              | None => write_root_vr (make_vr TNull 0 0 0 0 0)
              | Some _ => wret tt end s) as [s1 [[]|e| |]]; cbn [fst snd] in *; try discriminate.
    destruct (u32_max <? zlen (zw_env s1)); [discriminate|].
    destruct (u32_max <? zlen (zw_arena s1)); [discriminate|].
    destruct (u32_max <? align_up (HeaderSize + wrap32 (zlen (zw_env s1))) ArenaBaseAlign); [discriminate|].
    cbn [fst] in *. destruct KB2 as (A & B & _). auto. }
  repeat (split; [first [reflexivity|assumption|congruence]|]).
  split; [now apply bytes_ok_layout|]. split; [now apply open_layout|].
  split; [reflexivity|]. split; [reflexivity|].
  split; [now apply root_view_frame|]. exists vr. split; [now apply root_view_at|exact F8].
Qed.

Lemma reach_same v w : reach zera_reader v w -> wfv v -> zv_buf w = zv_buf v /\ zv_arena w = zv_arena v.
Proof.
  induction 1 as [|w1 i w2 H IH Hi E|w1 k w2 H IH Hk E]; intros W; auto;
    destruct (IH W) as [A B]; destruct (reach_wfv _ _ W H) as (W1 & _); cbn [r_idx r_key zera_reader] in E.
  - pose proof (safe_idx w1 W1 i (proj1 Hi)) as S. rewrite E in S. destruct S as (W2 & _ & p & ->). auto.
  - pose proof (safe_key w1 W1 k) as S. rewrite E in S. destruct S as (W2 & _ & p & ->). auto.
Qed.

Lemma layout_wfv root env arena : bytes_ok (zera_layout root env arena) -> 0 <= root ->
  arena_ofs_of (zlen env) <= u32_max -> wfv (root_view root env arena).
Proof.
  intros Hb Hr Hu. pose proof (zlen_layout root env arena) as L. unfold arena_ofs_of, u32_max in *.
  pose proof (up16_ge (20 + zlen env)). pose proof (zlen_nonneg env). pose proof (zlen_nonneg arena).
  split; cbn [zv_buf zv_env_size zv_arena zv_arena_len zv_vr root_view]; unfold HeaderSize; auto; lia.
Qed.

Lemma history_blob es s outs b w w' o n : Forall ev_ok es ->
  run_catch zera_writer zw_init es = (s, outs) -> snd (zw_finish s) = Ok b ->
  zera_open b = Ok w -> reach zera_reader w w' -> zv_asBlob w' = Ok (o, n) -> o mod 16 = 0.
Proof.
  intros EO R F O RE B.
  destruct (history_message es s outs b EO R F) as (v & root & env & arena & w0 & _ & _ & EB & H1 & H2 & H3 & H4 & H5 & H6 & H7 & H8 & H9).
  assert (w0 = w) as -> by congruence.
  assert (w = root_view root env arena) as EW.
  { subst b. rewrite open_layout in H6; auto. congruence. }
  assert (W : wfv w) by (subst w b; now apply layout_wfv).
  destruct (reach_same _ _ RE W) as [S1 S2].
  destruct (at_val_reach _ _ _ _ _ H9 RE) as (y & A).
  destruct (at_val_blob _ _ _ _ _ _ A B) as (bb & _ & _ & M & _).
  rewrite S2, H8 in M. unfold arena_ofs_of in M. pose proof (up16_mod (20 + zlen env)). lia.
Qed.

(** ** Key iteration is bounded by the envelope, not by the claimed count *)
Lemma keys_bound v : wfv v -> zv_vr v <> None -> small_env v -> forall n o i N acc x,
  0 <= o <= zv_env_size v -> i + Z.of_nat n <= N ->
  nloop n (keys_body v) (mkZKit (HeaderSize + o) i N, acc) = Ok x ->
  o + 20 * Z.of_nat n <= zv_env_size v /\ exists it acc', x = inl (it, acc') /\ zlen acc' = zlen acc + Z.of_nat n.
Proof.
  intros W NV SE. induction n as [|n IH]; intros o i N acc x Ho HN H; cbn [nloop] in H.
  - inversion H. split; [lia|]. do 2 eexists. split; [reflexivity|lia].
  - destruct (entry_step v W NV SE o Ho) as [(kl & K1 & K2 & GC & GK & GI)|(_ & _ & BI)].
    2:{ destruct (keys_body v (mkZKit (HeaderSize + o) i N, acc)) eqn:E; try discriminate.
        exfalso. eapply BI; eauto. }
    rewrite GI in H by lia. cbn [bind] in H.
    apply IH in H; [|lia|lia]. destruct H as (A & it & acc' & -> & B).
    split; [lia|]. do 2 eexists. split; [reflexivity|]. rewrite zlen_cons in B. lia.
Qed.
Lemma keys_count v ks : wfv v -> small_env v -> zv_keys v = Ok ks -> 20 * zlen ks <= zv_env_size v.
Proof.
  intros W SE H. rewrite keys_eq in H by exact W.
  destruct (zv_tag v) as [t|e| |] eqn:T; cbn [bind] in *; try discriminate.
  destruct (t =? TObject); cbn [bind] in *; [|discriminate].
  pose proof (tag_vr v t T) as NV. pose proof (obj_hdr_safe v W NV) as S.
  destruct (obj_hdr v) as [[c o]|e| |]; cbn [bind] in *; cbn [safe fst snd] in *; try discriminate.
  destruct (nloop (Z.to_nat c) (keys_body v) (mkZKit (HeaderSize + o) 0 c, [])) as [x|e| |] eqn:N;
    cbn [bind] in H; try discriminate.
  apply (keys_bound v W NV SE) in N; [|lia|lia]. destruct N as (A & it & acc' & -> & B).
  inversion H. unfold zlen in *. rewrite rev_length. cbn in B. lia.
Qed.

(** ** Looking a key up never examines more than env_size/20 + 1 entries *)
Lemma contains_bound v key : wfv v -> zv_vr v <> None -> small_env v -> forall n o o',
  0 <= o <= zv_env_size v -> nloop n (contains_body v key) o = Ok (inl o') -> o + 20 * Z.of_nat n <= zv_env_size v.
Proof.
  intros W NV SE. induction n as [|n IH]; intros o o' Ho H; cbn [nloop] in H; [lia|].
  destruct (entry_step v W NV SE o Ho) as [(kl & K1 & K2 & GC & GK & GI)|(_ & BC & _)].
  - rewrite GC in H. cbn [bind] in H. destruct (beq key (name v (HeaderSize + o + 4, kl))); [discriminate|].
    apply IH in H; lia.
  - destruct (BC key) as [E|E]; rewrite E in H; discriminate.
Qed.

(** ** Histories without exceptions *)
Lemma run_ok_catch {S O} (W : writer S O) es : forall s s', run W s es = (s', Ok tt) ->
  run_catch W s es = (s', map (fun _ => Ok tt) es).
Proof.
  induction es as [|e es IH]; intros s s' H; cbn [run run_catch map] in *; [inversion H; reflexivity|].
  destruct (w_step W s e) as [s1 [[]|x| |]]; try discriminate. now rewrite (IH _ _ H).
Qed.

Lemma arun_run es : forall a, arun_catch a es = run_catch amachine a es.
Proof.
  induction es as [|e es IH]; intros a; cbn [arun_catch run_catch amachine w_step]; [reflexivity|].
  destruct (astep a e) as [a1 r]. now rewrite IH.
Qed.

Lemma run_calls es s b : Forall ev_ok es -> run zera_writer zw_init es = (s, Ok tt) ->
  snd (zw_finish s) = Ok b ->
  exists v w, (es = [] /\ v = VNull \/ calls v es) /\ zera_open b = Ok w /\ shows zera_reader ideal w v.
Proof.
  intros EO R F.
  destruct (history_message es s _ b EO (run_ok_catch _ _ _ _ R) F)
    as (v & root & env & arena & w & AF & _ & _ & _ & _ & _ & _ & _ & O & _ & _ & A).
  exists v, w. split; [|split; [exact O|eapply at_val_shows; eauto]].
  pose proof (run_sim_thr 12 es EO _ _ zsim_init) as [_ S]. rewrite <- run_thr_12, R in S. cbn [snd] in S.
  destruct (run amachine a_init es) as [a' r] eqn:E. cbn [snd] in S. subst r.
  apply (run_finish_calls es a' v E). rewrite arun_run, (run_ok_catch _ _ _ _ E) in AF. exact AF.
Qed.

Lemma history_never_ub es s outs : Forall ev_ok es -> run_catch zera_writer zw_init es = (s, outs) ->
  Forall (fun r => r = Ok tt \/ r = Throw ESer \/ r = Throw ELength) outs /\
  (exists b, snd (zw_finish s) = Ok b) \/
  Forall (fun r => r = Ok tt \/ r = Throw ESer \/ r = Throw ELength) outs /\ snd (zw_finish s) = Throw ESer.
Proof.
  intros EO R.
  pose proof (run_catch_sim es EO _ _ zsim_init) as [S1 S2]. rewrite R in S1, S2. cbn [fst snd] in *.
  assert (FO : Forall (fun r => r = Ok tt \/ r = Throw ESer \/ r = Throw ELength) outs).
  { subst outs. clear. generalize a_init. induction es as [|e es IH]; intros a; cbn [arun_catch]; [constructor|].
    assert (H : snd (astep a e) = Ok tt \/ snd (astep a e) = Throw ESer \/ snd (astep a e) = Throw ELength).
    { assert (D : forall v a, snd (adeliver v a) = Ok tt \/ snd (adeliver v a) = Throw ESer).
      { intros v a0. unfold adeliver. destruct (a_fr a0) as [|[vs|l [k|]|] fr]; cbn; auto.
        destruct (a_root a0); cbn; auto. destruct (u32_max <? a_env a0); cbn; auto. }
      assert (D' : forall v a, snd (adeliver v a) = Ok tt \/ snd (adeliver v a) = Throw ESer \/ snd (adeliver v a) = Throw ELength)
        by (intros v a0; destruct (D v a0); auto).
      destruct e; cbn [astep]; auto;
      repeat match goal with
      | |- context [if ?c then _ else _] => destruct c
      | |- context [match ?c with _ => _ end] => destruct c
      end; cbn [snd]; auto. }
    destruct (astep a e) as [a1 r]. cbn [snd] in H. specialize (IH a1).
    destruct (arun_catch a1 es) as [a2 rs]. cbn [snd] in *. constructor; auto. }
  pose proof (finish_sim _ _ S1) as [_ FS].
  destruct (snd (afinish (fst (arun_catch a_init es)))) as [v|e| |] eqn:AF; try contradiction.
  - left. split; [exact FO|]. destruct FS as (root & env & arena & vr & F1 & _). eauto.
  - right. split; [exact FO|]. assert (e = ESer) as ->; [|exact FS].
    revert AF. unfold afinish. destruct (a_fr _); [|cbn; congruence].
    destruct (a_root _); [|destruct (adeliver VNull _) as [a' [[]|x| |]]]; cbn [snd];
    try (intros; congruence);
    destruct ((_ <=? u32_max) && _ && _); cbn; congruence.
Qed.

Lemma history_outcome es s outs : Forall ev_ok es ->
  run_catch zera_writer zw_init es = (s, outs) ->
  outs = snd (arun_catch a_init es) /\
  Forall (fun r => r = Ok tt \/ r = Throw ESer \/ r = Throw ELength) outs /\
  match snd (afinish (fst (arun_catch a_init es))) with
  | Ok v => exists b w, snd (zw_finish s) = Ok b /\ zera_open b = Ok w /\ shows zera_reader ideal w v
  | _ => snd (zw_finish s) = Throw ESer
  end.
Proof.
  intros EO R. pose proof (history_never_ub es s outs EO R) as NU.
  pose proof (run_catch_sim es EO _ _ zsim_init) as [S1 S2]. rewrite R in S1, S2. cbn [fst snd] in *.
  split; [congruence|]. split; [tauto|].
  pose proof (finish_sim _ _ S1) as [_ FS].
  destruct (snd (afinish (fst (arun_catch a_init es)))) as [v|e| |] eqn:AF; try contradiction.
  - eapply finish_shows; eauto.
  - destruct NU as [[_ [b B]]|[_ T]]; [rewrite B in FS; discriminate|exact T].
Qed.

Lemma calls_accepted v es : calls v es -> Forall ev_ok es -> Forall hint_ok es -> zera_fits v ->
  exists s b w, run zera_writer zw_init es = (s, Ok tt) /\ snd (zw_finish s) = Ok b /\
    zera_open b = Ok w /\ shows zera_reader ideal w v.
Proof.
  intros C EO HO F. pose proof (thr_calls 12 v es ltac:(lia) C EO) as T. cbv zeta in T.
  change (w_init (zera_writer_thr 12)) with zw_init in T. rewrite <- run_thr_12 in T.
  destruct (run zera_writer zw_init es) as [s [[]|e| |]]; try contradiction.
  - destruct T as [[_ (b & w & T)]|[N _]]; [exists s, b, w; split; [reflexivity|exact T]|contradiction].
  - exfalso. apply T. split; [exact F|exact HO].
Qed.

Lemma dropped_calls : exists es s outs b w,
  run_catch zera_writer zw_init es = (s, outs) /\ snd (zw_finish s) = Ok b /\
  zera_open b = Ok w /\ shows zera_reader ideal w (VInt 1) /\
  es = [EInt 1; EBeginArr 1; EInt 2; EEndArr] /\ outs = [Ok tt; Ok tt; Ok tt; Throw ESer].
Proof.
  set (es := [EInt 1; EBeginArr 1; EInt 2; EEndArr]).
  assert (EO : Forall ev_ok es) by (repeat constructor; cbn; unfold is_i64, i64_min, i64_max; lia).
  destruct (run_catch zera_writer zw_init es) as [s outs] eqn:R.
  destruct (history_outcome es s outs EO R) as (H1 & _ & H3).
  vm_compute in H1. change (snd (afinish (fst (arun_catch a_init es)))) with (Ok (VInt 1)) in H3.
  destruct H3 as (b & w & F & O & S). exists es, s, outs, b, w. auto 10.
Qed.

Lemma message_layout es s outs b : Forall ev_ok es ->
  run_catch zera_writer zw_init es = (s, outs) -> snd (zw_finish s) = Ok b ->
  exists root env arena,
    b = [90; 69; 78; 86] ++ le_bytes 2 1 ++ le_bytes 2 1 ++ le_bytes 4 root ++
        le_bytes 4 (zlen env) ++ le_bytes 4 (arena_ofs_of (zlen env)) ++
        env ++ repeat 0 (Z.to_nat (arena_ofs_of (zlen env) - 20 - zlen env)) ++ arena /\
    0 <= root /\ root + 16 <= zlen env /\
    20 + zlen env <= arena_ofs_of (zlen env) < 20 + zlen env + 16 /\ arena_ofs_of (zlen env) mod 16 = 0 /\
    arena_ofs_of (zlen env) < 2^32 /\ zlen arena < 2^32 /\
    zlen b = arena_ofs_of (zlen env) + zlen arena.
Proof.
  intros EO R F.
  destruct (history_message es s outs b EO R F) as (v & root & env & arena & w & _ & _ & -> & H1 & H2 & H3 & H4 & _).
  exists root, env, arena. split; [reflexivity|]. split; [exact H1|]. split; [exact H2|].
  unfold arena_ofs_of, u32_max in *.
  split; [unfold up16; lia|]. split; [apply up16_mod|]. split; [lia|]. split; [lia|]. apply zlen_layout.
Qed.

Lemma message_sizes v b : val_ok v -> serialize zera_writer v = Ok b ->
  exists env arena, b = zera_layout (zlen env - 16) env arena /\
    zlen env = env_size_of v /\ zlen arena = arena_size_of v.
Proof.
  intros V S. rewrite serialize_12 in S. unfold serialize in S.
  destruct (run (zera_writer_thr 12) (w_init (zera_writer_thr 12)) (events v)) as [s [[]|e| |]] eqn:R; try discriminate.
  destruct (thr_layout 12 v (events v) s b ltac:(lia) (events_calls v) (events_ev_ok v V) R S)
    as (env & arena & H1 & H2 & H3 & _). exists env, arena. auto.
Qed.

(** ** Safety of every operation on every view reachable from any buffer *)
Definition ops_safe (b : bytes) (w : zview) : Prop :=
  zv_buf w = b /\
  (forall t, safe any (zv_is t w)) /\ safe any (zv_isBlob w) /\ safe any (zv_asBool w) /\
  (forall iw, safe (fun z => smin iw <= z <= smax iw) (zv_asInt iw w)) /\
  (forall iw, safe (fun z => 0 <= z <= umax iw) (zv_asUInt iw w)) /\
  safe is_u64 (zv_asDouble w) /\
  safe (view_in b) (zv_asStringView w) /\ safe any (zv_asString w) /\ safe (view_in b) (zv_asBlob w) /\
  safe (fun n => 0 <= n < 2^32) (zv_arraySize w) /\
  (forall i, 0 <= i < 2^64 -> safe any (zv_idx w i)) /\
  (forall k, safe any (zv_key w k)) /\ (forall k, safe any (zv_contains w k)).

Lemma open_env b v : zera_open b = Ok v -> zv_buf v = b.
Proof.
  unfold zera_open. destruct (parse_header b) as [h|e| |]; cbn [bind]; try discriminate.
  unfold require. repeat match goal with |- context [if ?c then Ok tt else _] => destruct c; cbn [bind]; try discriminate end.
  intros E. assert (v = mkZView b (h_env_size h) (h_arena_ofs h) (zlen b - h_arena_ofs h) (Some (HeaderSize + h_root_ofs h))) as -> by congruence.
  reflexivity.
Qed.

Lemma reader_safe b : bytes_ok b -> zlen b < 2^32 - 20 ->
  safe (fun v => forall w, reach zera_reader v w -> ops_safe b w) (zera_open b).
Proof.
  intros Hb Hl. pose proof (zera_open_safe b Hb Hl) as S.
  destruct (zera_open b) as [v|e| |] eqn:O; cbn [safe] in *; auto.
  intros w RE. destruct (reach_wfv _ _ S RE) as (W & B & _). apply open_env in O.
  assert (EB : zv_buf w = b) by congruence. unfold ops_safe.
  split; [exact EB|]. rewrite <- EB.
  split; [intros; now apply safe_is|]. split; [now apply safe_isBlob|]. split; [now apply safe_asBool|].
  split; [intros; now apply safe_asInt|]. split; [intros; now apply safe_asUInt|].
  split; [now apply safe_asDouble|]. split; [now apply safe_asStringView|]. split; [now apply safe_asString|].
  split; [now apply safe_asBlob|]. split; [now apply safe_arraySize|].
  split; [intros i Hi; eapply safe_weaken; [apply safe_idx; [assumption|lia]|intros; exact I]|].
  split; [intros k; eapply safe_weaken; [now apply safe_key|intros; exact I]|].
  intros k. now apply safe_contains.
Qed.
Lemma reader_keys_safe b : bytes_ok b -> zlen b < 2^32 - 20 ->
  safe (fun v => forall w, reach zera_reader v w -> 20 + zv_env_size v + 2 <= zlen b ->
                           safe (Forall (view_in b)) (zv_keys w)) (zera_open b).
Proof.
  intros Hb Hl. pose proof (zera_open_safe b Hb Hl) as S.
  destruct (zera_open b) as [v|e| |] eqn:O; cbn [safe] in *; auto.
  intros w RE SL. destruct (reach_wfv _ _ S RE) as (W & B & ES). apply open_env in O.
  assert (EB : zv_buf w = b) by congruence. rewrite <- EB.
  apply safe_keys; [exact W|]. unfold slack. rewrite EB, ES. exact SL.
Qed.

(** The envelope of an opened buffer is small enough for the lookup lemmas. *)
Lemma open_small b v w : bytes_ok b -> zlen b < 2^32 - 20 -> zera_open b = Ok v -> reach zera_reader v w ->
  wfv w /\ small_env w.
Proof.
  intros Hb Hl O RE. pose proof (zera_open_safe b Hb Hl) as S. rewrite O in S. cbn [safe] in S.
  destruct (reach_wfv _ _ S RE) as (W & B & ES). split; [exact W|]. unfold small_env. rewrite ES.
  destruct (wf_env v S) as [E|E]; [apply open_env in O; rewrite O in E; unfold HeaderSize in E; lia|].
  exfalso. revert E. clear - O. unfold zera_open in O. destruct (parse_header b) as [h|e| |]; cbn [bind] in O; try discriminate.
  revert O. unfold require. repeat match goal with |- context [if ?c then Ok tt else _] => destruct c; cbn [bind]; try discriminate end.
  intros E. assert (v = mkZView b (h_env_size h) (h_arena_ofs h) (zlen b - h_arena_ofs h) (Some (HeaderSize + h_root_ofs h))) as -> by congruence.
  discriminate.
Qed.

Lemma lookups_agree b v w key : bytes_ok b -> zlen b < 2^32 - 20 -> zera_open b = Ok v -> reach zera_reader v w ->
  (forall x, zv_key w key = Ok x -> zv_contains w key = Ok true) /\
  (zv_contains w key = Ok false -> zv_key w key = Throw EDeser).
Proof.
  intros Hb Hl O RE. destruct (open_small b v w Hb Hl O RE) as [W SE].
  destruct (key_contains w key W SE) as [A B]. split; [|exact B].
  intros x E. now rewrite E in A.
Qed.

Lemma int_at b v w : bytes_ok b -> zlen b < 2^32 - 20 -> zera_open b = Ok v -> reach zera_reader v w ->
  (exists p, HeaderSize <= p /\ p + 16 <= zlen b /\ zv_vr w = Some p /\
     (forall iw, zv_asInt iw w = match stored_int b p with
                                 | Some n => or_throw (fits_s iw n) | None => Throw EDeser end) /\
     (forall iw, zv_asUInt iw w = match stored_int b p with
                                  | Some n => or_throw (fits_u iw n) | None => Throw EDeser end)) \/
  ((forall iw, zv_asInt iw w = Throw EDeser) /\ (forall iw, zv_asUInt iw w = Throw EDeser)).
Proof.
  intros Hb Hl O RE. destruct (open_small b v w Hb Hl O RE) as [W SE].
  assert (EB : zv_buf w = b).
  { pose proof (zera_open_safe b Hb Hl) as S. rewrite O in S. cbn [safe] in S.
    destruct (reach_wfv _ _ S RE) as (_ & B & _). apply open_env in O. congruence. }
  pose proof (safe_vr w W) as SV. destruct (require_vr w) as [p|e| |] eqn:R; cbn [safe] in SV; try contradiction.
  - left. exists p. rewrite EB in SV. split; [tauto|]. split; [tauto|].
    split; [|rewrite <- EB; now apply int_accessors].
    unfold require_vr in R. destruct (zv_vr w) as [q|]; [|discriminate].
    destruct (require _ _) as [[]|e| |]; cbn [bind] in R; try discriminate. congruence.
  - right. destruct e; try contradiction.
    assert (T : zv_tag w = Throw EDeser) by (unfold zv_tag; now rewrite R).
    split; intros iw; unfold zv_asInt, zv_asUInt, zv_asInt64, zv_asUInt64; now rewrite T.
Qed.

Lemma threshold_setter t s : 0 <= t ->
  if t <=? 12 then snd (set_inline_string_threshold t s) = Ok tt
  else set_inline_string_threshold t s = (s, Throw ESer).
Proof.
  intros. unfold set_inline_string_threshold, InlineMax. destruct (t <=? 12) eqn:E.
  - now replace (12 <? t) with false by lia.
  - now replace (12 <? t) with true by lia.
Qed.

Lemma keys_count_open b v w ks : bytes_ok b -> zlen b < 2^32 - 20 ->
  zera_open b = Ok v -> reach zera_reader v w -> zv_keys w = Ok ks -> 20 * zlen ks <= zv_env_size v.
Proof.
  intros Hb Hl O RE K. destruct (open_small b v w Hb Hl O RE) as [W SE].
  pose proof (keys_count w ks W SE K) as C.
  pose proof (zera_open_safe b Hb Hl) as S. rewrite O in S. cbn [safe] in S.
  destruct (reach_wfv _ _ S RE) as (_ & _ & ES). lia.
Qed.
Lemma open_valid b : bytes_ok b -> zlen b < 2^32 - 20 -> header_ok b ->
  exists v, zera_open b = Ok v /\ zv_env_size v = u32_at b 12 /\ zv_arena v = u32_at b 16 /\
            zv_arena_len v = zlen b - u32_at b 16 /\ zv_vr v = Some (20 + u32_at b 8).
Proof.
  intros Hb Hl H. destruct (open_iff b Hb Hl) as [A _]. eexists. split; [exact (A H)|]. auto.
Qed.
Lemma open_invalid b : bytes_ok b -> zlen b < 2^32 - 20 -> ~ header_ok b ->
  zera_open b = Throw EDeser \/
  u32_at b 12 < 16 /\ exists v, zera_open b = Ok v /\ forall t, zv_is t v = Throw EDeser.
Proof.
  intros Hb Hl H. destruct (open_iff b Hb Hl) as [_ A]. destruct (A H) as [E|(S & v & O & R)]; [now left|].
  right. split; [exact S|]. exists v. split; [exact O|]. intros t. unfold zv_is, zv_tag. now rewrite R.
Qed.
Lemma keys_agree b v w names : bytes_ok b -> zlen b < 2^32 - 20 ->
  zera_open b = Ok v -> reach zera_reader v w -> r_mapKeys zera_reader w = Ok names ->
  forall key, zv_contains w key = Ok (existsb (beq key) names) /\
    if existsb (beq key) names then exists x, zv_key w key = Ok x else zv_key w key = Throw EDeser.
Proof.
  intros Hb Hl O RE K. destruct (open_small b v w Hb Hl O RE) as [W SE]. now apply keys_contains.
Qed.
Lemma index_agrees b v w n : bytes_ok b -> zlen b < 2^32 - 20 ->
  zera_open b = Ok v -> reach zera_reader v w -> zv_arraySize w = Ok n ->
  exists base, 20 <= base /\ base + 16 * n <= 20 + zv_env_size w /\
    forall i, 0 <= i -> zv_idx w i = if i <? n then Ok (zv_child w (base + 16 * i)) else Throw EDeser.
Proof.
  intros Hb Hl O RE K. destruct (open_small b v w Hb Hl O RE) as [W SE]. now apply array_index.
Qed.
Lemma thr_round_trip t v : 0 <= t <= 12 -> val_ok v -> fits_thr t v ->
  exists b w, serialize (zera_writer_thr t) v = Ok b /\ zera_open b = Ok w /\ shows zera_reader ideal w v.
Proof.
  intros Ht V F. destruct (serialize_thr t v Ht V) as [[_ H]|[N _]]; [exact H|contradiction].
Qed.
Lemma round_trip v : val_ok v -> zera_fits v ->
  exists b w, serialize zera_writer v = Ok b /\ zera_open b = Ok w /\ shows zera_reader ideal w v.
Proof. intros V F. rewrite serialize_12. now apply thr_round_trip. Qed.
Lemma fails_exactly v : val_ok v ->
  (zera_fits v -> exists b, serialize zera_writer v = Ok b) /\
  (~ zera_fits v -> exists e, serialize zera_writer v = Throw e /\
     (e = ESer \/ e = ELength /\ ~ Forall hint_ok (events v))).
Proof.
  intros V. rewrite serialize_12. destruct (serialize_thr 12 v ltac:(lia) V) as [(F & b & w & E & _)|(F & H)].
  - split; [eauto|]. intros N. contradiction.
  - split; [intros F2; contradiction|auto].
Qed.
