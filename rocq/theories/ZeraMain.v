(** ZeraMain.v -- finish, and the round trip from writer histories to the reader. *)

From Coq Require Import ZArith List Bool Lia ZifyBool ZifyNat.
From Verif Require Import Base BaseFacts Spec SpecFacts ZeraModel ZeraSpec ZeraFacts ZeraRep ZeraSim.
Import ListNotations.
Open Scope Z_scope.
Ltac Zify.zify_post_hook ::= Z.div_mod_to_equations.

Lemma le_bytes_2 z : le_bytes 2 z = u16_le z.
Proof. rewrite u16_le_eq. unfold le_bytes. cbn [seq map]. change (256 ^ Z.of_nat 0) with 1.
  change (256 ^ Z.of_nat 1) with 256. now rewrite Z.div_1_r. Qed.
Lemma le_bytes_4 z : le_bytes 4 z = u32_le z.
Proof. rewrite u32_le_eq. unfold le_bytes. cbn [seq map]. change (256 ^ Z.of_nat 0) with 1.
  change (256 ^ Z.of_nat 1) with 256. change (256 ^ Z.of_nat 2) with 65536.
  change (256 ^ Z.of_nat 3) with 16777216. now rewrite Z.div_1_r. Qed.

Lemma zera_layout_eq root env arena :
  zera_layout root env arena =
  u32_le Magic ++ u16_le 1 ++ u16_le 1 ++ u32_le root ++ u32_le (zlen env) ++
  u32_le (up16 (20 + zlen env)) ++ env ++ zeros (up16 (20 + zlen env) - 20 - zlen env) ++ arena.
Proof. unfold zera_layout. rewrite !le_bytes_2, !le_bytes_4. reflexivity. Qed.

Lemma up16_ge n : n <= up16 n. Proof. unfold up16. lia. Qed.
Lemma up16_mod n : up16 n mod 16 = 0. Proof. unfold up16. lia. Qed.

Lemma finish_out root env arena :
  (o1 <- overwrite (zeros (up16 (20 + zlen env) + zlen arena)) 0 (u32_le Magic) ;;
   o2 <- overwrite o1 4 (u16_le 1) ;;
   o3 <- overwrite o2 6 (u16_le 1) ;;
   o4 <- overwrite o3 8 (u32_le root) ;;
   o5 <- overwrite o4 12 (u32_le (zlen env)) ;;
   o6 <- overwrite o5 16 (u32_le (up16 (20 + zlen env))) ;;
   o7 <- overwrite o6 HeaderSize env ;;
   overwrite o7 (up16 (20 + zlen env)) arena)
  = Ok (zera_layout root env arena).
Proof.
  rewrite zera_layout_eq. set (A := up16 (20 + zlen env)).
  assert (HA : 20 + zlen env <= A) by apply up16_ge.
  pose proof (zlen_nonneg env). pose proof (zlen_nonneg arena).
  replace (A + zlen arena) with (4 + (2 + (2 + (4 + (4 + (4 + (zlen env + ((A - 20 - zlen env) + zlen arena)))))))) by lia.
  rewrite !zeros_add by lia.
  rewrite overwrite_head by reflexivity. cbn [bind].
  change 4 with (zlen (u32_le Magic)) at 1. rewrite overwrite_mid by reflexivity. cbn [bind].
  rewrite (app_assoc (u32_le Magic)).
  change 6 with (zlen (u32_le Magic ++ u16_le 1)). rewrite overwrite_mid by reflexivity. cbn [bind].
  rewrite (app_assoc (u32_le Magic ++ u16_le 1)).
  change 8 with (zlen ((u32_le Magic ++ u16_le 1) ++ u16_le 1)). rewrite overwrite_mid by reflexivity. cbn [bind].
  rewrite (app_assoc ((u32_le Magic ++ u16_le 1) ++ u16_le 1)).
  set (h := ((u32_le Magic ++ u16_le 1) ++ u16_le 1) ++ u32_le root).
  change 12 with (zlen h). rewrite overwrite_mid by reflexivity. cbn [bind].
  rewrite (app_assoc h). set (h2 := h ++ u32_le (zlen env)).
  change 16 with (zlen h2). rewrite overwrite_mid by reflexivity. cbn [bind].
  rewrite (app_assoc h2). set (h3 := h2 ++ u32_le A).
  change HeaderSize with (zlen h3). rewrite overwrite_mid by (rewrite zlen_zeros; lia). cbn [bind].
  rewrite (app_assoc h3), (app_assoc (h3 ++ env)).
  pose proof (overwrite_tail ((h3 ++ env) ++ zeros (A - 20 - zlen env)) (zeros (zlen arena)) arena
                ltac:(rewrite zlen_zeros; lia)) as E.
  replace (zlen ((h3 ++ env) ++ zeros (A - 20 - zlen env))) with A in E
    by (rewrite !zlen_app, zlen_zeros; change (zlen h3) with 20; lia).
  rewrite E.
  unfold h3, h2, h. now rewrite <- !app_assoc.
Qed.

(** Opening a laid-out message. *)
Definition root_view (root : Z) (env arena : bytes) : zview :=
  mkZView (zera_layout root env arena) (zlen env) (up16 (20 + zlen env)) (zlen arena)
          (Some (HeaderSize + root)).

Lemma zlen_layout root env arena :
  zlen (zera_layout root env arena) = up16 (20 + zlen env) + zlen arena.
Proof.
  rewrite zera_layout_eq. rewrite !zlen_app, zlen_zeros, !zlen_u32_le, !zlen_u16_le.
  pose proof (up16_ge (20 + zlen env)). lia.
Qed.

Lemma layout_parts root env arena (L := zera_layout root env arena) :
  has L 0 (u32_le Magic) /\ has L 4 (u16_le 1) /\ has L 6 (u16_le 1) /\ has L 8 (u32_le root) /\
  has L 12 (u32_le (zlen env)) /\ has L 16 (u32_le (up16 (20 + zlen env))) /\
  has L 20 env /\ has L (up16 (20 + zlen env)) arena.
Proof.
  pose proof (has_self L) as H. unfold L in H at 2. rewrite zera_layout_eq in H.
  pose proof (up16_ge (20 + zlen env)) as UG.
  rewrite has_app in H. destruct H as [H0 H]. rewrite zlen_u32_le in H.
  rewrite has_app in H. destruct H as [H1 H]. rewrite zlen_u16_le in H.
  rewrite has_app in H. destruct H as [H2 H]. rewrite zlen_u16_le in H.
  rewrite has_app in H. destruct H as [H3 H]. rewrite zlen_u32_le in H.
  rewrite has_app in H. destruct H as [H4 H]. rewrite zlen_u32_le in H.
  rewrite has_app in H. destruct H as [H5 H]. rewrite zlen_u32_le in H.
  rewrite has_app in H. destruct H as [H6 H].
  rewrite has_app in H. destruct H as [H7 H8]. rewrite zlen_zeros in H8.
  replace (0 + 4 + 2 + 2 + 4 + 4 + 4 + zlen env + Z.max 0 (up16 (20 + zlen env) - 20 - zlen env))
    with (up16 (20 + zlen env)) in H8 by lia.
  auto 10.
Qed.

Lemma open_layout root env arena :
  0 <= root -> root + 16 <= zlen env -> up16 (20 + zlen env) <= u32_max ->
  zera_open (zera_layout root env arena) = Ok (root_view root env arena).
Proof.
  intros Hr Hre Hu. unfold u32_max in *.
  pose proof (up16_ge (20 + zlen env)) as UG. pose proof (up16_mod (20 + zlen env)) as UM.
  pose proof (zlen_nonneg arena) as A0. pose proof (zlen_nonneg env) as E0.
  destruct (layout_parts root env arena) as (P0 & P1 & P2 & P3 & P4 & P5 & P6 & P7).
  unfold zera_open, parse_header, require.
  pose proof (zlen_layout root env arena) as HL.
  set (L := zera_layout root env arena) in *.
  replace (zlen L <? HeaderSize) with false by (unfold HeaderSize; lia). cbn [negb bind].
  rewrite (read_u32_le_has _ _ Magic) by (auto; unfold Magic; lia). cbn [bind].
  rewrite (read_u16_le_has L 4 1) by (auto; lia). cbn [bind].
  rewrite (read_u16_le_has L 6 1) by (auto; lia). cbn [bind].
  rewrite (read_u32_le_has _ _ root) by (auto; lia). cbn [bind].
  rewrite (read_u32_le_has _ _ (zlen env)) by (auto; lia). cbn [bind].
  rewrite (read_u32_le_has _ _ (up16 (20 + zlen env))) by (auto; lia). cbn [bind].
  cbn [h_magic h_version h_flags h_root_ofs h_env_size h_arena_ofs].
  rewrite Z.eqb_refl. cbn [bind]. change (1 =? 1) with true. cbn [bind].
  replace (zlen env <=? zlen L) with true by lia. cbn [bind].
  replace (root <? zlen env) with true by lia. cbn [bind].
  replace (up16 (20 + zlen env) <=? zlen L) with true by lia. cbn [bind].
  change ArenaBaseAlign with 16. rewrite UM. cbn [bind]. change (0 =? 0) with true. cbn [bind].
  change HeaderSize with 20 at 1 2. rewrite wrap32_small by lia.
  replace (20 + zlen env <=? up16 (20 + zlen env)) with true by lia. cbn [bind].
  rewrite wrap64_small by lia. replace (root <=? zlen env - 16) with true by lia. cbn [bind].
  unfold root_view. do 2 f_equal. lia.
Qed.

Lemma root_view_frame root env arena :
  up16 (20 + zlen env) <= u32_max ->
  zframe (root_view root env arena) env arena.
Proof.
  intros H. destruct (layout_parts root env arena) as (P0 & P1 & P2 & P3 & P4 & P5 & P6 & P7).
  pose proof (up16_ge (20 + zlen env)) as UG.
  split; cbn; auto; unfold u32_max in *; lia.
Qed.

Lemma root_view_at root env arena vr :
  zlen vr = 16 -> has env root vr -> vr_at (root_view root env arena) vr.
Proof.
  intros L H. exists (HeaderSize + root). cbn [zv_vr zv_buf zv_env_size root_view].
  destruct (layout_parts root env arena) as (P0 & P1 & P2 & P3 & P4 & P5 & P6 & P7).
  pose proof (has_bound _ _ _ H) as B.
  split; [reflexivity|]. split; [eapply has_trans; eauto|]. unfold HeaderSize. lia.
Qed.

(** ** finish *)
Lemma finish_sim a s : zsim a s ->
  zsim (fst (afinish a)) (fst (zw_finish s)) /\
  match snd (afinish a) with
  | Ok v => exists root env arena vr,
      snd (zw_finish s) = Ok (zera_layout root env arena) /\
      env = zw_env (fst (zw_finish s)) /\ arena = zw_arena (fst (zw_finish s)) /\
      0 <= root /\ root + 16 <= zlen env /\ up16 (20 + zlen env) <= u32_max /\
      zlen arena <= u32_max /\ zlen vr = 16 /\ has env root vr /\ vrep env arena vr v
  | Throw e => snd (zw_finish s) = Throw e
  | _ => False
  end.
Proof.
  intros H. pose proof H as [HE HA HT HF HR]. unfold afinish, zw_finish.
  revert HF; destruct (a_fr a) as [|f fr] eqn:Ef, (zw_st s) as [|c st'] eqn:Es; intros HF;
    try (inversion HF; fail); [|split; [exact H|reflexivity]].
  assert (Hroot : exists a1 s1 r,
     (match a_root a with
      | Some v => (a, Ok v)
      | None => match adeliver VNull a with
                | (a', Ok _) => (a', Ok VNull)
                | (a', _) => (a', Throw ESer)
                end
      end) = (a1, r) /\ zsim a1 s1 /\
     (match zw_root s with
       | None => write_root_vr (make_vr TNull 0 0 0 0 0)
       | Some _ => wret tt
      end) s = (s1, match r with Ok _ => Ok tt | Throw e => Throw e | UB => UB | NoFuel => NoFuel end) /\
     match r with Ok v => a_root a1 = Some v | Throw e => e = ESer | _ => False end).
  { unfold root_rel in HR. destruct (a_root a) as [rv|] eqn:Er, (zw_root s) as [ro|] eqn:Eo; try contradiction.
    - exists a, s, (Ok rv). auto.
    - pose proof (deliver_sim a s VNull (make_vr TNull 0 0 0 0 0) H eq_refl (fun _ => rep_null _ _)) as [D1 D2].
      unfold deliver_vr in D1, D2. rewrite Es in D1, D2.
      unfold adeliver in *. rewrite Ef, Er in *.
      destruct (u32_max <? a_env a) eqn:Eu; cbn [fst snd] in D1, D2.
      + destruct (write_root_vr (make_vr TNull 0 0 0 0 0) s) as [s1 r1]. cbn [fst snd] in *. subst r1.
        exists a, s1, (Throw ESer). auto.
      + destruct (write_root_vr (make_vr TNull 0 0 0 0 0) s) as [s1 r1]. cbn [fst snd] in *. subst r1.
        eexists _, s1, (Ok VNull). split; [reflexivity|]. auto. }
  destruct Hroot as (a1 & s1 & r & -> & HS1 & HW & HR1).
  unfold wbind. rewrite HW. destruct r as [v|e| |]; try contradiction.
  2:{ subst e. split; [exact HS1|reflexivity]. }
  clear HW. pose proof HS1 as [HE1 HA1 HT1 HF1 HRR]. rewrite HE1, HA1.
  set (env := zw_env s1) in *. set (arena := zw_arena s1) in *.
  destruct (zlen env <=? u32_max) eqn:E1.
  2:{ replace (u32_max <? zlen env) with true by lia. cbn [andb]. split; [exact HS1|reflexivity]. }
  replace (u32_max <? zlen env) with false by lia.
  destruct (zlen arena <=? u32_max) eqn:E2.
  2:{ replace (u32_max <? zlen arena) with true by lia. cbn [andb]. split; [exact HS1|reflexivity]. }
  replace (u32_max <? zlen arena) with false by lia. cbn [andb].
  pose proof (zlen_nonneg env) as N1.
  rewrite wrap32_small by (unfold u32_max in *; lia). change HeaderSize with 20. change ArenaBaseAlign with 16.
  rewrite up16_align by lia.
  destruct (up16 (20 + zlen env) <=? u32_max) eqn:E3.
  2:{ replace (u32_max <? up16 (20 + zlen env)) with true by lia. split; [exact HS1|reflexivity]. }
  replace (u32_max <? up16 (20 + zlen env)) with false by lia.
  pose proof (up16_ge (20 + zlen env)) as UG.
  rewrite HR1 in HRR. unfold root_rel in HRR. destruct (zw_root s1) as [ro|]; [|contradiction].
  destruct HRR as (B1 & vr & B2 & B3 & B4). fold env arena in B3, B4.
  cbn [fst snd]. split; [exact HS1|].
  exists ro, env, arena, vr.
  pose proof (has_bound _ _ _ B3) as B5. rewrite B2 in B5.
  rewrite (wrap32_small (up16 (20 + zlen env))) by (unfold u32_max in *; lia).
  rewrite <- (finish_out ro env arena).
  repeat split; auto; try lia; try apply B3.
  apply B4. unfold small. lia.
Qed.

(** ** Histories *)
Lemma run_catch_sim es : Forall ev_ok es -> forall a s, zsim a s ->
  zsim (fst (arun_catch a es)) (fst (run_catch zera_writer s es)) /\
  snd (arun_catch a es) = snd (run_catch zera_writer s es).
Proof.
  induction 1 as [|e es He Hes IH]; intros a s H; cbn [arun_catch run_catch]; [auto|].
  pose proof (step_sim a s e He H) as [S1 S2]. cbn [w_step zera_writer].
  destruct (astep a e) as [a1 r1], (zw_step s e) as [s1 r2]. cbn [fst snd] in S1, S2. subst r2.
  specialize (IH a1 s1 S1).
  destruct (arun_catch a1 es) as [a2 rs], (run_catch zera_writer s1 es) as [s2 rs2].
  cbn [fst snd] in *. destruct IH as [A B]. subst. auto.
Qed.

(** What a finished message shows. *)
Lemma finish_shows a s v : zsim a s -> snd (afinish a) = Ok v ->
  exists b w, snd (zw_finish s) = Ok b /\ zera_open b = Ok w /\ shows zera_reader ideal w v.
Proof.
  intros H E. destruct (finish_sim a s H) as [_ F]. rewrite E in F.
  destruct F as (root & env & arena & vr & F1 & _ & _ & F2 & F3 & F4 & F5 & F6 & F7 & F8).
  exists (zera_layout root env arena), (root_view root env arena).
  split; [exact F1|]. split; [now apply open_layout|].
  eapply vrep_shows; eauto using root_view_frame, root_view_at.
Qed.
