(** ZeraSim.v -- the ZERA writer refines the stack machine of ZeraSpec.v. *)

From Coq Require Import ZArith List Bool Lia ZifyBool ZifyNat.
From Verif Require Import Base BaseFacts Spec SpecFacts ZeraModel ZeraSpec ZeraFacts ZeraRep.
Import ListNotations.
Open Scope Z_scope.
Ltac Zify.zify_post_hook ::= Z.div_mod_to_equations.

Definition small (env arena : bytes) : Prop := zlen env <= u32_max /\ zlen arena <= u32_max.

Lemma small_app env arena e a : small (env ++ e) (arena ++ a) -> small env arena.
Proof.
  unfold small. rewrite !zlen_app. pose proof (zlen_nonneg e). pose proof (zlen_nonneg a). lia.
Qed.

(** ** overwrite *)
Lemma overwrite_mid (x y z l : bytes) : zlen y = zlen l ->
  overwrite (x ++ y ++ z) (zlen x) l = Ok (x ++ l ++ z).
Proof.
  intros H. unfold overwrite. rewrite !zlen_app.
  pose proof (zlen_nonneg x). pose proof (zlen_nonneg z).
  replace ((0 <=? zlen x) && (zlen x + zlen l <=? zlen x + (zlen y + zlen z))) with true by lia.
  f_equal. f_equal.
  - rewrite firstn_app. unfold zlen. rewrite Nat2Z.id, Nat.sub_diag, firstn_O, app_nil_r. apply firstn_all.
  - f_equal. rewrite app_assoc, skipn_app.
    rewrite skipn_all2 by (rewrite app_length; unfold zlen in *; lia). cbn [app].
    replace (_ - _)%nat with O; [reflexivity|]. rewrite app_length. unfold zlen in *. lia.
Qed.
Lemma overwrite_tail (x y l : bytes) : zlen y = zlen l -> overwrite (x ++ y) (zlen x) l = Ok (x ++ l).
Proof. intros H. pose proof (overwrite_mid x y [] l H) as E. now rewrite !app_nil_r in E. Qed.
Lemma overwrite_head (y z l : bytes) : zlen y = zlen l -> overwrite (y ++ z) 0 l = Ok (l ++ z).
Proof. intros H. apply (overwrite_mid [] y z l H). Qed.

Lemma zeros_add n m : 0 <= n -> 0 <= m -> zeros (n + m) = zeros n ++ zeros m.
Proof.
  intros. unfold zeros. rewrite Z2Nat.inj_add by lia. apply repeat_app.
Qed.

Lemma Forall2_cons_iff {A B} (P : A -> B -> Prop) x y l1 l2 :
  Forall2 P (x :: l1) (y :: l2) <-> P x y /\ Forall2 P l1 l2.
Proof. split; [inversion 1; auto|intros []; constructor; auto]. Qed.

Lemma Forall2_impl {A B} (P Q : A -> B -> Prop) l1 l2 :
  (forall x y, P x y -> Q x y) -> Forall2 P l1 l2 -> Forall2 Q l1 l2.
Proof. intros H. induction 1; constructor; auto. Qed.

(** ** The simulation relation *)
Definition frame_rel (env arena : bytes) (f : frame) (c : zctx) : Prop :=
  match f, c with
  | FArr vs, CArr payload count =>
      exists vrs, payload = u32_le 0 ++ concat vrs /\ Forall (fun x => zlen x = 16) vrs /\
                  zlen vrs = zlen vs /\ count = wrap32 (zlen vs) /\
                  (small env arena -> Forall2 (vrep env arena) vrs vs)
  | FMap es pend, CMap payload count pp =>
      exists ces, map fst ces = map fst es /\ es_ok ces /\
        (small env arena -> Forall2 (fun e kx => fst e = fst kx /\ zlen (fst kx) <= u16_max /\
                                      vrep env arena (snd e) (snd kx)) ces es) /\
        match pend with
        | None => payload = u32_le 0 ++ entries ces /\ pp = None /\ count = wrap32 (zlen es)
        | Some k => payload = u32_le 0 ++ entries ces ++ entry k (zeros 16) /\
                    zlen k <= u16_max /\
                    pp = Some (zlen payload - 16) /\ count = wrap32 (zlen es + 1)
        end
  | FStuck, CMap payload count pp => payload = [] /\ exists p, pp = Some p /\ 0 <= p
  | _, _ => False
  end.

Definition root_rel (env arena : bytes) (r : option val) (ro : option Z) : Prop :=
  match r, ro with
  | None, None => True
  | Some v, Some ofs => 0 <= ofs <= u32_max /\
      exists vr, zlen vr = 16 /\ has env ofs vr /\ (small env arena -> vrep env arena vr v)
  | _, _ => False
  end.

Record zsim (a : ast) (s : zwst) : Prop := {
  zs_env : a_env a = zlen (zw_env s);
  zs_arena : a_arena a = zlen (zw_arena s);
  zs_thr : a_thr a = zw_thr s;
  zs_fr : Forall2 (frame_rel (zw_env s) (zw_arena s)) (a_fr a) (zw_st s);
  zs_root : root_rel (zw_env s) (zw_arena s) (a_root a) (zw_root s)
}.

Lemma zsim_init : zsim a_init zw_init.
Proof. split; cbn; auto. Qed.

Lemma frame_rel_mono env arena e a f c :
  frame_rel env arena f c -> frame_rel (env ++ e) (arena ++ a) f c.
Proof.
  destruct f as [vs|es pend|], c as [p n|p n pp]; cbn [frame_rel]; auto.
  - intros (vrs & A & B & C & D & E). exists vrs. repeat split; auto.
    intros S. apply small_app in S. specialize (E S). clear - E.
    induction E; constructor; auto using vrep_mono.
  - intros (ces & A & B & C & D). exists ces. repeat split; auto.
    intros S. apply small_app in S. specialize (C S). clear - C.
    induction C as [|x y l1 l2 (H1 & H2 & H3) C IH]; constructor; auto using vrep_mono.
Qed.
Lemma root_rel_mono env arena e a r ro :
  root_rel env arena r ro -> root_rel (env ++ e) (arena ++ a) r ro.
Proof.
  destruct r, ro; cbn [root_rel]; auto.
  intros (A & vr & B & C & D). split; auto. exists vr. repeat split; auto using has_app_l.
  - apply (has_app_l _ e) in C. apply C.
  - apply (has_app_l _ e) in C. apply C.
  - apply (has_app_l _ e) in C. apply C.
  - intros S. apply small_app in S. auto using vrep_mono.
Qed.

Lemma zsim_grow a s e b :
  zsim a s -> zsim (a_grow a (zlen e) (zlen b)) (set_arena (set_env s (zw_env s ++ e)) (zw_arena s ++ b)).
Proof.
  intros [A B C D E]. split; cbn.
  - rewrite zlen_app. lia.
  - rewrite zlen_app. lia.
  - exact C.
  - clear - D. induction D; constructor; auto using frame_rel_mono.
  - now apply root_rel_mono.
Qed.
Lemma zsim_grow_env a s e : zsim a s -> zsim (a_grow a (zlen e) 0) (set_env s (zw_env s ++ e)).
Proof.
  intros H. pose proof (zsim_grow a s e [] H) as G. unfold set_arena in G. cbn in G.
  rewrite app_nil_r in G. exact G.
Qed.
Lemma zsim_grow_arena a s b : zsim a s -> zsim (a_grow a 0 (zlen b)) (set_arena s (zw_arena s ++ b)).
Proof.
  intros H. pose proof (zsim_grow a s [] b H) as G. unfold set_env in G. cbn in G.
  rewrite app_nil_r in G. exact G.
Qed.

(** Result of a step: same outcome, related states. *)
Definition sim_res (x : ast * res unit) (y : zwst * res unit) : Prop :=
  zsim (fst x) (fst y) /\ snd x = snd y.

Lemma append_env_sim a s l :
  zsim a s ->
  append_env_payload l s =
  if u32_max <? a_env a then (s, Throw ESer)
  else (set_env s (zw_env s ++ l), Ok (a_env a)).
Proof.
  intros H. unfold append_env_payload. rewrite (zs_env _ _ H).
  destruct (u32_max <? zlen (zw_env s)) eqn:E; [reflexivity|].
  rewrite wrap32_small; [reflexivity|]. unfold u32_max in *. pose proof (zlen_nonneg (zw_env s)). lia.
Qed.

Lemma map_size_entries ces es : es_ok ces -> map fst ces = map fst es ->
  4 + zlen (entries ces) = map_size es.
Proof.
  unfold map_size. revert es. induction ces as [|[k vr] ces IH]; intros [|[k' x] es] H E; cbn in E; try discriminate.
  - reflexivity.
  - injection E as <- E. inversion H as [|x0 y0 [Hk Hv] Hr]; subst. cbn [fst snd] in *.
    rewrite entries_cons, zlen_app, zlen_entry. cbn [fst snd fold_right]. specialize (IH _ Hr E). lia.
Qed.

Lemma wrap32_add x y : wrap32 (wrap32 x + y) = wrap32 (x + y).
Proof. unfold wrap32. apply Zplus_mod_idemp_l. Qed.

Lemma deliver_sim a s v vr :
  zsim a s -> zlen vr = 16 -> (small (zw_env s) (zw_arena s) -> vrep (zw_env s) (zw_arena s) vr v) ->
  sim_res (adeliver v a) (deliver_vr vr s).
Proof.
  intros H L16 Hrep. destruct H as [HE HA HT HF HR].
  assert (H : zsim a s) by (split; assumption).
  unfold adeliver, deliver_vr.
  revert HF; destruct (a_fr a) as [|f fr] eqn:Ef, (zw_st s) as [|c st'] eqn:Es; intros HF; try (inversion HF; fail).
  - (* root *)
    unfold write_root_vr. unfold root_rel in HR.
    destruct (a_root a) as [rv|] eqn:Er, (zw_root s) as [ro|] eqn:Eo; try contradiction.
    + split; [exact H|reflexivity].
    + unfold wbind. rewrite (append_env_sim a s vr H).
      destruct (u32_max <? a_env a) eqn:Eu; [split; [exact H|reflexivity]|].
      split; [|reflexivity]. cbn [fst].
      pose proof (zlen_nonneg (zw_env s)).
      split; cbn.
      * rewrite zlen_app. lia.
      * exact HA.
      * exact HT.
      * rewrite Es. constructor.
      * split; [lia|]. exists vr. split; [exact L16|]. split; [rewrite HE; apply has_end|].
        intros S. rewrite <- (app_nil_r (zw_arena s)). apply vrep_mono. apply Hrep.
        rewrite <- (app_nil_r (zw_arena s)) in S. now apply small_app in S.
  - apply Forall2_cons_iff in HF; destruct HF as [Hfc HF'].
    destruct f as [vs|es pend|], c as [p n|p n pp]; cbn [frame_rel] in Hfc; try contradiction.
    + (* array *)
      destruct Hfc as (vrs & A & B & C & D & E). split; [|reflexivity]. cbn [fst].
      split; cbn; auto. constructor; [|exact HF'].
      exists (vrs ++ [vr]). rewrite concat_app. cbn [concat]. rewrite app_nil_r.
      split; [subst p; now rewrite <- app_assoc|].
      split; [apply Forall_app; auto|].
      split; [rewrite !zlen_app, C; reflexivity|].
      split; [subst n; rewrite zlen_app; change (zlen [v]) with 1; apply wrap32_add|].
      intros S. apply Forall2_app; auto.
    + destruct pend as [k|].
      * (* map with a pending key *)
        destruct Hfc as (ces & A & B & C & D1 & D2 & D3 & D4). subst pp.
        assert (Hp : p = (u32_le 0 ++ entries ces ++ u16_le (zlen k) ++ u16_le 0 ++ k) ++ zeros 16).
        { rewrite D1. unfold entry. now rewrite <- !app_assoc. }
        set (x := u32_le 0 ++ entries ces ++ u16_le (zlen k) ++ u16_le 0 ++ k) in *.
        assert (Hx : zlen p - 16 = zlen x) by (rewrite Hp, zlen_app; change (zlen (zeros 16)) with 16; lia).
        rewrite Hx. rewrite Hp.
        replace (zlen (x ++ zeros 16) <? zlen x + 16) with false
          by (rewrite zlen_app; change (zlen (zeros 16)) with 16; lia).
        rewrite overwrite_tail by (rewrite L16; reflexivity).
        split; [|reflexivity]. cbn [fst]. split; cbn; auto. constructor; [|exact HF'].
        exists (ces ++ [(k, vr)]).
        split; [rewrite !map_app, A; reflexivity|].
        split; [apply Forall_app; split; [exact B|]; constructor; auto|].
        split; [intros S; apply Forall2_app; [auto|]; constructor; auto|].
        split; [|split; [reflexivity|]].
        -- unfold x. rewrite entries_app, entries_cons. cbn [fst snd entries flat_map].
           unfold entry. now rewrite app_nil_r, <- !app_assoc.
        -- subst n. rewrite zlen_app. reflexivity.
      * destruct Hfc as (ces & A & B & C & D1 & D2 & D3). subst pp. split; [exact H|reflexivity].
    + destruct Hfc as (A & q & B & C). subst p pp.
      rewrite zlen_nil. replace (0 <? q + 16) with true by lia. split; [exact H|reflexivity].
Qed.

Lemma up16_align n : 0 <= n -> align_up n 16 = up16 n.
Proof.
  intros. unfold align_up, up16. cbn [Z.eqb].
  change (16 =? 0) with false. cbv zeta.
  destruct (n mod 16 =? 0) eqn:E; lia.
Qed.
Lemma align_up_1 n : align_up n 1 = n.
Proof. unfold align_up. change (1 =? 0) with false. cbv zeta. now rewrite Z.mod_1_r. Qed.

Lemma vrep_app env arena e b vr v : vrep env arena vr v -> vrep (env ++ e) (arena ++ b) vr v.
Proof. apply vrep_mono. Qed.

Lemma inline_overwrite s : zlen s <= 12 ->
  overwrite (make_vr TString 1 (wrap16 (zlen s)) 0 0 0) 4 s = Ok (inline_vr s).
Proof.
  intros H. pose proof (zlen_nonneg s).
  rewrite wrap16_small by lia.
  assert (E : make_vr TString 1 (zlen s) 0 0 0 =
              ([TString; 1] ++ u16_le (zlen s)) ++ zeros (zlen s) ++ zeros (12 - zlen s)).
  { rewrite <- zeros_add by lia. replace (zlen s + (12 - zlen s)) with 12 by lia. reflexivity. }
  rewrite E. change 4 with (zlen ([TString; 1] ++ u16_le (zlen s))).
  rewrite overwrite_mid by (rewrite zlen_zeros; lia).
  unfold inline_vr. now rewrite <- !app_assoc.
Qed.

Lemma string_sim a s sv : bytes_ok sv -> zsim a s ->
  sim_res (astep a (EStr sv)) (zw_string sv s).
Proof.
  intros Hsv H. cbn [astep]. unfold zw_string.
  rewrite (zs_thr _ _ H). change InlineMax with 12.
  destruct (zlen sv <=? Z.min (zw_thr s) 12) eqn:E1.
  - rewrite inline_overwrite by lia. apply deliver_sim; auto.
    + apply zlen_inline_vr. lia.
    + intros _. constructor. change InlineMax with 12. lia.
  - destruct (u32_max <? zlen sv) eqn:E2; [split; [exact H|reflexivity]|].
    unfold wbind at 1. unfold arena_alloc. cbv zeta. change (Z.max 1 1) with 1. rewrite align_up_1.
    replace (zlen (zw_arena s) <? zlen (zw_arena s)) with false by lia.
    rewrite (zs_arena _ _ H). rewrite E2.
    pose proof (zlen_nonneg sv) as Hsv0. pose proof (zlen_nonneg (zw_arena s)) as Ha0.
    assert (HZ : zlen (zeros (zlen sv)) = zlen sv) by (rewrite zlen_zeros; lia).
    destruct (u32_max <? zlen (zw_arena s)) eqn:E3.
    + split; [|reflexivity]. cbn [fst].
      pose proof (zsim_grow_arena a s (zeros (zlen sv)) H) as G. rewrite HZ in G. exact G.
    + unfold wbind, arena_store. cbn [zw_arena set_arena].
      unfold u32_max in *.
      rewrite wrap32_small by lia. rewrite overwrite_tail by exact HZ.
      apply deliver_sim.
      * pose proof (zsim_grow_arena a s sv H) as G. exact G.
      * reflexivity.
      * cbn. intros S. rewrite wrap32_small by lia. constructor; unfold u32_max; try lia. apply has_end.
Qed.

Lemma binary_sim a s b : bytes_ok b -> zsim a s ->
  sim_res (astep a (EBin b)) (zw_binary b s).
Proof.
  intros Hb H. cbn [astep]. unfold zw_binary.
  destruct (u32_max <? zlen b) eqn:E2; [split; [exact H|reflexivity]|].
  pose proof (zlen_nonneg b) as Hb0. pose proof (zlen_nonneg (zw_arena s)) as Ha0.
  cbv zeta. rewrite wrap32_small by (unfold u32_max in *; lia).
  rewrite (zs_arena _ _ H).
  set (A := zlen (zw_arena s)) in *.
  assert (HU : A <= up16 A) by (unfold up16; lia).
  unfold wbind at 1. unfold arena_alloc. cbv zeta. change (Z.max 1 ArenaBaseAlign) with 16.
  fold A. rewrite up16_align by lia.
  set (a1 := if A <? up16 A then zw_arena s ++ zeros (up16 A - A) else zw_arena s).
  assert (Ha1 : a1 = zw_arena s ++ zeros (up16 A - A)).
  { unfold a1. destruct (A <? up16 A) eqn:E; [reflexivity|].
    replace (up16 A - A) with 0 by lia. symmetry. apply app_nil_r. }
  assert (HL1 : zlen a1 = up16 A).
  { rewrite Ha1, zlen_app, zlen_zeros. fold A. lia. }
  rewrite HL1, E2.
  assert (HZ : zlen (zeros (zlen b)) = zlen b) by (rewrite zlen_zeros; lia).
  destruct (u32_max <? up16 A) eqn:E3.
  - split; [|reflexivity]. cbn [fst].
    pose proof (zsim_grow_arena a s (zeros (up16 A - A) ++ zeros (zlen b)) H) as G.
    rewrite zlen_app, !zlen_zeros, app_assoc, <- Ha1 in G.
    replace (Z.max 0 (up16 A - A) + Z.max 0 (zlen b)) with (up16 A - A + zlen b) in G by lia.
    exact G.
  - unfold wbind at 1. unfold arena_store. cbn [zw_arena set_arena].
    rewrite wrap32_small by (unfold u32_max in *; lia).
    replace (overwrite (a1 ++ zeros (zlen b)) (up16 A) b) with (Ok (a1 ++ b))
      by (rewrite <- HL1; symmetry; apply overwrite_tail; exact HZ).
    assert (G1 : zsim (a_grow a 0 (up16 A - A + zlen b))
                   (set_arena (set_arena s (a1 ++ zeros (zlen b))) (a1 ++ b))).
    { pose proof (zsim_grow_arena a s (zeros (up16 A - A) ++ b) H) as G.
      rewrite zlen_app, zlen_zeros, app_assoc, <- Ha1 in G.
      replace (Z.max 0 (up16 A - A) + zlen b) with (up16 A - A + zlen b) in G by lia.
      exact G. }
    unfold wbind. unfold emit_shape_rank1. rewrite (append_env_sim _ _ _ G1).
    cbn [a_env a_grow]. rewrite Z.add_0_r.
    destruct (u32_max <? a_env a) eqn:E4; [split; [exact G1|reflexivity]|].
    apply deliver_sim.
    + pose proof (zsim_grow_env _ _ (shape_rank1 (zlen b)) G1) as G. rewrite zlen_shape_rank1 in G. exact G.
    + reflexivity.
    + cbn. intros S. rewrite (zs_env _ _ H) in *. constructor; unfold u32_max in *; try lia.
      * rewrite <- HL1. apply has_end.
      * unfold up16. lia.
      * apply has_end.
Qed.

Lemma end_array_sim a s : zsim a s -> sim_res (astep a EEndArr) (zw_end_array s).
Proof.
  intros H. pose proof H as [HE HA HT HF HR]. cbn [astep]. unfold zw_end_array.
  revert HF; destruct (a_fr a) as [|f fr] eqn:Ef, (zw_st s) as [|c st'] eqn:Es; intros HF; try (inversion HF; fail);
    [split; [exact H|reflexivity]|].
  apply Forall2_cons_iff in HF; destruct HF as [Hfc HF'].
  destruct f as [vs|es pend|], c as [p n|p n pp]; cbn [frame_rel] in Hfc; try contradiction;
    try (split; [exact H|reflexivity]).
  destruct Hfc as (vrs & A & B & C & D & E). cbv zeta.
  assert (H1 : zsim (a_set a fr) (set_st s st')).
  { split; cbn; auto. }
  replace (u32_max <? n) with false.
  2:{ subst n. pose proof (wrap32_range (zlen vs)). unfold u32_max. lia. }
  unfold patch_count. subst p. rewrite zlen_app, zlen_u32_le.
  pose proof (zlen_nonneg (concat vrs)) as Hc0.
  replace (4 + zlen (concat vrs) <? 4) with false by lia.
  change (skipn 4 (u32_le 0 ++ concat vrs)) with (concat vrs).
  unfold wbind. rewrite (append_env_sim _ _ _ H1). cbn [a_env a_set].
  destruct (u32_max <? a_env a) eqn:E4; [split; [exact H1|reflexivity]|].
  pose proof (zsim_grow_env _ _ (u32_le n ++ concat vrs) H1) as G.
  rewrite zlen_app, zlen_u32_le, (zlen_concat16 _ B), C in G.
  apply deliver_sim; [exact G|reflexivity|].
  cbn [zw_env zw_arena set_env set_st]. intros S. assert (HS : zlen vs < 2^32).
  { destruct S as [S1 _]. rewrite zlen_app, zlen_app, zlen_u32_le, (zlen_concat16 _ B), C in S1.
    unfold u32_max in S1. pose proof (zlen_nonneg (zw_env s)). lia. }
  pose proof (zlen_nonneg vs).
  rewrite HE. subst n. rewrite wrap32_small by lia.
  econstructor; [unfold u32_max; lia|lia|apply has_end|].
  assert (S' : small (zw_env s) (zw_arena s)).
  { rewrite <- (app_nil_r (zw_arena s)) in S. now apply small_app in S. }
  revert E. intros E. specialize (E S'). revert E. apply Forall2_impl. intros x y Hxy.
  rewrite <- (app_nil_r (zw_arena s)). now apply vrep_mono.
Qed.

Lemma end_map_sim a s : zsim a s -> sim_res (astep a EEndMap) (zw_end_map s).
Proof.
  intros H. pose proof H as [HE HA HT HF HR]. cbn [astep]. unfold zw_end_map.
  revert HF; destruct (a_fr a) as [|f fr] eqn:Ef, (zw_st s) as [|c st'] eqn:Es; intros HF; try (inversion HF; fail);
    [split; [exact H|reflexivity]|].
  apply Forall2_cons_iff in HF; destruct HF as [Hfc HF'].
  destruct f as [vs|es pend|], c as [p n|p n pp]; cbn [frame_rel] in Hfc; try contradiction;
    try (split; [exact H|reflexivity]).
  - destruct Hfc as (ces & A & B & C & D). destruct pend as [k|].
    + destruct D as (D1 & D2 & D3 & D4). subst pp. split; [|reflexivity]. cbn [fst].
      split; cbn; auto. constructor; auto. cbn. split; auto. eexists; split; [reflexivity|].
      rewrite D1, !zlen_app, zlen_entry. change (zlen (zeros 16)) with 16. rewrite zlen_u32_le.
      pose proof (zlen_nonneg (entries ces)). pose proof (zlen_nonneg k). lia.
    + destruct D as (D1 & D2 & D3). subst pp. cbv zeta.
      assert (H1 : zsim (a_set a fr) (set_st s st')).
      { split; cbn; auto. }
      unfold patch_count. subst p. rewrite zlen_app, zlen_u32_le.
      pose proof (zlen_nonneg (entries ces)) as Hc0.
      replace (4 + zlen (entries ces) <? 4) with false by lia.
      change (skipn 4 (u32_le 0 ++ entries ces)) with (entries ces).
      unfold wbind. rewrite (append_env_sim _ _ _ H1). cbn [a_env a_set].
      destruct (u32_max <? a_env a) eqn:E4; [split; [exact H1|reflexivity]|].
      pose proof (zsim_grow_env _ _ (u32_le n ++ entries ces) H1) as G.
      pose proof (map_size_entries _ _ B A) as HM.
      rewrite zlen_app, zlen_u32_le, HM in G.
      apply deliver_sim; [exact G|reflexivity|].
      cbn [zw_env zw_arena set_env set_st]. intros S. assert (HL : zlen ces = zlen es).
      { rewrite <- (zlen_map fst ces), A. apply zlen_map. }
      assert (HLe : 20 * zlen ces <= zlen (entries ces)).
      { clear - B. induction B as [|[k vr] l [B1 B2] B IH]; [cbn; lia|]. cbn [fst snd] in *.
        rewrite entries_cons, zlen_app, zlen_entry, zlen_cons. cbn [fst snd].
        pose proof (zlen_nonneg k). lia. }
      assert (HS : zlen es < 2^32).
      { destruct S as [S1 _]. rewrite zlen_app, zlen_app, zlen_u32_le in S1.
        unfold u32_max in S1. pose proof (zlen_nonneg (zw_env s)). lia. }
      pose proof (zlen_nonneg es).
      rewrite HE. subst n. rewrite wrap32_small by lia.
      econstructor; [unfold u32_max; lia|lia|apply has_end|].
      assert (S' : small (zw_env s) (zw_arena s)).
      { rewrite <- (app_nil_r (zw_arena s)) in S. now apply small_app in S. }
      specialize (C S'). revert C. apply Forall2_impl. intros x y (K1 & K2 & K3).
      repeat split; auto.
      rewrite <- (app_nil_r (zw_arena s)). now apply vrep_mono.
  - destruct Hfc as (A & q & B & C). subst. split; [|reflexivity]. cbn [fst].
    split; cbn; auto. rewrite Ef. constructor; auto. cbn. eauto.
Qed.

Lemma key_sim a s k : bytes_ok k -> zsim a s -> sim_res (astep a (EKey k)) (zw_key k s).
Proof.
  intros Hk H. pose proof H as [HE HA HT HF HR]. cbn [astep]. unfold zw_key.
  revert HF; destruct (a_fr a) as [|f fr] eqn:Ef, (zw_st s) as [|c st'] eqn:Es; intros HF; try (inversion HF; fail);
    [split; [exact H|reflexivity]|].
  apply Forall2_cons_iff in HF; destruct HF as [Hfc HF'].
  destruct f as [vs|es pend|], c as [p n|p n pp]; cbn [frame_rel] in Hfc; try contradiction;
    try (split; [exact H|reflexivity]).
  - destruct Hfc as (ces & A & B & C & D). destruct pend as [k'|].
    + destruct D as (D1 & D2 & D3 & D4). subst pp. split; [exact H|reflexivity].
    + destruct D as (D1 & D2 & D3). subst pp. change u16_max with 65535.
      destruct (65535 <? zlen k) eqn:E4; [split; [exact H|reflexivity]|].
      pose proof (zlen_nonneg k). cbv zeta. rewrite wrap16_small by lia.
      split; [|reflexivity]. cbn [fst].
      split; cbn [a_env a_arena a_thr a_fr a_root a_set zw_env zw_arena zw_thr zw_st zw_root set_st]; auto.
      constructor; auto. cbn [frame_rel].
      exists ces. repeat split; auto.
      * subst p. unfold entry. now rewrite <- !app_assoc.
      * unfold u16_max. lia.
      * rewrite !zlen_app. change (zlen (zeros 16)) with 16. f_equal. lia.
      * subst n. apply wrap32_add.
  - destruct Hfc as (A & q & B & C). subst. split; [exact H|reflexivity].
Qed.

Theorem step_sim a s e : ev_ok e -> zsim a s -> sim_res (astep a e) (zw_step s e).
Proof.
  intros He H. destruct e; cbn [ev_ok] in He; cbn [zw_step].
  - apply deliver_sim; auto. intros _. constructor.
  - apply deliver_sim; auto. intros _. constructor.
  - cbv zeta. apply deliver_sim; auto. intros _. now constructor.
  - apply deliver_sim; auto. intros _. now constructor.
  - apply deliver_sim; auto. intros _. now constructor.
  - now apply string_sim.
  - now apply binary_sim.
  - now apply key_sim.
  - cbn [astep]. unfold zw_begin_array, reserve_ok.
    destruct (wrap64 (4 + wrap64 (n * 16)) <=? i64_max) eqn:E; [|split; [exact H|reflexivity]].
    split; [|reflexivity]. pose proof H as [HE HA HT HF HR]. split; cbn; auto.
    constructor; auto. exists []. repeat split; auto.
  - now apply end_array_sim.
  - cbn [astep]. unfold zw_begin_map, reserve_ok.
    destruct (wrap64 (4 + wrap64 (n * 28)) <=? i64_max) eqn:E; [|split; [exact H|reflexivity]].
    split; [|reflexivity]. pose proof H as [HE HA HT HF HR]. split; cbn; auto.
    constructor; auto. exists []. repeat split; auto; constructor.
  - now apply end_map_sim.
Qed.
