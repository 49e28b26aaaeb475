(** ZeraRun.v -- the abstract machine of ZeraSpec on whole call sequences. *)

From Coq Require Import ZArith List Bool Lia ZifyBool ZifyNat.
From Verif Require Import Base BaseFacts Spec SpecFacts ZeraSpec.
Import ListNotations.
Open Scope Z_scope.
Ltac Zify.zify_post_hook ::= Z.div_mod_to_equations.

Definition amachine : writer ast bytes := mkWriter a_init astep (fun a => (a, NoFuel)).

Definition ready (a : ast) : Prop :=
  match a_fr a with
  | [] => a_root a = None
  | FArr _ :: _ => True
  | FMap _ (Some _) :: _ => True
  | _ => False
  end.

Lemma up16_le n : n <= up16 n.
Proof. unfold up16. lia. Qed.

Section Sizes.
  Variable thr : Z.

  Lemma arena_after_mono : forall v a, 0 <= a -> a <= arena_after thr a v.
  Proof.
    induction v as [| | | | |s|b|l IH|l IH] using val_ind'; intros a Ha; cbn [arena_after]; try lia.
    - pose proof (zlen_nonneg s). destruct (zlen s <=? Z.min thr 12); lia.
    - pose proof (zlen_nonneg b). pose proof (up16_le a). lia.
    - revert a Ha. induction IH as [|x l Hx Hl IHl]; intros a Ha; cbn [fold_left]; [lia|].
      specialize (Hx a Ha). specialize (IHl (arena_after thr a x) ltac:(lia)). lia.
    - revert a Ha. induction IH as [|[k x] l Hx Hl IHl]; intros a Ha; cbn [fold_left snd]; [lia|].
      cbn [snd] in Hx. specialize (Hx a Ha). specialize (IHl (arena_after thr a x) ltac:(lia)). lia.
  Qed.
End Sizes.

Lemma env_need_nonneg : forall v, 0 <= env_need v.
Proof.
  induction v as [| | | | |s|b|l IH|l IH] using val_ind'; cbn [env_need]; try lia.
  - enough (0 <= fold_right (fun x n => env_need x + n) 0 l) by (pose proof (zlen_nonneg l); lia).
    induction IH; cbn [fold_right]; lia.
  - enough (0 <= fold_right (fun kx n => env_need (snd kx) + n) 0 l /\ 4 <= map_size l) by lia.
    unfold map_size. induction IH as [|[k x] l Hx Hl IHl]; cbn [fold_right fst snd] in *; [lia|].
    pose proof (zlen_nonneg k). lia.
Qed.

(** ** Running the calls of one value *)
Definition hint_ok (e : ev) : Prop :=
  match e with EBeginArr n | EBeginMap n => 0 <= n < 2^58 | _ => True end.

Ltac noroom :=
  match goal with NR : ~ (_ /\ _) |- ~ _ =>
    intros (A1 & A2 & A3 & A4); apply NR; split; [tauto|split; [lia|split; [lia|tauto]]] end.

Section Run.
  Variable thr : Z.

  Definition grown (a : ast) (v : val) : ast :=
    mkA (a_fr a) (a_root a) (a_env a + env_need v) (arena_after thr (a_arena a) v) (a_thr a).
  Definition room (a : ast) (v : val) (es : list ev) : Prop :=
    keys_ok v /\ arena_after thr (a_arena a) v <= u32_max /\ a_env a + env_need v <= u32_max /\
    Forall hint_ok es.
  Definition room_list (a : ast) (l : list val) (es : list ev) : Prop :=
    fold_right (fun x P => keys_ok x /\ P) True l /\ fold_left (arena_after thr) l (a_arena a) <= u32_max /\
    a_env a + fold_right (fun x n => env_need x + n) 0 l <= u32_max /\ Forall hint_ok es.
  Definition room_entries (a : ast) (l : list (bytes * val)) (es : list ev) : Prop :=
    fold_right (fun kx P => zlen (fst kx) <= 65535 /\ keys_ok (snd kx) /\ P) True l /\
    fold_left (fun a kx => arena_after thr a (snd kx)) l (a_arena a) <= u32_max /\
    a_env a + fold_right (fun kx n => env_need (snd kx) + n) 0 l <= u32_max /\ Forall hint_ok es.

  Definition ok_exn (es : list ev) (e : exn) : Prop :=
    e = ESer \/ e = ELength /\ ~ Forall hint_ok es.

  Definition run_post (a : ast) (v : val) (es : list ev) : Prop :=
    (exists a', run amachine a es = (a', Ok tt) /\ adeliver v (grown a v) = (a', Ok tt) /\ keys_ok v) \/
    (exists a' e, run amachine a es = (a', Throw e) /\ ok_exn es e /\ ~ room a v es).
  Definition list_post (a : ast) (l : list val) (es : list ev) : Prop :=
    forall vs fr, a_fr a = FArr vs :: fr ->
    (run amachine a es = (mkA (FArr (vs ++ l) :: fr) (a_root a)
        (a_env a + fold_right (fun x n => env_need x + n) 0 l)
        (fold_left (arena_after thr) l (a_arena a)) (a_thr a), Ok tt) /\
     fold_right (fun x P => keys_ok x /\ P) True l) \/
    (exists a' e, run amachine a es = (a', Throw e) /\ ok_exn es e /\ ~ room_list a l es).
  Definition entries_post (a : ast) (l : list (bytes * val)) (es : list ev) : Prop :=
    forall vs fr, a_fr a = FMap vs None :: fr ->
    (run amachine a es = (mkA (FMap (vs ++ l) None :: fr) (a_root a)
        (a_env a + fold_right (fun kx n => env_need (snd kx) + n) 0 l)
        (fold_left (fun a kx => arena_after thr a (snd kx)) l (a_arena a)) (a_thr a), Ok tt) /\
     fold_right (fun kx P => zlen (fst kx) <= 65535 /\ keys_ok (snd kx) /\ P) True l) \/
    (exists a' e, run amachine a es = (a', Throw e) /\ ok_exn es e /\ ~ room_entries a l es).

  Lemma adeliver_cases v a : ready a ->
    (exists a', adeliver v a = (a', Ok tt)) \/
    (exists a', adeliver v a = (a', Throw ESer) /\ u32_max < a_env a).
  Proof.
    unfold ready, adeliver. destruct (a_fr a) as [|[vs|es [k|]|] fr]; intros H; try contradiction; eauto.
    rewrite H. destruct (u32_max <? a_env a) eqn:E; [right|left]; eexists; eauto.
    split; [reflexivity|lia].
  Qed.

  Lemma leaf_post a v es : ready a -> run amachine a es = adeliver v (grown a v) -> keys_ok v ->
    run_post a v es.
  Proof.
    intros R E K. assert (R' : ready (grown a v)) by exact R.
    destruct (adeliver_cases v _ R') as [(a' & D)|(a' & D & L)]; rewrite D in E.
    - left. eauto.
    - right. exists a', ESer. split; [exact E|]. split; [now left|]. intros (_ & _ & L2 & _).
      cbn [grown a_env] in L. lia.
  Qed.

  Lemma run_one a e : run amachine a [e] = match astep a e with (a', Ok _) => (a', Ok tt) | x => x end.
  Proof. cbn [run amachine w_step]. destruct (astep a e) as [a' [u|x| |]]; reflexivity. Qed.
  Lemma run_one_deliver a e v a1 : astep a e = adeliver v a1 -> run amachine a [e] = adeliver v a1.
  Proof.
    intros E. rewrite run_one, E. unfold adeliver.
    destruct (a_fr a1) as [|[vs|es [k|]|] fr]; try reflexivity.
    destruct (a_root a1); [reflexivity|]. destruct (u32_max <? a_env a1); reflexivity.
  Qed.

  Lemma env_list_nonneg l : 0 <= fold_right (fun x n => env_need x + n) 0 l.
  Proof. induction l as [|x l IH]; cbn; [lia|]. pose proof (env_need_nonneg x). lia. Qed.
  Lemma env_entries_nonneg (l : list (bytes * val)) : 0 <= fold_right (fun kx n => env_need (snd kx) + n) 0 l.
  Proof. induction l as [|x l IH]; cbn; [lia|]. pose proof (env_need_nonneg (snd x)). lia. Qed.
  Lemma arena_list_mono l : forall a, 0 <= a -> a <= fold_left (arena_after thr) l a.
  Proof. intros a Ha. apply (arena_after_mono thr (VArr l) a Ha). Qed.
  Lemma arena_entries_mono (l : list (bytes * val)) :
    forall a, 0 <= a -> a <= fold_left (fun a kx => arena_after thr a (snd kx)) l a.
  Proof. intros a Ha. apply (arena_after_mono thr (VMap l) a Ha). Qed.
  Lemma map_size_ge (l : list (bytes * val)) : 4 + 20 * zlen l <= map_size l.
  Proof.
    unfold map_size. induction l as [|[k x] l IH]; cbn [fold_right fst snd]; [reflexivity|].
    rewrite zlen_cons. pose proof (zlen_nonneg k). lia.
  Qed.

  Lemma hint_reserve n c : 0 <= n < 2^58 -> 0 <= c <= 28 ->
    wrap64 (4 + wrap64 (n * c)) <=? i64_max = true.
  Proof. intros. unfold i64_max. rewrite (wrap64_small (n * c)) by nia. rewrite wrap64_small by nia. nia. Qed.

  Lemma calls_run_all :
    (forall v es, calls v es -> forall a, ready a -> 0 <= a_arena a -> a_thr a = thr -> run_post a v es) /\
    (forall l es, calls_list l es -> forall a, 0 <= a_arena a -> a_thr a = thr -> list_post a l es) /\
    (forall l es, calls_entries l es -> forall a, 0 <= a_arena a -> a_thr a = thr -> entries_post a l es).
  Proof.
    apply calls_mutind.
    1-5: intros; apply leaf_post; auto; [apply run_one_deliver|exact I];
         cbn [astep]; f_equal; unfold grown; cbn [env_need arena_after]; destruct a; cbn;
         rewrite ?Z.add_0_r; reflexivity.
    - (* string *)
      intros s a R A0 T. pose proof (zlen_nonneg s) as S0. unfold run_post.
      destruct (zlen s <=? Z.min thr 12) eqn:Es.
      + apply leaf_post; auto; [|exact I]. apply run_one_deliver. cbn [astep]. rewrite T, Es.
        f_equal. unfold grown. cbn [env_need arena_after]. rewrite Es, Z.add_0_r. now destruct a.
      + destruct (u32_max <? zlen s) eqn:E1.
        * right. exists a, ESer. rewrite run_one. cbn [astep]. rewrite T, Es, E1.
          split; [reflexivity|]. split; [now left|]. unfold room. cbn [arena_after]. rewrite Es. lia.
        * destruct (u32_max <? a_arena a) eqn:E2.
          -- right. eexists _, ESer. rewrite run_one. cbn [astep]. rewrite T, Es, E1, E2.
             split; [reflexivity|]. split; [now left|]. unfold room. cbn [arena_after]. rewrite Es. lia.
          -- apply leaf_post; auto; [|exact I]. apply run_one_deliver. cbn [astep]. rewrite T, Es, E1, E2.
             f_equal. unfold grown, a_grow. cbn [env_need arena_after]. now rewrite Es.
    - (* blob *)
      intros b a R A0 T. pose proof (zlen_nonneg b) as S0. unfold run_post.
      pose proof (up16_le (a_arena a)) as U.
      destruct (u32_max <? zlen b) eqn:E1.
      { right. exists a, ESer. rewrite run_one. cbn [astep]. rewrite E1.
        split; [reflexivity|]. split; [now left|]. unfold room. cbn [arena_after]. lia. }
      destruct (u32_max <? up16 (a_arena a)) eqn:E2.
      { right. eexists _, ESer. rewrite run_one. cbn [astep]. rewrite E1, E2.
        split; [reflexivity|]. split; [now left|]. unfold room. cbn [arena_after]. lia. }
      destruct (u32_max <? a_env a) eqn:E3.
      { right. eexists _, ESer. rewrite run_one. cbn [astep]. rewrite E1, E2, E3.
        split; [reflexivity|]. split; [now left|]. unfold room. cbn [env_need]. lia. }
      apply leaf_post; auto; [|exact I]. apply run_one_deliver. cbn [astep]. rewrite E1, E2, E3.
      f_equal. unfold grown, a_grow. cbn [env_need arena_after a_fr a_root a_env a_arena a_thr].
      f_equal; lia.
    - (* array *)
      intros n l es Hl IH a R A0 T. unfold run_post.
      cbn [run amachine w_step]. cbn [astep].
      destruct (wrap64 (4 + wrap64 (n * 16)) <=? i64_max) eqn:E1.
      2:{ right. exists a, ELength. split; [reflexivity|].
          assert (NH : ~ Forall hint_ok (EBeginArr n :: es ++ [EEndArr])).
          { intros H. inversion H as [|x y H1 H2]. cbn in H1. rewrite hint_reserve in E1 by lia. discriminate. }
          split; [right; auto|]. unfold room. tauto. }
      rewrite run_app.
      assert (HH : Forall hint_ok (EBeginArr n :: es ++ [EEndArr]) -> Forall hint_ok es).
      { intros H. inversion H as [|x y H1 H2]. apply Forall_app in H2. tauto. }
      destruct (IH (a_push a (FArr [])) A0 T [] (a_fr a) eq_refl) as [[-> K]|(a' & e & -> & OK & NR)].
      2:{ right. exists a', e. split; [reflexivity|]. split.
          - destruct OK as [->|[-> N]]; [now left|right; tauto].
          - unfold room, room_list in *. cbn [a_push a_env a_arena] in NR. cbn [keys_ok arena_after env_need].
            pose proof (zlen_nonneg l). noroom. }
      cbn [app a_push a_root a_env a_arena a_thr].
      change (run (mkWriter a_init astep (fun a => (a, NoFuel)))) with (run amachine). rewrite run_one. cbn [astep a_fr a_env].
      pose proof (env_list_nonneg l) as N1. pose proof (zlen_nonneg l) as N2.
      destruct (u32_max <? a_env a + fold_right (fun x n => env_need x + n) 0 l) eqn:E2.
      { right. eexists _, ESer. split; [reflexivity|]. split; [now left|]. unfold room. cbn [env_need]. lia. }
      unfold a_set, a_grow. cbn [a_fr a_root a_env a_arena a_thr].
      assert (G : mkA (a_fr a) (a_root a)
         (a_env a + fold_right (fun x n => env_need x + n) 0 l + (4 + 16 * zlen l))
         (fold_left (arena_after thr) l (a_arena a) + 0) (a_thr a) = grown a (VArr l)).
      { unfold grown. cbn [env_need arena_after]. f_equal; lia. }
      rewrite G. assert (R' : ready (grown a (VArr l))) by exact R.
      destruct (adeliver_cases (VArr l) _ R') as [(a' & D)|(a' & D & L)]; rewrite D.
      + left. exists a'. auto.
      + right. eexists _, ESer. split; [reflexivity|]. split; [now left|]. unfold room.
        cbn [grown a_env] in L. lia.
    - (* map *)
      intros n l es Hl IH a R A0 T. unfold run_post.
      cbn [run amachine w_step]. cbn [astep].
      destruct (wrap64 (4 + wrap64 (n * 28)) <=? i64_max) eqn:E1.
      2:{ right. exists a, ELength. split; [reflexivity|].
          assert (NH : ~ Forall hint_ok (EBeginMap n :: es ++ [EEndMap])).
          { intros H. inversion H as [|x y H1 H2]. cbn in H1. rewrite hint_reserve in E1 by lia. discriminate. }
          split; [right; auto|]. unfold room. tauto. }
      rewrite run_app.
      assert (HH : Forall hint_ok (EBeginMap n :: es ++ [EEndMap]) -> Forall hint_ok es).
      { intros H. inversion H as [|x y H1 H2]. apply Forall_app in H2. tauto. }
      pose proof (map_size_ge l) as MS. pose proof (zlen_nonneg l) as N2.
      destruct (IH (a_push a (FMap [] None)) A0 T [] (a_fr a) eq_refl) as [[-> K]|(a' & e & -> & OK & NR)].
      2:{ right. exists a', e. split; [reflexivity|]. split.
          - destruct OK as [->|[-> N]]; [now left|right; tauto].
          - unfold room, room_entries in *. cbn [a_push a_env a_arena] in NR. cbn [keys_ok arena_after env_need].
            noroom. }
      cbn [app a_push a_root a_env a_arena a_thr].
      change (run (mkWriter a_init astep (fun a => (a, NoFuel)))) with (run amachine). rewrite run_one. cbn [astep a_fr a_env].
      pose proof (env_entries_nonneg l) as N1.
      destruct (u32_max <? a_env a + fold_right (fun kx n => env_need (snd kx) + n) 0 l) eqn:E2.
      { right. eexists _, ESer. split; [reflexivity|]. split; [now left|]. unfold room. cbn [env_need]. lia. }
      unfold a_set, a_grow. cbn [a_fr a_root a_env a_arena a_thr].
      assert (G : mkA (a_fr a) (a_root a)
         (a_env a + fold_right (fun kx n => env_need (snd kx) + n) 0 l + map_size l)
         (fold_left (fun a kx => arena_after thr a (snd kx)) l (a_arena a) + 0) (a_thr a) = grown a (VMap l)).
      { unfold grown. cbn [env_need arena_after]. f_equal; lia. }
      rewrite G. assert (R' : ready (grown a (VMap l))) by exact R.
      destruct (adeliver_cases (VMap l) _ R') as [(a' & D)|(a' & D & L)]; rewrite D.
      + left. exists a'. auto.
      + right. eexists _, ESer. split; [reflexivity|]. split; [now left|]. unfold room.
        cbn [grown a_env] in L. lia.
    - (* no more elements *)
      intros a A0 T vs fr F. left. cbn [run fold_right fold_left]. rewrite app_nil_r, Z.add_0_r, <- F.
      split; [now destruct a|exact I].
    - (* an element *)
      intros x l es1 es2 Hx IHx Hl IHl a A0 T vs fr F. rewrite run_app.
      assert (R : ready a) by (unfold ready; now rewrite F).
      pose proof (arena_after_mono thr x (a_arena a) A0) as M1.
      pose proof (env_need_nonneg x) as N1. pose proof (env_list_nonneg l) as N2.
      pose proof (arena_list_mono l (arena_after thr (a_arena a) x) ltac:(lia)) as M2.
      assert (HH : Forall hint_ok (es1 ++ es2) -> Forall hint_ok es1 /\ Forall hint_ok es2)
        by apply Forall_app.
      destruct (IHx a R A0 T) as [(a' & -> & D & K)|(a' & e & -> & OK & NR)].
      2:{ right. exists a', e. split; [reflexivity|]. split.
          - destruct OK as [->|[-> N]]; [now left|right; tauto].
          - unfold room, room_list in *. cbn [fold_right fold_left]. noroom. }
      unfold adeliver in D. cbn [grown a_fr] in D. rewrite F in D. inversion D; subst a'. clear D.
      destruct (IHl (a_set (grown a x) (FArr (vs ++ [x]) :: fr)) ltac:(cbn [a_set grown a_arena]; lia) T (vs ++ [x]) fr eq_refl)
        as [[-> K2]|(a' & e & -> & OK & NR)].
      + left. cbn [fold_right fold_left a_set grown a_root a_env a_arena a_thr]. rewrite <- app_assoc.
        cbn [app]. rewrite Z.add_assoc. auto.
      + right. exists a', e. split; [reflexivity|]. split.
        * destruct OK as [->|[-> N]]; [now left|right; tauto].
        * unfold room_list in *. cbn [fold_right fold_left]. cbn [a_set grown a_env a_arena] in NR.
          noroom.
    - intros a A0 T vs fr F. left. cbn [run fold_right fold_left]. rewrite app_nil_r, Z.add_0_r, <- F.
      split; [now destruct a|exact I].
    - (* an entry *)
      intros k x l es1 es2 Hx IHx Hl IHl a A0 T vs fr F.
      cbn [run amachine w_step]. cbn [astep]. rewrite F.
      change (run (mkWriter a_init astep (fun a => (a, NoFuel)))) with (run amachine).
      destruct (65535 <? zlen k) eqn:E1.
      { right. exists a, ESer. split; [reflexivity|]. split; [now left|].
        unfold room_entries. cbn [fold_right fst]. lia. }
      rewrite run_app. set (a1 := a_set a (FMap vs (Some k) :: fr)).
      assert (R : ready a1) by exact I.
      pose proof (arena_after_mono thr x (a_arena a) A0) as M1.
      pose proof (env_need_nonneg x) as N1. pose proof (env_entries_nonneg l) as N2.
      pose proof (arena_entries_mono l (arena_after thr (a_arena a) x) ltac:(lia)) as M2.
      assert (HH : Forall hint_ok (EKey k :: es1 ++ es2) -> Forall hint_ok es1 /\ Forall hint_ok es2).
      { intros H. inversion H. now apply Forall_app. }
      destruct (IHx a1 R A0 T) as [(a' & -> & D & K)|(a' & e & -> & OK & NR)].
      2:{ right. exists a', e. split; [reflexivity|]. split.
          - destruct OK as [->|[-> N]]; [now left|right; tauto].
          - unfold room, room_entries in *. cbn [fold_right fold_left snd fst]. cbn [a1 a_set a_env a_arena] in NR.
            noroom. }
      assert (a' = a_set (grown a1 x) (FMap (vs ++ [(k, x)]) None :: fr)) as ->
        by (unfold adeliver in D; cbn [grown a_fr a1 a_set] in D; now inversion D). clear D.
      destruct (IHl (a_set (grown a1 x) (FMap (vs ++ [(k, x)]) None :: fr)) ltac:(unfold a1; cbn [a_set grown a_arena]; lia) T (vs ++ [(k, x)]) fr eq_refl)
        as [[-> K2]|(a' & e & -> & OK & NR)].
      + left. cbn [fold_right fold_left fst snd a_set grown a_root a_env a_arena a_thr a1]. rewrite <- app_assoc.
        cbn [app]. rewrite Z.add_assoc. repeat split; auto. lia.
      + right. exists a', e. split; [reflexivity|]. split.
        * destruct OK as [->|[-> N]]; [now left|right; tauto].
        * unfold room_entries in *. cbn [fold_right fold_left fst snd]. cbn [a_set grown a_env a_arena a1] in NR.
          noroom.
  Qed.
End Run.

(** ** Which call sequences run without a throw *)
Definition fspell (f : frame) (es : list ev) : Prop :=
  match f with
  | FArr vs => exists n es', es = EBeginArr n :: es' /\ calls_list vs es'
  | FMap l None => exists n es', es = EBeginMap n :: es' /\ calls_entries l es'
  | FMap l (Some k) => exists n es', es = EBeginMap n :: es' ++ [EKey k] /\ calls_entries l es'
  | FStuck => False
  end.
Fixpoint spells (fr : list frame) (es : list ev) : Prop :=
  match fr with
  | [] => es = []
  | f :: fr' => exists e1 e2, es = e1 ++ e2 /\ spells fr' e1 /\ fspell f e2
  end.
Definition inv (a : ast) (acc : list ev) : Prop :=
  exists rp fp, acc = rp ++ fp /\ spells (a_fr a) fp /\
  match a_root a with None => rp = [] | Some v => calls v rp end.

Lemma deliver_inv v ve a acc a' de da : calls v ve -> inv a acc ->
  adeliver v (a_grow a de da) = (a', Ok tt) -> inv a' (acc ++ ve).
Proof.
  intros C (rp & fp & -> & SP & RT) D. unfold adeliver in D. cbn [a_grow a_fr a_root a_env] in D.
  destruct (a_fr a) as [|[vs|es [k|]|] fr] eqn:F.
  - destruct (a_root a) eqn:R; [discriminate|].
    destruct (u32_max <? a_env a + de); inversion D. subst.
    exists ve, []. cbn in SP. subst. rewrite !app_nil_r. cbn. auto.
  - inversion D; subst. destruct SP as (e1 & e2 & -> & S1 & n & es' & -> & S2).
    exists rp, (e1 ++ EBeginArr n :: es' ++ ve). split; [now rewrite <- !app_assoc|].
    split; [|exact RT]. exists e1, (EBeginArr n :: es' ++ ve). repeat split; auto.
    exists n, (es' ++ ve). split; [reflexivity|]. apply calls_list_app; auto. now apply calls_list_one.
  - inversion D; subst. destruct SP as (e1 & e2 & -> & S1 & n & es' & -> & S2).
    exists rp, (e1 ++ EBeginMap n :: es' ++ EKey k :: ve).
    split; [rewrite <- !app_assoc; cbn; now rewrite <- !app_assoc|].
    split; [|exact RT]. exists e1, (EBeginMap n :: es' ++ EKey k :: ve). repeat split; auto.
    exists n, (es' ++ EKey k :: ve). split; [reflexivity|]. apply calls_entries_app; auto.
    now apply calls_entries_one.
  - discriminate.
  - discriminate.
Qed.

Lemma a_grow_0 a : a_grow a 0 0 = a.
Proof. unfold a_grow. rewrite !Z.add_0_r. now destruct a. Qed.
Lemma a_grow_grow a x y z w : a_grow (a_grow a x y) z w = a_grow a (x + z) (y + w).
Proof. unfold a_grow. cbn. f_equal; lia. Qed.

Lemma step_inv a acc e a' : inv a acc -> astep a e = (a', Ok tt) -> inv a' (acc ++ [e]).
Proof.
  intros I H.
  destruct e as [|b|z|z|z|s|b|k|n| |n| ]; cbn [astep] in H;
    try (rewrite <- (a_grow_0 a) in H; eapply deliver_inv; eauto using calls; fail).
  - destruct (zlen s <=? Z.min (a_thr a) 12).
    { rewrite <- (a_grow_0 a) in H. eapply deliver_inv; eauto using calls. }
    destruct (u32_max <? zlen s); [discriminate|].
    destruct (u32_max <? a_arena a); [discriminate|]. eapply deliver_inv; eauto using calls.
  - destruct (u32_max <? zlen b); [discriminate|].
    destruct (u32_max <? up16 (a_arena a)); [discriminate|].
    destruct (u32_max <? a_env a); [discriminate|]. rewrite a_grow_grow in H.
    eapply deliver_inv; eauto using calls.
  - destruct (a_fr a) as [|[vs|es [k'|]|] fr] eqn:F; try discriminate.
    destruct (65535 <? zlen k); inversion H; subst.
    destruct I as (rp & fp & -> & SP & RT). rewrite F in SP.
    destruct SP as (e1 & e2 & -> & S1 & n & es' & -> & S2).
    exists rp, (e1 ++ EBeginMap n :: es' ++ [EKey k]). split; [now rewrite <- !app_assoc|].
    split; [|exact RT]. exists e1, (EBeginMap n :: es' ++ [EKey k]). repeat split; auto.
    exists n, es'. auto.
  - destruct (wrap64 (4 + wrap64 (n * 16)) <=? i64_max); inversion H; subst.
    destruct I as (rp & fp & -> & SP & RT). exists rp, (fp ++ [EBeginArr n]).
    split; [now rewrite app_assoc|]. split; [|exact RT]. exists fp, [EBeginArr n].
    repeat split; auto. exists n, []. split; [reflexivity|constructor].
  - destruct (a_fr a) as [|[vs|es [k'|]|] fr] eqn:F; try discriminate.
    destruct (u32_max <? a_env a); [discriminate|].
    destruct I as (rp & fp & -> & SP & RT). rewrite F in SP.
    destruct SP as (e1 & e2 & -> & S1 & n & es' & -> & S2).
    replace ((rp ++ e1 ++ EBeginArr n :: es') ++ [EEndArr])
      with ((rp ++ e1) ++ (EBeginArr n :: es' ++ [EEndArr])) by (rewrite <- !app_assoc; reflexivity).
    eapply deliver_inv; [| |exact H]; [now constructor|]. exists rp, e1. auto.
  - destruct (wrap64 (4 + wrap64 (n * 28)) <=? i64_max); inversion H; subst.
    destruct I as (rp & fp & -> & SP & RT). exists rp, (fp ++ [EBeginMap n]).
    split; [now rewrite app_assoc|]. split; [|exact RT]. exists fp, [EBeginMap n].
    repeat split; auto. exists n, []. split; [reflexivity|constructor].
  - destruct (a_fr a) as [|[vs|es [k'|]|] fr] eqn:F; try discriminate.
    destruct (u32_max <? a_env a); [discriminate|].
    destruct I as (rp & fp & -> & SP & RT). rewrite F in SP.
    destruct SP as (e1 & e2 & -> & S1 & n & es' & -> & S2).
    replace ((rp ++ e1 ++ EBeginMap n :: es') ++ [EEndMap])
      with ((rp ++ e1) ++ (EBeginMap n :: es' ++ [EEndMap])) by (rewrite <- !app_assoc; reflexivity).
    eapply deliver_inv; [| |exact H]; [now constructor|]. exists rp, e1. auto.
Qed.

Lemma run_inv es : forall a acc a', inv a acc -> run amachine a es = (a', Ok tt) -> inv a' (acc ++ es).
Proof.
  induction es as [|e es IH]; intros a acc a' I H; cbn [run amachine w_step] in H.
  - inversion H; subst. now rewrite app_nil_r.
  - destruct (astep a e) as [a1 [[]|x| |]] eqn:E; try discriminate.
    replace (acc ++ e :: es) with ((acc ++ [e]) ++ es) by now rewrite <- app_assoc.
    eapply IH; eauto. eapply step_inv; eauto.
Qed.

Lemma run_finish_calls es a' v : run amachine a_init es = (a', Ok tt) -> snd (afinish a') = Ok v ->
  (es = [] /\ v = VNull) \/ calls v es.
Proof.
  intros H F. assert (I0 : inv a_init []) by (exists [], []; cbn; auto).
  pose proof (run_inv _ _ _ _ I0 H) as (rp & fp & E & SP & RT). cbn in E. subst es.
  unfold afinish in F. destruct (a_fr a') eqn:EF; [|discriminate]. cbn in SP. subst fp.
  rewrite app_nil_r. destruct (a_root a') as [r|] eqn:ER.
  - right. destruct ((a_env a' <=? u32_max) && (a_arena a' <=? u32_max) && (up16 (20 + a_env a') <=? u32_max));
      cbn [snd] in F; inversion F; subst; exact RT.
  - left. split; [exact RT|].
    destruct (adeliver VNull a') as [a1 [[]|x| |]]; cbn [snd] in F; try discriminate.
    destruct ((a_env a1 <=? u32_max) && (a_arena a1 <=? u32_max) && (up16 (20 + a_env a1) <=? u32_max));
      cbn [snd] in F; inversion F; reflexivity.
Qed.

(** ** finish() after the calls of a value *)
Definition fits_thr (thr : Z) (v : val) : Prop :=
  keys_ok v /\ arena_ofs_of (env_size_of v) <= u32_max /\ arena_after thr 0 v <= u32_max.

Lemma run_finish v es thr a : calls v es -> a = mkA [] None 0 0 thr ->
  match run amachine a es with
  | (a', Ok _) => a' = mkA [] (Some v) (env_size_of v) (arena_after thr 0 v) thr /\ keys_ok v /\
                  (snd (afinish a') = Ok v /\ fits_thr thr v \/
                   snd (afinish a') = Throw ESer /\ ~ fits_thr thr v)
  | (a', Throw e) => ok_exn es e /\ ~ (fits_thr thr v /\ Forall hint_ok es)
  | _ => False
  end.
Proof.
  intros C ->. assert (R : ready (mkA [] None 0 0 thr)) by reflexivity.
  destruct (proj1 (calls_run_all thr) v es C _ R (Z.le_refl 0) eq_refl)
    as [(a' & -> & D & K)|(a' & e & -> & OK & NR)].
  - unfold adeliver, grown in D. cbn in D. unfold arena_ofs_of.
    destruct (u32_max <? env_need v) eqn:E; inversion D; subst.
    split; [reflexivity|]. split; [exact K|].
    unfold afinish. cbn [a_fr a_root a_env a_arena]. fold (env_size_of v). unfold fits_thr, arena_ofs_of.
    destruct ((env_size_of v <=? u32_max) && (arena_after thr 0 v <=? u32_max) && (up16 (20 + env_size_of v) <=? u32_max)) eqn:E2;
      cbn [snd]; [left|right].
    + split; [reflexivity|]. repeat split; auto; lia.
    + split; [reflexivity|]. pose proof (up16_le (20 + env_size_of v)). unfold u32_max in *. lia.
  - split; [exact OK|]. intros [(F1 & F2 & F3) HH]. apply NR. unfold room. cbn [a_arena a_env].
    unfold arena_ofs_of, env_size_of in F2. pose proof (up16_le (20 + (env_need v + 16))).
    repeat split; auto. lia.
Qed.

Lemma events_hints : forall v, env_need v < 2^58 -> Forall hint_ok (events v).
Proof.
  induction v as [| | | | | | |l IH|l IH] using val_ind'; intros H; cbn [events]; try (repeat constructor; fail).
  - cbn [env_need] in H. pose proof (env_list_nonneg l). pose proof (zlen_nonneg l).
    constructor; [cbn; lia|]. apply Forall_app. split; [|repeat constructor].
    assert (L : fold_right (fun x n => env_need x + n) 0 l < 2^58) by lia.
    clear - IH L. induction IH as [|x l Hx Hl IHl]; cbn [flat_map]; [constructor|].
    cbn [fold_right] in L. pose proof (env_list_nonneg l). pose proof (env_need_nonneg x).
    apply Forall_app. split; [apply Hx; lia|apply IHl; lia].
  - cbn [env_need] in H. pose proof (env_entries_nonneg l). pose proof (zlen_nonneg l).
    pose proof (map_size_ge l).
    constructor; [cbn; lia|]. apply Forall_app. split; [|repeat constructor].
    assert (L : fold_right (fun kx n => env_need (snd kx) + n) 0 l < 2^58) by lia.
    clear - IH L. induction IH as [|[k x] l Hx Hl IHl]; cbn [flat_map fst snd]; [constructor|].
    cbn [fold_right snd] in L, Hx. pose proof (env_entries_nonneg l). pose proof (env_need_nonneg x).
    cbn [app]. constructor; [exact I|]. apply Forall_app. split; [apply Hx; lia|apply IHl; lia].
Qed.
