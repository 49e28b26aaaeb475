(** IdentZera.v -- a ZERA message determines the value it was made from. *)

From Coq Require Import ZArith List Bool Lia ZifyBool ZifyNat.
From Verif Require Import Base BaseFacts Spec SpecFacts ZeraModel ZeraSpec ZeraFacts ZeraRep ZeraSim
  ZeraMain ZeraRun ZeraTheorems ZeraHist IdentFacts.
Import ListNotations.
Open Scope Z_scope.
Ltac Zify.zify_post_hook ::= Z.div_mod_to_equations.

(** ** Pieces *)
Lemma u16_inj a b : 0 <= a < 2^16 -> 0 <= b < 2^16 -> u16_le a = u16_le b -> a = b.
Proof.
  intros A B E. pose proof (read_u16_le_has _ 0 a A (has_self _)) as RA. pose proof (read_u16_le_has _ 0 b B (has_self _)) as RB.
  rewrite E in RA. congruence.
Qed.
Lemma u32_inj a b : 0 <= a < 2^32 -> 0 <= b < 2^32 -> u32_le a = u32_le b -> a = b.
Proof.
  intros A B E. pose proof (read_u32_le_has _ 0 a A (has_self _)) as RA. pose proof (read_u32_le_has _ 0 b B (has_self _)) as RB.
  rewrite E in RA. congruence.
Qed.
Lemma u32_app a b s t : 0 <= a < 2^32 -> 0 <= b < 2^32 -> u32_le a ++ s = u32_le b ++ t -> a = b /\ s = t.
Proof. intros A B E. apply app_eq_len in E; [|reflexivity]. destruct E as [E ->]. apply u32_inj in E; auto. Qed.
Lemma u16_app a b s t : 0 <= a < 2^16 -> 0 <= b < 2^16 -> u16_le a ++ s = u16_le b ++ t -> a = b /\ s = t.
Proof. intros A B E. apply app_eq_len in E; [|reflexivity]. destruct E as [E ->]. apply u16_inj in E; auto. Qed.

Lemma vr_head t f x a b c t' f' x' a' b' c' : make_vr t f x a b c = make_vr t' f' x' a' b' c' ->
  t = t' /\ f = f' /\ u16_le x = u16_le x' /\ u32_le a = u32_le a' /\ u32_le b = u32_le b' /\ u32_le c = u32_le c'.
Proof.
  unfold make_vr. intros E. cbn [app] in E. apply cons_eq in E. destruct E as [-> E]. apply cons_eq in E. destruct E as [-> E].
  apply app_eq_len in E; [|reflexivity]. destruct E as [-> E]. apply app_eq_len in E; [|reflexivity]. destruct E as [-> E].
  apply app_eq_len in E; [|reflexivity]. destruct E as [-> ->]. auto 10.
Qed.
Lemma inline_inj s s' : zlen s <= 12 -> zlen s' <= 12 -> inline_vr s = inline_vr s' -> s = s'.
Proof.
  intros L L' E. unfold inline_vr in E. cbn [app] in E. apply cons_eq in E. destruct E as [_ E]. apply cons_eq in E. destruct E as [_ E].
  pose proof (zlen_nonneg s). pose proof (zlen_nonneg s'). apply u16_app in E; [|lia|lia]. destruct E as [N E].
  apply zlen_app_eq in E; [|exact N]. tauto.
Qed.
Lemma vr_inline t x a b c s : make_vr t 0 x a b c <> inline_vr s.
Proof. unfold make_vr, inline_vr. cbn [app]. intros E. apply cons_eq in E. destruct E as [_ E]. apply cons_eq in E. destruct E as [E _]. discriminate E. Qed.
Lemma bits_inj z z' : 0 <= z < 2^64 -> 0 <= z' < 2^64 -> u32_le (lo32 z) = u32_le (lo32 z') -> u32_le (hi32 z) = u32_le (hi32 z') -> z = z'.
Proof.
  intros Z Z' L H. apply u32_inj in L; [|apply lo32_range|apply lo32_range]. apply u32_inj in H; [|apply hi32_range|apply hi32_range].
  rewrite <- (lo_hi_bits z Z), <- (lo_hi_bits z' Z'). now rewrite L, H.
Qed.

(** Two things found at one place. *)
Lemma has_same (b : bytes) p l l' : has b p l -> has b p l' -> exists s t, l ++ s = l' ++ t.
Proof.
  intros H H'. destruct (has_split _ _ _ H) as (p1 & s & E & L). destruct (has_split _ _ _ H') as (p2 & t & E' & L').
  exists s, t. rewrite E in E'. apply zlen_app_eq in E'; [tauto|congruence].
Qed.
Lemma has_same_len (b : bytes) p l l' : has b p l -> has b p l' -> zlen l = zlen l' -> l = l'.
Proof. intros H H' L. destruct (has_same _ _ _ _ H H') as (s & t & E). apply zlen_app_eq in E; tauto. Qed.

Lemma vrs_same (vrs : list bytes) : forall (vrs' : list bytes) (s t : bytes), Forall (fun vr => zlen vr = 16) vrs -> Forall (fun vr => zlen vr = 16) vrs' -> zlen vrs = zlen vrs' ->
  concat vrs ++ s = concat vrs' ++ t -> vrs = vrs'.
Proof.
  induction vrs as [|x l IH]; intros [|y l'] s t A B L E; rewrite ?zlen_cons, ?zlen_nil in L.
  - reflexivity.
  - pose proof (zlen_nonneg l'). lia.
  - pose proof (zlen_nonneg l). lia.
  - apply Forall_cons_iff in A, B. destruct A as [Ax A], B as [By B]. cbn [concat] in E. rewrite <- !app_assoc in E.
    apply zlen_app_eq in E; [|congruence]. destruct E as [-> E]. f_equal. apply IH in E; auto. lia.
Qed.
Definition ent_ok (e : bytes * bytes) : Prop := zlen (fst e) <= u16_max /\ zlen (snd e) = 16.
Lemma ent_delim e : ent_ok e -> delim ent_ok (fun e => entry (fst e) (snd e)) e.
Proof.
  destruct e as [k vr]. intros [K V] [k' vr'] s t [K' V'] E. cbn [fst snd] in *. unfold entry in E. rewrite <- !app_assoc in E.
  unfold u16_max in *. pose proof (zlen_nonneg k). pose proof (zlen_nonneg k').
  apply u16_app in E; [|lia|lia]. destruct E as [N E]. apply app_eq_len in E; [|reflexivity]. destruct E as [_ E].
  apply zlen_app_eq in E; [|exact N]. destruct E as [-> E]. apply zlen_app_eq in E; [|congruence]. destruct E as [-> ->]. auto.
Qed.
Lemma F2_len {A B} (R : A -> B -> Prop) l l' : Forall2 R l l' -> zlen l = zlen l'.
Proof. induction 1; rewrite ?zlen_cons; [reflexivity|lia]. Qed.

(** ** A ValueRef stands for one value *)
Ltac vrh E := apply vr_head in E; destruct E as (ET & _ & EX & EA & EB & EC); try discriminate ET.
Lemma vrep_fun env arena : forall v1 vr, vrep env arena vr v1 -> forall v2, vrep env arena vr v2 -> v1 = v2.
Proof.
  induction v1 as [| | | | | | |l IH|l IH] using val_ind'; intros vr H1 v2 H2.
  - inversion H1 as [E0| | | | | | | | |]. inversion H2 as [E|c E|z R E|z R E|z R E|s L E|s o L1 L2 Ha E|c o so L1 L2 L3 Ha Hm Hs E|l vrs o L1 L2 Ha F E|l es o L1 L2 Ha F E]; rewrite <- E0 in E; clear E0; subst; try vrh E.
    + reflexivity.
    + symmetry in E. now apply vr_inline in E.
  - inversion H1 as [|c0 E0| | | | | | | |]. inversion H2 as [E|c E|z R E|z R E|z R E|s L E|s o L1 L2 Ha E|c o so L1 L2 L3 Ha Hm Hs E|l vrs o L1 L2 Ha F E|l es o L1 L2 Ha F E]; rewrite <- E0 in E; clear E0; subst; try vrh E.
    + apply u16_inj in EX; [|destruct c; lia|destruct b; lia]. f_equal. now destruct b, c.
    + symmetry in E. now apply vr_inline in E.
  - inversion H1 as [| |z0 R0 E0| | | | | | |]. inversion H2 as [E|c E|z' R E|z' R E|z' R E|s L E|s o L1 L2 Ha E|c o so L1 L2 L3 Ha Hm Hs E|l vrs o L1 L2 Ha F E|l es o L1 L2 Ha F E]; rewrite <- E0 in E; clear E0; subst; try vrh E.
    + apply bits_inj in EA; [|apply wrap64_range|apply wrap64_range|exact EB]. f_equal.
      rewrite <- (to_signed_wrap 64 z), <- (to_signed_wrap 64 z') by (unfold is_i64, i64_min, i64_max in *; lia).
      fold (wrap64 z). fold (wrap64 z'). now rewrite EA.
    + symmetry in E. now apply vr_inline in E.
  - inversion H1 as [| | |z0 R0 E0| | | | | |]. inversion H2 as [E|c E|z' R E|z' R E|z' R E|s L E|s o L1 L2 Ha E|c o so L1 L2 L3 Ha Hm Hs E|l vrs o L1 L2 Ha F E|l es o L1 L2 Ha F E]; rewrite <- E0 in E; clear E0; subst; try vrh E.
    + f_equal. unfold is_u64, u64_max in *. apply bits_inj; try lia; congruence.
    + symmetry in E. now apply vr_inline in E.
  - inversion H1 as [| | | |z0 R0 E0| | | | |]. inversion H2 as [E|c E|z' R E|z' R E|z' R E|s L E|s o L1 L2 Ha E|c o so L1 L2 L3 Ha Hm Hs E|l vrs o L1 L2 Ha F E|l es o L1 L2 Ha F E]; rewrite <- E0 in E; clear E0; subst; try vrh E.
    + f_equal. unfold is_u64, u64_max in *. apply bits_inj; try lia; congruence.
    + symmetry in E. now apply vr_inline in E.
  - inversion H1 as [| | | | |s0 L0 E0|s0 o0 L01 L02 Ha0 E0| | |];
      inversion H2 as [E|c E|z' R E|z' R E|z' R E|s' L E|s' o L1 L2 Ha E|c o so L1 L2 L3 Ha Hm Hs E|l vrs o L1 L2 Ha F E|l es o L1 L2 Ha F E];
      rewrite <- E0 in E; clear E0; subst; try (now apply vr_inline in E); try vrh E.
    + f_equal. symmetry in E. apply inline_inj in E; auto.
    + symmetry in E. now apply vr_inline in E.
    + apply has_bound in Ha as B1. apply has_bound in Ha0 as B0. pose proof (zlen_nonneg s). pose proof (zlen_nonneg s'). unfold u32_max in *.
      apply u32_inj in EA; [|lia|lia]. apply u32_inj in EB; [|lia|lia]. subst o. f_equal. eapply has_same_len; eauto.
  - inversion H1 as [| | | | | | |c0 o0 so0 L01 L02 L03 Ha0 Hm0 Hs0 E0| |];
      inversion H2 as [E|c E|z' R E|z' R E|z' R E|s' L E|s' o L1 L2 Ha E|c o so L1 L2 L3 Ha Hm Hs E|l vrs o L1 L2 Ha F E|l es o L1 L2 Ha F E];
      rewrite <- E0 in E; clear E0; subst; try vrh E.
    + symmetry in E. now apply vr_inline in E.
    + apply has_bound in Ha as B1. apply has_bound in Ha0 as B0. pose proof (zlen_nonneg b). pose proof (zlen_nonneg c). unfold u32_max in *.
      apply u32_inj in EA; [|lia|lia]. apply u32_inj in EB; [|lia|lia]. subst o. f_equal. eapply has_same_len; eauto.
  - inversion H1 as [| | | | | | | |l0 vrs0 o0 L01 L02 Ha0 F0 E0|];
      inversion H2 as [E|c E|z' R E|z' R E|z' R E|s' L E|s' o L1 L2 Ha E|c o so L1 L2 L3 Ha Hm Hs E|l' vrs o L1 L2 Ha F E|l' es o L1 L2 Ha F E];
      rewrite <- E0 in E; clear E0; subst; try vrh E.
    + symmetry in E. now apply vr_inline in E.
    + apply has_bound in Ha as B1. apply has_bound in Ha0 as B0. rewrite zlen_app in B0, B1. pose proof (zlen_nonneg l). pose proof (zlen_nonneg l').
      pose proof (zlen_nonneg (u32_le (zlen l) ++ concat vrs0)). unfold u32_max in *.
      apply u32_inj in EA; [|lia|lia]. subst o. destruct (has_same _ _ _ _ Ha0 Ha) as (s & t & X). rewrite <- !app_assoc in X.
      apply u32_app in X; [|lia|lia]. destruct X as [N X].
      apply vrs_same in X.
      * subst vrs. f_equal. clear - IH F0 F. revert l' F. induction F0 as [|y x ? ? R F0 IHF]; intros m F; inversion F; subst; [reflexivity|].
        apply Forall_cons_iff in IH. destruct IH as [I1 I2]. f_equal; [eapply I1; eauto|]. now apply IHF.
      * clear - F0. induction F0; constructor; auto. eapply vrep_len; eauto.
      * clear - F. induction F; constructor; auto. eapply vrep_len; eauto.
      * apply F2_len in F0, F. lia.
  - inversion H1 as [| | | | | | | | |l0 es0 o0 L01 L02 Ha0 F0 E0];
      inversion H2 as [E|c E|z' R E|z' R E|z' R E|s' L E|s' o L1 L2 Ha E|c o so L1 L2 L3 Ha Hm Hs E|l' vrs o L1 L2 Ha F E|l' es o L1 L2 Ha F E];
      rewrite <- E0 in E; clear E0; subst; try vrh E.
    + symmetry in E. now apply vr_inline in E.
    + apply has_bound in Ha as B1. apply has_bound in Ha0 as B0. rewrite zlen_app in B0, B1. pose proof (zlen_nonneg l). pose proof (zlen_nonneg l').
      unfold u32_max in *.
      apply u32_inj in EA; [|lia|lia]. subst o. destruct (has_same _ _ _ _ Ha0 Ha) as (s & t & X). rewrite <- !app_assoc in X.
      apply u32_app in X; [|lia|lia]. destruct X as [N X]. unfold entries in X.
      assert (G : forall es l, Forall2 (fun e kx => fst e = fst kx /\ zlen (fst kx) <= u16_max /\ vrep env arena (snd e) (snd kx)) es l -> Forall ent_ok es).
      { clear. induction 1 as [|e kx ? ? (A & B & C) ? IH]; constructor; auto. split; [now rewrite A|]. eapply vrep_len; eauto. }
      pose proof (G _ _ F0) as G0. pose proof (G _ _ F) as G1. clear G.
      apply (delim_list ent_ok) in X; [|revert G0; apply Forall_impl; exact ent_delim|exact G1|apply F2_len in F0, F; lia].
      destruct X as [<- _]. f_equal. clear - IH F0 F. revert l' F.
      induction F0 as [|e kx ? ? (R1 & R2 & R3) F0 IHF]; intros m F; inversion F as [|? kx' ? ? (Q1 & Q2 & Q3) F']; subst; [reflexivity|].
      apply Forall_cons_iff in IH. destruct IH as [I1 I2]. f_equal; [|now apply IHF].
      destruct kx as [k x], kx' as [k' x']. cbn [fst snd] in *. f_equal; [congruence|]. eapply I1; eauto.
Qed.

(** ** Messages *)
Lemma layout_inj r1 e1 a1 r2 e2 a2 s t : 0 <= r1 < 2^32 -> 0 <= r2 < 2^32 -> zlen e1 < 2^32 -> zlen e2 < 2^32 ->
  zera_layout r1 e1 a1 ++ s = zera_layout r2 e2 a2 ++ t -> r1 = r2 /\ e1 = e2 /\ a1 ++ s = a2 ++ t.
Proof.
  intros R1 R2 E1 E2 E. rewrite !zera_layout_eq in E. rewrite <- !app_assoc in E. pose proof (zlen_nonneg e1). pose proof (zlen_nonneg e2).
  apply app_eq_len in E; [|reflexivity]. destruct E as [_ E]. apply app_eq_len in E; [|reflexivity]. destruct E as [_ E].
  apply app_eq_len in E; [|reflexivity]. destruct E as [_ E].
  apply u32_app in E; [|lia|lia]. destruct E as [R E]. apply u32_app in E; [|lia|lia]. destruct E as [L E].
  apply app_eq_len in E; [|reflexivity]. destruct E as [_ E]. apply zlen_app_eq in E; [|exact L]. destruct E as [-> E].
  apply app_eq_len in E; [|reflexivity]. destruct E as [_ E]. auto.
Qed.
Lemma finish_ident a1 s1 a2 s2 v1 v2 b1 b2 s t : zsim a1 s1 -> zsim a2 s2 -> snd (afinish a1) = Ok v1 -> snd (afinish a2) = Ok v2 ->
  snd (zw_finish s1) = Ok b1 -> snd (zw_finish s2) = Ok b2 -> b1 ++ s = b2 ++ t -> v1 = v2.
Proof.
  intros Z1 Z2 F1 F2 B1 B2 E. pose proof (finish_sim _ _ Z1) as [_ G1]. pose proof (finish_sim _ _ Z2) as [_ G2]. rewrite F1 in G1. rewrite F2 in G2.
  destruct G1 as (r1 & e1 & n1 & vr1 & H1 & _ & _ & A1 & A2 & A3 & A4 & A5 & A6 & A7).
  destruct G2 as (r2 & e2 & n2 & vr2 & H2 & _ & _ & C1 & C2 & C3 & C4 & C5 & C6 & C7).
  assert (b1 = zera_layout r1 e1 n1) as -> by congruence. assert (b2 = zera_layout r2 e2 n2) as -> by congruence.
  pose proof (up16_ge (20 + zlen e1)). pose proof (up16_ge (20 + zlen e2)). unfold u32_max in *.
  apply layout_inj in E; [|lia..]. destruct E as (<- & <- & E).
  assert (vr1 = vr2) as <- by (apply (has_same_len e1 r1); [assumption|assumption|congruence]).
  apply (vrep_mono _ _ [] s) in A7. apply (vrep_mono _ _ [] t) in C7. rewrite app_nil_r in A7. rewrite app_nil_r in C7. rewrite <- E in C7.
  eapply vrep_fun; eauto.
Qed.

(** Any two histories (exceptions caught) that end in the same bytes hold the same value. *)
Theorem zera_hist_ident es1 es2 s1 s2 o1 o2 b1 b2 s t : Forall ev_ok es1 -> Forall ev_ok es2 ->
  run_catch zera_writer zw_init es1 = (s1, o1) -> run_catch zera_writer zw_init es2 = (s2, o2) ->
  snd (zw_finish s1) = Ok b1 -> snd (zw_finish s2) = Ok b2 -> b1 ++ s = b2 ++ t ->
  exists v, snd (afinish (fst (arun_catch a_init es1))) = Ok v /\ snd (afinish (fst (arun_catch a_init es2))) = Ok v.
Proof.
  intros O1 O2 R1 R2 F1 F2 E.
  pose proof (run_catch_sim es1 O1 _ _ zsim_init) as [S1 _]. pose proof (run_catch_sim es2 O2 _ _ zsim_init) as [S2 _].
  rewrite R1 in S1. rewrite R2 in S2. cbn [fst] in *.
  destruct (history_message es1 s1 o1 b1 O1 R1 F1) as (v1 & _ & _ & _ & _ & A1 & _).
  destruct (history_message es2 s2 o2 b2 O2 R2 F2) as (v2 & _ & _ & _ & _ & A2 & _).
  assert (v1 = v2) as <- by exact (finish_ident _ _ _ _ _ _ _ _ s t S1 S2 A1 A2 F1 F2 E). eauto.
Qed.

Lemma thr_finish t v b : 0 <= t <= 12 -> val_ok v -> serialize (zera_writer_thr t) v = Ok b ->
  exists a s, zsim a s /\ snd (afinish a) = Ok v /\ snd (zw_finish s) = Ok b.
Proof.
  intros Ht V S. unfold serialize in S. pose proof (events_ev_ok v V) as EO.
  pose proof (run_sim_thr t (events v) EO _ _ (zsim_init_thr t Ht)) as [S1 S2].
  pose proof (run_finish v (events v) t _ (events_calls v) eq_refl) as G.
  destruct (run (zera_writer_thr t) (w_init (zera_writer_thr t)) (events v)) as [s [[]|e| |]] eqn:R; try discriminate S.
  destruct (run amachine (mkA [] None 0 0 t) (events v)) as [a' r]. cbn [fst snd] in *. subst r.
  destruct G as (_ & _ & [[G _]|[G _]]).
  - exists a', s. auto.
  - destruct (finish_sim _ _ S1) as [_ F]. rewrite G in F. change (w_finish (zera_writer_thr t)) with zw_finish in S. rewrite F in S. discriminate S.
Qed.
Theorem zera_thr_ident t1 t2 v1 v2 b1 b2 s t : 0 <= t1 <= 12 -> 0 <= t2 <= 12 -> val_ok v1 -> val_ok v2 ->
  serialize (zera_writer_thr t1) v1 = Ok b1 -> serialize (zera_writer_thr t2) v2 = Ok b2 -> b1 ++ s = b2 ++ t -> v1 = v2.
Proof.
  intros T1 T2 V1 V2 S1 S2 E. destruct (thr_finish _ _ _ T1 V1 S1) as (a1 & u1 & Z1 & A1 & F1).
  destruct (thr_finish _ _ _ T2 V2 S2) as (a2 & u2 & Z2 & A2 & F2).
  exact (finish_ident _ _ _ _ _ _ _ _ s t Z1 Z2 A1 A2 F1 F2 E).
Qed.
Theorem zera_ident v1 v2 b1 b2 s t : val_ok v1 -> val_ok v2 ->
  serialize zera_writer v1 = Ok b1 -> serialize zera_writer v2 = Ok b2 -> b1 ++ s = b2 ++ t -> v1 = v2 /\ s = t.
Proof.
  intros V1 V2 S1 S2 E. rewrite serialize_12 in S1. rewrite serialize_12 in S2.
  assert (v1 = v2) as <- by (apply (zera_thr_ident 12 12 _ _ b1 b2 s t); [lia|lia|assumption..]). split; [reflexivity|].
  assert (b1 = b2) as <- by congruence. now apply app_inv_head in E.
Qed.
