(** KeyIterFacts.v -- client programs over key iterators: simulation of positions, and the instances for the protocols. *)

From Coq Require Import ZArith List Bool Lia ZifyBool ZifyNat.
From Verif Require Import Base BaseFacts Spec KeyIterModel KeyIterSpec.
Import ListNotations.
Open Scope Z_scope.

Lemma upd_same {A} (f : nat -> A) n x : upd f n x n = x.
Proof. unfold upd. now rewrite Nat.eqb_refl. Qed.
Lemma upd_other {A} (f : nat -> A) n m x : m <> n -> upd f n x m = f m.
Proof. unfold upd. intros H. apply Nat.eqb_neq in H. now rewrite H. Qed.

Section Sim.
Context {V RG IT : Type} (P : kproto V RG IT) (F : rules) (views : nat -> option V) (keysof : nat -> option (list bytes)).
Variable pos : nat -> V -> list bytes -> nat -> RG -> nat -> IT -> Prop.
Hypothesis H_view : forall v ks, keysof v = Some ks -> exists w, views v = Some w.
Hypothesis H_open : forall v w ks, views v = Some w -> keysof v = Some ks -> exists rg, kp_keys P v w = Ok rg /\
  forall r, (exists b, kp_begin P r rg = Ok b /\ pos v w ks r rg 0%nat b) /\ (exists e, kp_end P r rg = Ok e /\ pos v w ks r rg (length ks) e).
Hypothesis H_use : forall v w ks r rg n it t env renv, pos v w ks r rg n it -> nth_error ks n = Some t ->
  (need_view F = true -> env v = Some w) -> (need_range F = true -> renv r = Some rg) ->
  (exists own, kp_deref P env renv it = Ok (own, t) /\ (own = true -> need_fresh F = true)) /\
  exists it', kp_incr P env renv it = Ok it' /\ pos v w ks r rg (S n) it'.
Hypothesis H_eq : forall v w ks r rg n m it it2, pos v w ks r rg n it -> pos v w ks r rg m it2 -> kp_eq P it it2 = Nat.eqb n m.

Definition rel_range (s : kstate V RG IT) (x : xstate) (r v : nat) : Prop :=
  exists w ks rg, views v = Some w /\ keysof v = Some ks /\ kp_keys P v w = Ok rg /\ (is_live (xs_ranges x r) = true -> ks_ranges s r = Some rg).
Definition rel_iter (s : kstate V RG IT) (x : xstate) (i r n : nat) : Prop :=
  exists v w ks rg it, range_of (xs_ranges x r) = Some v /\ views v = Some w /\ keysof v = Some ks /\ kp_keys P v w = Ok rg /\
    ks_iters s i = Some it /\ pos v w ks r rg n it.
Definition rel_saved (s : kstate V RG IT) (x : xstate) (k : nat) (t : bytes) (i g : nat) : Prop :=
  (g <= xs_gen x i)%nat /\ exists own, ks_saved s k = Some (t, own) /\
    match own with
    | None => True
    | Some (i', g') => i' = i /\ need_fresh F = true /\ (xs_gen x i = g -> ks_gen s i = g')
    end.
Record rel (s : kstate V RG IT) (x : xstate) : Prop := mkRel {
  rl_views : forall v, xs_alive x v = true -> ks_views s v = views v;
  rl_ranges : forall r v, range_of (xs_ranges x r) = Some v -> rel_range s x r v;
  rl_iters : forall i r n, xs_iters x i = Some (r, n) -> rel_iter s x i r n;
  rl_saved : forall k t i g, xs_saved x k = Some (t, (i, g)) -> rel_saved s x k t i g
}.

Lemma rel_set s x i r n v w ks rg it : rel s x -> range_of (xs_ranges x r) = Some v -> views v = Some w -> keysof v = Some ks ->
  kp_keys P v w = Ok rg -> pos v w ks r rg n it -> rel (set_iter s i (Some it)) (x_set x i (Some (r, n))).
Proof.
  intros [R1 R2 R3 R4] A1 A2 A3 A4 A5. constructor; unfold set_iter, x_set;
    cbn [ks_views ks_ranges ks_iters ks_gen ks_saved xs_alive xs_ranges xs_iters xs_gen xs_saved].
  - exact R1.
  - exact R2.
  - intros j r2 n2 E. unfold rel_iter. cbn [ks_iters xs_ranges]. destruct (Nat.eq_dec j i) as [->|D].
    + rewrite !upd_same in *. injection E as <- <-. exists v, w, ks, rg, it. auto 10.
    + rewrite !upd_other in * by assumption. exact (R3 j r2 n2 E).
  - intros k t j g E. destruct (R4 k t j g E) as (G & own & O1 & O2). unfold rel_saved. cbn [ks_saved ks_gen xs_gen].
    destruct (Nat.eq_dec j i) as [->|D].
    + rewrite upd_same. split; [lia|]. exists own. split; [exact O1|]. destruct own as [[i' g']|]; [|exact I].
      destruct O2 as (-> & O2 & _). rewrite upd_same. repeat split; auto. lia.
    + rewrite upd_other by assumption. split; [lia|]. exists own. split; [exact O1|]. destruct own as [[i' g']|]; [|exact I].
      destruct O2 as (-> & O2 & O3). rewrite upd_other by assumption. auto.
Qed.
Lemma rel_kill s x i : rel s x -> rel (set_iter s i None) (x_set x i None).
Proof.
  intros [R1 R2 R3 R4]. constructor; unfold set_iter, x_set;
    cbn [ks_views ks_ranges ks_iters ks_gen ks_saved xs_alive xs_ranges xs_iters xs_gen xs_saved].
  - exact R1.
  - exact R2.
  - intros j r2 n2 E. unfold rel_iter. cbn [ks_iters xs_ranges]. destruct (Nat.eq_dec j i) as [->|D].
    + rewrite upd_same in E. discriminate E.
    + rewrite !upd_other in * by assumption. exact (R3 j r2 n2 E).
  - intros k t j g E. destruct (R4 k t j g E) as (G & own & O1 & O2). unfold rel_saved. cbn [ks_saved ks_gen xs_gen].
    destruct (Nat.eq_dec j i) as [->|D].
    + rewrite upd_same. split; [lia|]. exists own. split; [exact O1|]. destruct own as [[i' g']|]; [|exact I].
      destruct O2 as (-> & O2 & _). rewrite upd_same. repeat split; auto. lia.
    + rewrite upd_other by assumption. split; [lia|]. exists own. split; [exact O1|]. destruct own as [[i' g']|]; [|exact I].
      destruct O2 as (-> & O2 & O3). rewrite upd_other by assumption. auto.
Qed.
Lemma keys_at_range x r v ks : keys_at keysof x r = Some (v, ks) -> range_of (xs_ranges x r) = Some v /\ keysof v = Some ks.
Proof.
  unfold keys_at. destruct (range_of _) as [v'|]; [|discriminate]. destruct (keysof v') eqn:E; [|discriminate].
  intros H. injection H as <- <-. auto.
Qed.
Lemma live_range x r : is_live (xs_ranges x r) = true -> exists v, range_of (xs_ranges x r) = Some v.
Proof. destruct (xs_ranges x r); cbn; try discriminate. eauto. Qed.

Lemma step_sim s x c x' o : rel s x -> xstep F keysof x c = Some (x', o) -> exists s', kstep P s c = Ok (s', o) /\ rel s' x'.
Proof.
  intros RL. pose proof RL as [R1 R2 R3 R4]. destruct c as [r v|i r|i r|i j|i|k i|k|i j|v|r|i]; cbn [xstep kstep]; intros E.
  - destruct (xs_ranges x r) eqn:XR; try discriminate E. destruct (keysof v) as [ks|] eqn:K; [|discriminate E].
    destruct (xs_alive x v) eqn:A; [|discriminate E]. injection E as <- <-.
    destruct (H_view v ks K) as (w & W). rewrite (R1 v A), W. cbn [need bind].
    destruct (H_open v w ks W K) as (rg & O & _). rewrite O. cbn [bind]. eexists. split; [reflexivity|].
    constructor; cbn [ks_views ks_ranges ks_iters ks_gen ks_saved xs_alive xs_ranges xs_iters xs_gen xs_saved]; [exact R1| | |].
    + intros r2 v2 E. unfold rel_range. cbn [ks_ranges xs_ranges]. destruct (Nat.eq_dec r2 r) as [->|D].
      * rewrite !upd_same in *. cbn [range_of] in E. injection E as <-. exists w, ks, rg. auto.
      * rewrite !upd_other in * by assumption. exact (R2 r2 v2 E).
    + intros i r2 n E. destruct (R3 i r2 n E) as (v2 & B). unfold rel_iter. cbn [ks_iters xs_ranges].
      assert (r2 <> r) as D. { intros ->. rewrite XR in B. destruct B as (? & ? & ? & ? & B & _). discriminate B. }
      rewrite upd_other by assumption. exists v2. exact B.
    + exact R4.
  - destruct (is_live (xs_ranges x r)) eqn:L; [|discriminate E]. injection E as <- <-. destruct (live_range x r L) as (v & RV).
    destruct (R2 r v RV) as (w & ks & rg & A1 & A2 & A3 & A4). rewrite (A4 L). cbn [need bind].
    destruct (H_open v w ks A1 A2) as (rg2 & O & O2). assert (rg2 = rg) as -> by congruence.
    destruct (O2 r) as ((b & B1 & B2) & _). rewrite B1. cbn [bind]. eexists. split; [reflexivity|]. eapply rel_set; eauto.
  - destruct (is_live (xs_ranges x r)) eqn:L; [|discriminate E]. destruct (keys_at keysof x r) as [[v ks]|] eqn:KA; [|discriminate E].
    injection E as <- <-. destruct (keys_at_range x r v ks KA) as (RV & K).
    destruct (R2 r v RV) as (w & ks2 & rg & A1 & A2 & A3 & A4). assert (ks2 = ks) as -> by congruence. rewrite (A4 L). cbn [need bind].
    destruct (H_open v w ks A1 A2) as (rg2 & O & O2). assert (rg2 = rg) as -> by congruence.
    destruct (O2 r) as (_ & (b & B1 & B2)). rewrite B1. cbn [bind]. eexists. split; [reflexivity|]. eapply rel_set; eauto.
  - destruct (xs_iters x j) as [[r n]|] eqn:J; [|discriminate E]. injection E as <- <-.
    destruct (R3 j r n J) as (v & w & ks & rg & it & A1 & A2 & A3 & A4 & A5 & A6). rewrite A5. cbn [need bind].
    eexists. split; [reflexivity|]. eapply rel_set; eauto.
  - destruct (xs_iters x i) as [[r n]|] eqn:J; [|discriminate E]. destruct (keys_at keysof x r) as [[v ks]|] eqn:KA; [|discriminate E].
    destruct (Nat.ltb n (length ks) && kept F x r v) eqn:C; [|discriminate E]. injection E as <- <-.
    apply andb_true_iff in C as [C1 C2]. apply Nat.ltb_lt in C1. destruct (keys_at_range x r v ks KA) as (RV & K).
    destruct (R3 i r n J) as (v2 & w & ks2 & rg & it & A1 & A2 & A3 & A4 & A5 & A6).
    assert (v2 = v) as -> by congruence. assert (ks2 = ks) as -> by congruence. rewrite A5. cbn [need bind].
    destruct (nth_error ks n) as [t|] eqn:T; [|apply nth_error_None in T; lia].
    unfold kept in C2. apply andb_true_iff in C2 as [C2 C3].
    destruct (H_use v w ks r rg n it t (ks_views s) (ks_ranges s) A6 T) as (_ & it' & I1 & I2).
    { intros N. rewrite N in C2. cbn [implb] in C2. rewrite (R1 v C2). exact A2. }
    { intros N. rewrite N in C3. cbn [implb] in C3. destruct (R2 r v RV) as (w2 & ks3 & rg2 & B1 & B2 & B3 & B4).
      rewrite (B4 C3). congruence. }
    rewrite I1. cbn [bind]. eexists. split; [reflexivity|].
    constructor; cbn [ks_views ks_ranges ks_iters ks_gen ks_saved xs_alive xs_ranges xs_iters xs_gen xs_saved]; [exact R1|exact R2| |exact R4].
    intros j r2 n2 E. unfold rel_iter. cbn [ks_iters xs_ranges]. destruct (Nat.eq_dec j i) as [->|D].
    + rewrite !upd_same in *. injection E as <- <-. exists v, w, ks, rg, it'. auto 10.
    + rewrite !upd_other in * by assumption. exact (R3 j r2 n2 E).
  - destruct (xs_iters x i) as [[r n]|] eqn:J; [|discriminate E]. destruct (keys_at keysof x r) as [[v ks]|] eqn:KA; [|discriminate E].
    destruct (nth_error ks n) as [t|] eqn:T; [|discriminate E]. destruct (kept F x r v) eqn:C2; [|discriminate E]. injection E as <- <-.
    destruct (keys_at_range x r v ks KA) as (RV & K).
    destruct (R3 i r n J) as (v2 & w & ks2 & rg & it & A1 & A2 & A3 & A4 & A5 & A6).
    assert (v2 = v) as -> by congruence. assert (ks2 = ks) as -> by congruence. rewrite A5. cbn [need bind].
    unfold kept in C2. apply andb_true_iff in C2 as [C2 C3].
    destruct (H_use v w ks r rg n it t (ks_views s) (ks_ranges s) A6 T) as ((own & D1 & D2) & _).
    { intros N. rewrite N in C2. cbn [implb] in C2. rewrite (R1 v C2). exact A2. }
    { intros N. rewrite N in C3. cbn [implb] in C3. destruct (R2 r v RV) as (w2 & ks3 & rg2 & B1 & B2 & B3 & B4).
      rewrite (B4 C3). congruence. }
    rewrite D1. cbn [bind]. eexists. split; [reflexivity|].
    constructor; destruct own; cbn [ks_views ks_ranges ks_iters ks_gen ks_saved xs_alive xs_ranges xs_iters xs_gen xs_saved]; try exact R1; try exact R2; try exact R3.
    + intros k2 t2 j g E. unfold rel_saved. cbn [ks_saved ks_gen xs_gen]. destruct (Nat.eq_dec k2 k) as [->|D].
      * rewrite !upd_same in *. injection E as <- <- <-. rewrite !upd_same. split; [lia|]. eexists. split; [reflexivity|]. cbn. repeat split; auto.
      * rewrite !(upd_other _ k k2) in * by assumption. destruct (R4 k2 t2 j g E) as (G & own & O1 & O2).
        destruct (Nat.eq_dec j i) as [->|D3].
        -- rewrite upd_same. split; [lia|]. exists own. split; [exact O1|]. destruct own as [[i' g']|]; [|exact I].
           destruct O2 as (-> & O2 & _). repeat split; auto. lia.
        -- rewrite !upd_other by assumption. split; [lia|]. exists own. auto.
    + intros k2 t2 j g E. unfold rel_saved. cbn [ks_saved ks_gen xs_gen]. destruct (Nat.eq_dec k2 k) as [->|D].
      * rewrite !upd_same in *. injection E as <- <- <-. rewrite !upd_same. split; [lia|]. eexists. split; [reflexivity|]. exact I.
      * rewrite !(upd_other _ k k2) in * by assumption. destruct (R4 k2 t2 j g E) as (G & own & O1 & O2).
        destruct (Nat.eq_dec j i) as [->|D3].
        -- rewrite upd_same. split; [lia|]. exists own. split; [exact O1|]. destruct own as [[i' g']|]; [|exact I].
           destruct O2 as (-> & O2 & _). repeat split; auto. lia.
        -- rewrite !upd_other by assumption. split; [lia|]. exists own. auto.
  - destruct (xs_saved x k) as [[t [i g]]|] eqn:SV; [|discriminate E].
    destruct (implb (need_fresh F) (Nat.eqb (xs_gen x i) g)) eqn:C; [|discriminate E]. injection E as <- <-.
    destruct (R4 k t i g SV) as (G & own & O1 & O2). rewrite O1. cbn [need bind]. destruct own as [[i' g']|]; [|eauto].
    destruct O2 as (-> & N & O3). rewrite N in C. cbn [implb] in C. apply Nat.eqb_eq in C. rewrite (O3 C), Nat.eqb_refl. eauto.
  - destruct (xs_iters x i) as [[r n]|] eqn:J1; [|discriminate E]. destruct (xs_iters x j) as [[r2 m]|] eqn:J2; [|discriminate E].
    destruct (Nat.eqb r r2) eqn:C; [|discriminate E]. apply Nat.eqb_eq in C. subst r2. injection E as <- <-.
    destruct (R3 i r n J1) as (v & w & ks & rg & it & A1 & A2 & A3 & A4 & A5 & A6).
    destruct (R3 j r m J2) as (v2 & w2 & ks2 & rg2 & it2 & B1 & B2 & B3 & B4 & B5 & B6).
    assert (v2 = v) as -> by congruence. assert (w2 = w) as -> by congruence. assert (ks2 = ks) as -> by congruence.
    assert (rg2 = rg) as -> by congruence. rewrite A5, B5. cbn [need bind]. rewrite (H_eq _ _ _ _ _ _ _ _ _ A6 B6). eauto.
  - injection E as <- <-. eexists. split; [reflexivity|].
    constructor; cbn [ks_views ks_ranges ks_iters ks_gen ks_saved xs_alive xs_ranges xs_iters xs_gen xs_saved]; [|exact R2|exact R3|exact R4].
    intros v2 A. destruct (Nat.eq_dec v2 v) as [->|D]; [rewrite upd_same in A; discriminate A|]. rewrite !upd_other in * by assumption. auto.
  - destruct (xs_ranges x r) as [|v|v] eqn:XR; try discriminate E. injection E as <- <-. eexists. split; [reflexivity|].
    constructor; cbn [ks_views ks_ranges ks_iters ks_gen ks_saved xs_alive xs_ranges xs_iters xs_gen xs_saved]; [exact R1| | |exact R4].
    + intros r2 v2 E. unfold rel_range. cbn [ks_ranges xs_ranges]. destruct (Nat.eq_dec r2 r) as [->|D].
      * rewrite !upd_same in *. cbn [range_of] in E. injection E as <-.
        destruct (R2 r v) as (w & ks & rg & A1 & A2 & A3 & A4); [now rewrite XR|]. exists w, ks, rg. cbn [is_live]. repeat split; auto. discriminate.
      * rewrite !upd_other in * by assumption. exact (R2 r2 v2 E).
    + intros i r2 n E. destruct (R3 i r2 n E) as (v2 & B). unfold rel_iter. cbn [ks_iters xs_ranges]. exists v2.
      destruct (Nat.eq_dec r2 r) as [->|D]; [rewrite upd_same; rewrite XR in B; exact B|rewrite upd_other by assumption; exact B].
  - injection E as <- <-. eexists. split; [reflexivity|]. now apply rel_kill.
Qed.
Lemma run_sim : forall p s x o, rel s x -> xrun F keysof x p = Some o -> krun P s p = Ok o.
Proof.
  induction p as [|c p IH]; intros s x o R E; cbn [xrun krun] in *; [congruence|].
  destruct (xstep F keysof x c) as [[x' o1]|] eqn:E1; [|discriminate E]. destruct (xrun F keysof x' p) as [o2|] eqn:E2; [|discriminate E].
  injection E as <-. destruct (step_sim s x c x' o1 R E1) as (s' & S1 & S2). rewrite S1. cbn [bind]. rewrite (IH s' x' o2 S2 E2). reflexivity.
Qed.
Theorem program_sim p o : kexpect F keysof p = Some o -> krun P (kstart views) p = Ok o.
Proof.
  unfold kexpect. apply run_sim. constructor; cbn [kstart ks_views ks_ranges ks_iters ks_gen ks_saved xs_alive xs_ranges xs_iters xs_gen xs_saved].
  - reflexivity.
  - intros r v E. discriminate E.
  - intros i r n E. discriminate E.
  - intros k t i g E. discriminate E.
Qed.
End Sim.
