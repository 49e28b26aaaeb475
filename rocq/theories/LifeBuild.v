(** LifeBuild.v -- builders hold references: what is serialized, and when they dangle. *)

From Coq Require Import ZArith List Bool Lia ZifyBool ZifyNat.
From Verif Require Import Base BaseFacts Spec SpecFacts LifeModel LifeSpec.
Import ListNotations.
Open Scope nat_scope.

Section Ind.
  Variable P : bxp -> Prop.
  Hypothesis HT : forall v, P (XTmp v).
  Hypothesis HV : forall x, P (XVar x).
  Hypothesis HL : forall l, Forall P l -> P (XVec l).
  Hypothesis HM : forall l, Forall (fun kx => P (snd kx)) l -> P (XMap l).
  Fixpoint bxp_ind' (e : bxp) : P e :=
    match e with
    | XTmp v => HT v
    | XVar x => HV x
    | XVec l => HL l ((fix go l : Forall P l := match l with [] => Forall_nil _ | x :: l' => Forall_cons x (bxp_ind' x) (go l') end) l)
    | XMap l => HM l ((fix go l : Forall (fun kx => P (snd kx)) l := match l with [] => Forall_nil _ | kx :: l' => Forall_cons kx (bxp_ind' (snd kx)) (go l') end) l)
    end.
End Ind.

Lemma bset_eq {A} (f : nat -> option A) n x : bset f n x n = x.
Proof. unfold bset. now rewrite Nat.eqb_refl. Qed.
Lemma bset_ne {A} (f : nat -> option A) n x m : m <> n -> bset f n x m = f m.
Proof. intro H. unfold bset. destruct (Nat.eqb_spec m n); congruence. Qed.

(** ** Emission *)
Definition kids (o : bobj) : list nat := match o with PVal _ => [] | PVec l => l | PMap l => map snd l end.
Definition down (w : bworld) : Prop := forall a o, bheap w a = Some o -> a < bnext w /\ Forall (fun b => b < a) (kids o).

Section Emit.
  Variable em : nat -> res val.
  Fixpoint emits (l : list nat) : res (list val) :=
    match l with [] => Ok [] | x :: l' => bind (em x) (fun y => bind (emits l') (fun r => Ok (y :: r))) end.
  Fixpoint emits2 (l : list (bytes * nat)) : res (list (bytes * val)) :=
    match l with [] => Ok [] | (k, x) :: l' => bind (em x) (fun y => bind (emits2 l') (fun r => Ok ((k, y) :: r))) end.
End Emit.
Lemma emit_S f w a : emit (S f) w a =
  match bheap w a with
  | None => UB
  | Some (PVal v) => Ok v
  | Some (PVec l) => bind (emits (emit f w) l) (fun r => Ok (VArr r))
  | Some (PMap l) => bind (emits2 (emit f w) l) (fun r => Ok (VMap r))
  end.
Proof. cbn [emit]. destruct (bheap w a) as [[v|l|l]|]; reflexivity. Qed.

Lemma emits_ext e1 e2 l : Forall (fun x => e1 x = e2 x) l -> emits e1 l = emits e2 l.
Proof. induction 1 as [|x l H _ IH]; cbn [emits]; [reflexivity|]. now rewrite H, IH. Qed.
Lemma emits2_ext e1 e2 l : Forall (fun x => e1 x = e2 x) (map snd l) -> emits2 e1 l = emits2 e2 l.
Proof. induction l as [|[k x] l IH]; cbn [map snd emits2]; [reflexivity|]. intro H. apply Forall_cons_iff in H. destruct H as [H1 H2]. now rewrite H1, IH. Qed.

(** Two worlds that agree below [n]; enough fuel. *)
Lemma emit_ext n w1 w2 : down w1 -> (forall b, b < n -> bheap w1 b = bheap w2 b) ->
  forall a, a < n -> forall f1 f2, a < f1 -> a < f2 -> emit f1 w1 a = emit f2 w2 a.
Proof.
  intros D E a. induction a as [a IH] using (well_founded_induction lt_wf). intros An f1 f2 H1 H2.
  destruct f1 as [|f1]; [lia|]. destruct f2 as [|f2]; [lia|]. rewrite !emit_S, <- E by exact An.
  destruct (bheap w1 a) as [[v|l|l]|] eqn:Ea; try reflexivity.
  - destruct (D _ _ Ea) as [_ K]. cbn [kids] in K. rewrite (emits_ext (emit f1 w1) (emit f2 w2)); [reflexivity|].
    eapply Forall_impl; [|exact K]. cbv beta. intros b Hb. apply IH; lia.
  - destruct (D _ _ Ea) as [_ K]. cbn [kids] in K. rewrite (emits2_ext (emit f1 w1) (emit f2 w2)); [reflexivity|].
    eapply Forall_impl; [|exact K]. cbv beta. intros b Hb. apply IH; lia.
Qed.
(** The value of an object, with just enough fuel. *)
Definition ev1 (w : bworld) (a : nat) : res val := emit (S a) w a.
Lemma ev1_eq w a : down w -> ev1 w a =
  match bheap w a with
  | None => UB
  | Some (PVal v) => Ok v
  | Some (PVec l) => bind (emits (ev1 w) l) (fun r => Ok (VArr r))
  | Some (PMap l) => bind (emits2 (ev1 w) l) (fun r => Ok (VMap r))
  end.
Proof.
  intro D. unfold ev1 at 1. rewrite emit_S. destruct (bheap w a) as [[v|l|l]|] eqn:Ea; try reflexivity.
  - destruct (D _ _ Ea) as [_ K]. rewrite (emits_ext (emit a w) (ev1 w)); [reflexivity|].
    eapply Forall_impl; [|exact K]. cbv beta. intros b Hb. unfold ev1. apply (emit_ext a w w D); auto.
  - destruct (D _ _ Ea) as [_ K]. rewrite (emits2_ext (emit a w) (ev1 w)); [reflexivity|].
    eapply Forall_impl; [|exact K]. cbv beta. intros b Hb. unfold ev1. apply (emit_ext a w w D); auto.
Qed.
Lemma ev1_ext w1 w2 n : down w1 -> (forall b, b < n -> bheap w1 b = bheap w2 b) -> forall a, a < n -> ev1 w1 a = ev1 w2 a.
Proof. intros D E a An. unfold ev1. apply (emit_ext n w1 w2 D E); lia. Qed.
(** The outcome is a value or UB. *)
Lemma emits_total em l : Forall (fun x => match em x with Ok _ | UB => True | _ => False end) l -> match emits em l with Ok _ | UB => True | _ => False end.
Proof.
  induction 1 as [|x l H _ IH]; cbn [emits]; [exact Logic.I|]. destruct (em x); cbn [bind]; auto. destruct (emits em l); cbn [bind]; auto.
Qed.
Lemma emits2_total em l : Forall (fun x => match em x with Ok _ | UB => True | _ => False end) (map snd l) -> match emits2 em l with Ok _ | UB => True | _ => False end.
Proof.
  induction l as [|[k x] l IH]; cbn [map snd emits2]; intro H; [exact Logic.I|]. apply Forall_cons_iff in H. destruct H as [H1 H2]. specialize (IH H2).
  destruct (em x); cbn [bind]; auto. destruct (emits2 em l); cbn [bind]; auto.
Qed.
Lemma ev1_total w : down w -> forall a, match ev1 w a with Ok _ | UB => True | _ => False end.
Proof.
  intros D a. induction a as [a IH] using (well_founded_induction lt_wf). rewrite (ev1_eq w a D).
  destruct (bheap w a) as [[v|l|l]|] eqn:Ea; try exact Logic.I.
  - destruct (D _ _ Ea) as [_ K]. pose proof (emits_total (ev1 w) l) as T. destruct (emits (ev1 w) l); cbn [bind]; apply T; (eapply Forall_impl; [|exact K]; auto).
  - destruct (D _ _ Ea) as [_ K]. pose proof (emits2_total (ev1 w) l) as T. destruct (emits2 (ev1 w) l); cbn [bind]; apply T; (eapply Forall_impl; [|exact K]; auto).
Qed.
(** A dangling reference. *)
Lemma emits_ub em l x : Forall (fun x => match em x with Ok _ | UB => True | _ => False end) l -> In x l -> em x = UB -> emits em l = UB.
Proof.
  induction 1 as [|y l H Hl IH]; intros I E; [now destruct I|]. cbn [emits]. destruct I as [->|I].
  - now rewrite E.
  - rewrite (IH I E). destruct (em y); cbn [bind]; tauto.
Qed.
Lemma emits2_ub em l x : Forall (fun x => match em x with Ok _ | UB => True | _ => False end) (map snd l) -> In x (map snd l) -> em x = UB -> emits2 em l = UB.
Proof.
  induction l as [|[k y] l IH]; cbn [map snd]; intros H I E; [now destruct I|]. apply Forall_cons_iff in H. destruct H as [H Hl]. cbn [emits2]. destruct I as [->|I].
  - now rewrite E.
  - rewrite (IH Hl I E). destruct (em y); cbn [bind]; tauto.
Qed.
Lemma ev1_dangling w a o b : down w -> bheap w a = Some o -> In b (kids o) -> bheap w b = None -> ev1 w a = UB.
Proof.
  intros D Ea K Eb. rewrite (ev1_eq w a D), Ea. assert (U : ev1 w b = UB) by (rewrite (ev1_eq w b D), Eb; reflexivity).
  pose proof (ev1_total w D) as T. destruct o as [v|l|l]; cbn [kids] in K.
  - destruct K.
  - rewrite (emits_ub _ l b); [reflexivity| |exact K|exact U]. apply Forall_forall. intros y _. exact (T y).
  - rewrite (emits2_ub _ l b); [reflexivity| |exact K|exact U]. apply Forall_forall. intros y _. exact (T y).
Qed.

(** ** Arguments *)
Fixpoint argl (l : list bxp) (w : bworld) : option (list nat * bworld) :=
  match l with
  | [] => Some ([], w)
  | e :: l' => match arg e w with
               | Some (a, w1) => match argl l' w1 with Some (r, w2) => Some (a :: r, w2) | None => None end
               | None => None
               end
  end.
Fixpoint argm (l : list (bytes * bxp)) (w : bworld) : option (list (bytes * nat) * bworld) :=
  match l with
  | [] => Some ([], w)
  | (k, e) :: l' => match arg e w with
                    | Some (a, w1) => match argm l' w1 with Some (r, w2) => Some ((k, a) :: r, w2) | None => None end
                    | None => None
                    end
  end.
Lemma arg_vec l w : arg (XVec l) w = match argl l w with Some (r, w1) => Some (balloc (PVec r) w1) | None => None end.
Proof. reflexivity. Qed.
Lemma arg_map l w : arg (XMap l) w = match argm l w with Some (r, w1) => Some (balloc (PMap r) w1) | None => None end.
Proof. reflexivity. Qed.
Definition meansl (env : nat -> option val) : list bxp -> option (list val) :=
  fix go l := match l with
              | [] => Some []
              | e :: l' => match means env e, go l' with Some v, Some r => Some (v :: r) | _, _ => None end
              end.
Definition meansm (env : nat -> option val) : list (bytes * bxp) -> option (list (bytes * val)) :=
  fix go l := match l with
              | [] => Some []
              | (k, e) :: l' => match means env e, go l' with Some v, Some r => Some ((k, v) :: r) | _, _ => None end
              end.
Lemma means_vec env l : means env (XVec l) = option_map VArr (meansl env l). Proof. reflexivity. Qed.
Lemma means_map env l : means env (XMap l) = option_map VMap (meansm env l). Proof. reflexivity. Qed.

(** Well-formed worlds. *)
Definition live_vars (w : bworld) : Prop := forall x a, bvars w x = Some a -> bheap w a <> None.
Definition one_each (w : bworld) : Prop := forall x y a, bvars w x = Some a -> bvars w y = Some a -> x = y.
Definition bfresh (w : bworld) : Prop := forall a, bnext w <= a -> bheap w a = None.
Definition binv (w : bworld) : Prop := down w /\ live_vars w /\ one_each w.

(** [w1] has the objects of [w] and more. *)
Definition grows (w w1 : bworld) : Prop :=
  bvars w1 = bvars w /\ bnext w <= bnext w1 /\ (forall a, a < bnext w -> bheap w1 a = bheap w a).
Lemma grows_refl w : grows w w. Proof. repeat split; auto. Qed.
Lemma grows_trans w1 w2 w3 : grows w1 w2 -> grows w2 w3 -> grows w1 w3.
Proof.
  intros (A1 & A2 & A3) (B1 & B2 & B3). split; [congruence|]. split; [lia|]. intros a H. rewrite B3 by lia. apply A3. exact H.
Qed.
Lemma balloc_grows o w : grows w (snd (balloc o w)).
Proof. split; [reflexivity|]. cbn [balloc snd bnext bheap]. split; [lia|]. intros a H. apply bset_ne. lia. Qed.
Lemma balloc_down o w : down w -> Forall (fun b => b < bnext w) (kids o) -> down (snd (balloc o w)).
Proof.
  intros D K a o' H. cbn [balloc snd bheap bnext] in *. unfold bset in H. destruct (Nat.eqb_spec a (bnext w)) as [->|N].
  - injection H as <-. split; [lia|exact K].
  - destruct (D _ _ H). split; [lia|auto].
Qed.

Definition arg_fine (e : bxp) : Prop := forall w, binv w ->
  match arg e w with
  | Some (a, w1) =>
      (forall x, In x (vars e) -> bvars w x <> None) /\ grows w w1 /\ down w1 /\ a < bnext w1 /\ bheap w1 a <> None /\
      match e with XVar x => bvars w x = Some a | _ => bnext w <= a end /\
      (forall env v, (forall x b u, bvars w x = Some b -> env x = Some u -> ev1 w b = Ok u) -> means env e = Some v -> ev1 w1 a = Ok v)
  | None => exists x, In x (vars e) /\ bvars w x = None
  end.
Lemma grows_binv w w1 : binv w -> grows w w1 -> down w1 -> binv w1.
Proof.
  intros (D & L & U) (G1 & G2 & G3) D1. split; [exact D1|]. unfold live_vars, one_each. rewrite G1. split; [|exact U].
  intros x a H. pose proof (L x a H) as N. destruct (bheap w a) as [o|] eqn:E; [|congruence]. rewrite G3, E; [congruence|].
  exact (proj1 (D _ _ E)).
Qed.
Lemma grows_ev w w1 a : down w -> grows w w1 -> a < bnext w -> ev1 w1 a = ev1 w a.
Proof. intros D (G1 & G2 & G3) A. symmetry. apply (ev1_ext w w1 (bnext w) D); [|exact A]. intros b H. symmetry. now apply G3. Qed.
Lemma env_grows w w1 env : binv w -> grows w w1 ->
  (forall x b u, bvars w x = Some b -> env x = Some u -> ev1 w b = Ok u) ->
  (forall x b u, bvars w1 x = Some b -> env x = Some u -> ev1 w1 b = Ok u).
Proof.
  intros (D & L & _) G H x b u Hx Hu. rewrite (proj1 G) in Hx. rewrite (grows_ev w w1 b D G); [now apply (H x)|].
  pose proof (L x b Hx) as N. destruct (bheap w b) as [o|] eqn:E; [|congruence]. exact (proj1 (D _ _ E)).
Qed.

Definition where_ (w : bworld) (e : bxp) (a : nat) : Prop := match e with XVar x => bvars w x = Some a | _ => bnext w <= a end.
Lemma shift w w1 l r : bvars w1 = bvars w -> bnext w <= bnext w1 -> Forall2 (where_ w1) l r -> Forall2 (where_ w) l r.
Proof.
  intros Q1 Q2 H. induction H as [|e a l r H _ IH]; constructor; [|exact IH].
  unfold where_ in *. destruct e; try (rewrite <- Q1; exact H); lia.
Qed.
Lemma argl_fine l : Forall arg_fine l -> forall w, binv w ->
  match argl l w with
  | Some (r, w1) =>
      (forall x, In x (flat_map vars l) -> bvars w x <> None) /\ grows w w1 /\ down w1 /\ Forall (fun a => a < bnext w1 /\ bheap w1 a <> None) r /\
      Forall2 (where_ w) l r /\
      (forall env v, (forall x b u, bvars w x = Some b -> env x = Some u -> ev1 w b = Ok u) -> meansl env l = Some v -> emits (ev1 w1) r = Ok v)
  | None => exists x, In x (flat_map vars l) /\ bvars w x = None
  end.
Proof.
  induction 1 as [|e l He _ IH]; intros w B; cbn [argl].
  - split; [intros x []|]. split; [apply grows_refl|]. split; [apply B|]. split; [constructor|]. split; [constructor|].
    intros env v _ E. cbn in E. injection E as <-. reflexivity.
  - specialize (He w B). destruct (arg e w) as [[a w1]|].
    2:{ destruct He as (x & H1 & H2). exists x. split; [|exact H2]. cbn [flat_map]. apply in_or_app. now left. }
    destruct He as (V & G & D1 & A1 & A2 & A3 & A4). pose proof (grows_binv w w1 B G D1) as B1. specialize (IH w1 B1).
    destruct (argl l w1) as [[r w2]|].
    2:{ destruct IH as (x & H1 & H2). exists x. split; [cbn [flat_map]; apply in_or_app; now right|]. now rewrite (proj1 G) in H2. }
    destruct IH as (V' & G' & D2 & R1 & R2 & R3). pose proof G' as (P1 & P2 & P3). pose proof G as (Q1 & Q2 & Q3).
    split; [|split; [|split; [|split; [|split]]]].
    + intros x Hx. cbn [flat_map] in Hx. apply in_app_or in Hx. destruct Hx as [Hx|Hx]; [auto|]. rewrite <- Q1. auto.
    + eapply grows_trans; eauto.
    + exact D2.
    + constructor; [split; [lia|]|exact R1]. now rewrite P3.
    + constructor; [exact A3|]. exact (shift w w1 _ _ Q1 Q2 R2).
    + intros env v He E. cbn [meansl] in E. destruct (means env e) as [u|] eqn:Eu; [|discriminate].
      change ((fix go (l0 : list bxp) : option (list val) := _) l) with (meansl env l) in E.
      destruct (meansl env l) as [us|] eqn:Eus; [|discriminate]. injection E as <-. cbn [emits].
      rewrite (grows_ev w1 w2 a D1 G' A1), (A4 env u He Eu). cbn [bind].
      rewrite (R3 env us); [reflexivity| |exact Eus]. exact (env_grows w w1 env B G He).
Qed.
Lemma argm_fine l : Forall (fun kx => arg_fine (snd kx)) l -> forall w, binv w ->
  match argm l w with
  | Some (r, w1) =>
      (forall x, In x (flat_map (fun kx => vars (snd kx)) l) -> bvars w x <> None) /\ grows w w1 /\ down w1 /\ Forall (fun a => a < bnext w1 /\ bheap w1 a <> None) (map snd r) /\
      Forall2 (where_ w) (map snd l) (map snd r) /\
      (forall env v, (forall x b u, bvars w x = Some b -> env x = Some u -> ev1 w b = Ok u) -> meansm env l = Some v -> emits2 (ev1 w1) r = Ok v)
  | None => exists x, In x (flat_map (fun kx => vars (snd kx)) l) /\ bvars w x = None
  end.
Proof.
  induction l as [|[k e] l IH]; intros HF w B; cbn [argm].
  - split; [intros x []|]. split; [apply grows_refl|]. split; [apply B|]. split; [constructor|]. split; [constructor|].
    intros env v _ E. cbn in E. injection E as <-. reflexivity.
  - apply Forall_cons_iff in HF. destruct HF as [He HF]. specialize (IH HF). cbn [snd] in He.
    specialize (He w B). destruct (arg e w) as [[a w1]|].
    2:{ destruct He as (x & H1 & H2). exists x. split; [|exact H2]. cbn [flat_map snd]. apply in_or_app. now left. }
    destruct He as (V & G & D1 & A1 & A2 & A3 & A4). pose proof (grows_binv w w1 B G D1) as B1. specialize (IH w1 B1).
    destruct (argm l w1) as [[r w2]|].
    2:{ destruct IH as (x & H1 & H2). exists x. split; [cbn [flat_map snd]; apply in_or_app; now right|]. now rewrite (proj1 G) in H2. }
    destruct IH as (V' & G' & D2 & R1 & R2 & R3). pose proof G' as (P1 & P2 & P3). pose proof G as (Q1 & Q2 & Q3).
    split; [|split; [|split; [|split; [|split]]]].
    + intros x Hx. cbn [flat_map snd] in Hx. apply in_app_or in Hx. destruct Hx as [Hx|Hx]; [auto|]. rewrite <- Q1. auto.
    + eapply grows_trans; eauto.
    + exact D2.
    + cbn [map snd]. constructor; [split; [lia|]|exact R1]. now rewrite P3.
    + cbn [map snd]. constructor; [exact A3|]. exact (shift w w1 _ _ Q1 Q2 R2).
    + intros env v He E. cbn [meansm] in E. destruct (means env e) as [u|] eqn:Eu; [|discriminate].
      change ((fix go (l0 : list (bytes * bxp)) : option (list (bytes * val)) := _) l) with (meansm env l) in E.
      destruct (meansm env l) as [us|] eqn:Eus; [|discriminate]. injection E as <-. cbn [emits2].
      rewrite (grows_ev w1 w2 a D1 G' A1), (A4 env u He Eu). cbn [bind].
      rewrite (R3 env us); [reflexivity| |exact Eus]. exact (env_grows w w1 env B G He).
Qed.
Lemma var_low w x a : binv w -> bvars w x = Some a -> a < bnext w /\ bheap w a <> None.
Proof.
  intros (D & L & _) H. pose proof (L x a H) as N. split; [|exact N]. destruct (bheap w a) as [o|] eqn:E; [|congruence]. exact (proj1 (D _ _ E)).
Qed.
Lemma all_fine e : arg_fine e.
Proof.
  induction e as [v|x|l IH|l IH] using bxp_ind'; intros w B.
  - cbn [arg]. split; [now intros|]. split; [apply balloc_grows|]. assert (DD : down (snd (balloc (PVal v) w))) by (apply balloc_down; [apply B|constructor]).
    split; [exact DD|]. split; [cbn; lia|]. split; [cbn [balloc snd bheap fst]; rewrite bset_eq; discriminate|].
    split; [cbn; lia|]. intros env u _ E. cbn in E. injection E as ->. change (bnext w) with (fst (balloc (PVal u) w)).
    rewrite (ev1_eq _ _ DD). cbn [balloc snd fst bheap]. now rewrite bset_eq.
  - cbn [arg]. destruct (bvars w x) as [a|] eqn:E; [|exists x; split; [now left|exact E]].
    destruct (var_low w x a B E) as [A1 A2]. split; [intros y [->|[]]; congruence|]. split; [apply grows_refl|]. split; [apply B|].
    split; [exact A1|]. split; [exact A2|]. split; [reflexivity|]. intros env v He Ev. exact (He x a v E Ev).
  - rewrite arg_vec. pose proof (argl_fine l IH w B) as H. destruct (argl l w) as [[r w1]|]; [|exact H].
    destruct H as (V & G & D1 & R1 & R2 & R3).
    assert (RK : Forall (fun b => b < bnext w1) r) by (eapply Forall_impl; [|exact R1]; cbv beta; tauto).
    assert (DD : down (snd (balloc (PVec r) w1))) by (apply balloc_down; [exact D1|exact RK]).
    split; [exact V|]. split; [eapply grows_trans; [exact G|apply balloc_grows]|]. split; [exact DD|]. split; [cbn; lia|].
    split; [cbn [balloc snd bheap fst]; rewrite bset_eq; discriminate|]. split; [cbn; exact (proj1 (proj2 G))|].
    intros env v He E. rewrite means_vec in E. destruct (meansl env l) as [us|] eqn:Eus; [|discriminate]. injection E as <-.
    change (bnext w1) with (fst (balloc (PVec r) w1)). rewrite (ev1_eq _ _ DD). cbn [balloc snd fst bheap]. rewrite bset_eq.
    rewrite (emits_ext _ (ev1 w1)); [now rewrite (R3 env us He Eus)|]. eapply Forall_impl; [|exact RK]. cbv beta. intros b Hb.
    exact (grows_ev w1 _ b D1 (balloc_grows (PVec r) w1) Hb).
  - rewrite arg_map. pose proof (argm_fine l IH w B) as H. destruct (argm l w) as [[r w1]|]; [|exact H].
    destruct H as (V & G & D1 & R1 & R2 & R3).
    assert (RK : Forall (fun b => b < bnext w1) (map snd r)) by (eapply Forall_impl; [|exact R1]; cbv beta; tauto).
    assert (DD : down (snd (balloc (PMap r) w1))) by (apply balloc_down; [exact D1|exact RK]).
    split; [exact V|]. split; [eapply grows_trans; [exact G|apply balloc_grows]|]. split; [exact DD|]. split; [cbn; lia|].
    split; [cbn [balloc snd bheap fst]; rewrite bset_eq; discriminate|]. split; [cbn; exact (proj1 (proj2 G))|].
    intros env v He E. rewrite means_map in E. destruct (meansm env l) as [us|] eqn:Eus; [|discriminate]. injection E as <-.
    change (bnext w1) with (fst (balloc (PMap r) w1)). rewrite (ev1_eq _ _ DD). cbn [balloc snd fst bheap]. rewrite bset_eq.
    rewrite (emits2_ext _ (ev1 w1)); [now rewrite (R3 env us He Eus)|]. eapply Forall_impl; [|exact RK]. cbv beta. intros b Hb.
    exact (grows_ev w1 _ b D1 (balloc_grows (PMap r) w1) Hb).
Qed.

(** ** Serializing *)
Lemma serialize_arg w e : binv w ->
  match arg e w with Some (a, w1) => bserialize w e = Some (ev1 w1 a) | None => bserialize w e = None end.
Proof.
  intro B. unfold bserialize. pose proof (all_fine e w B) as H. destruct (arg e w) as [[a w1]|]; [|reflexivity].
  destruct H as (_ & _ & D1 & A & _). f_equal. unfold ev1. apply (emit_ext (bnext w1) w1 w1 D1); auto.
Qed.
Lemma serialize_var w x a : binv w -> bvars w x = Some a -> bserialize w (XVar x) = Some (ev1 w a).
Proof. intros B H. pose proof (serialize_arg w (XVar x) B) as K. cbn [arg] in K. now rewrite H in K. Qed.
Lemma now_env w x b u : binv w -> bvars w x = Some b -> now w x = Some u -> ev1 w b = Ok u.
Proof. intros B H N. unfold now in N. rewrite (serialize_var w x b B H) in N. destruct (ev1 w b); congruence. Qed.
Lemma serialize_means w e v : binv w -> means (now w) e = Some v -> bserialize w e = Some (Ok v).
Proof.
  intros B M. pose proof (serialize_arg w e B) as K. pose proof (all_fine e w B) as H. destruct (arg e w) as [[a w1]|].
  - rewrite K. f_equal. destruct H as (_ & _ & _ & _ & _ & _ & A). apply (A (now w) v); [|exact M].
    intros x b u. now apply now_env.
  - exfalso. destruct H as (x & H1 & H2).
    assert (N : now w x = None). { unfold now. pose proof (serialize_arg w (XVar x) B) as Q. cbn [arg] in Q. rewrite H2 in Q. now rewrite Q. }
    clear - H1 N M. revert v M. induction e as [u|y|l IH|l IH] using bxp_ind'; intros v M; cbn [vars] in H1.
    + destruct H1.
    + destruct H1 as [->|[]]. cbn [means] in M. congruence.
    + rewrite means_vec in M. destruct (meansl (now w) l) as [us|] eqn:E; [|discriminate]. clear M v. revert us E.
      induction l as [|e l IHl]; intros us E; [destruct H1|]. apply Forall_cons_iff in IH. destruct IH as [IH1 IH2].
      cbn [meansl] in E. change ((fix go (l0 : list bxp) : option (list val) := _) l) with (meansl (now w) l) in E.
      destruct (means (now w) e) eqn:E1; [|discriminate]. destruct (meansl (now w) l) eqn:E2; [|discriminate].
      cbn [flat_map] in H1. apply in_app_or in H1. destruct H1 as [H1|H1]; [exact (IH1 H1 _ eq_refl)|exact (IHl H1 IH2 _ eq_refl)].
    + rewrite means_map in M. destruct (meansm (now w) l) as [us|] eqn:E; [|discriminate]. clear M v. revert us E.
      induction l as [|[k e] l IHl]; intros us E; [destruct H1|]. apply Forall_cons_iff in IH. destruct IH as [IH1 IH2].
      cbn [meansm] in E. change ((fix go (l0 : list (bytes * bxp)) : option (list (bytes * val)) := _) l) with (meansm (now w) l) in E.
      cbn [snd] in IH1.
      destruct (means (now w) e) eqn:E1; [|discriminate]. destruct (meansm (now w) l) eqn:E2; [|discriminate].
      cbn [flat_map snd] in H1. apply in_app_or in H1. destruct H1 as [H1|H1]; [exact (IH1 H1 _ eq_refl)|exact (IHl H1 IH2 _ eq_refl)].
Qed.

(** ** Statements *)
(** The world after [auto x = e] for an expression that is not a variable. *)
Definition stored (w w1 : bworld) (x a : nat) : bworld :=
  let w2 := sweep (bnext w) (Some a) w1 in mkBW (bheap w2) (bnext w2) (bset (bvars w2) x (Some a)).
Lemma stored_heap w w1 x a b : grows w w1 -> bheap (stored w w1 x a) b = if b <? bnext w then bheap w b else if b =? a then bheap w1 b else None.
Proof.
  intros (_ & _ & G). cbn [stored sweep bheap]. destruct (Nat.ltb_spec b (bnext w)); [|reflexivity]. now apply G.
Qed.
Lemma let_step w x e : binv w -> bvars w x = None -> match e with XVar _ => False | _ => True end ->
  match arg e w with Some (a, w1) => bstep w (BLet x e) = stored w w1 x a | None => bstep w (BLet x e) = w end.
Proof.
  intros B Hx He. cbn [bstep]. rewrite Hx. pose proof (all_fine e w B) as H. destruct (arg e w) as [[a w1]|]; [|reflexivity].
  destruct H as (_ & _ & _ & _ & A & _). destruct e; try destruct He; reflexivity.
Qed.
Lemma copy_step w x y a o : bvars w x = None -> bvars w y = Some a -> bheap w a = Some o ->
  bstep w (BLet x (XVar y)) = mkBW (bheap (snd (balloc o w))) (S (bnext w)) (bset (bvars w) x (Some (bnext w))).
Proof. intros Hx Hy Ho. cbn [bstep arg]. now rewrite Hx, Hy, Ho. Qed.

Lemma stored_inv w w1 x a : binv w -> bvars w x = None -> grows w w1 -> down w1 -> a < bnext w1 -> bheap w1 a <> None -> bnext w <= a -> binv (stored w w1 x a).
Proof.
  intros (D & L & U) Hx G D1 A1 A2 A3. pose proof G as (G1 & G2 & G3). split; [|split].
  - intros b o H. rewrite (stored_heap _ _ _ _ _ G) in H. cbn [stored bnext sweep]. destruct (Nat.ltb_spec b (bnext w)).
    + destruct (D _ _ H). split; [lia|auto].
    + destruct (Nat.eqb_spec b a); [|discriminate]. subst b. exact (D1 _ _ H).
  - intros y b H. rewrite (stored_heap _ _ _ _ _ G). cbn [stored bvars sweep] in H. rewrite G1 in H. unfold bset in H.
    destruct (Nat.eqb_spec y x).
    + injection H as <-. destruct (Nat.ltb_spec a (bnext w)); [lia|]. now rewrite Nat.eqb_refl.
    + destruct (var_low w y b (conj D (conj L U)) H) as [K1 K2]. destruct (Nat.ltb_spec b (bnext w)); [exact K2|lia].
  - intros y z b H1 H2. cbn [stored bvars sweep] in H1, H2. rewrite G1 in H1, H2. unfold bset in *.
    destruct (Nat.eqb_spec y x), (Nat.eqb_spec z x); subst; auto.
    + injection H1 as <-. destruct (var_low w z a (conj D (conj L U)) H2). lia.
    + injection H2 as <-. destruct (var_low w y a (conj D (conj L U)) H1). lia.
    + exact (U _ _ _ H1 H2).
Qed.
Lemma copy_inv w x y a o : binv w -> bvars w x = None -> bvars w y = Some a -> bheap w a = Some o ->
  binv (mkBW (bheap (snd (balloc o w))) (S (bnext w)) (bset (bvars w) x (Some (bnext w)))).
Proof.
  intros B Hx Hy Ho. pose proof B as (D & L & U). split; [|split].
  - intros b o' H. cbn [bheap bnext balloc snd] in *. unfold bset in H. destruct (Nat.eqb_spec b (bnext w)).
    + injection H as <-. subst b. split; [lia|]. destruct (D _ _ Ho) as [K1 K2]. eapply Forall_impl; [|exact K2]. cbv beta. lia.
    + destruct (D _ _ H). split; [lia|auto].
  - intros z b H. cbn [bheap bvars balloc snd] in *. unfold bset in *. destruct (Nat.eqb_spec z x).
    + injection H as <-. now rewrite Nat.eqb_refl.
    + destruct (var_low w z b B H) as [K1 K2]. destruct (Nat.eqb_spec b (bnext w)); [lia|exact K2].
  - intros z z' b H1 H2. cbn [bvars] in *. unfold bset in *. destruct (Nat.eqb_spec z x), (Nat.eqb_spec z' x); subst; auto.
    + injection H1 as <-. destruct (var_low w z' _ B H2). lia.
    + injection H2 as <-. destruct (var_low w z _ B H1). lia.
    + exact (U _ _ _ H1 H2).
Qed.

Lemma bstep_inv w s : binv w -> binv (bstep w s).
Proof.
  intro B. pose proof B as (D & L & U). destruct s as [x e|x v|x].
  - destruct (bvars w x) as [b|] eqn:Hx; [cbn [bstep]; now rewrite Hx|].
    assert (GEN : match e with XVar _ => False | _ => True end -> binv (bstep w (BLet x e))).
    { intro NV. pose proof (let_step w x e B Hx NV) as K. pose proof (all_fine e w B) as H.
      destruct (arg e w) as [[a w1]|]; rewrite K; [|exact B].
      destruct H as (_ & G & D1 & A1 & A2 & A3 & _). apply stored_inv; auto. destruct e; try destruct NV; exact A3. }
    destruct e as [v|y|l|l]; try (apply GEN; exact Logic.I).
    destruct (bvars w y) as [a|] eqn:Hy; [|cbn [bstep arg]; now rewrite Hx, Hy].
    pose proof (L _ _ Hy) as N. destruct (bheap w a) as [o|] eqn:Ho; [|congruence].
    rewrite (copy_step w x y a o Hx Hy Ho). now apply (copy_inv w x y a o).
  - cbn [bstep]. destruct (bvars w x) as [a|] eqn:Hx; [|exact B]. destruct (bheap w a) as [[u|l|l]|] eqn:Ha; try exact B.
    split; [|split].
    + intros b o H. cbn [bheap bnext] in *. unfold bset in H. destruct (Nat.eqb_spec b a); [|exact (D _ _ H)].
      injection H as <-. subst. split; [exact (proj1 (D _ _ Ha))|constructor].
    + intros y b H. cbn [bheap bvars] in *. unfold bset. destruct (Nat.eqb b a); [discriminate|eauto].
    + exact U.
  - cbn [bstep]. destruct (bvars w x) as [a|] eqn:Hx; [|exact B]. split; [|split].
    + intros b o H. cbn [bheap bnext] in *. unfold bset in H. destruct (Nat.eqb b a); [discriminate|exact (D _ _ H)].
    + intros y b H. cbn [bheap bvars] in *. unfold bset in *. destruct (Nat.eqb_spec y x); [discriminate|].
      destruct (Nat.eqb_spec b a); [|eauto]. subst. destruct n. exact (U _ _ _ H Hx).
    + intros y z b H1 H2. cbn [bvars] in *. unfold bset in *. destruct (Nat.eqb y x); [discriminate|].
      destruct (Nat.eqb z x); [discriminate|]. exact (U _ _ _ H1 H2).
Qed.
Lemma binv0 : binv bworld0.
Proof. split; [|split]; intros x y; discriminate. Qed.
Lemma bsteps_inv p : forall w, binv w -> binv (bsteps w p).
Proof. induction p as [|s p IH]; intros w B; [exact B|]. apply IH. now apply bstep_inv. Qed.
Lemma bsteps_app w p q : bsteps w (p ++ q) = bsteps (bsteps w p) q.
Proof. apply fold_left_app. Qed.

(** ** What the program text says about the variables *)
Definition builder_obj (o : bobj) : Prop := match o with PVal _ => False | _ => True end.
Definition knows (w : bworld) (t : nat -> option (option val)) : Prop := forall x,
  match t x with
  | None => bvars w x = None
  | Some k => exists a o, bvars w x = Some a /\ bheap w a = Some o /\ match k with Some v => o = PVal v | None => builder_obj o end
  end.
Lemma knows_var w t x : knows w t -> (t x = None <-> bvars w x = None).
Proof.
  intro K. specialize (K x). destruct (t x) as [k|]; [|tauto]. destruct K as (a & o & H & _). split; [discriminate|congruence].
Qed.
Lemma declared_iff w t e : knows w t -> (declared t e = true <-> forall x, In x (vars e) -> bvars w x <> None).
Proof.
  intro K. unfold declared. rewrite forallb_forall. split; intros H x Hx; specialize (H x Hx); pose proof (knows_var w t x K) as [K1 K2].
  - destruct (t x) eqn:E; [|discriminate]. intro N. specialize (K2 N). discriminate.
  - destruct (t x); [reflexivity|]. destruct (H (K1 eq_refl)).
Qed.
(** The object made by an expression that is not a variable. *)
Lemma arg_obj e w a w1 : binv w -> arg e w = Some (a, w1) ->
  match e with
  | XTmp v => bheap w1 a = Some (PVal v)
  | XVar _ => True
  | XVec l => exists r, bheap w1 a = Some (PVec r) /\ Forall2 (where_ w) l r
  | XMap l => exists r, bheap w1 a = Some (PMap r) /\ Forall2 (where_ w) (map snd l) (map snd r) /\ map fst r = map fst l
  end.
Proof.
  intros B E. destruct e as [v|y|l|l].
  - injection E as <- <-. cbn [balloc bheap]. apply bset_eq.
  - exact Logic.I.
  - rewrite arg_vec in E. pose proof (argl_fine l) as F. specialize (F ltac:(apply Forall_forall; intros; apply all_fine) w B).
    destruct (argl l w) as [[r w2]|]; [|discriminate]. injection E as <- <-. exists r. cbn [bheap]. rewrite bset_eq. split; [reflexivity|apply F].
  - rewrite arg_map in E. pose proof (argm_fine l) as F. specialize (F ltac:(apply Forall_forall; intros; apply all_fine) w B).
    destruct (argm l w) as [[r w2]|] eqn:EA; [|discriminate]. injection E as <- <-. exists r. cbn [bheap]. rewrite bset_eq.
    split; [reflexivity|]. split; [apply F|]. clear - EA. revert w r w2 EA. induction l as [|[k e] l IH]; intros w r w2 E; cbn [argm] in E.
    + injection E as <- <-. reflexivity.
    + destruct (arg e w) as [[a w1]|]; [|discriminate]. destruct (argm l w1) as [[r' w3]|] eqn:E'; [|discriminate].
      injection E as <- <-. cbn [map fst]. f_equal. exact (IH _ _ _ E').
Qed.

Lemma knows_step w t s : binv w -> knows w t -> knows (bstep w s) (tell1 t s).
Proof.
  intros B K. pose proof B as (D & L & U). destruct s as [x e|x v|x]; cbn [tell1].
  - pose proof (K x) as Kx. destruct (t x) as [k|] eqn:Tx.
    { destruct Kx as (a & o & H & _). cbn [bstep]. now rewrite H. }
    assert (GEN : match e with XVar _ => False | _ => True end ->
      knows (bstep w (BLet x e)) (if declared t e then vset t x (Some (match e with XTmp v => Some v | _ => None end)) else t)).
    { intro NV. pose proof (let_step w x e B Kx NV) as E. pose proof (all_fine e w B) as H. pose proof (declared_iff w t e K) as DI.
      pose proof (arg_obj e w) as AO. destruct (arg e w) as [[a w1]|]; rewrite E.
      2:{ destruct H as (y & H1 & H2). destruct (declared t e); [destruct (proj1 DI eq_refl y H1 H2)|exact K]. }
      destruct H as (V & G & D1 & A1 & A2 & A3 & _). rewrite (proj2 DI V). specialize (AO _ _ B eq_refl).
      assert (A4 : bnext w <= a) by (destruct e; try destruct NV; exact A3).
      assert (N1 : bvars (stored w w1 x a) x = Some a) by (cbn [stored bvars]; apply bset_eq).
      assert (N2 : bheap (stored w w1 x a) a = bheap w1 a).
      { rewrite (stored_heap _ _ _ _ _ G). destruct (Nat.ltb_spec a (bnext w)); [lia|]. now rewrite Nat.eqb_refl. }
      intro z. unfold vset. destruct (Nat.eqb_spec z x) as [->|Nz].
      - destruct e as [v|y|l|l]; try destruct NV.
        + exists a, (PVal v). rewrite N2. auto.
        + destruct AO as (r & R1 & _). exists a, (PVec r). rewrite N2. cbn [builder_obj]. auto.
        + destruct AO as (r & R1 & _). exists a, (PMap r). rewrite N2. cbn [builder_obj]. auto.
      - specialize (K z). cbn [stored bvars sweep]. rewrite (proj1 G), bset_ne by exact Nz.
        destruct (t z) as [kz|]; [|exact K]. destruct K as (az & oz & H1 & H2 & H3). exists az, oz. split; [exact H1|]. split; [|exact H3].
        change (bheap (stored w w1 x a) az = Some oz).
        rewrite (stored_heap _ _ _ _ _ G). destruct (Nat.ltb_spec az (bnext w)); [exact H2|destruct (D _ _ H2); lia]. }
    destruct e as [v|y|l|l]; try (apply GEN; exact Logic.I).
    unfold declared. cbn [vars forallb]. rewrite andb_true_r. pose proof (K y) as Ky. destruct (t y) as [ky|].
    + destruct Ky as (a & o & Hy & Ho & Hk). rewrite (copy_step w x y a o Kx Hy Ho). intro z. unfold vset. destruct (Nat.eqb_spec z x).
      * exists (bnext w), o. cbn [bvars bheap balloc snd]. subst z. rewrite !bset_eq. auto.
      * specialize (K z). cbn [bvars bheap balloc snd]. rewrite bset_ne by exact n. destruct (t z) as [kz|]; [|exact K].
        destruct K as (az & oz & H1 & H2 & H3). exists az, oz. split; [exact H1|]. split; [|exact H3].
        rewrite bset_ne; [exact H2|]. destruct (D _ _ H2). lia.
    + cbn [bstep arg]. rewrite Kx, Ky. exact K.
  - pose proof (K x) as Kx. cbn [bstep]. destruct (t x) as [[u|]|].
    + destruct Kx as (a & o & H1 & H2 & ->). rewrite H1, H2. intro z. unfold vset. cbn [bvars bheap]. destruct (Nat.eqb_spec z x).
      * subst z. exists a, (PVal v). rewrite bset_eq. auto.
      * specialize (K z). destruct (t z) as [kz|]; [|exact K]. destruct K as (az & oz & Z1 & Z2 & Z3). exists az, oz.
        split; [exact Z1|]. split; [|exact Z3]. rewrite bset_ne; [exact Z2|]. intros ->. exact (n (U _ _ _ Z1 H1)).
    + destruct Kx as (a & o & H1 & H2 & H3). rewrite H1, H2. destruct o; [destruct H3|exact K|exact K].
    + rewrite Kx. exact K.
  - cbn [bstep]. pose proof (K x) as Kx. intro z. unfold vset. destruct (Nat.eqb_spec z x).
    + subst z. destruct (bvars w x) eqn:E; [|exact E]. cbn [bvars]. apply bset_eq.
    + specialize (K z). destruct (bvars w x) as [b|] eqn:E; [|exact K]. cbn [bvars bheap]. rewrite bset_ne by exact n.
      destruct (t z) as [kz|]; [|exact K]. destruct K as (az & oz & Z1 & Z2 & Z3). exists az, oz. split; [exact Z1|]. split; [|exact Z3].
      rewrite bset_ne; [exact Z2|]. intros ->. exact (n (U _ _ _ Z1 E)).
Qed.
Lemma knows_steps p : forall w t, binv w -> knows w t -> knows (bsteps w p) (fold_left tell1 p t).
Proof.
  induction p as [|s p IH]; intros w t B K; [exact K|]. cbn [bsteps fold_left]. apply IH; [now apply bstep_inv|now apply knows_step].
Qed.
Lemma knows_all p : knows (bsteps bworld0 p) (tell p).
Proof. apply knows_steps; [exact binv0|]. intro x. reflexivity. Qed.

(** Variables that hold values denote them. *)
Lemma told_now p x v : tell p x = Some (Some v) -> now (bsteps bworld0 p) x = Some v.
Proof.
  intro T. pose proof (knows_all p x) as K. rewrite T in K. destruct K as (a & o & H1 & H2 & ->).
  pose proof (bsteps_inv p bworld0 binv0) as B. unfold now. rewrite (serialize_var _ _ _ B H1), (ev1_eq _ _ (proj1 B)), H2. reflexivity.
Qed.

(** ** What later statements do to a stored builder *)
Lemma bstep_dead w s a : binv w -> a < bnext w -> bheap w a = None -> a < bnext (bstep w s) /\ bheap (bstep w s) a = None.
Proof.
  intros B A N. pose proof B as (D & L & U). destruct s as [x e|x v|x].
  - destruct (bvars w x) as [b|] eqn:Hx; [cbn [bstep]; now rewrite Hx|].
    assert (GEN : match e with XVar _ => False | _ => True end -> a < bnext (bstep w (BLet x e)) /\ bheap (bstep w (BLet x e)) a = None).
    { intro NV. pose proof (let_step w x e B Hx NV) as K. pose proof (all_fine e w B) as H.
      destruct (arg e w) as [[b w1]|]; rewrite K; [|auto]. destruct H as (_ & G & D1 & A1 & A2 & A3 & _).
      split; [cbn [stored bnext sweep]; pose proof (proj1 (proj2 G)); lia|].
      rewrite (stored_heap _ _ _ _ _ G). destruct (Nat.ltb_spec a (bnext w)); [exact N|lia]. }
    destruct e as [v|y|l|l]; try (apply GEN; exact Logic.I).
    destruct (bvars w y) as [b|] eqn:Hy; [|cbn [bstep arg]; now rewrite Hx, Hy].
    pose proof (L _ _ Hy) as M. destruct (bheap w b) as [o|] eqn:Ho; [|congruence].
    rewrite (copy_step w x y b o Hx Hy Ho). cbn [bnext bheap balloc snd]. split; [lia|]. rewrite bset_ne by lia. exact N.
  - cbn [bstep]. destruct (bvars w x) as [b|] eqn:Hx; [|auto]. destruct (bheap w b) as [[u|l|l]|] eqn:Hb; auto.
    cbn [bnext bheap]. split; [exact A|]. rewrite bset_ne; [exact N|congruence].
  - cbn [bstep]. destruct (bvars w x) as [b|] eqn:Hx; [|auto]. cbn [bnext bheap]. split; [exact A|]. unfold bset. now destruct (Nat.eqb a b).
Qed.
Lemma bsteps_dead q : forall w a, binv w -> a < bnext w -> bheap w a = None -> bheap (bsteps w q) a = None.
Proof.
  induction q as [|s q IH]; intros w a B A N; [exact N|]. destruct (bstep_dead w s a B A N) as [A' N']. apply (IH _ a); auto. now apply bstep_inv.
Qed.
(** A variable keeps its object until it goes out of scope. *)
Lemma bstep_keeps w s x a : binv w -> bvars w x = Some a -> s <> BDrop x ->
  bvars (bstep w s) x = Some a /\ (forall o, bheap w a = Some o -> builder_obj o -> bheap (bstep w s) a = Some o).
Proof.
  intros B Hx N. pose proof B as (D & L & U). destruct (var_low w x a B Hx) as [A1 A2]. destruct s as [y e|y v|y].
  - destruct (bvars w y) as [b|] eqn:Hy; [cbn [bstep]; rewrite Hy; auto|]. assert (NE : x <> y) by congruence.
    assert (GEN : match e with XVar _ => False | _ => True end -> bvars (bstep w (BLet y e)) x = Some a /\
                  (forall o, bheap w a = Some o -> builder_obj o -> bheap (bstep w (BLet y e)) a = Some o)).
    { intro NV. pose proof (let_step w y e B Hy NV) as K. pose proof (all_fine e w B) as H.
      destruct (arg e w) as [[b w1]|]; rewrite K; [|auto]. destruct H as (_ & G & D1 & B1 & B2 & B3 & _).
      split; [cbn [stored bvars sweep]; rewrite (proj1 G), bset_ne by exact NE; exact Hx|].
      intros o' H' _. rewrite (stored_heap _ _ _ _ _ G). destruct (Nat.ltb_spec a (bnext w)); [exact H'|lia]. }
    destruct e as [v|z|l|l]; try (apply GEN; exact Logic.I).
    destruct (bvars w z) as [b|] eqn:Hz; [|cbn [bstep arg]; rewrite Hy, Hz; auto].
    pose proof (L _ _ Hz) as M. destruct (bheap w b) as [o|] eqn:Ho; [|congruence].
    rewrite (copy_step w y z b o Hy Hz Ho). cbn [bvars bheap balloc snd]. rewrite bset_ne by exact NE. split; [exact Hx|].
    intros o' H' _. rewrite bset_ne by lia. exact H'.
  - cbn [bstep]. destruct (bvars w y) as [b|] eqn:Hy; [|auto]. destruct (bheap w b) as [[u|l|l]|] eqn:Hb; auto.
    cbn [bvars bheap]. split; [exact Hx|]. intros o' H' F. rewrite bset_ne; [exact H'|]. intros ->. rewrite Hb in H'. injection H' as <-. exact F.
  - assert (NE : x <> y) by congruence. cbn [bstep]. destruct (bvars w y) as [b|] eqn:Hy; [|auto]. cbn [bvars bheap].
    rewrite bset_ne by exact NE. split; [exact Hx|]. intros o' H' _. rewrite bset_ne; [exact H'|]. intros ->. exact (NE (U _ _ _ Hx Hy)).
Qed.
Lemma bsteps_keeps q : forall w x a, binv w -> bvars w x = Some a -> ~ In (BDrop x) q ->
  bvars (bsteps w q) x = Some a /\ (forall o, bheap w a = Some o -> builder_obj o -> bheap (bsteps w q) a = Some o).
Proof.
  induction q as [|s q IH]; intros w x a B Hx N; [auto|].
  destruct (bstep_keeps w s x a B Hx) as [K1 K2]; [intros ->; apply N; now left|].
  destruct (IH (bstep w s) x a (bstep_inv w s B) K1) as [R1 R2]; [intro H; apply N; now right|]. split; [exact R1|].
  intros o H F. apply R2; auto.
Qed.
Lemma bsteps_drops q : forall w x a, binv w -> bvars w x = Some a -> In (BDrop x) q -> bheap (bsteps w q) a = None.
Proof.
  induction q as [|s q IH]; intros w x a B Hx I; [destruct I|]. cbn [bsteps fold_left]. destruct (var_low w x a B Hx) as [A1 _].
  assert (C : s = BDrop x \/ s <> BDrop x).
  { destruct s as [y e|y v|y]; try (right; discriminate). destruct (Nat.eq_dec y x) as [->|]; [now left|right; congruence]. }
  destruct C as [->|C].
  - apply (bsteps_dead q); [now apply bstep_inv| |]; cbn [bstep]; rewrite Hx; cbn [bnext bheap]; [exact A1|apply bset_eq].
  - destruct I as [I|I]; [congruence|]. destruct (bstep_keeps w s x a B Hx C) as [K1 _]. apply (IH (bstep w s) x a); auto. now apply bstep_inv.
Qed.

(** ** A builder stored in a variable *)
Lemma stored_builder w b e : binv w -> bvars w b = None -> is_builder e = true -> (forall x, In x (vars e) -> bvars w x <> None) ->
  exists a o, bvars (bstep w (BLet b e)) b = Some a /\ bheap (bstep w (BLet b e)) a = Some o /\ builder_obj o /\ Forall2 (where_ w) (args e) (kids o) /\
    (match e, o with XVec l, PVec r => True | XMap l, PMap r => map fst r = map fst l | _, _ => False end) /\
    Forall2 (fun e' k => is_var e' = false -> k < bnext (bstep w (BLet b e)) /\ bheap (bstep w (BLet b e)) k = None) (args e) (kids o).
Proof.
  intros B Hb Bu V.
  assert (NV : match e with XVar _ => False | _ => True end) by (destruct e; try discriminate; exact Logic.I).
  pose proof (let_step w b e B Hb NV) as K. pose proof (all_fine e w B) as H. pose proof (arg_obj e w) as AO.
  destruct (arg e w) as [[a w1]|]; [|exfalso; destruct H as (x & H1 & H2); exact (V x H1 H2)].
  rewrite K. destruct H as (_ & G & D1 & A1 & A2 & A3 & _). specialize (AO _ _ B eq_refl).
  assert (NA : bnext w <= a) by (destruct e; try destruct NV; exact A3).
  assert (N1 : bvars (stored w w1 b a) b = Some a) by (cbn [stored bvars]; apply bset_eq).
  assert (N2 : bheap (stored w w1 b a) a = bheap w1 a).
  { rewrite (stored_heap _ _ _ _ _ G). destruct (Nat.ltb_spec a (bnext w)); [lia|]. now rewrite Nat.eqb_refl. }
  assert (X : exists o, bheap w1 a = Some o /\ builder_obj o /\ Forall2 (where_ w) (args e) (kids o) /\
                (match e, o with XVec l, PVec r => True | XMap l, PMap r => map fst r = map fst l | _, _ => False end)).
  { destruct e as [v|y|l|l]; try discriminate.
    - destruct AO as (r & R1 & R2). exists (PVec r). cbn [builder_obj args kids]. auto.
    - destruct AO as (r & R1 & R2 & R3). exists (PMap r). cbn [builder_obj args kids]. auto. }
  destruct X as (o & X1 & X2 & X3 & X4). exists a, o. rewrite N2. repeat split; auto.
  destruct (D1 _ _ X1) as [_ KD]. clear - X3 KD A1 NA G.
  assert (F : forall k e', is_var e' = false -> where_ w e' k -> k < a -> k < bnext (stored w w1 b a) /\ bheap (stored w w1 b a) k = None).
  { intros k e' E W Ka. split; [cbn [stored bnext sweep]; lia|]. rewrite (stored_heap _ _ _ _ _ G).
    assert (bnext w <= k) by (destruct e'; try discriminate; exact W).
    destruct (Nat.ltb_spec k (bnext w)); [lia|]. destruct (Nat.eqb_spec k a); [lia|reflexivity]. }
  induction X3 as [|e' k l r H _ IH]; constructor; apply Forall_cons_iff in KD; destruct KD as [K1 K2]; [|auto].
  intro E. exact (F k e' E H K1).
Qed.

Lemma Forall2_in {A B} (P : A -> B -> Prop) l r x : Forall2 P l r -> In x l -> exists y, In y r /\ P x y.
Proof.
  induction 1 as [|a b l r H _ IH]; intro I; [destruct I|]. destruct I as [->|I]; [exists b; split; [now left|exact H]|].
  destruct (IH I) as (y & Y1 & Y2). exists y. split; [now right|exact Y2].
Qed.

Lemma stored_dangles w b e q x : binv w -> bvars w b = None -> is_builder e = true -> (forall y, In y (vars e) -> bvars w y <> None) ->
  ~ In (BDrop b) q -> In x (args e) -> match x with XVar y => In (BDrop y) q | _ => True end ->
  bserialize (bsteps w (BLet b e :: q)) (XVar b) = Some UB.
Proof.
  intros B Hb Bu V ND Ix Hx. destruct (stored_builder w b e B Hb Bu V) as (a & o & E1 & E2 & E3 & E4 & _ & E5).
  set (w' := bstep w (BLet b e)) in *. pose proof (bstep_inv w (BLet b e) B) as B'. fold w' in B'.
  change (bsteps w (BLet b e :: q)) with (bsteps w' q). pose proof (bsteps_inv q w' B') as Bq.
  destruct (bsteps_keeps q w' b a B' E1 ND) as [R1 R2]. rewrite (serialize_var _ _ _ Bq R1). f_equal.
  specialize (R2 o E2 E3).
  assert (X : exists k, In k (kids o) /\ bheap (bsteps w' q) k = None).
  { destruct (is_var x) eqn:Ev.
    - destruct x as [|y| |]; try discriminate. destruct (Forall2_in _ _ _ _ E4 Ix) as (k & K1 & K2). cbn [where_] in K2.
      exists k. split; [exact K1|]. apply (bsteps_drops q w' y k B'); [|exact Hx].
      unfold w'. apply (bstep_keeps w (BLet b e) y k B K2). discriminate.
    - destruct (Forall2_in _ _ _ _ E5 Ix) as (k & K1 & K2). exists k. split; [exact K1|]. destruct (K2 Ev) as [K3 K4]. now apply bsteps_dead. }
  destruct X as (k & K1 & K2). exact (ev1_dangling _ a o k (proj1 Bq) R2 K1 K2).
Qed.

Lemma stored_shows w b e q v : binv w -> bvars w b = None -> is_builder e = true -> (forall y, In y (vars e) -> bvars w y <> None) ->
  forallb is_var (args e) = true -> ~ In (BDrop b) q -> (forall y, In (XVar y) (args e) -> ~ In (BDrop y) q) ->
  means (now (bsteps w (BLet b e :: q))) e = Some v ->
  bserialize (bsteps w (BLet b e :: q)) (XVar b) = Some (Ok v).
Proof.
  intros B Hb Bu V AV ND NA M. destruct (stored_builder w b e B Hb Bu V) as (a & o & E1 & E2 & E3 & E4 & E6 & _).
  set (w' := bstep w (BLet b e)) in *. pose proof (bstep_inv w (BLet b e) B) as B'. fold w' in B'.
  change (bsteps w (BLet b e :: q)) with (bsteps w' q) in *. pose proof (bsteps_inv q w' B') as Bq.
  destruct (bsteps_keeps q w' b a B' E1 ND) as [R1 R2]. rewrite (serialize_var _ _ _ Bq R1). f_equal.
  specialize (R2 o E2 E3). set (wq := bsteps w' q) in *. rewrite (ev1_eq wq a (proj1 Bq)), R2.
  assert (Y : Forall2 (fun x k => forall u, means (now wq) x = Some u -> ev1 wq k = Ok u) (args e) (kids o)).
  { assert (Q : forall x k, In x (args e) -> where_ w x k -> forall u, means (now wq) x = Some u -> ev1 wq k = Ok u).
    { intros x k Ix Wx u Eu. rewrite forallb_forall in AV. specialize (AV x Ix). destruct x as [|y| |]; try discriminate.
      cbn [where_] in Wx. cbn [means] in Eu. apply (now_env wq y k u Bq); [|exact Eu].
      assert (K : bvars w' y = Some k) by (unfold w'; apply (bstep_keeps w (BLet b e) y k B Wx); discriminate).
      exact (proj1 (bsteps_keeps q w' y k B' K (NA y Ix))). }
    clear - E4 Q. revert Q. generalize (args e) (kids o) E4. clear. intros l r H.
    induction H as [|x k l r H _ IH]; intro Q; constructor; [apply Q; [now left|exact H]|]. apply IH. intros. eapply Q; eauto. now right. }
  destruct e as [|y|l|l]; try discriminate; destruct o as [u|r|r]; try (exfalso; exact E6).
  - rewrite means_vec in M. destruct (meansl (now wq) l) as [us|] eqn:EM; [|discriminate]. injection M as <-.
    cbn [args kids] in Y. assert (EE : emits (ev1 wq) r = Ok us); [|now rewrite EE].
    clearbody wq. clear - Y EM. revert us EM. induction Y as [|x k l r H _ IH]; intros us EM; cbn [meansl emits] in *; [now injection EM as <-|].
    change ((fix go (l0 : list bxp) : option (list val) := _) l) with (meansl (now wq) l) in EM.
    destruct (means (now wq) x) as [u|]; [|discriminate]. destruct (meansl (now wq) l) as [us'|]; [|discriminate]. injection EM as <-.
    rewrite (H u eq_refl), (IH us' eq_refl). reflexivity.
  - rewrite means_map in M. destruct (meansm (now wq) l) as [us|] eqn:EM; [|discriminate]. injection M as <-.
    cbn [args kids] in Y. assert (EE : emits2 (ev1 wq) r = Ok us); [|now rewrite EE].
    clearbody wq. clear - Y EM E6. revert r us EM E6 Y. induction l as [|[k x] l IH]; intros [|[k' c] r] us EM E6 Y; cbn [meansm emits2 map fst snd] in *; try discriminate.
    + now injection EM as <-.
    + change ((fix go (l0 : list (bytes * bxp)) : option (list (bytes * val)) := _) l) with (meansm (now wq) l) in EM.
      injection E6 as -> E6. inversion Y as [|? ? ? ? H Y']; subst.
      destruct (means (now wq) x) as [u|]; [|discriminate]. destruct (meansm (now wq) l) as [us'|] eqn:EM'; [|discriminate]. injection EM as <-.
      rewrite (H u eq_refl), (IH r us' eq_refl E6 Y'). reflexivity.
Qed.
