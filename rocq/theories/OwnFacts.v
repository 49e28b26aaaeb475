(** OwnFacts.v -- the ownership invariant of OwnModel.v. *)

From Coq Require Import ZArith List Bool Lia ZifyBool ZifyNat.
From Verif Require Import Base BaseFacts OwnModel OwnSpec.
Import ListNotations.
Open Scope Z_scope.

Lemma upd_eq {A} (f : nat -> A) n x : upd f n x n = x.
Proof. unfold upd. now rewrite Nat.eqb_refl. Qed.
Lemma upd_ne {A} (f : nat -> A) n x m : m <> n -> upd f n x m = f m.
Proof. intro H. unfold upd. destruct (Nat.eqb_spec m n); congruence. Qed.
Lemma upd_case {A} (f : nat -> A) n x m : upd f n x m = if Nat.eqb m n then x else f m.
Proof. reflexivity. Qed.

Definition owner_ok (w : rworld) : Prop :=
  forall n o b l, objs w n = Some o -> own o = Some (b, l) ->
    exists mem, heap w b = Some (false, mem) /\ 0 <= l <= zlen mem.
Definition owner_one (w : rworld) : Prop :=
  forall n1 n2 b, owns w n1 b -> owns w n2 b -> n1 = n2.
Definition owned_all (w : rworld) : Prop :=
  forall b mem, heap w b = Some (false, mem) -> exists n, owns w n b.
Definition fresh_ok (w : rworld) : Prop :=
  (forall b, (next w <= b)%nat -> heap w b = None) /\
  (forall n o b off l, objs w n = Some o -> ref o = Some (b, off, l) -> (b < next w)%nat /\
     0 <= off /\ 0 <= l /\ forall c mem, heap w b = Some (c, mem) -> off + l <= zlen mem).
Definition winv (w : rworld) : Prop := owner_ok w /\ owner_one w /\ owned_all w /\ fresh_ok w.

Definition claim_ok (w : rworld) (e : claims) : Prop :=
  forall n, (e n = None <-> objs w n = None) /\
    (forall d, e n = Some (Some d) -> exists o, objs w n = Some o /\
       ((d = [] /\ own o = None /\ ref o = None) \/
        exists b mem, own o = Some (b, zlen d) /\ ref o = Some (b, 0, zlen d) /\
          heap w b = Some (false, mem) /\ slice mem 0 (zlen d) = d)).

Definition inv (w : rworld) (e : claims) : Prop := winv w /\ claim_ok w e.

Definition weq (w w' : rworld) : Prop :=
  (forall b, heap w b = heap w' b) /\ next w = next w' /\ (forall n, objs w n = objs w' n).

Lemma inv_ext w w' (e e' : claims) : weq w w' -> (forall n, e n = e' n) -> inv w e -> inv w' e'.
Proof.
  intros [Hh [Hx Ho]] He [[A [B [C [D1 D2]]]] K].
  assert (OW : forall n b, owns w' n b <-> owns w n b) by (intros; unfold owns; now rewrite Ho).
  split; [split; [|split; [|split; [|split]]]|].
  - intros n o b l H1 H2. rewrite <- Ho in H1. rewrite <- Hh. eauto.
  - intros n1 n2 b H1 H2. apply OW in H1, H2. eauto.
  - intros b mem H. rewrite <- Hh in H. destruct (C _ _ H) as [n Hn]. exists n. now apply OW.
  - intros b H. rewrite <- Hh. apply D1. now rewrite Hx.
  - intros n o b off l H1 H2. rewrite <- Ho in H1. rewrite <- Hx, <- Hh. eauto.
  - intro n. rewrite <- He, <- Ho. destruct (K n) as [K1 K2]. split; [exact K1|].
    intros d Hd. destruct (K2 d Hd) as [o [H1 H2]]. exists o. split; [exact H1|].
    destruct H2 as [H2|(b & mem & P1 & P2 & P3 & P4)]; [left; exact H2|right].
    exists b, mem. rewrite <- Hh. auto.
Qed.

Definition unowned (w : rworld) (n : nat) : Prop := forall o, objs w n = Some o -> own o = None.
Definition ref_ok (w : rworld) (r : option (nat * Z * Z)) : Prop :=
  forall b off l, r = Some (b, off, l) -> (b < next w)%nat /\ 0 <= off /\ 0 <= l /\
    forall c mem, heap w b = Some (c, mem) -> off + l <= zlen mem.

Lemma unowned_none w n : objs w n = None -> unowned w n.
Proof. intros H o Ho. congruence. Qed.

Ltac ucase n m := destruct (Nat.eqb_spec n m); [subst n|].

(** T2: a reader without ownership, or none, in a variable that owns nothing. *)
Lemma inv_put w e n (x : option robj) :
  inv w e -> unowned w n -> (forall o, x = Some o -> own o = None /\ ref_ok w (ref o)) ->
  inv (put_obj n x w) (upd e n (match x with None => None | Some _ => Some None end)).
Proof.
  intros [[A [B [C [D1 D2]]]] K] U X.
  assert (OW : forall k b, owns (put_obj n x w) k b <-> owns w k b).
  { intros k b. unfold owns. cbn [objs put_obj]. rewrite upd_case. ucase k n; [|reflexivity].
    split; intros (o & l & H1 & H2).
    - destruct (X o H1). congruence.
    - rewrite (U o H1) in H2. congruence. }
  split; [split; [|split; [|split; [|split]]]|].
  - intros k o b l H1 H2. cbn [objs heap put_obj] in *. rewrite upd_case in H1. ucase k n; [|eauto].
    destruct (X o H1). congruence.
  - intros n1 n2 b H1 H2. apply OW in H1, H2. eauto.
  - intros b mem H. destruct (C b mem H) as [k Hk]. exists k. now apply OW.
  - exact D1.
  - intros k o b off l H1 H2. cbn [objs heap next put_obj] in *. rewrite upd_case in H1. ucase k n; [|eauto].
    destruct (X o H1) as [_ R]. now apply R.
  - intro k. cbn [objs heap put_obj]. rewrite !upd_case. ucase k n; [|apply K].
    destruct x; (split; [split; congruence|congruence]).
Qed.

(** T1: a new owner of a new block. *)
Lemma inv_new w e n mem l r d :
  inv w e -> unowned w n -> 0 <= l <= zlen mem ->
  ref_ok (snd (alloc false mem w)) r ->
  (forall x, d = Some x -> l = zlen x /\ r = Some (next w, 0, zlen x) /\ slice mem 0 (zlen x) = x) ->
  inv (put_obj n (Some (mkObj (Some (next w, l)) r)) (snd (alloc false mem w))) (upd e n (Some d)).
Proof.
  intros [[A [B [C [D1 D2]]]] K] U L R Dd.
  assert (FR : heap w (next w) = None) by (apply D1; lia).
  assert (NO : forall k, ~ owns w k (next w)).
  { intros k (o & l0 & H1 & H2). destruct (A _ _ _ _ H1 H2) as (m & Hm & _). congruence. }
  split; [split; [|split; [|split; [|split]]]|]; cbn [put_obj alloc snd heap next objs] in *.
  - intros k o b l0 H1 H2. cbn [objs heap put_obj alloc snd] in *. rewrite upd_case in H1. ucase k n.
    + injection H1 as <-. injection H2 as <- <-. exists mem. now rewrite upd_eq.
    + destruct (A _ _ _ _ H1 H2) as (m & Hm & Hl). exists m. rewrite upd_ne by congruence. auto.
  - intros n1 n2 b (o1 & l1 & H1 & P1) (o2 & l2 & H2 & P2). cbn [objs put_obj alloc snd] in *. rewrite upd_case in H1, H2.
    ucase n1 n; ucase n2 n; auto.
    + injection H1 as <-. injection P1 as <- <-. exfalso. apply (NO n2). now exists o2, l2.
    + injection H2 as <-. injection P2 as <- <-. exfalso. apply (NO n1). now exists o1, l1.
    + apply (B n1 n2 b); [now exists o1, l1|now exists o2, l2].
  - intros b m H. cbn [heap put_obj alloc snd] in H. rewrite upd_case in H. ucase b (next w).
    + exists n, (mkObj (Some (next w, l)) r), l. cbn [objs put_obj alloc snd]. now rewrite upd_eq.
    + destruct (C b m H) as (k & o & l0 & H1 & H2). exists k, o, l0. cbn [objs put_obj alloc snd]. rewrite upd_ne; [auto|].
      intros ->. rewrite (U o H1) in H2. congruence.
  - intros b Hb. cbn [heap next put_obj alloc snd] in *. rewrite upd_ne by lia. apply D1. lia.
  - intros k o b off l0 H1 H2. cbn [objs heap next put_obj alloc snd] in *. rewrite upd_case in H1. ucase k n.
    + injection H1 as <-. cbn [ref] in H2. exact (R _ _ _ H2).
    + destruct (D2 _ _ _ _ _ H1 H2) as (Q1 & Q2 & Q3 & Q4). repeat split; [lia|lia|lia|].
      intros c m Hm. rewrite upd_ne in Hm by lia. eauto.
  - intro k. cbn [objs heap put_obj alloc snd]. rewrite !upd_case. ucase k n.
    + split; [split; congruence|]. intros x Hx. injection Hx as ->. destruct (Dd x eq_refl) as (-> & -> & S1).
      eexists. split; [reflexivity|]. right. exists (next w), mem. cbn [own ref]. rewrite upd_eq. auto.
    + destruct (K k) as [K1 K2]. split; [exact K1|]. intros x Hx. destruct (K2 x Hx) as (o & H1 & H2).
      exists o. split; [exact H1|]. destruct H2 as [H2|(b & m & P1 & P2 & P3 & P4)]; [now left|right].
      exists b, m. rewrite upd_ne by congruence. auto.
Qed.

(** T3: an object gives up what it owns. *)
Lemma inv_release w e n o :
  inv w e -> objs w n = Some o ->
  exists w1, free_own o w = Ok w1 /\
    inv (put_obj n (Some (mkObj None (ref o))) w1) (upd e n (Some None)) /\
    objs w1 = objs w /\ next w1 = next w /\
    (forall b, heap w1 b = heap w b \/ (heap w1 b = None /\ exists mem, heap w b = Some (false, mem))).
Proof.
  intros I0 Ho. pose proof I0 as [[A [B [C [D1 D2]]]] K]. unfold free_own. destruct (own o) as [[b l]|] eqn:Eo.
  - destruct (A _ _ _ _ Ho Eo) as (mem & Hm & Hl). unfold free. rewrite Hm. eexists. split; [reflexivity|].
    split; [|split; [reflexivity|split; [reflexivity|]]].
    2:{ intro b'. cbn [heap put_obj alloc snd]. rewrite upd_case. ucase b' b; [right; eauto|now left]. }
    assert (ON : forall k o' b' l', k <> n -> objs w k = Some o' -> own o' = Some (b', l') -> b' <> b).
    { intros k o' b' l' Hk H1 H2 ->. apply Hk. apply (B k n b); [now exists o', l'|now exists o, l]. }
    split; [split; [|split; [|split; [|split]]]|]; cbn [put_obj heap next objs].
    + intros k o' b' l' H1 H2. cbn [objs heap put_obj alloc snd] in *. rewrite upd_case in H1. ucase k n.
      * injection H1 as <-. discriminate.
      * rewrite upd_ne by eauto. eauto.
    + intros n1 n2 b' (o1 & l1 & H1 & P1) (o2 & l2 & H2 & P2). cbn [objs put_obj alloc snd] in *. rewrite upd_case in H1, H2.
      ucase n1 n; [injection H1 as <-; discriminate|]. ucase n2 n; [injection H2 as <-; discriminate|].
      apply (B n1 n2 b'); [now exists o1, l1|now exists o2, l2].
    + intros b' m H. cbn [heap put_obj alloc snd] in H. rewrite upd_case in H. ucase b' b; [discriminate|].
      destruct (C b' m H) as (k & o' & l0 & H1 & H2). exists k, o', l0. cbn [objs put_obj alloc snd]. rewrite upd_ne; [auto|].
      intros ->. congruence.
    + intros b' Hb. cbn [heap next put_obj alloc snd] in *. rewrite upd_case. ucase b' b; [reflexivity|]. now apply D1.
    + intros k o' b' off l' H1 H2. cbn [objs heap next put_obj alloc snd] in *.
      assert (Q : exists k0 o0, objs w k0 = Some o0 /\ ref o0 = Some (b', off, l')).
      { rewrite upd_case in H1. ucase k n; [injection H1 as <-; cbn [ref] in H2; eauto|eauto]. }
      destruct Q as (k0 & o0 & Q1 & Q2). destruct (D2 _ _ _ _ _ Q1 Q2) as (R1 & R2 & R3 & R4).
      repeat split; auto. intros c m Hm'. rewrite upd_case in Hm'. ucase b' b; [discriminate|eauto].
    + intro k. cbn [objs heap put_obj alloc snd]. rewrite !upd_case. ucase k n; [split; [split; congruence|congruence]|].
      destruct (K k) as [K1 K2]. split; [exact K1|]. intros x Hx. destruct (K2 x Hx) as (o' & H1 & H2).
      exists o'. split; [exact H1|]. destruct H2 as [H2|(b' & m & P1 & P2 & P3 & P4)]; [now left|right].
      exists b', m. rewrite upd_ne by eauto. auto.
  - exists w. split; [reflexivity|]. split; [|auto].
    apply (inv_put w e n (Some (mkObj None (ref o)))); [exact I0| |].
    + intros o' H'. congruence.
    + intros o' H'. injection H' as <-. cbn [own ref]. split; [reflexivity|].
      intros b off l Hr. eapply D2; eauto.
Qed.

(** T4: everything an object holds goes to another variable, which owned nothing. *)
Lemma inv_transfer w e n m o c x :
  inv w e -> unowned w n -> n <> m -> objs w m = Some o -> e m = Some x ->
  inv (put_obj m (Some (moved_from c o)) (put_obj n (Some o) w)) (upd (upd e n (Some x)) m (Some None)).
Proof.
  intros [[A [B [C [D1 D2]]]] K] U NM Ho Ex.
  assert (MF : own (moved_from c o) = None) by (now destruct c).
  assert (OW : forall k b, owns (put_obj m (Some (moved_from c o)) (put_obj n (Some o) w)) k b <->
                           (k = n /\ owns w m b) \/ (k <> n /\ k <> m /\ owns w k b)).
  { intros k b. unfold owns. cbn [objs put_obj]. rewrite !upd_case. ucase k m.
    - split; [intros (o' & l & H1 & H2); injection H1 as <-; congruence|]. intros [[? _]|[_ [? _]]]; congruence.
    - ucase k n.
      + split; [intros (o' & l & H1 & H2); injection H1 as <-; left; split; [reflexivity|]; eauto|].
        intros [[_ (o' & l & H1 & H2)]|[? _]]; [|congruence]. rewrite Ho in H1. injection H1 as <-. eauto.
      + split; [intro H; right; auto|]. intros [[? _]|[_ [_ H]]]; [congruence|exact H]. }
  split; [split; [|split; [|split; [|split]]]|].
  - intros k o' b l H1 H2. cbn [objs heap put_obj] in *. rewrite !upd_case in H1. ucase k m.
    + injection H1 as <-. congruence.
    + ucase k n; [injection H1 as <-|]; eauto.
  - intros n1 n2 b H1 H2. apply OW in H1, H2.
    destruct H1 as [[-> H1]|[? [? H1]]], H2 as [[-> H2]|[? [? H2]]]; auto.
    + pose proof (B _ _ _ H1 H2). congruence.
    + pose proof (B _ _ _ H1 H2). congruence.
    + exact (B _ _ _ H1 H2).
  - intros b mem H. destruct (C b mem H) as [k Hk]. destruct (Nat.eq_dec k m) as [->|Hm].
    + exists n. apply OW. now left.
    + exists k. apply OW. right. split; [|auto]. intros ->. destruct Hk as (o' & l & H1 & H2).
      rewrite (U _ H1) in H2. discriminate.
  - exact D1.
  - intros k o' b off l H1 H2. cbn [objs heap next put_obj] in *. rewrite !upd_case in H1. ucase k m.
    + injection H1 as <-. destruct c; cbn [ref moved_from] in H2; [eauto|discriminate].
    + ucase k n; [injection H1 as <-|]; eauto.
  - intro k. cbn [objs heap put_obj]. rewrite !upd_case. ucase k m; [split; [split; congruence|congruence]|].
    ucase k n; [|apply K]. split; [split; congruence|]. intros d Hd. injection Hd as ->.
    destruct (K m) as [_ K2]. destruct (K2 d Ex) as (o' & H1 & H2). exists o'. split; [congruence|exact H2].
Qed.

(** T5: an owner's block is rewritten, and the owner refers to something else. *)
Lemma inv_rewrite w e n o b l0 c mem mem' l r :
  inv w e -> objs w n = Some o -> own o = Some (b, l0) -> heap w b = Some (c, mem) ->
  zlen mem' = zlen mem -> 0 <= l <= zlen mem -> ref_ok w r ->
  inv (put_obj n (Some (mkObj (Some (b, l)) r)) (mkRW (upd (heap w) b (Some (c, mem'))) (next w) (objs w)))
      (upd e n (Some None)).
Proof.
  intros [[A [B [C [D1 D2]]]] K] Ho Eo Hb EL L R.
  assert (c = false) as ->. { destruct (A _ _ _ _ Ho Eo) as (m & Hm & _). congruence. }
  assert (BN : (b < next w)%nat). { destruct (Nat.lt_ge_cases b (next w)); [auto|]. rewrite D1 in Hb; [discriminate|auto]. }
  assert (ON : forall k o' b' l', k <> n -> objs w k = Some o' -> own o' = Some (b', l') -> b' <> b).
  { intros k o' b' l' Hk H1 H2 ->. apply Hk. apply (B k n b); [now exists o', l'|now exists o, l0]. }
  split; [split; [|split; [|split; [|split]]]|]; cbn [put_obj heap next objs].
  - intros k o' b' l' H1 H2. cbn [objs heap put_obj alloc snd] in *. rewrite upd_case in H1. ucase k n.
    + injection H1 as <-. injection H2 as <- <-. exists mem'. rewrite upd_eq. split; [reflexivity|lia].
    + rewrite upd_ne by eauto. eauto.
  - intros n1 n2 b' (o1 & l1 & H1 & P1) (o2 & l2 & H2 & P2). cbn [objs put_obj alloc snd] in *. rewrite upd_case in H1, H2.
    ucase n1 n; ucase n2 n; auto.
    + injection H1 as <-. injection P1 as <- <-. exfalso. eapply (ON n2); eauto.
    + injection H2 as <-. injection P2 as <- <-. exfalso. eapply (ON n1); eauto.
    + apply (B n1 n2 b'); [now exists o1, l1|now exists o2, l2].
  - intros b' m H. cbn [heap put_obj alloc snd] in H. rewrite upd_case in H. ucase b' b.
    + exists n, (mkObj (Some (b, l)) r), l. cbn [objs put_obj alloc snd]. now rewrite upd_eq.
    + destruct (C b' m H) as (k & o' & l1 & H1 & H2). exists k, o', l1. cbn [objs put_obj alloc snd]. rewrite upd_ne; [auto|].
      intros ->. congruence.
  - intros b' H. cbn [heap next put_obj alloc snd] in *. rewrite upd_ne by lia. now apply D1.
  - intros k o' b' off l' H1 H2. cbn [objs heap next put_obj alloc snd] in *.
    assert (Q : (b' < next w)%nat /\ 0 <= off /\ 0 <= l' /\
                forall c m, heap w b' = Some (c, m) -> off + l' <= zlen m).
    { rewrite upd_case in H1. ucase k n; [injection H1 as <-; exact (R _ _ _ H2)|eauto]. }
    destruct Q as (R1 & R2 & R3 & R4).
    repeat split; auto. intros c m Hm'. rewrite upd_case in Hm'. ucase b' b; [|eauto].
    injection Hm' as <- <-. rewrite EL. eauto.
  - intro k. cbn [objs heap put_obj alloc snd]. rewrite !upd_case. ucase k n; [split; [split; congruence|congruence]|].
    destruct (K k) as [K1 K2]. split; [exact K1|]. intros x Hx. destruct (K2 x Hx) as (o' & H1 & H2).
    exists o'. split; [exact H1|]. destruct H2 as [H2|(b' & m & P1 & P2 & P3 & P4)]; [now left|right].
    exists b', m. rewrite upd_ne by eauto. auto.
Qed.

(** T6: the caller's memory. *)
Lemma inv_caller_alloc w e mem : inv w e -> inv (snd (alloc true mem w)) e.
Proof.
  intros [[A [B [C [D1 D2]]]] K].
  assert (FR : heap w (next w) = None) by (apply D1; lia).
  split; [split; [|split; [|split; [|split]]]|]; cbn [alloc snd heap next objs].
  - intros k o b l H1 H2. cbn [objs heap put_obj alloc snd] in *. destruct (A _ _ _ _ H1 H2) as (m & Hm & Hl).
    exists m. rewrite upd_ne by congruence. auto.
  - exact B.
  - intros b m H. cbn [heap put_obj alloc snd] in H. rewrite upd_case in H. ucase b (next w); [discriminate|]. exact (C b m H).
  - intros b Hb. cbn [heap next put_obj alloc snd] in *. rewrite upd_ne by lia. apply D1. lia.
  - intros k o b off l H1 H2. cbn [objs heap next put_obj alloc snd] in *. destruct (D2 _ _ _ _ _ H1 H2) as (Q1 & Q2 & Q3 & Q4).
    repeat split; [lia|lia|lia|]. intros c m Hm. rewrite upd_ne in Hm by lia. eauto.
  - intro k. cbn [objs heap put_obj alloc snd]. destruct (K k) as [K1 K2]. split; [exact K1|]. intros x Hx.
    destruct (K2 x Hx) as (o & H1 & H2). exists o. split; [exact H1|].
    destruct H2 as [H2|(b & m & P1 & P2 & P3 & P4)]; [now left|right]. exists b, m. rewrite upd_ne by congruence. auto.
Qed.

Lemma inv_caller_free w e b mem :
  inv w e -> heap w b = Some (true, mem) -> inv (mkRW (upd (heap w) b None) (next w) (objs w)) e.
Proof.
  intros [[A [B [C [D1 D2]]]] K] Hb.
  split; [split; [|split; [|split; [|split]]]|]; cbn [heap next objs].
  - intros k o b' l H1 H2. cbn [objs heap put_obj alloc snd] in *. destruct (A _ _ _ _ H1 H2) as (m & Hm & Hl).
    exists m. rewrite upd_ne by congruence. auto.
  - exact B.
  - intros b' m H. cbn [heap put_obj alloc snd] in H. rewrite upd_case in H. ucase b' b; [discriminate|]. exact (C b' m H).
  - intros b' H. cbn [heap next put_obj alloc snd] in *. rewrite upd_case. ucase b' b; [reflexivity|]. now apply D1.
  - intros k o b' off l H1 H2. cbn [objs heap next put_obj alloc snd] in *. destruct (D2 _ _ _ _ _ H1 H2) as (Q1 & Q2 & Q3 & Q4).
    repeat split; auto. intros c m Hm. rewrite upd_case in Hm. ucase b' b; [discriminate|eauto].
  - intro k. cbn [objs heap put_obj alloc snd]. destruct (K k) as [K1 K2]. split; [exact K1|]. intros x Hx.
    destruct (K2 x Hx) as (o & H1 & H2). exists o. split; [exact H1|].
    destruct H2 as [H2|(b' & m & P1 & P2 & P3 & P4)]; [now left|right]. exists b', m. rewrite upd_ne by congruence. auto.
Qed.

Lemma inv_none w e n : inv w e -> objs w n = None -> e n = None.
Proof. intros [_ K] H. now apply (K n). Qed.
Lemma inv_some w e n o : inv w e -> objs w n = Some o -> exists x, e n = Some x.
Proof. intros [_ K] H. destruct (e n) eqn:E; [eauto|]. apply (K n) in E. congruence. Qed.

Lemma slice_all (d s : bytes) : slice (d ++ s) 0 (zlen d) = d.
Proof.
  unfold slice, zlen. rewrite Nat2Z.id. cbn [Z.to_nat skipn].
  rewrite firstn_app, Nat.sub_diag, firstn_all. cbn [firstn]. apply app_nil_r.
Qed.

Lemma inv_ref w e n o : inv w e -> objs w n = Some o -> ref_ok w (ref o).
Proof. intros [[_ [_ [_ [_ D2]]]] _] H b off l Hr. eapply D2; eauto. Qed.

Lemma ref_ok_alloc w (c : bool) mem r : (forall b, (next w <= b)%nat -> heap w b = None) -> ref_ok w r -> ref_ok (snd (alloc c mem w)) r.
Proof.
  intros _ H b off l Hr. destruct (H _ _ _ Hr) as (Q1 & Q2 & Q3 & Q4). cbn [alloc snd next heap].
  repeat split; [lia|lia|lia|]. intros c' m Hm. rewrite upd_ne in Hm by lia. eauto.
Qed.

Lemma inv_frame w e : inv w e -> forall b, (next w <= b)%nat -> heap w b = None.
Proof. intros [[_ [_ [_ [D _]]]] _]. exact D. Qed.

Lemma inv_make c w e n data spare :
  inv w e -> objs w n = None ->
  let (o, w1) := make c data spare w in inv (put_obj n (Some o) w1) (upd e n (Some (Some data))).
Proof.
  intros I0 Hn.
  assert (G : inv (put_obj n (Some (mkObj (Some (next w, zlen data)) (Some (next w, 0, zlen data))))
                    (snd (alloc false (data ++ spare) w))) (upd e n (Some (Some data)))).
  { apply inv_new; auto.
    - now apply unowned_none.
    - unfold zlen. rewrite app_length. lia.
    - intros b off l Hr. injection Hr as <- <- <-. cbn [alloc snd next heap].
      repeat split; [lia|lia|unfold zlen; lia|]. intros c' m Hm. rewrite upd_eq in Hm. injection Hm as <- <-.
      unfold zlen. rewrite app_length. lia.
    - intros x Hx. injection Hx as <-. repeat split. apply slice_all. }
  unfold make. destruct c.
  - destruct (data ++ spare) eqn:E; [|exact G].
    apply app_eq_nil in E. destruct E as [-> ->].
    eapply inv_ext with (w := put_obj n (Some (mkObj None None)) w) (e := upd (upd e n (Some None)) n (Some (Some []))).
    + repeat split.
    + intro k. rewrite !upd_case. now destruct (Nat.eqb k n).
    + assert (P := inv_put w e n (Some (mkObj None None)) I0 (unowned_none _ _ Hn)).
      destruct P as [P1 P2]. { intros o Ho. injection Ho as <-. split; [reflexivity|]. intros b off l Hr. discriminate. }
      split; [exact P1|]. intro k. cbn [objs heap put_obj]. rewrite !upd_case.
      specialize (P2 k). cbn [objs heap put_obj] in P2. rewrite !upd_case in P2. ucase k n; [|exact P2].
      split; [split; congruence|]. intros d Hd. injection Hd as <-. eexists. split; [reflexivity|]. left. auto.
  - exact G.
Qed.

Lemma content_ok w e n o : inv w e -> objs w n = Some o ->
  exists d, content o w = Ok d /\ forall b l, own o = Some (b, l) -> zlen d = l.
Proof.
  intros [[A _] _] H. unfold content. destruct (own o) as [[b l]|] eqn:E.
  - destruct (A _ _ _ _ H E) as (mem & Hm & Hl). rewrite Hm. eexists. split; [reflexivity|].
    intros b' l' [= <- <-]. unfold slice, zlen in *. cbn [Z.to_nat skipn]. rewrite firstn_length. lia.
  - exists []. split; [reflexivity|]. discriminate.
Qed.

Lemma subview_ok w r off len : ref_ok w r -> ref_ok w (subview r off len).
Proof.
  intros H b o l Hs. destruct r as [[[b0 o0] l0]|]; [|discriminate]. injection Hs as <- <- <-.
  destruct (H _ _ _ eq_refl) as (Q1 & Q2 & Q3 & Q4). repeat split; [exact Q1|lia|lia|].
  intros c m Hm. specialize (Q4 c m Hm). lia.
Qed.

Lemma rstep_inv c w e op : inv w e -> exists w', rstep c w op = Ok w' /\ inv w' (track1 c e op).
Proof.
  intro I0. destruct op as [n data spare|n data|b|n m off len|n m|n m|n m|n m|n]; cbn [rstep track1].
  - (* RNew *)
    destruct (objs w n) eqn:En.
    + destruct (inv_some _ _ _ _ I0 En) as [x Ex]. rewrite Ex. eauto.
    + rewrite (inv_none _ _ _ I0 En). pose proof (inv_make c w e n data spare I0 En) as G.
      destruct (make c data spare w) as [o w1]. eauto.
  - (* RView *)
    destruct (objs w n) eqn:En.
    + destruct (inv_some _ _ _ _ I0 En) as [x Ex]. rewrite Ex. eauto.
    + rewrite (inv_none _ _ _ I0 En). destruct c.
      * eexists. split; [reflexivity|]. pose proof (inv_caller_alloc w e data I0) as I1.
        apply (inv_put _ _ n (Some _) I1); [now apply unowned_none|].
        intros o Ho. injection Ho as <-. split; [reflexivity|]. cbn [ref]. intros b off l Hr. injection Hr as <- <- <-.
        cbn [alloc snd next heap]. repeat split; [lia|lia|unfold zlen; lia|].
        intros c m Hm. rewrite upd_eq in Hm. injection Hm as <- <-. lia.
      * pose proof (inv_make CJson w e n data [] I0 En) as G. destruct (make CJson data [] w) as [o w1]. eauto.
  - (* RFree *)
    destruct (heap w b) as [[[] mem]|] eqn:Eb; eauto. eexists. split; [reflexivity|]. eapply inv_caller_free; eauto.
  - (* RSub *)
    destruct (objs w n) eqn:En.
    + destruct (inv_some _ _ _ _ I0 En) as [x Ex]. rewrite Ex. eauto.
    + rewrite (inv_none _ _ _ I0 En). destruct (objs w m) eqn:Em.
      * destruct (inv_some _ _ _ _ I0 Em) as [x Ex]. rewrite Ex. eexists. split; [reflexivity|].
        apply (inv_put _ _ n (Some _) I0); [now apply unowned_none|].
        intros o Ho. injection Ho as <-. split; [reflexivity|]. cbn [ref]. apply subview_ok. eapply inv_ref; eauto.
      * rewrite (inv_none _ _ _ I0 Em). eauto.
  - (* RCopy *)
    destruct c; [|eauto]. destruct (objs w n) eqn:En.
    + destruct (inv_some _ _ _ _ I0 En) as [x Ex]. rewrite Ex. eauto.
    + rewrite (inv_none _ _ _ I0 En). destruct (objs w m) eqn:Em.
      * destruct (inv_some _ _ _ _ I0 Em) as [x Ex]. rewrite Ex. unfold copy_obj.
        destruct (content_ok _ _ _ _ I0 Em) as (d & Hd & Hl). rewrite Hd. cbn [bind].
        pose proof (inv_ref _ _ _ _ I0 Em) as RO. destruct d as [|z d].
        -- eexists. split; [reflexivity|]. apply (inv_put _ _ n (Some _) I0); [now apply unowned_none|].
           intros o Ho. injection Ho as <-. split; [reflexivity|exact RO].
        -- eexists. split; [reflexivity|]. apply inv_new; auto.
           ++ now apply unowned_none.
           ++ unfold zlen. lia.
           ++ apply ref_ok_alloc; [eapply inv_frame; eauto|exact RO].
           ++ discriminate.
      * rewrite (inv_none _ _ _ I0 Em). eauto.
  - (* RMove *)
    destruct (objs w n) eqn:En.
    + destruct (inv_some _ _ _ _ I0 En) as [x Ex]. rewrite Ex. eauto.
    + rewrite (inv_none _ _ _ I0 En). destruct (objs w m) eqn:Em.
      * destruct (inv_some _ _ _ _ I0 Em) as [x Ex]. rewrite Ex. eexists. split; [reflexivity|].
        apply inv_transfer; auto; [now apply unowned_none|congruence].
      * rewrite (inv_none _ _ _ I0 Em). eauto.
  - (* RCopyAssign *)
    destruct c; [|eauto]. destruct (objs w n) as [dst|] eqn:En.
    + destruct (inv_some _ _ _ _ I0 En) as [x Ex]. rewrite Ex. destruct (objs w m) as [src|] eqn:Em.
      * destruct (inv_some _ _ _ _ I0 Em) as [y Ey]. rewrite Ey. destruct (Nat.eqb_spec n m); [eauto|].
        unfold copy_assign. destruct (content_ok _ _ _ _ I0 Em) as (d & Hd & Hl). rewrite Hd. cbn [bind].
        pose proof (inv_ref _ _ _ _ I0 Em) as RO. destruct (own dst) as [[b l]|] eqn:Eo.
        -- pose proof I0 as [[A _] _]. destruct (A _ _ _ _ En Eo) as (mem & Hm & Hl'). rewrite Hm.
           destruct (Z.leb_spec (zlen d) (zlen mem)) as [Hs|Hs].
           ++ eexists. split; [reflexivity|]. eapply inv_rewrite; eauto.
              unfold zlen in *. rewrite app_length, skipn_length. lia.
           ++ (* new storage, then the old one is freed *)
              destruct (inv_release w e n dst I0 En) as (w1 & F & I1 & Eo1 & En1 & Eh).
              unfold free_own in F. rewrite Eo in F. unfold free in F. rewrite Hm in F. injection F as <-.
              cbn [alloc]. unfold free. cbn [heap next objs]. rewrite upd_ne, Hm.
              2:{ pose proof (inv_frame _ _ I0) as Fr. intros ->. rewrite Fr in Hm; [discriminate|lia]. }
              cbn [bind]. eexists. split; [reflexivity|].
              eapply inv_ext; [| |apply (inv_new _ _ n d (zlen d) (ref src) None I1)].
              ** cbn [put_obj alloc snd heap next objs]. split; [|split].
                 --- intro b'. cbn [put_obj alloc snd heap next objs]. rewrite !upd_case.
                     destruct (Nat.eqb_spec b' (next w)), (Nat.eqb_spec b' b); try reflexivity.
                     subst. pose proof (inv_frame _ _ I0) as Fr. rewrite Fr in Hm; [discriminate|lia].
                 --- reflexivity.
                 --- intro k. cbn [put_obj alloc snd heap next objs]. rewrite !upd_case. now destruct (Nat.eqb k n).
              ** intro k. rewrite !upd_case. now destruct (Nat.eqb k n).
              ** intros o Ho. cbn [put_obj objs] in Ho. rewrite upd_eq in Ho. now injection Ho as <-.
              ** unfold zlen. lia.
              ** apply ref_ok_alloc; [eapply inv_frame; eauto|]. intros b' off l' Hr.
                 destruct (RO _ _ _ Hr) as (Q1 & Q2 & Q3 & Q4). cbn [put_obj next heap]. repeat split; auto.
                 intros c m0 Hm0. rewrite upd_case in Hm0. ucase b' b; [discriminate|eauto].
              ** discriminate.
        -- destruct d as [|z d].
           ++ eexists. split; [reflexivity|]. apply (inv_put _ _ n (Some _) I0).
              ** intros o Ho. congruence.
              ** intros o Ho. injection Ho as <-. split; [reflexivity|exact RO].
           ++ eexists. split; [reflexivity|]. apply inv_new; auto.
              ** intros o Ho. congruence.
              ** unfold zlen. lia.
              ** apply ref_ok_alloc; [eapply inv_frame; eauto|exact RO].
              ** discriminate.
      * rewrite (inv_none _ _ _ I0 Em). eauto.
    + rewrite (inv_none _ _ _ I0 En). eauto.
  - (* RMoveAssign *)
    destruct (objs w n) as [dst|] eqn:En.
    + destruct (inv_some _ _ _ _ I0 En) as [x Ex]. rewrite Ex. destruct (objs w m) as [src|] eqn:Em.
      * destruct (inv_some _ _ _ _ I0 Em) as [y Ey]. rewrite Ey.
        destruct (inv_release w e n dst I0 En) as (w1 & F & I1 & Eo1 & En1 & Eh).
        destruct (Nat.eqb_spec n m) as [Enm|Enm].
        -- destruct c; [|eauto]. rewrite F. cbn [bind]. eauto.
        -- rewrite F. cbn [bind]. eexists. split; [reflexivity|].
           eapply inv_ext; [| |apply (inv_transfer _ _ n m src c y I1)].
           ++ split; [|split]; [reflexivity|reflexivity|]. intro k. cbn [put_obj objs]. rewrite !upd_case.
              now destruct (Nat.eqb k m), (Nat.eqb k n).
           ++ intro k. rewrite !upd_case. now destruct (Nat.eqb k m), (Nat.eqb k n).
           ++ intros o Ho. cbn [put_obj objs] in Ho. rewrite upd_eq in Ho. now injection Ho as <-.
           ++ exact Enm.
           ++ cbn [put_obj objs]. rewrite upd_ne by congruence. now rewrite Eo1.
           ++ now rewrite upd_ne by congruence.
      * rewrite (inv_none _ _ _ I0 Em). eauto.
    + rewrite (inv_none _ _ _ I0 En). eauto.
  - (* RDestroy *)
    destruct (objs w n) as [o|] eqn:En.
    + destruct (inv_release w e n o I0 En) as (w1 & F & I1 & Eo1 & En1 & Eh).
      rewrite F. cbn [bind]. eexists. split; [reflexivity|].
      eapply inv_ext; [| |apply (inv_put _ _ n None I1)].
      * split; [|split]; [reflexivity|reflexivity|]. intro k. cbn [put_obj objs]. rewrite !upd_case.
        now destruct (Nat.eqb k n).
      * intro k. rewrite !upd_case. now destruct (Nat.eqb k n).
      * intros o' Ho. cbn [put_obj objs] in Ho. rewrite upd_eq in Ho. now injection Ho as <-.
      * discriminate.
    + eexists. split; [reflexivity|]. eapply inv_ext; [| |exact I0]; [repeat split|].
      intro k. rewrite upd_case. ucase k n; [|reflexivity]. eapply inv_none; eauto.
Qed.

Lemma inv0 : inv rworld0 claims0.
Proof.
  split; [split; [|split; [|split; [|split]]]|].
  - intros n o b l H. discriminate.
  - intros n1 n2 b (o & l & H & _). discriminate.
  - intros b mem H. discriminate.
  - reflexivity.
  - intros n o b off l H. discriminate.
  - intro n. split; [now split|]. intros d Hd. discriminate.
Qed.

Lemma rsteps_inv c h : forall w e, inv w e ->
  exists w', rsteps c w h = Ok w' /\ inv w' (fold_left (track1 c) h e).
Proof.
  induction h as [|op h IH]; intros w e I0; cbn [rsteps fold_left]; [eauto|].
  destruct (rstep_inv c w e op I0) as (w1 & E & I1). rewrite E. cbn [bind]. now apply IH.
Qed.

Lemma history_inv c h : exists w, rsteps c rworld0 h = Ok w /\ inv w (track c h).
Proof. apply rsteps_inv. exact inv0. Qed.

(** The statements. *)
Lemma owned_once c h : exists w, rsteps c rworld0 h = Ok w /\
  (forall b, allocated w b <-> exists n, owns w n b) /\
  (forall n m b, owns w n b -> owns w m b -> n = m) /\
  (forall n, objs w n = None <-> track c h n = None).
Proof.
  destruct (history_inv c h) as (w & E & I0). exists w. split; [exact E|].
  destruct I0 as [[A [B [C [D1 D2]]]] K]. split; [|split].
  - intro b. split; [intros [d Hd]; eauto|]. intros (n & o & l & H1 & H2).
    destruct (A _ _ _ _ H1 H2) as (mem & Hm & _). now exists mem.
  - intros n m b. apply B.
  - intro n. destruct (K n) as [K1 _]. symmetry. exact K1.
Qed.

Lemma owner_reads c h n d : track c h n = Some (Some d) ->
  exists w, rsteps c rworld0 h = Ok w /\ rread w n = Ok d.
Proof.
  intro T. destruct (history_inv c h) as (w & E & [_ K]). exists w. split; [exact E|].
  destruct (K n) as [_ K2]. destruct (K2 d T) as (o & Ho & H). unfold rread. rewrite Ho.
  destruct H as [(-> & _ & Hr)|(b & mem & H1 & H2 & H3 & H4)]; [now rewrite Hr|].
  rewrite H2, H3. unfold rd_view. cbn [fst snd].
  assert (zlen d <= zlen mem).
  { rewrite <- H4 at 1. unfold slice, zlen. cbn [Z.to_nat skipn]. rewrite firstn_length. lia. }
  assert (0 <= zlen d) by (unfold zlen; lia).
  replace ((0 <=? 0) && (0 <=? zlen d) && (0 + zlen d <=? zlen mem)) with true by lia. now rewrite H4.
Qed.

Lemma dangling_iff c h w n : rsteps c rworld0 h = Ok w -> objs w n <> None ->
  (rread w n = UB <-> exists b, reads_from w n b /\ (forall m, ~ owns w m b) /\ (forall d, ~ callers w b d)).
Proof.
  intros E Hn. destruct (history_inv c h) as (w' & E' & [[A [B [C [D1 D2]]]] K]). rewrite E in E'. injection E' as <-.
  unfold rread. destruct (objs w n) as [o|] eqn:Ho; [|congruence]. destruct (ref o) as [[[b off] l]|] eqn:Hr.
  - destruct (D2 _ _ _ _ _ Ho Hr) as (Q1 & Q2 & Q3 & Q4). destruct (heap w b) as [[c' mem]|] eqn:Hb.
    + specialize (Q4 _ _ eq_refl). unfold rd_view. cbn [fst snd].
      replace ((0 <=? off) && (0 <=? l) && (off + l <=? zlen mem)) with true by lia.
      split; [discriminate|]. intros (b' & (o' & off' & l' & H1 & H2) & N1 & N2).
      rewrite Ho in H1. injection H1 as <-. rewrite Hr in H2. injection H2 as <- <- <-. exfalso. destruct c'.
      * exact (N2 _ Hb).
      * destruct (C _ _ Hb) as [m Hm]. exact (N1 m Hm).
    + split; [intros _|reflexivity]. exists b. split; [now exists o, off, l|]. split.
      * intros m (o' & l' & H1 & H2). destruct (A _ _ _ _ H1 H2) as (mem & Hm & _). congruence.
      * intros d Hd. unfold callers in Hd. congruence.
  - split; [discriminate|]. intros (b' & (o' & off' & l' & H1 & H2) & _).
    rewrite Ho in H1. injection H1 as <-. congruence.
Qed.

(** The caller's memory is neither written nor freed by the library. *)
Lemma caller_step c w e op b d w' : inv w e -> op <> RFree b -> callers w b d -> rstep c w op = Ok w' -> callers w' b d.
Proof.
  intros I0 NF Hb E. unfold callers in *.
  assert (Fr : forall x : nat, x = next w -> b <> x).
  { intros x -> ->. rewrite (inv_frame _ _ I0) in Hb; [discriminate|lia]. }
  assert (FO : forall o w1, free_own o w = Ok w1 -> heap w1 b = Some (true, d)).
  { intros o w1. unfold free_own. destruct (own o) as [[b0 l0]|]; [|intros [= <-]; exact Hb].
    unfold free. destruct (heap w b0) as [[[] m0]|] eqn:E0; try discriminate. intros [= <-]. cbn [heap].
    rewrite upd_case. ucase b b0; [congruence|exact Hb]. }
  destruct op as [n data spare|n data|b0|n m off len|n m|n m|n m|n m|n]; cbn [rstep] in E.
  - destruct (objs w n); [now injection E as <-|]. unfold make in E.
    destruct c, (data ++ spare); cbn [alloc] in E; injection E as <-; cbn [put_obj heap]; rewrite ?upd_ne by auto; auto.
  - destruct (objs w n); [now injection E as <-|]. unfold make in E.
    destruct c; cbn [alloc] in E; injection E as <-; cbn [put_obj heap]; rewrite ?upd_ne by auto; auto.
  - destruct (heap w b0) as [[[] m0]|]; injection E as <-; auto. cbn [heap]. rewrite upd_ne; [auto|congruence].
  - destruct (objs w n), (objs w m); injection E as <-; auto.
  - destruct c, (objs w n), (objs w m) as [o|]; try (injection E as <-; auto; fail). unfold copy_obj in E.
    destruct (content o w) as [x| | |]; try discriminate. cbn [bind] in E.
    destruct x; cbn [alloc bind] in E; injection E as <-; cbn [put_obj heap]; rewrite ?upd_ne by auto; auto.
  - destruct (objs w n), (objs w m); injection E as <-; auto.
  - destruct c, (objs w n) as [dst|] eqn:En, (objs w m) as [src|] eqn:Em; try (injection E as <-; auto; fail).
    destruct (Nat.eqb n m); [injection E as <-; auto|].
    unfold copy_assign in E. destruct (content src w) as [x| | |]; try discriminate. cbn [bind] in E.
    destruct (own dst) as [[b1 l1]|] eqn:Eo.
    + pose proof I0 as [[A _] _]. destruct (A _ _ _ _ En Eo) as (mem & Hm & _). rewrite Hm in E.
      destruct (zlen x <=? zlen mem).
      * cbn [bind] in E. injection E as <-. cbn [put_obj heap]. rewrite upd_ne; [auto|congruence].
      * cbn [alloc] in E. unfold free in E. cbn [heap] in E. rewrite upd_ne, Hm in E.
        2:{ intros ->. rewrite (inv_frame _ _ I0) in Hm; [discriminate|lia]. }
        cbn [bind] in E. injection E as <-. cbn [put_obj heap]. rewrite upd_ne by congruence. rewrite upd_ne by auto. auto.
    + destruct x; cbn [alloc bind] in E; injection E as <-; cbn [put_obj heap]; rewrite ?upd_ne by auto; auto.
  - destruct (objs w n) as [dst|], (objs w m) as [src|]; try (injection E as <-; auto; fail).
    destruct (Nat.eqb n m).
    + destruct c; [|injection E as <-; auto]. destruct (free_own dst w) as [w1| | |] eqn:F; try discriminate.
      cbn [bind] in E. injection E as <-. cbn [put_obj heap]. eauto.
    + destruct (free_own dst w) as [w1| | |] eqn:F; try discriminate.
      cbn [bind] in E. injection E as <-. cbn [put_obj heap]. eauto.
  - destruct (objs w n) as [o|]; [|injection E as <-; auto].
    destruct (free_own o w) as [w1| | |] eqn:F; try discriminate.
    cbn [bind] in E. injection E as <-. cbn [put_obj heap]. eauto.
Qed.

Lemma rsteps_app c h1 : forall w h2, rsteps c w (h1 ++ h2) = (w1 <- rsteps c w h1 ;; rsteps c w1 h2).
Proof.
  induction h1 as [|op h1 IH]; intros w h2; cbn [app rsteps bind]; [reflexivity|].
  destruct (rstep c w op); cbn [bind]; auto.
Qed.

Lemma caller_steps c h : forall w e b d w', inv w e -> ~ In (RFree b) h -> callers w b d -> rsteps c w h = Ok w' -> callers w' b d.
Proof.
  induction h as [|op h IH]; intros w e b d w' I0 NF Hb E; cbn [rsteps] in E; [now injection E as <-|].
  destruct (rstep_inv c w e op I0) as (w1 & E1 & I1). rewrite E1 in E. cbn [bind] in E.
  eapply IH; [exact I1| | |exact E].
  - intro H. apply NF. now right.
  - eapply caller_step; [exact I0| |exact Hb|exact E1]. intros ->. apply NF. now left.
Qed.

Lemma caller_memory_kept c h h' b d w w' :
  rsteps c rworld0 h = Ok w -> callers w b d -> ~ In (RFree b) h' -> rsteps c w h' = Ok w' -> callers w' b d.
Proof.
  intros E Hb NF E'. destruct (history_inv c h) as (w0 & E0 & I0). rewrite E in E0. injection E0 as <-.
  eapply caller_steps; eauto.
Qed.
