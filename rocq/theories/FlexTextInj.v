(** FlexTextInj.v -- the listing determines the value, up to blob contents and which integer call was used. *)

From Coq Require Import ZArith List Bool String Lia ZifyBool.
From Verif Require Import Base BaseFacts Spec SpecFacts TextSpec TextFacts TextInj FlexTextSpec.
Import ListNotations.
Open Scope Z_scope.
Ltac Zify.zify_post_hook ::= idtac.

Lemma protect_cases c : c = 34 /\ protect c = [92; 34] \/ c = 92 /\ protect c = [92; 92] \/ c <> 34 /\ c <> 92 /\ protect c = [c].
Proof.
  destruct (Z.eq_dec c 34) as [->|N1]; [auto|]. destruct (Z.eq_dec c 92) as [->|N2]; [auto|]. right. right. split; [exact N1|]. split; [exact N2|]. unfold protect.
  destruct c as [|p|p]; try reflexivity. do 7 (destruct p as [p|p|]; try reflexivity; try congruence).
Qed.
Lemma protect_inj : forall s t r1 r2, flat_map protect s ++ 34 :: r1 = flat_map protect t ++ 34 :: r2 -> s = t /\ r1 = r2.
Proof.
  induction s as [|c s IH]; intros [|d t] r1 r2 H; cbn [flat_map app] in H; rewrite <- ?app_assoc in H.
  - now injection H as ->.
  - exfalso.
    destruct (protect_cases d) as [(-> & E)|[(-> & E)|(N1 & N2 & E)]]; rewrite E in H; cbn [app] in H; injection H; intros; congruence.
  - exfalso. destruct (protect_cases c) as [(-> & E)|[(-> & E)|(N1 & N2 & E)]]; rewrite E in H; cbn [app] in H; injection H; intros; congruence.
  - destruct (protect_cases c) as [(-> & E)|[(-> & E)|(N1 & N2 & E)]], (protect_cases d) as [(-> & E')|[(-> & E')|(N1' & N2' & E')]]; rewrite ?E, ?E' in H; cbn [app] in H; try (injection H; intros; congruence);
      injection H; intros; subst; match goal with Q : flat_map protect s ++ _ = _ |- _ => destruct (IH _ _ _ Q) as (-> & ->) end; auto.
Qed.
Lemma quoted_inj s t r1 r2 : quoted s ++ r1 = quoted t ++ r2 -> s = t /\ r1 = r2.
Proof. unfold quoted, quote. rewrite <- !app_assoc. cbn [app]. rewrite <- ?app_assoc. cbn [app]. intros H. injection H as H. now apply protect_inj. Qed.

Section Inj.
Variable fl : Z -> bytes.
Local Notation P := (listing fl).
Lemma dec_head z : exists c t, dec z = c :: t /\ (c = 45 \/ 48 <= c <= 57).
Proof.
  unfold dec. destruct (Z.to_int z) as [u|u] eqn:E; [|eexists _, _; split; [reflexivity|lia]].
  destruct u; cbn [digits]; try (eexists _, _; split; [reflexivity|lia]). exfalso. destruct z; discriminate || (cbn in E; injection E as E).
  revert E. apply DecimalPos.Unsigned.to_uint_nonnil.
Qed.
Lemma scalar_head v : scalar v -> no_doubles v -> forall pad, exists c t, P pad v = c :: t /\ c <> 91 /\ c <> 123.
Proof.
  intros S D pad. destruct v as [|b|z|z|d|s|s|l|l]; try contradiction; cbn [listing].
  - eexists _, _. split; [reflexivity|]. split; discriminate.
  - destruct b; eexists _, _; (split; [reflexivity|]); split; discriminate.
  - destruct (dec_head z) as (c & t & -> & C). exists c, t. split; [reflexivity|lia].
  - destruct (dec_head z) as (c & t & -> & C). exists c, t. split; [reflexivity|lia].
  - destruct D. contradiction.
  - eexists _, _. split; [reflexivity|]. split; discriminate.
  - eexists _, _. split; [reflexivity|]. split; discriminate.
Qed.
Lemma scalar_inj v w pad r1 r2 : scalar v -> scalar w -> no_doubles v -> no_doubles w -> ends r1 -> ends r2 -> P pad v ++ r1 = P pad w ++ r2 -> alike v w /\ r1 = r2.
Proof.
  intros S1 S2 D1 D2 E1 E2 H. apply ends_nodig in E1, E2.
  assert (NUM : forall z x r r', (exists c t, x = c :: t /\ c <> 45 /\ ~ 48 <= c <= 57) -> dec z ++ r = x ++ r' -> False).
  { intros z x r r' (c & t & -> & C) Q. destruct (dec_head z) as (c' & t' & E & C'). rewrite E in Q. injection Q. intros. lia. }
  destruct v as [|b|z|z|d|s|s|l|l], w as [|b'|z'|z'|d'|s'|s'|l'|l']; try contradiction; try (destruct D1; contradiction); try (destruct D2; contradiction); cbn [listing] in H; cbn [alike];
    try (apply dec_inj in H; [exact H|assumption|assumption]);
    try destruct b; try destruct b'; unfold truth in H;
    try (exfalso; first [refine (NUM _ _ _ _ _ H)|refine (NUM _ _ _ _ _ (eq_sym H))]; do 2 eexists; (split; [reflexivity|]); cbn; lia);
     try (exfalso; unfold quoted, quote in H; txts; cbn [app] in H; discriminate H);
    try (apply app_inv_head in H; now auto).
  - apply quoted_inj in H. exact H.
  - rewrite <- !app_assoc in H. apply app_inv_head in H. apply dec_inj in H; try (txts; cbn; lia). destruct H as (A & H). apply app_inv_head in H. auto.
Qed.
Lemma listing_inj : forall v w pad r1 r2, 0 <= pad -> no_doubles v -> no_doubles w -> ends r1 -> ends r2 -> P pad v ++ r1 = P pad w ++ r2 -> alike v w /\ r1 = r2.
Proof.
  assert (HD : forall v pad, no_doubles v -> exists c t, P pad v = c :: t /\ (c = 91 <-> exists l, v = VArr l) /\ (c = 123 <-> exists l, v = VMap l)).
  { intros v pad D. destruct v as [| | | | | | |l|l]; try (match goal with |- context [P pad ?v] => destruct (scalar_head v I D pad) as (c & t & E & A & M) end; exists c, t; repeat split; auto; intros; try congruence;
      match goal with H : exists _, _ |- _ => destruct H; discriminate end).
    - exists 91. eexists. split; [reflexivity|]. split; [split; eauto|split; [discriminate|intros (? & ?); discriminate]].
    - exists 123. eexists. split; [reflexivity|]. split; [split; [discriminate|intros (? & ?); discriminate]|split; eauto]. }
  assert (KIND : forall v w pad r1 r2, no_doubles v -> no_doubles w -> P pad v ++ r1 = P pad w ++ r2 ->
            (scalar v /\ scalar w) \/ (exists l m, v = VArr l /\ w = VArr m) \/ (exists l m, v = VMap l /\ w = VMap m)).
  { intros v w pad r1 r2 D1 D2 H. destruct (HD v pad D1) as (c & t & E & A1 & M1), (HD w pad D2) as (d & u & F & A2 & M2). rewrite E, F in H. injection H as -> _.
    destruct v as [| | | | | | |l|l], w as [| | | | | | |m|m];
      try (left; split; exact I); try (right; left; eauto; fail); try (right; right; eauto; fail);
      exfalso;
      first [destruct (proj1 A1 (proj2 A2 ltac:(eauto))); discriminate | destruct (proj1 M1 (proj2 M2 ltac:(eauto))); discriminate
            |destruct (proj1 A2 (proj2 A1 ltac:(eauto))); discriminate | destruct (proj1 M2 (proj2 M1 ltac:(eauto))); discriminate]. }
  induction v as [| | | | | | |l IH|l IH] using val_ind'; intros w pad r1 r2 HP D1 D2 E1 E2 H;
    destruct (KIND _ _ _ _ _ D1 D2 H) as [(S1 & S2)|[(l0 & m & EV & ->)|(l0 & m & EV & ->)]]; try discriminate EV; try contradiction;
    try (now apply (scalar_inj _ _ pad)).
  - injection EV as <-. apply every_arr in D1, D2. destruct D1 as (_ & G1), D2 as (_ & G2). cbn [listing alike] in H |- *. rewrite <- !app_assoc in H. do 2 apply app_inv_head in H.
    revert m G2 H. induction l as [|x l IHl]; intros [|y m] G2 H.
    + cbn [map rows app] in H. do 2 apply app_inv_head in H. auto.
    + exfalso. cbn [map] in H. rewrite rows_cons, spaces_more in H by lia. cbn [map rows app] in H. rewrite <- !app_assoc in H. apply app_inv_head in H. discriminate.
    + exfalso. cbn [map] in H. rewrite rows_cons, spaces_more in H by lia. cbn [map rows app] in H. rewrite <- !app_assoc in H. apply app_inv_head in H. discriminate.
    + cbn [map] in H. rewrite !rows_cons in H. rewrite <- !app_assoc in H. apply app_inv_head in H.
      apply Forall_cons_iff in IH, G1, G2. destruct IH as (Hx & IH), G1 as (X1 & G1), G2 as (X2 & G2).
      apply Hx in H; auto using tail_ends; [|lia]. destruct H as (AL & H). apply tail_cancel in H. destruct H as (_ & H).
      destruct (IHl IH G1 m G2 H) as (AM & R). auto.
  - injection EV as <-. apply every_map in D1, D2. destruct D1 as (_ & G1), D2 as (_ & G2). cbn [listing alike] in H |- *. rewrite <- !app_assoc in H. do 2 apply app_inv_head in H.
    revert m G2 H. induction l as [|(k & x) l IHl]; intros [|(j & y) m] G2 H.
    + cbn [map rows app] in H. do 2 apply app_inv_head in H. auto.
    + exfalso. cbn [map] in H. rewrite rows_cons, spaces_more in H by lia. cbn [map rows app] in H. rewrite <- !app_assoc in H. apply app_inv_head in H. discriminate.
    + exfalso. cbn [map] in H. rewrite rows_cons, spaces_more in H by lia. cbn [map rows app] in H. rewrite <- !app_assoc in H. apply app_inv_head in H. discriminate.
    + cbn [map fst snd] in H. rewrite !rows_cons in H. rewrite <- !(app_assoc (spaces (pad + 2))) in H. apply app_inv_head in H. rewrite <- !(app_assoc (quoted _)) in H. apply quoted_inj in H. destruct H as (-> & H). rewrite <- !(app_assoc (txt ": ")) in H. apply app_inv_head in H.
      apply Forall_cons_iff in IH, G1, G2. cbn [fst snd] in *. destruct IH as (Hx & IH), G1 as (X1 & G1), G2 as (X2 & G2). rewrite <- !app_assoc in H.
      apply Hx in H; auto using tail_ends; [|lia]. destruct H as (AL & H). apply tail_cancel in H. destruct H as (_ & H).
      destruct (IHl IH G1 m G2 H) as (AM & R). auto.
Qed.
Theorem listing_determines v w : no_doubles v -> no_doubles w -> P 0 v ++ nl = P 0 w ++ nl -> alike v w.
Proof. intros D1 D2 H. apply (listing_inj v w 0 nl nl) in H; try assumption; try (cbn; auto); [apply H|lia]. Qed.
End Inj.
