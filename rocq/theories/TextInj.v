(** TextInj.v -- the dumps with escaped strings determine the value. *)

From Coq Require Import ZArith List Bool String Lia ZifyBool DecimalZ.
From Verif Require Import Base BaseFacts Spec SpecFacts TextSpec TextFacts.
Import ListNotations.
Open Scope Z_scope.

(** ** Numbers *)
Definition nodig (r : bytes) : Prop := match r with [] => True | c :: _ => c <> 45 /\ ~ (48 <= c <= 57) end.
Lemma digits_inj : forall u w r1 r2, nodig r1 -> nodig r2 -> digits u ++ r1 = digits w ++ r2 -> u = w /\ r1 = r2.
Proof.
  induction u; intros w r1 r2 N1 N2 H; destruct w; cbn [digits app] in H; try discriminate H; auto;
    try (injection H as H; destruct (IHu _ _ _ N1 N2 H); subst; auto; fail);
    exfalso; first [destruct r1; [discriminate|]; injection H as -> _; cbn in N1; lia | destruct r2; [discriminate|]; injection H as <- _; cbn in N2; lia].
Qed.
Lemma dec_inj a b r1 r2 : nodig r1 -> nodig r2 -> dec a ++ r1 = dec b ++ r2 -> a = b /\ r1 = r2.
Proof.
  intros N1 N2. rewrite <- (of_to a), <- (of_to b) at 2. unfold dec.
  destruct (Z.to_int a) as [u|u], (Z.to_int b) as [w|w]; intros H.
  - destruct (digits_inj _ _ _ _ N1 N2 H). now subst.
  - exfalso. destruct u; cbn in H; try discriminate. destruct r1; [discriminate|]. injection H as -> _. cbn in N1. lia.
  - exfalso. destruct w; cbn in H; try discriminate. destruct r2; [discriminate|]. injection H as <- _. cbn in N2. lia.
  - cbn [app] in H. injection H as H. destruct (digits_inj _ _ _ _ N1 N2 H). now subst.
Qed.

(** ** Strings *)
Definition unshort (e : Z) : Z :=
  match e with 98 => 8 | 102 => 12 | 110 => 10 | 114 => 13 | 116 => 9 | _ => e end.
Definition first_char (t : bytes) : option (Z * bytes) :=
  match t with
  | [] => None
  | c :: t' =>
      if c =? 92 then
        match t' with
        | [] => None
        | e :: t'' =>
            if e =? 117 then
              match t'' with
              | _ :: _ :: a :: b :: r => match hexval a, hexval b with Some x, Some y => Some (16 * x + y, r) | _, _ => None end
              | _ => None
              end
            else Some (unshort e, t'')
        end
      else if c =? 34 then None else Some (c, t')
  end.
Lemma first_escape c t : is_byte c -> first_char (escape1 c ++ t) = Some (c, t).
Proof.
  intros B. unfold is_byte in B. destruct (Z_lt_le_dec c 93) as [L|L].
  - revert t. apply (small_cases (fun c => forall t, first_char (escape1 c ++ t) = Some (c, t)) 93); [|lia].
    intros k K t. do 93 (destruct k as [|k]; [reflexivity|]). lia.
  - unfold escape1. rewrite short_none by lia. replace (c <? 32) with false by lia. cbn [app first_char].
    replace (c =? 92) with false by lia. replace (c =? 34) with false by lia. reflexivity.
Qed.
Lemma escaped_cons c s : escaped (c :: s) = escape1 c ++ escaped s.
Proof. reflexivity. Qed.
Lemma escaped_inj : forall s t r1 r2, bytes_ok s -> bytes_ok t -> escaped s ++ 34 :: r1 = escaped t ++ 34 :: r2 -> s = t /\ r1 = r2.
Proof.
  assert (E : forall c u r, is_byte c -> 34 :: r <> escape1 c ++ u).
  { intros c u r B H. apply (f_equal first_char) in H. rewrite first_escape in H by assumption. discriminate. }
  induction s as [|c s IH]; intros [|d t] r1 r2 B1 B2; rewrite ?escaped_cons, <- ?app_assoc; intros H.
  - now injection H as ->.
  - exfalso. apply (E _ _ _ (proj1 (proj1 (Forall_cons_iff _ _ _) B2)) H).
  - exfalso. symmetry in H. apply (E _ _ _ (proj1 (proj1 (Forall_cons_iff _ _ _) B1)) H).
  - apply Forall_cons_iff in B1, B2. destruct B1 as (B1 & C1), B2 as (B2 & C2). apply (f_equal first_char) in H. rewrite !first_escape in H by assumption.
    injection H as -> H. destruct (IH _ _ _ C1 C2 H). now subst.
Qed.

(** ** Layout *)
(** What can follow a value in a dump. *)
Definition ends (r : bytes) : Prop := match r with [] => True | c :: _ => c = 10 \/ c = 44 end.
Definition scalar (v : val) : Prop := match v with VArr _ | VMap _ => False | _ => True end.
Definition decodable (leaf : val -> bytes) : Prop :=
  (forall v w r1 r2, scalar v -> scalar w -> val_ok v -> val_ok w -> no_doubles v -> no_doubles w -> ends r1 -> ends r2 ->
     leaf v ++ r1 = leaf w ++ r2 -> alike v w /\ r1 = r2) /\
  (forall v, scalar v -> exists c t, leaf v = c :: t /\ c <> 97 /\ c <> 109).

Lemma spaces_more p : 0 <= p -> spaces (p + 2) = spaces p ++ [32; 32].
Proof. intros H. unfold spaces. replace (Z.to_nat (p + 2)) with (Z.to_nat p + 2)%nat by lia. now rewrite repeat_app. Qed.
Lemma tail_cancel a b x y : tail a ++ x = tail b ++ y -> a = b /\ x = y.
Proof. destruct a, b; cbn; intros H; try discriminate; now injection H as H. Qed.
Lemma tail_ends a x : ends (tail a ++ x).
Proof. destruct a; cbn; auto. Qed.

Section Layout.
  Context (leaf : val -> bytes) (D : decodable leaf).
  Notation P := (pretty leaf escaped).

  Definition good (v : val) : Prop := val_ok v /\ no_doubles v.
  Lemma good_arr l : good (VArr l) -> Forall good l.
  Proof.
    intros (A & B). apply val_ok_arr in A. apply every_arr in B. destruct B as (_ & B). rewrite Forall_forall in *. intros x Hx. split; [now apply A|now apply B].
  Qed.
  Lemma good_map l : good (VMap l) -> Forall (fun kx => bytes_ok (fst kx) /\ good (snd kx)) l.
  Proof.
    intros (A & B). apply val_ok_map in A. apply every_map in B. destruct B as (_ & B). rewrite Forall_forall in *. intros x Hx.
    destruct (A _ Hx) as (A1 & A2). split; [exact A1|]. split; [exact A2|now apply (B x)].
  Qed.

  Lemma pretty_inj : forall v w pad r1 r2, 0 <= pad -> good v -> good w -> ends r1 -> ends r2 ->
    P pad v ++ r1 = P pad w ++ r2 -> alike v w /\ r1 = r2.
  Proof.
    destruct D as (DL & DH).
    assert (HD : forall v pad, exists c t, P pad v = c :: t /\ (c = 97 <-> exists l, v = VArr l) /\ (c = 109 <-> exists l, v = VMap l)).
    { intros v pad. destruct v as [| | | | | | |l|l]; try (match goal with |- context [P pad ?v] => destruct (DH v I) as (c & t & E & A & M) end; exists c, t; repeat split; auto; intros; try congruence;
        match goal with H : exists _, _ |- _ => destruct H; discriminate end).
      - exists 97. eexists. split; [reflexivity|]. split; [split; eauto|split; [discriminate|intros (? & ?); discriminate]].
      - exists 109. eexists. split; [reflexivity|]. split; [split; [discriminate|intros (? & ?); discriminate]|split; eauto]. }
    assert (KIND : forall v w pad r1 r2, P pad v ++ r1 = P pad w ++ r2 ->
              (scalar v /\ scalar w) \/ (exists l m, v = VArr l /\ w = VArr m) \/ (exists l m, v = VMap l /\ w = VMap m)).
    { intros v w pad r1 r2 H. destruct (HD v pad) as (c & t & E & A1 & M1), (HD w pad) as (d & u & F & A2 & M2). rewrite E, F in H. injection H as -> _.
      destruct v as [| | | | | | |l|l], w as [| | | | | | |m|m];
        try (left; split; exact I); try (right; left; eauto; fail); try (right; right; eauto; fail);
        exfalso;
        first [destruct (proj1 A1 (proj2 A2 ltac:(eauto))); discriminate | destruct (proj1 M1 (proj2 M2 ltac:(eauto))); discriminate
              |destruct (proj1 A2 (proj2 A1 ltac:(eauto))); discriminate | destruct (proj1 M2 (proj2 M1 ltac:(eauto))); discriminate]. }
    induction v as [| | | | | | |l IH|l IH] using val_ind'; intros w pad r1 r2 HP G1 G2 E1 E2 H;
      destruct (KIND _ _ _ _ _ H) as [(S1 & S2)|[(l0 & m & EV & ->)|(l0 & m & EV & ->)]]; try discriminate EV; try contradiction;
      try (destruct G1, G2; destruct w; try contradiction S2; apply (DL _ _ r1 r2); assumption).
    - injection EV as <-. apply good_arr in G1, G2. cbn [pretty alike] in H |- *. rewrite <- !app_assoc in H. do 2 apply app_inv_head in H.
      revert m G2 H. induction l as [|x l IHl]; intros [|y m] G2 H.
      + cbn [map rows app] in H. do 2 apply app_inv_head in H. auto.
      + exfalso. cbn [map] in H. rewrite rows_cons, spaces_more in H by lia. cbn [map rows app] in H. rewrite <- !app_assoc in H. apply app_inv_head in H. discriminate.
      + exfalso. cbn [map] in H. rewrite rows_cons, spaces_more in H by lia. cbn [map rows app] in H. rewrite <- !app_assoc in H. apply app_inv_head in H. discriminate.
      + cbn [map] in H. rewrite !rows_cons in H. rewrite <- !app_assoc in H. apply app_inv_head in H.
        apply Forall_cons_iff in IH, G1, G2. destruct IH as (Hx & IH), G1 as (X1 & G1), G2 as (X2 & G2).
        apply Hx in H; auto using tail_ends; [|lia]. destruct H as (AL & H). apply tail_cancel in H. destruct H as (_ & H).
        destruct (IHl IH G1 m G2 H) as (AM & R). auto.
    - injection EV as <-. apply good_map in G1, G2. cbn [pretty alike] in H |- *. rewrite <- !app_assoc in H. do 2 apply app_inv_head in H.
      revert m G2 H. induction l as [|(k & x) l IHl]; intros [|(j & y) m] G2 H.
      + cbn [map rows app] in H. do 2 apply app_inv_head in H. auto.
      + exfalso. cbn [map] in H. rewrite rows_cons, spaces_more in H by lia. cbn [map rows app] in H. rewrite <- !app_assoc in H. apply app_inv_head in H. discriminate.
      + exfalso. cbn [map] in H. rewrite rows_cons, spaces_more in H by lia. cbn [map rows app] in H. rewrite <- !app_assoc in H. apply app_inv_head in H. discriminate.
      + cbn [map fst snd] in H. rewrite !rows_cons in H. rewrite <- !app_assoc in H. do 2 apply app_inv_head in H.
        apply Forall_cons_iff in IH, G1, G2. cbn [fst snd] in *. destruct IH as (Hx & IH), G1 as ((K1 & X1) & G1), G2 as ((K2 & X2) & G2).
        unfold quote in H. cbn [app] in H. apply escaped_inj in H; auto. destruct H as (-> & H). apply app_inv_head in H.
        apply Hx in H; auto using tail_ends; [|lia]. destruct H as (AL & H). apply tail_cancel in H. destruct H as (_ & H).
        destruct (IHl IH G1 m G2 H) as (AM & R). auto.
  Qed.
End Layout.

(** ** The two kinds of scalars *)
Ltac txts := repeat match goal with
  | |- context [txt ?s] => let t := eval vm_compute in (txt s) in change (txt s) with t
  | H : context [txt ?s] |- _ => let t := eval vm_compute in (txt s) in change (txt s) with t in H end.
Lemma ends_nodig r : ends r -> nodig r.
Proof. destruct r; cbn; [trivial|]. lia. Qed.
Ltac leaf_case H :=
  unfold truth, quote in H; txts; cbn [app] in H; try discriminate H;
  try (repeat injection H as H; now auto);
  try (rewrite <- ?app_assoc in H; cbn [app] in H; injection H as H; apply dec_inj in H; [exact H|now apply ends_nodig|now apply ends_nodig]).
Lemma colon_decodable fl : decodable (colon_leaf fl escaped).
Proof.
  split.
  - intros v w r1 r2 S1 S2 O1 O2 D1 D2 E1 E2 H.
    destruct v as [|b|z|z|x|s|s|l|l], w as [|b'|z'|z'|x'|s'|s'|l'|l']; try contradiction; try (destruct D1; contradiction); try (destruct D2; contradiction);
      cbn [colon_leaf] in H; cbn [alike];
      try destruct b; try destruct b'; try destruct (z <? 128); try destruct (z' <? 128); leaf_case H.
    + rewrite <- !app_assoc in H. cbn [app] in H. injection H as H. apply escaped_inj in H; assumption.
    + rewrite <- !app_assoc in H. cbn [app] in H. injection H as H. apply dec_inj in H; try (cbn; lia). destruct H as (A & H). now injection H as H.
  - intros v S. destruct v; try contradiction; cbn [colon_leaf]; try destruct (_ <? _); txts; cbn [app]; eexists _, _; (split; [reflexivity|]); lia.
Qed.
Lemma bar_decodable fl sgn : decodable (bar_leaf fl sgn escaped).
Proof.
  split.
  - intros v w r1 r2 S1 S2 O1 O2 D1 D2 E1 E2 H.
    destruct v as [|b|z|z|x|s|s|l|l], w as [|b'|z'|z'|x'|s'|s'|l'|l']; try contradiction; try (destruct D1; contradiction); try (destruct D2; contradiction);
      cbn [bar_leaf] in H; cbn [alike];
      try destruct b; try destruct b'; repeat match type of H with context [sgn ?v] => destruct (sgn v) end; leaf_case H.
    + rewrite <- !app_assoc in H. cbn [app] in H. injection H as H. apply escaped_inj in H; assumption.
    + rewrite <- !app_assoc in H. cbn [app] in H. injection H as H. apply dec_inj in H; try (cbn; lia). destruct H as (A & H). now injection H as H.
  - intros v S. destruct v; try contradiction; cbn [bar_leaf]; try destruct (sgn _); txts; cbn [app]; eexists _, _; (split; [reflexivity|]); lia.
Qed.

Theorem pretty_determines leaf v w : decodable leaf -> val_ok v -> val_ok w -> no_doubles v -> no_doubles w ->
  pretty leaf escaped 0 v = pretty leaf escaped 0 w -> alike v w.
Proof.
  intros D O1 O2 D1 D2 H. apply (pretty_inj leaf D v w 0 [] []); try (split; assumption); try exact I; [lia|]. now rewrite !app_nil_r.
Qed.
