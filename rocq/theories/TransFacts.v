(** TransFacts.v -- write_value makes exactly the calls of the exposed value. *)

From Coq Require Import ZArith List Bool Lia ZifyBool ZifyNat.
From Verif Require Import Base BaseFacts Spec SpecFacts TransModel TransSpec.
Import ListNotations.
Open Scope Z_scope.

(** The state after a sequence of calls, if all succeed. *)
Definition run_res {S O} (W : writer S O) (s : S) (es : list ev) : res S :=
  match run W s es with (s', Ok _) => Ok s' | (_, Throw x) => Throw x | (_, UB) => UB | (_, NoFuel) => NoFuel end.
Lemma run_res_nil {S O} (W : writer S O) s : run_res W s [] = Ok s.
Proof. reflexivity. Qed.
Lemma run_res_cons {S O} (W : writer S O) s e es : run_res W s (e :: es) = bind (emit W s e) (fun s' => run_res W s' es).
Proof. unfold run_res, emit. cbn [run]. destruct (w_step W s e) as [s' []]; reflexivity. Qed.
Lemma run_res_one {S O} (W : writer S O) s e : run_res W s [e] = emit W s e.
Proof. rewrite run_res_cons. destruct (emit W s e); reflexivity. Qed.
Lemma run_res_app {S O} (W : writer S O) s es1 es2 : run_res W s (es1 ++ es2) = bind (run_res W s es1) (fun s' => run_res W s' es2).
Proof. unfold run_res. rewrite run_app. destruct (run W s es1) as [s' []]; reflexivity. Qed.

Lemma all_some_map {A B} (f : A -> option B) l : forall xs, all_some (map f l) = Some xs -> Forall2 (fun a x => f a = Some x) l xs.
Proof.
  induction l as [|a l IH]; intros xs H; cbn [map all_some] in H; [injection H as <-; constructor|].
  destruct (f a) as [b|] eqn:E; [|discriminate]. destruct (all_some (map f l)) as [ys|]; [|discriminate]. injection H as <-. constructor; auto.
Qed.
Lemma map_some_all {A B} (f : A -> option B) l xs : Forall2 (fun a x => f a = Some x) l xs -> all_some (map f l) = Some xs.
Proof. induction 1 as [|a x l xs E F IH]; [reflexivity|]. cbn [map all_some]. now rewrite E, IH. Qed.

Lemma Forall2_len {A B} (P : A -> B -> Prop) l m : Forall2 P l m -> List.length l = List.length m.
Proof. induction 1; cbn [List.length]; congruence. Qed.

Fixpoint height (v : val) : nat :=
  match v with
  | VArr l => S (fold_right Nat.max O (map height l))
  | VMap l => S (fold_right Nat.max O (map (fun kx => height (snd kx)) l))
  | _ => O
  end.
Lemma max_in {A} (f : A -> nat) l x : In x l -> (f x <= fold_right Nat.max O (map f l))%nat.
Proof. induction l as [|y l IH]; [contradiction|]. cbn [map fold_right]. intros [->|I]; [lia|specialize (IH I); lia]. Qed.

(** ** First entries *)
Lemma first_of_in {A} k (d : A) l : existsb (beq k) (map fst l) = true -> In (k, first_of k d l) l.
Proof.
  induction l as [|[k' y] l IH]; cbn [map fst existsb first_of]; [discriminate|]. rewrite (beq_sym k k'). destruct (beq k' k) eqn:E.
  - intros _. left. apply beq_eq in E. now subst.
  - intros H. right. now apply IH.
Qed.
Lemma first_of_irr {A} k (d d' : A) l : existsb (beq k) (map fst l) = true -> first_of k d l = first_of k d' l.
Proof.
  induction l as [|[k' y] l IH]; cbn [map fst existsb first_of]; [discriminate|]. rewrite (beq_sym k k'). destruct (beq k' k); [reflexivity|]. intros H. now apply IH.
Qed.
Lemma key_in {A} k (x : A) l : In (k, x) l -> existsb (beq k) (map fst l) = true.
Proof.
  intros I. apply existsb_exists. exists k. split; [apply in_map_iff; now exists (k, x)|]. now apply beq_eq.
Qed.
Lemma entries_first {V} (R : reader V) T w l : entries_ok R T w [] l -> forall k d, existsb (beq k) (map fst l) = true ->
  exists w', r_key R w k = Ok w' /\ shows R T w' (first_of k d l).
Proof.
  intros E k d. assert (G : forall l seen, entries_ok R T w seen l -> existsb (beq k) seen = false -> existsb (beq k) (map fst l) = true ->
    exists w', r_key R w k = Ok w' /\ shows R T w' (first_of k d l)).
  { clear. induction l as [|[k' y] l IH]; intros seen E N H; cbn [map fst existsb first_of] in *; [discriminate|]. destruct E as [E1 E2]. rewrite (beq_sym k k') in H.
    destruct (beq k' k) eqn:B; [apply beq_eq in B; subst k'; auto|]. apply (IH _ E2); [|exact H]. cbn [existsb]. rewrite beq_sym, B. exact N. }
  now apply (G l []).
Qed.
Lemma first_of_map {A B} (f : A -> option B) l : forall xs, Forall2 (fun kx x => f (snd kx) = Some x) l xs -> forall k d d',
  existsb (beq k) (map fst l) = true -> f (first_of k d l) = Some (first_of k d' (combine (map fst l) xs)).
Proof.
  induction 1 as [|[k' y] x l xs E F IH]; intros k d d' H; cbn [map fst existsb first_of combine] in *; [discriminate|]. rewrite (beq_sym k k') in H.
  destruct (beq k' k); [exact E|]. now apply IH.
Qed.

(** ** The main lemma *)
Section Copy.
  Context {V S O : Type} (R : reader V) (W : writer S O) (T : val -> table).
  Hypothesis TOK : table_ok T.

  Lemma copy_elems wv w l : forall xs i, elems_ok R T w i l ->
    Forall2 (fun v x => forall w', shows R T w' v -> forall s, wv w' s = run_res W s (events x)) l xs ->
    forall s, nloop (List.length l) (write_elem R wv w) (i, s) = bind (run_res W s (flat_map events xs)) (fun s' => Ok (inl (i + zlen l, s'))).
  Proof.
    induction l as [|v l IH]; intros xs i E F s; inversion F as [|? x ? xs' Fx Fl]; subst.
    - cbn [List.length nloop flat_map]. rewrite run_res_nil. cbn [bind]. replace (i + zlen (@nil val)) with i by (unfold zlen; cbn; lia). reflexivity.
    - cbn [List.length nloop flat_map elems_ok] in *. destruct E as [(w' & I & SH) E]. rewrite run_res_app. unfold write_elem at 1. rewrite I. cbn [bind]. rewrite (Fx w' SH s).
      destruct (run_res W s (events x)) as [s'| | |]; cbn [bind]; try reflexivity. rewrite (IH xs' (i + 1) E Fl s'). rewrite zlen_cons. replace (i + (1 + zlen l)) with (i + 1 + zlen l) by lia. reflexivity.
  Qed.
  Lemma copy_keys wv w (l : list (bytes * val)) : forall s,
    (forall k x, In (k, x) l -> exists w', r_key R w k = Ok w' /\ forall s, wv w' s = run_res W s (events x)) ->
    write_keys R W wv w (map fst l) s = run_res W s (flat_map (fun kx => EKey (fst kx) :: events (snd kx)) l).
  Proof.
    induction l as [|[k x] l IH]; intros s H; cbn [map fst snd write_keys flat_map app]; [reflexivity|].
    rewrite run_res_cons. destruct (emit W s (EKey k)) as [s1| | |]; cbn [bind]; try reflexivity. rewrite run_res_app.
    destruct (H k x (or_introl eq_refl)) as (w' & K & C). rewrite K. cbn [bind]. rewrite C. destruct (run_res W s1 (events x)) as [s2| | |]; cbn [bind]; try reflexivity.
    apply IH. intros k' x' I. apply H. now right.
  Qed.

  Lemma write_value_ok v : val_ok v -> forall x w fuel s, shows R T w v -> exposed T v = Some x -> (height v < fuel)%nat ->
    write_value R W fuel w s = run_res W s (events x).
  Proof.
    induction v as [| | | | | | |l IH|l IH] using val_ind'; intros OK x w fuel st SH EX HF;
      (destruct fuel as [|f]; [lia|]); cbn [write_value].
    1-7: apply shows_leaf in SH; [|exact I]; destruct SH as ((A1 & A2 & A3 & A4 & A5 & A6 & A7 & A8 & A9 & B1 & B2 & B3 & B4 & B5 & B6 & B7) & _);
      rewrite A1, A2, A3, A4, A5, A6, A7, B1, (B2 I64), (B3 I64), B4, B6, B7; clear - EX; cbn [exposed] in EX; unfold scalar in EX; cbn [bind];
      repeat (match type of EX with (match (if ?c then _ else _) with _ => _ end = _) => destruct c; [cbn [bind]|cbn [bind]] end;
              [try (injection EX as <-; symmetry; apply run_res_one);
               match type of EX with option_map _ ?o = _ => destruct o; [|discriminate]; injection EX as <-; cbn [or_throw bind]; symmetry; apply run_res_one end|]); discriminate.
    - apply shows_arr in SH. destruct SH as ((A1 & A2 & A3 & A4 & A5 & A6 & A7 & A8 & A9 & B1 & B2 & B3 & B4 & B5 & B6 & B7) & N & _ & E & _).
      rewrite A1, A2, A3, A4, A5, A6, A7, A8, A9, B1, (B2 I64), (B3 I64), B4, B6, B7, N. cbn [exposed] in EX.
      destruct (scalar (T (VArr l))) as [y|] eqn:SC.
      + clear - EX SC. subst y. unfold scalar in SC. cbn [bind].
        repeat (match type of SC with ((if ?c then _ else _) = _) => destruct c; cbn [bind] end;
              [try (injection SC as <-; symmetry; apply run_res_one);
               match type of SC with Some (option_map _ ?o) = _ => destruct o; [|discriminate]; injection SC as <-; cbn [or_throw bind]; symmetry; apply run_res_one end|]); discriminate.
      + destruct (proj2 TOK l SC) as [-> ->]. assert (FL : t_null (T (VArr l)) = false /\ t_bool (T (VArr l)) = false /\ t_int (T (VArr l)) = false /\ t_uint (T (VArr l)) = false /\
          t_float (T (VArr l)) = false /\ t_string (T (VArr l)) = false /\ t_blob (T (VArr l)) = false).
        { clear - SC. unfold scalar in SC. repeat (match type of SC with ((if ?c then _ else _) = _) => destruct c; [discriminate|] end). repeat split. }
        destruct FL as (-> & -> & -> & -> & -> & -> & ->). cbn [bind].
        destruct (all_some (map (exposed T) l)) as [xs|] eqn:AS; [|discriminate]. injection EX as <-. apply all_some_map in AS.
        cbn [events]. assert (L : zlen xs = zlen l) by (apply Forall2_len in AS; unfold zlen; lia). rewrite L, run_res_cons.
        destruct (emit W st (EBeginArr (zlen l))) as [s1| | |]; cbn [bind]; try reflexivity.
        rewrite zloop_nloop. replace (Z.to_nat (zlen l)) with (List.length l) by (unfold zlen; lia).
        rewrite (copy_elems (write_value R W f) w l xs 0 E).
        * rewrite run_res_app. destruct (run_res W s1 (flat_map events xs)) as [s2| | |]; cbn [bind]; try reflexivity. symmetry. apply run_res_one.
        * apply val_ok_arr in OK. rewrite Forall_forall in IH, OK. cbn [height] in HF. assert (HL : forall v, In v l -> (height v < f)%nat) by (intros v I; pose proof (max_in height l v I); lia).
          clear - IH OK AS HL. induction AS as [|v x l xs E AS IHl]; constructor.
          -- intros w' SH s. apply (IH v); auto using in_eq.
          -- apply IHl; intros; [eapply IH; eauto using in_cons|apply OK|apply HL]; auto using in_cons.
    - apply shows_map in SH. destruct SH as ((A1 & A2 & A3 & A4 & A5 & A6 & A7 & A8 & A9 & B1 & B2 & B3 & B4 & B5 & B6 & B7) & MK & _ & _ & E & _).
      rewrite A1, A2, A3, A4, A5, A6, A7, A8, B1, (B2 I64), (B3 I64), B4, B6, B7, MK. cbn [exposed] in EX.
      destruct (scalar (T (VMap l))) as [y|] eqn:SC.
      + clear - EX SC. subst y. unfold scalar in SC. cbn [bind].
        repeat (match type of SC with ((if ?c then _ else _) = _) => destruct c; cbn [bind] end;
              [try (injection SC as <-; symmetry; apply run_res_one);
               match type of SC with Some (option_map _ ?o) = _ => destruct o; [|discriminate]; injection SC as <-; cbn [or_throw bind]; symmetry; apply run_res_one end|]); discriminate.
      + rewrite (proj1 TOK l SC). assert (FL : t_null (T (VMap l)) = false /\ t_bool (T (VMap l)) = false /\ t_int (T (VMap l)) = false /\ t_uint (T (VMap l)) = false /\
          t_float (T (VMap l)) = false /\ t_string (T (VMap l)) = false /\ t_blob (T (VMap l)) = false).
        { clear - SC. unfold scalar in SC. repeat (match type of SC with ((if ?c then _ else _) = _) => destruct c; [discriminate|] end). repeat split. }
        destruct FL as (-> & -> & -> & -> & -> & -> & ->). cbn [bind].
        destruct (all_some (map (fun kx => exposed T (snd kx)) l)) as [xs|] eqn:AS; [|discriminate]. injection EX as <-. apply all_some_map in AS.
        set (m := combine (map fst l) xs). assert (KM : map fst m = map fst l).
        { unfold m. clear - AS. induction AS as [|kx x l xs E AS IHl]; [reflexivity|]. cbn [map combine fst]. now f_equal. }
        assert (KF : map fst (firsts m) = map fst l) by (rewrite <- KM; unfold firsts; rewrite map_map; reflexivity).
        cbn [events]. assert (L : zlen (firsts m) = zlen (map fst l)) by (unfold zlen; rewrite <- KF, !map_length; reflexivity). rewrite L, run_res_cons.
        destruct (emit W st (EBeginMap (zlen (map fst l)))) as [s1| | |]; cbn [bind]; try reflexivity.
        rewrite <- KF, copy_keys.
        * rewrite run_res_app. destruct (run_res W s1 _) as [s2| | |]; cbn [bind]; try reflexivity. symmetry. apply run_res_one.
        * intros k x I. assert (X : exists d, x = first_of k d m /\ existsb (beq k) (map fst m) = true).
          { unfold firsts in I. apply in_map_iff in I. destruct I as ([k' y] & Q & I). cbn [fst snd] in Q. injection Q as <- <-. exists y. split; [reflexivity|]. now apply key_in in I. }
          destruct X as (d & -> & KI). rewrite KM in KI.
          destruct (entries_first R T w l E k VNull KI) as (w' & K & SH). exists w'. split; [exact K|]. intros s'.
          pose proof (first_of_in k VNull l KI) as IN. pose proof (first_of_map (exposed T) l xs AS k VNull d KI) as FM.
          apply val_ok_map in OK. rewrite Forall_forall in IH, OK. destruct (OK _ IN) as [_ OV]. cbn [snd] in OV.
          apply (IH _ IN OV); [exact SH|exact FM|]. cbn [height] in HF. pose proof (max_in (fun kx : bytes * val => height (snd kx)) l _ IN). cbn [snd] in *. lia.
  Qed.
End Copy.
