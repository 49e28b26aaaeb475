(** HaltFacts.v -- computations that come to an end: no loop and no recursion runs out of fuel. *)

From Coq Require Import ZArith List Bool Lia ZifyBool ZifyNat.
From Verif Require Import Base BaseFacts Spec TransModel.
From Verif Require CborModel.
Import ListNotations.
Open Scope Z_scope.

(** [m] comes to an end -- with a result satisfying [P], an exception or undefined behaviour. *)
Definition halts {A} (P : A -> Prop) (m : res A) : Prop := match m with Ok a => P a | NoFuel => False | _ => True end.
Definition any {A} (_ : A) : Prop := True.
Lemma halts_ne {A} (P : A -> Prop) m : halts P m -> m <> NoFuel.
Proof. intros H ->. exact H. Qed.
Lemma ne_halts {A} (m : res A) : m <> NoFuel -> halts any m.
Proof. destruct m; cbn; auto; unfold any; auto. Qed.
Lemma halts_ok {A} (P : A -> Prop) m a : halts P m -> m = Ok a -> P a.
Proof. intros H ->. exact H. Qed.
Lemma halts_any {A} (P : A -> Prop) m : halts P m -> halts any m.
Proof. destruct m; cbn; unfold any; auto. Qed.
Lemma halts_impl {A} (P Q : A -> Prop) m : (forall a, P a -> Q a) -> halts P m -> halts Q m.
Proof. intros H. destruct m; cbn; auto. Qed.
Lemma halts_both {A} (P : A -> Prop) (m : res A) : m <> NoFuel -> (forall a, m = Ok a -> P a) -> halts P m.
Proof. destruct m; cbn; auto. Qed.
Lemma halts_bind {A B} (P : A -> Prop) (Q : B -> Prop) m f : halts P m -> (forall a, m = Ok a -> P a -> halts Q (f a)) -> halts Q (bind m f).
Proof. intros H K. destruct m as [a|?| |]; cbn [bind]; auto. Qed.
Lemma halts_req {A} (P : A -> Prop) c e k : (c = true -> halts P k) -> halts P (require c e ;;; k).
Proof. intros H. destruct c; [now apply H|exact I]. Qed.
Lemma halts_if {A} (P : A -> Prop) (c : bool) x y : (c = true -> halts P x) -> (c = false -> halts P y) -> halts P (if c then x else y).
Proof. destruct c; auto. Qed.
Lemma halts_rd b p : halts any (rd b p).
Proof. unfold rd. destruct (get b p); exact I. Qed.
Lemma halts_view b w : halts any (rd_view b w).
Proof. unfold rd_view. destruct (_ && _); exact I. Qed.
Definition either {S R} (J : S -> Prop) (Q : R -> Prop) (x : S + R) : Prop := match x with inl s => J s | inr r => Q r end.
Lemma halts_nloop {S R} (J : S -> Prop) (Q : R -> Prop) f : (forall s, J s -> halts (either J Q) (f s)) -> forall n s, J s -> halts (either J Q) (nloop n f s).
Proof.
  intros H. induction n as [|n IH]; intros s K; cbn [nloop]; [exact K|].
  apply (halts_bind (either J Q)); [now apply H|]. intros [s'|r] _ E; [now apply IH|exact E].
Qed.
Lemma halts_zloop {S R} (J : S -> Prop) (Q : R -> Prop) f n s : (forall s, J s -> halts (either J Q) (f s)) -> J s -> halts (either J Q) (zloop n f s).
Proof. rewrite zloop_nloop. intros. now apply halts_nloop. Qed.
Lemma halts_floop {S R} (J : S -> Prop) (mu : S -> Z) (Q : R -> Prop) f : (forall s, 0 <= mu s) ->
  (forall s, J s -> halts (either (fun s' => J s' /\ mu s' < mu s) Q) (f s)) -> forall n s, J s -> mu s < Z.of_nat n -> halts Q (CborModel.floop n f s).
Proof.
  intros M H. induction n as [|n IH]; intros s K L; cbn [CborModel.floop]; [specialize (M s); lia|].
  apply (halts_bind (either (fun s' => J s' /\ mu s' < mu s) Q)); [now apply H|]. intros [s'|r] _ E; [|exact E]. destruct E as [E1 E2]. apply IH; [exact E1|lia].
Qed.
Tactic Notation "hb" tactic3(t) := eapply halts_bind; [t|intros ? ? ?; cbv beta in *].
Ltac hany := repeat first
  [ exact I
  | match goal with
    | |- halts _ (bind (require _ _) _) => apply halts_req; intros ?
    | |- halts _ (bind (rd _ _) _) => eapply halts_bind; [apply halts_rd|intros ? _ _]
    | |- halts _ (bind (rd_view _ _) _) => eapply halts_bind; [apply halts_view|intros ? _ _]
    | |- halts _ (if _ then _ else _) => apply halts_if; intros ?
    | |- halts _ (rd _ _) => apply halts_rd
    | |- halts _ (rd_view _ _) => apply halts_view
    end ].

(** ** Readers and writers that always answer *)
(** Every question translate() asks is answered somehow. *)
Record answers {V} (R : reader V) (w : V) : Prop := mkAnswers {
  an_null : r_isNull R w <> NoFuel; an_bool : r_isBool R w <> NoFuel; an_int : r_isInt R w <> NoFuel;
  an_uint : r_isUInt R w <> NoFuel; an_float : r_isFloat R w <> NoFuel; an_str : r_isString R w <> NoFuel;
  an_blob : r_isBlob R w <> NoFuel; an_map : r_isMap R w <> NoFuel; an_arr : r_isArray R w <> NoFuel;
  an_asBool : r_asBool R w <> NoFuel; an_asInt : r_asInt R I64 w <> NoFuel; an_asUInt : r_asUInt R I64 w <> NoFuel;
  an_asDouble : r_asDouble R w <> NoFuel; an_asSV : r_asStringView R w <> NoFuel; an_asBlob : r_asBlob R w <> NoFuel;
  an_size : r_arraySize R w <> NoFuel; an_keys : r_mapKeys R w <> NoFuel;
  an_idx : forall i, r_idx R w i <> NoFuel; an_key : forall k, r_key R w k <> NoFuel }.
Definition obliging {S O} (W : writer S O) : Prop := (forall s e, snd (w_step W s e) <> NoFuel) /\ (forall s, snd (w_finish W s) <> NoFuel).

Section Write.
  Context {V S O : Type} (R : reader V) (W : writer S O).
  Variable good : V -> Prop.
  Variable mu : V -> nat.
  Hypothesis ANS : forall w, good w -> answers R w.
  Hypothesis IDX : forall w i c, good w -> 0 <= i -> r_idx R w i = Ok c -> good c /\ (mu c < mu w)%nat.
  Hypothesis KEY : forall w k c, good w -> r_key R w k = Ok c -> good c /\ (mu c < mu w)%nat.
  Hypothesis OBL : obliging W.

  Lemma emit_halts s e : halts any (emit W s e).
  Proof. unfold emit. pose proof (proj1 OBL s e) as H. destruct (w_step W s e) as [s' [?|?| |]]; try exact I. now apply H. Qed.

  Theorem write_value_halts : forall fuel w s, good w -> (mu w < fuel)%nat -> halts any (write_value R W fuel w s).
  Proof.
    induction fuel as [|f IH]; intros w s G L; [lia|]. destruct (ANS w G) as [A1 A2 A3 A4 A5 A6 A7 A8 A9 B1 B2 B3 B4 B5 B6 B7 B8 B9 B10].
    cbn [write_value].
    hb (apply ne_halts, A1). destruct a; [apply emit_halts|].
    hb (apply ne_halts, A2). destruct a; [hb (apply ne_halts, B1); apply emit_halts|].
    hb (apply ne_halts, A3). destruct a; [hb (apply ne_halts, B2); apply emit_halts|].
    hb (apply ne_halts, A4). destruct a; [hb (apply ne_halts, B3); apply emit_halts|].
    hb (apply ne_halts, A5). destruct a; [hb (apply ne_halts, B4); apply emit_halts|].
    hb (apply ne_halts, A6). destruct a; [hb (apply ne_halts, B5); apply emit_halts|].
    hb (apply ne_halts, A7). destruct a; [hb (apply ne_halts, B6); apply emit_halts|].
    hb (apply ne_halts, A8). destruct a.
    { hb (apply ne_halts, B8). hb (apply emit_halts). hb (apply ne_halts, B8). eapply (halts_bind any); [|intros; apply emit_halts].
      clear - IH G L KEY B10 OBL. match goal with |- halts _ (write_keys _ _ _ _ ?l ?st) => generalize l, st end. intros l. induction l as [|k l IHl]; intros st; cbn [write_keys]; [exact I|].
      hb (apply emit_halts). hb (apply ne_halts, B10). match goal with H : r_key R w k = Ok ?c |- _ => destruct (KEY _ _ _ G H) as [G' L'] end.
      hb (apply IH; [exact G'|lia]). apply IHl. }
    hb (apply ne_halts, A9). destruct a; [|exact I].
    hb (apply ne_halts, B7). hb (apply emit_halts).
    eapply (halts_bind (either (fun p => 0 <= fst p) any)); [apply halts_zloop; [|cbn; lia]|intros [[? ?]|?] _ _; [apply emit_halts|exact I]].
    intros [i st] I0. cbn [fst] in I0. unfold write_elem. hb (apply ne_halts, B9). match goal with H : r_idx R w i = Ok ?c |- _ => destruct (IDX _ _ _ G I0 H) as [G' L'] end.
    hb (apply IH; [exact G'|lia]). cbn. lia.
  Qed.

  Theorem translate_halts {V'} (open : O -> res V') fuel w : (forall o, open o <> NoFuel) -> good w -> (mu w < fuel)%nat -> translate R W open fuel w <> NoFuel.
  Proof.
    intros OP G L. apply (halts_ne any). unfold translate. hb (now apply write_value_halts). hb (apply ne_halts, (proj2 OBL)). apply ne_halts, OP.
  Qed.
End Write.
