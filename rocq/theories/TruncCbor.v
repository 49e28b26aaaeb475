(** TruncCbor.v -- truncated CBOR messages never lie. *)

From Coq Require Import ZArith List Bool Lia ZifyBool ZifyNat.
From Verif Require Import Base BaseFacts Spec SpecFacts CborModel TruncSpec TruncFacts.
Import ListNotations.
Open Scope Z_scope.

Section Prefix.
Variables b t : bytes.
Notation B := (b ++ t).

Ltac side := try (exact (fun H => H)); try apply zlen_more; try apply zlen_more_le.
Tactic Notation "bel" tactic3(lf) := repeat (cbv zeta; match goal with
  | |- below _ (bind (require _ _) _) _ => apply below_require; [side|intros _]
  | |- below _ (require _ _) _ => apply below_require1; side
  | |- below _ (bind _ _) _ => apply below_bind_eq; [|intros ? _]
  | |- below _ (if ?c then _ else _) (if ?c then _ else _) => destruct c
  | |- below _ (Ok _) (Ok _) => apply below_ok; first [reflexivity|cbn [sumr]; reflexivity|idtac]
  | |- below _ (Throw _) _ => apply below_throw
  | |- below _ UB _ => apply below_ub
  | |- below _ NoFuel _ => apply below_nofuel
  | |- _ => lf
  end).
Ltac base := first [apply below_rd|apply below_rd_view].

Lemma b_get_be n : forall p v, below eq (get_be b p n v) (get_be B p n v).
Proof. induction n as [|n IH]; intros p v; cbn [get_be]; bel (first [base|apply IH]). Qed.
Lemma b_head p : below eq (read_head b p) (read_head B p).
Proof. unfold read_head. bel (first [base|apply b_get_be]). Qed.
Lemma b_addr hard q : below eq (addr hard b q) (addr hard B q).
Proof.
  unfold addr. rewrite zlen_app. pose proof (zlen_nonneg t). intros x E. exists x. split; [|reflexivity].
  destruct (q <? zlen b) eqn:C1; [now replace (q <? zlen b + zlen t) with true by lia|].
  destruct ((q =? zlen b) && negb hard) eqn:C2; [|discriminate E]. destruct (q <? zlen b + zlen t) eqn:C3; [exact E|].
  apply andb_true_iff in C2. destruct C2 as [C2 ->]. now replace (q =? zlen b + zlen t) with true by lia.
Qed.
Ltac base1 := first [base|apply b_get_be|apply b_head|apply b_addr].
Lemma b_times n f g q : (forall q, below eq (f q) (g q)) -> below eq (times n f q) (times n g q).
Proof.
  intros H. unfold times. eapply below_match; [apply below_zloop_eq|intros ? ? <-; now apply below_ok|intros; apply below_ub].
  intros s. bel (apply H). Unshelve. exact eq.
Qed.
Lemma b_until f g q : (forall q, below eq (f q) (g q)) -> below (sumr eq eq) (skip_until b f q) (skip_until B g q).
Proof. intros H. unfold skip_until. bel (first [base1|apply H]). Qed.
Lemma b_chunk m q : below (sumr eq eq) (skip_chunk b m q) (skip_chunk B m q).
Proof. unfold skip_chunk. bel (base1). Qed.
Lemma b_skip n : forall q, below eq (skip n b q) (skip n B q).
Proof.
  induction n as [|n IH]; intros q; cbn [skip]; [apply below_nofuel|].
  bel (first [base1|apply IH|apply b_times; intros|apply below_floop; intros|apply b_until; intros|apply b_chunk]).
Qed.
Ltac base2 := first [base1|apply b_skip|apply b_times; intros|apply below_floop; intros].

Lemma b_mk_string q n : below eq (mk_string b q n) (mk_string B q n).
Proof. unfold mk_string. bel base1. Qed.
Lemma b_asString hard n p : below eq (c_asString hard n (mkCView b p)) (c_asString hard n (mkCView B p)).
Proof.
  unfold c_asString, chd. cbn [cv_buf cv_pos]. bel (first [base2|apply b_mk_string]).
  destruct s as [q out]. unfold str_chunk. bel (first [base2|apply b_mk_string]).
Qed.
Lemma b_view hard m p : below eq (c_view hard m (mkCView b p)) (c_view hard m (mkCView B p)).
Proof. unfold c_view, chd. cbn [cv_buf cv_pos]. bel base2. Qed.
Lemma b_sv_is w k : below eq (sv_is b w k) (sv_is B w k).
Proof. unfold sv_is. bel base2. Qed.
Lemma b_contains hard n p k : below eq (c_contains hard n (mkCView b p) k) (c_contains hard n (mkCView B p) k).
Proof.
  unfold c_contains, chd. cbn [cv_buf cv_pos].
  apply below_bind_eq; [apply b_head|intros h _]. destruct (negb (h_major h =? 5)); [now apply below_ok|].
  destruct (negb (h_indef h)).
  - eapply below_match; [apply below_zloop_eq|intros; now apply below_ok|intros; apply below_ok; eassumption].
    intros q. unfold contains_def. bel (first [base2|apply b_asString|apply b_sv_is]).
  - apply below_floop. intros q. unfold contains_ind. bel (first [base2|apply b_asString]).
Qed.
Definition shorter (w' w : cview) : Prop := cv_buf w' = b /\ cv_buf w = B /\ cv_pos w = cv_pos w'.
Definition orel {A A'} (Q : A -> A' -> Prop) (x : option A) (y : option A') : Prop :=
  match x, y with Some a, Some b => Q a b | None, None => True | _, _ => False end.
Lemma shorter_at p : shorter (mkCView b p) (mkCView B p).
Proof. repeat split. Qed.
Lemma b_key hard n p k : below shorter (c_key hard n (mkCView b p) k) (c_key hard n (mkCView B p) k).
Proof.
  unfold c_key, chd. cbn [cv_buf cv_pos].
  apply below_bind_eq; [apply b_head|intros h _]. apply below_require; [side|intros _]. destruct (negb (h_indef h)).
  - eapply below_match; [apply below_zloop_eq|intros; apply below_throw|intros; apply below_ok; eassumption].
    intros q. unfold key_def. bel (first [base2|apply b_asString|apply shorter_at]).
  - apply below_bind with (P := orel shorter).
    + apply below_floop. intros q. unfold key_ind. bel (first [base2|apply b_asString|apply shorter_at|exact I]).
    + intros [?|] [?|] H; cbn [orel] in H; try contradiction; [now apply below_ok|apply below_throw].
Qed.
Lemma b_size n p : below eq (c_arraySize n (mkCView b p)) (c_arraySize n (mkCView B p)).
Proof.
  unfold c_arraySize, chd. cbn [cv_buf cv_pos]. bel base2. destruct s as [q c]. unfold size_step. bel base2.
Qed.
Lemma b_idx n p i : below shorter (c_idx n (mkCView b p) i) (c_idx n (mkCView B p) i).
Proof.
  unfold c_idx, chd. cbn [cv_buf cv_pos].
  apply below_bind_eq; [apply b_head|intros h _]. apply below_require; [side|intros _]. destruct (negb (h_indef h)).
  - bel (first [base2|apply shorter_at]).
  - apply below_bind with (P := orel shorter).
    + apply below_floop. intros [q c]. unfold idx_step. bel (first [base2|apply shorter_at|exact I]).
    + intros [?|] [?|] H; cbn [orel] in H; try contradiction; [now apply below_ok|apply below_throw].
Qed.
Lemma k_head p : below eq (k_read_head b p) (k_read_head B p).
Proof. unfold k_read_head. bel (first [base|apply b_get_be]). Qed.
Lemma bk_until f g q : (forall q, below eq (f q) (g q)) -> below (sumr eq eq) (k_until b f q) (k_until B g q).
Proof. intros H. unfold k_until. bel (first [base1|apply H]). Qed.
Lemma bk_chunk q : below (sumr eq eq) (k_chunk b q) (k_chunk B q).
Proof. unfold k_chunk. bel (first [base1|apply k_head]). Qed.
Lemma bk_skip n : forall q, below eq (k_skip n b q) (k_skip n B q).
Proof.
  induction n as [|n IH]; intros q; cbn [k_skip]; [apply below_nofuel|].
  bel (first [base|apply k_head|apply IH|apply b_times; intros|apply below_floop; intros|apply bk_until; intros|apply bk_chunk]).
Qed.
Lemma b_keys hard n p : below eq (c_mapKeys hard n (mkCView b p)) (c_mapKeys hard n (mkCView B p)).
Proof.
  unfold c_mapKeys, chd. cbn [cv_buf cv_pos]. bel (first [base2|apply k_head]).
  - unfold k_end. bel (first [base|apply k_head|apply bk_skip|apply b_times; intros|apply below_floop; intros|apply bk_until; intros]).
  - destruct s as [[q r] acc]. unfold keys_step, k_deref, k_incr.
    bel (first [base2|apply k_head|apply bk_skip|apply b_asString]).
Qed.
Lemma b_is P p : below eq (c_is P (mkCView b p)) (c_is P (mkCView B p)).
Proof. unfold c_is, chd. cbn [cv_buf cv_pos]. bel base2. Qed.
Lemma b_asInt w p : below eq (c_asInt w (mkCView b p)) (c_asInt w (mkCView B p)).
Proof.
  unfold c_asInt, c_asInt64, chd. cbn [cv_buf cv_pos]. destruct w; bel base2.
Qed.
Lemma b_asUInt w p : below eq (c_asUInt w (mkCView b p)) (c_asUInt w (mkCView B p)).
Proof. unfold c_asUInt, c_asUInt64, chd. cbn [cv_buf cv_pos]. destruct w; bel base2. Qed.
Lemma b_asDouble p : below eq (c_asDouble (mkCView b p)) (c_asDouble (mkCView B p)).
Proof. unfold c_asDouble, chd. cbn [cv_buf cv_pos]. bel base2. Qed.
Lemma b_asBool p : below eq (c_asBool (mkCView b p)) (c_asBool (mkCView B p)).
Proof. unfold c_asBool, chd. cbn [cv_buf cv_pos]. bel base2. Qed.

Lemma cbor_told hard n w' w : shorter w' w -> still_told (cbor_reader hard n) w' w.
Proof.
  destruct w' as [b1 p], w as [b2 p2]. intros (H1 & H2 & H3). cbn [cv_buf cv_pos] in *. subst b1 b2 p2.
  constructor; intros; apply told_below; cbn [cbor_reader r_isNull r_isBool r_isInt r_isUInt r_isFloat r_isString
    r_isBlob r_isMap r_isArray r_asBool r_asInt r_asUInt r_asDouble r_asString r_asStringView r_asBlob r_arraySize r_contains r_mapKeys];
    try apply b_is; auto using b_asBool, b_asInt, b_asUInt, b_asDouble, b_asString, b_size, b_contains, b_keys.
  - apply below_bind_eq; [apply b_view|intros; apply below_rd_view].
  - apply below_bind_eq; [apply b_view|intros; apply below_rd_view].
Qed.
Theorem cbor_never_lies hard n p : never_lies (cbor_reader hard n) (mkCView b p) (mkCView B p).
Proof.
  apply follow_below with (Q := shorter); [|apply cbor_told|apply shorter_at].
  intros [b1 q] [b2 q2] s (H1 & H2 & H3). cbn [cv_buf cv_pos] in *. subst b1 b2 q2.
  destruct s; cbn [take cbor_reader r_idx r_key]; [apply b_idx|apply b_key].
Qed.
End Prefix.
