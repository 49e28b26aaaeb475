(** FlexBLook.v -- readers that answer alike: what carries over from one to the other; proofs for C60, C70 and C71 on
    FlexBuffers bytes. *)

From Coq Require Import ZArith List Bool Lia ZifyBool.
From Verif Require Import Base BaseFacts Spec SpecFacts FlexModel FlexSpec FlexFacts FlexBModel FlexBSpec FlexBFormat FlexBFacts FlexBSim FlexBConf LookSpec LookTree TensorSpec.
Import ListNotations.
Open Scope Z_scope.
Ltac Zify.zify_post_hook ::= idtac.

Section Same.
Context {V1 V2 : Type}.
Variables (R1 : reader V1) (R2 : reader V2).
Definition twins (w1 : V1) (w2 : V2) : Prop := forall n, same n R1 R2 w1 w2.

Lemma twins_idx w1 w2 i w1' : twins w1 w2 -> 0 <= i -> r_idx R1 w1 i = Ok w1' -> exists w2', r_idx R2 w2 i = Ok w2' /\ twins w1' w2'.
Proof.
  intros T I E. assert (A : forall n, alike (same n R1 R2) (r_idx R1 w1 i) (r_idx R2 w2 i)) by (intros n; destruct (T (S n)) as (_ & _ & _ & _ & _ & _ & _ & _ & _ & _ & _ & _ & _ & _ & _ & _ & _ & _ & _ & X & _); now apply X).
  rewrite E in A. destruct (r_idx R2 w2 i) as [w2'| | |] eqn:E2; try (exfalso; exact (A O)). exists w2'. split; [reflexivity|exact A].
Qed.
Lemma twins_key w1 w2 k w1' : twins w1 w2 -> r_key R1 w1 k = Ok w1' -> exists w2', r_key R2 w2 k = Ok w2' /\ twins w1' w2'.
Proof.
  intros T E. assert (A : forall n, alike (same n R1 R2) (r_key R1 w1 k) (r_key R2 w2 k)) by (intros n; destruct (T (S n)) as (_ & _ & _ & _ & _ & _ & _ & _ & _ & _ & _ & _ & _ & _ & _ & _ & _ & _ & _ & _ & X); now apply X).
  rewrite E in A. destruct (r_key R2 w2 k) as [w2'| | |] eqn:E2; try (exfalso; exact (A O)). exists w2'. split; [reflexivity|exact A].
Qed.
Lemma twins_reach w1 w2 w1' : twins w1 w2 -> reach R1 w1 w1' -> exists w2', reach R2 w2 w2' /\ twins w1' w2'.
Proof.
  intros T. induction 1 as [|u i u' RE IH I E|u k u' RE IH K E].
  - exists w2. split; [constructor|exact T].
  - destruct IH as (x & RX & TX). destruct (twins_idx u x i u' TX ltac:(lia) E) as (x' & EX & TX'). exists x'. split; [econstructor 2; eauto|exact TX'].
  - destruct IH as (x & RX & TX). destruct (twins_key u x k u' TX E) as (x' & EX & TX'). exists x'. split; [econstructor 3; eauto|exact TX'].
Qed.
Lemma alike_safe {A B} (P : A -> B -> Prop) a b : alike P a b -> safe any b -> safe any a.
Proof. destruct a as [?|[]| |], b as [?|[]| |]; cbn; intros; try discriminate; try contradiction; exact I. Qed.

Lemma twins_steady w1 w2 : twins w1 w2 -> steady R2 w2 -> steady R1 w1.
Proof.
  intros T ST w RE. destruct (twins_reach w1 w2 w T RE) as (x & RX & TX). destruct (ST x RX) as (S1 & S2 & S3 & S4 & S5 & S6 & S7 & S8 & S9).
  destruct (TX 1%nat) as (_ & _ & E4 & E6 & _ & _ & E8 & _ & E1 & _ & E5 & E7 & _ & _ & _ & E9 & E2 & _ & _ & E3 & _).
  rewrite E1, E2, E4, E6, E8, E9. repeat split; auto.
  - intros i I. eapply alike_safe; [apply E3; lia|now apply S3].
  - intros iw. rewrite E5. apply S5.
  - intros iw. rewrite E7. apply S7.
Qed.
Lemma twins_lookups w1 w2 : twins w1 w2 -> lookups_agree R2 w2 -> lookups_agree R1 w1.
Proof.
  intros T L ks key BK MK. destruct (T 1%nat) as (_ & _ & _ & _ & _ & _ & _ & _ & _ & _ & _ & _ & _ & _ & _ & _ & _ & C & M & _ & K).
  rewrite M in MK. destruct (L ks key BK MK) as (L1 & L2). rewrite C. split; [exact L1|]. specialize (K key). destruct (existsb (beq key) ks).
  - destruct L2 as (x & E). rewrite E in K. destruct (r_key R1 w1 key); try contradiction. eauto.
  - rewrite L2 in K. destruct (r_key R1 w1 key); cbn in K; try contradiction. now subst.
Qed.
Lemma twins_indices w1 w2 : twins w1 w2 -> indices_agree R2 w2 -> indices_agree R1 w1.
Proof.
  intros T L n i N I. destruct (T 1%nat) as (_ & _ & _ & _ & _ & _ & _ & _ & _ & _ & _ & _ & _ & _ & _ & _ & A & _ & _ & X & _).
  rewrite A in N. specialize (L n i N I). specialize (X i ltac:(lia)). destruct (i <? n).
  - destruct L as (x & E). rewrite E in X. destruct (r_idx R1 w1 i); try contradiction. eauto.
  - rewrite L in X. destruct (r_idx R1 w1 i); cbn in X; try contradiction. now subst.
Qed.
End Same.

(** ** Trees *)
Lemma flex_steady fuel x : steady (flex_reader fuel) x.
Proof.
  intros w _. cbn [flex_reader r_isArray r_arraySize r_idx r_isInt r_asInt r_isUInt r_asUInt r_isBlob r_asBlob]. repeat split; try exact I.
  - unfold x_arraySize. destruct (x_isArray w); exact I.
  - intros i _. unfold x_idx. destruct (x_isArray w); [|exact I]. cbn [require bind]. destruct (i <? _); exact I.
  - intros iw. destruct w; exact I.
  - intros iw. destruct w; exact I.
  - destruct w; exact I.
Qed.
Lemma at_emb {A} (f : A -> fx) (g : A -> val) (P : val -> Prop) l i : (forall a, In a l -> f a = emb (g a) /\ P (g a)) -> P VNull ->
  exists v, P v /\ vec_at (map f l) i = emb v.
Proof.
  intros H N. unfold vec_at. rewrite get_map. destruct (get l i) as [a|] eqn:G; cbn [option_map]; [|exists VNull; auto]. apply get_In in G. destruct (H a G) as (E & Q). exists (g a). auto.
Qed.
Lemma tidy_reach fuel v x : tidy v -> reach (flex_reader fuel) (emb v) x -> exists u, tidy u /\ x = emb u.
Proof.
  intros T. assert (TN : tidy VNull) by (split; exact I). induction 1 as [|u i u' RE IH I E|u k u' RE IH K E]; [eauto| |]; destruct IH as (y & TY & ->); cbn [flex_reader r_idx r_key] in E.
  - unfold x_idx in E. destruct y; cbn [emb x_isArray require bind] in E; try discriminate. cbn [AsVector] in E. destruct (i <? _); cbn [require bind] in E; [|discriminate]. injection E as <-. apply every_arr in TY. destruct TY as (_ & TY). rewrite Forall_forall in TY.
    destruct (at_emb emb (fun x => x) tidy l i) as (z & TZ & EZ); [intros a J; split; [reflexivity|now apply TY]|exact TN|]. exists z. auto.
  - unfold x_key in E. destruct y; cbn [emb x_isMap require bind] in E; try discriminate. destruct (x_search _ _ _ _ _) as [[m|]| | |]; cbn [bind] in E; try discriminate. injection E as <-. apply every_map in TY. destruct TY as (_ & TY). rewrite Forall_forall in TY.
    cbn [map_vals]. rewrite map_map. destruct (at_emb (fun x => snd (fst x, emb (snd x))) snd tidy l m) as (z & TZ & EZ); [intros a J; split; [reflexivity|now apply (TY a)]|exact TN|]. exists z. auto.
Qed.
Lemma tidy_lookups fuel v : (64 <= fuel)%nat -> tidy v -> lookups_agree (flex_reader fuel) (emb v).
Proof.
  intros F T. apply flex_lookups_ordered; [exact F|]. intros ks K. cbn [flex_reader r_mapKeys] in K. unfold x_mapKeys in K. destruct v; cbn [emb x_isMap require bind map_keys] in K; try discriminate.
  injection K as <-. apply every_map in T. destruct T as ((O & L) & _). rewrite map_map. cbn [fst]. split; [exact O|]. now rewrite zlen_map.
Qed.

(** ** Messages *)
Section Message.
Variables (al : Z -> Z -> Prop) (B : bytes) (far : bool).
Lemma message_twins fuel v : message al B far false v -> zlen B < 2 ^ 63 -> tidy v /\ exists r, fb_open B = Ok r /\ twins (flexb_reader B fuel) (flex_reader fuel) r (emb v).
Proof.
  intros (w & t & L & LY) LB. split; [now apply (lays_tidy al B far _ _ _ _ LB LY)|]. eexists. split; [exact (message_opens al B w t L)|]. intros n. apply (rep_same al far). now apply lays_rep.
Qed.
Theorem message_steady fuel v : message al B far false v -> zlen B < 2 ^ 63 -> exists r, fb_open B = Ok r /\ steady (flexb_reader B fuel) r.
Proof.
  intros M LB. destruct (message_twins fuel v M LB) as (_ & r & O & T). exists r. split; [exact O|]. eapply twins_steady; [exact T|apply flex_steady].
Qed.
Theorem message_lookups fuel v r w : message al B far false v -> zlen B < 2 ^ 63 -> (64 <= fuel)%nat -> fb_open B = Ok r ->
  reach (flexb_reader B fuel) r w -> lookups_agree (flexb_reader B fuel) w /\ indices_agree (flexb_reader B fuel) w.
Proof.
  intros M LB F O RE. destruct (message_twins fuel v M LB) as (TD & r' & O' & T). rewrite O in O'. injection O' as <-. destruct (twins_reach _ _ _ _ w T RE) as (x & RX & TX).
  destruct (tidy_reach fuel v x TD RX) as (u & TU & ->). split; [eapply twins_lookups; [exact TX|now apply tidy_lookups]|eapply twins_indices; [exact TX|apply flex_indices]].
Qed.
End Message.

(** ** Any bytes: an index at or past the size is refused. *)
Lemma flexb_above B fuel w n i : r_arraySize (flexb_reader B fuel) w = Ok n -> n <= i -> r_idx (flexb_reader B fuel) w i = Throw EDeser.
Proof.
  cbn [flexb_reader r_arraySize r_idx]. unfold fb_arraySize, fb_idx. destruct (fb_isArray w); cbn [require bind]; [|discriminate]. destruct (f_ty w =? 10); [|reflexivity].
  destruct (indirect B (f_data w) (f_pw w)) as [loc| | |]; cbn [bind]; try discriminate. intros E L. rewrite E. cbn [bind]. replace (i <? n) with false by lia. reflexivity.
Qed.
