(** ZbufFacts.v -- ownership and contents of buffers over all histories; hexdump. *)

From Coq Require Import ZArith List Bool Lia ZifyBool ZifyNat.
From Verif Require Import Base BaseFacts ZbufModel ZbufSpec.
Import ListNotations.
Open Scope Z_scope.

(** ** Owners *)
Definition key (s : storage) : option (Z * Z) :=
  match s with SPtr (Some p) (DUser id) _ | SPtr (Some p) (DWrap (Some id)) _ => Some (p, id) | _ => None end.
Definition own (w : world) (n : nat) : option (Z * Z) := match slots w n with Some s => key s | None => None end.
Lemma holds_own w n p id : holds w n p id <-> own w n = Some (p, id).
Proof.
  unfold holds, own. split.
  - intros (d & c & -> & [-> | ->]); reflexivity.
  - destruct (slots w n) as [[b|[q|] [|i|[i|]] c]|]; cbn [key]; try discriminate; intros E; injection E as <- <-; eauto 6.
Qed.
Definition upd (f : nat -> option (Z * Z)) (n : nat) x : nat -> option (Z * Z) := fun m => if Nat.eqb m n then x else f m.
Lemma upd_eq f n x : upd f n x n = x.
Proof. unfold upd. now rewrite Nat.eqb_refl. Qed.
Lemma upd_ne f n x m : m <> n -> upd f n x m = f m.
Proof. intros H. unfold upd. destruct (Nat.eqb m n) eqn:E; [apply Nat.eqb_eq in E; contradiction|reflexivity]. Qed.

Definition fine (f : nat -> option (Z * Z)) (tr : list tev) : Prop := forall p,
  (forall n id, f n <> Some (p, id)) /\ released p (of_ptr p tr) \/
  exists n id l, f n = Some (p, id) /\ (forall m id', f m = Some (p, id') -> m = n) /\ of_ptr p tr = l ++ [TAdopt p id] /\ released p l.

Lemma of_ptr_app p a b : of_ptr p (a ++ b) = of_ptr p a ++ of_ptr p b.
Proof. apply filter_app. Qed.
Lemma fine_ext f g tr : (forall n, f n = g n) -> fine f tr -> fine g tr.
Proof.
  intros E H p. destruct (H p) as [[A B]|(n & id & l & A & B & C)].
  - left. split; [|exact B]. intros n id. rewrite <- E. apply A.
  - right. exists n, id, l. rewrite <- E. split; [exact A|]. split; [|exact C]. intros m id'. rewrite <- E. apply B.
Qed.
Lemma fine_adopt f tr n p id : fine f tr -> (forall m id', f m <> Some (p, id')) -> f n = None -> fine (upd f n (Some (p, id))) (tr ++ [TAdopt p id]).
Proof.
  intros H F N q. rewrite of_ptr_app. unfold of_ptr at 2 4. cbn [filter concerns]. destruct (p =? q) eqn:E.
  - assert (p = q) by lia. subst q. right. destruct (H p) as [[_ R]|(m & i & l & A & _)]; [|now destruct (F m i)]. exists n, id, (of_ptr p tr). split; [apply upd_eq|]. split; [|split; [reflexivity|exact R]].
    intros m id' M. destruct (Nat.eq_dec m n) as [e|e]; [exact e|]. rewrite upd_ne in M by exact e. now destruct (F m id').
  - rewrite app_nil_r. destruct (H q) as [[A R]|(m & i & l & A & B & C)]; [left|right].
    + split; [|exact R]. intros m i. destruct (Nat.eq_dec m n) as [-> |e]; [rewrite upd_eq; intros X; injection X; lia|rewrite upd_ne by exact e; apply A].
    + exists m, i, l. assert (m <> n) by (intros ->; congruence). split; [now rewrite upd_ne|]. split; [|exact C]. intros m' i'. destruct (Nat.eq_dec m' n) as [-> |e]; [rewrite upd_eq; intros X; injection X; lia|rewrite upd_ne by exact e; apply B].
Qed.
Lemma fine_transfer f tr n m : fine f tr -> n <> m -> f n = None -> fine (upd (upd f m None) n (f m)) tr.
Proof.
  intros H D N q.
  assert (G : forall a x, upd (upd f m None) n (f m) a = Some x -> exists a', f a' = Some x /\ (a = n /\ a' = m \/ a <> m /\ a <> n /\ a' = a)).
  { intros a x. destruct (Nat.eq_dec a n) as [-> |e1]; [rewrite upd_eq; intros E; exists m; auto|]. rewrite upd_ne by exact e1. destruct (Nat.eq_dec a m) as [-> |e2]; [rewrite upd_eq; discriminate|]. rewrite upd_ne by exact e2. intros E. exists a. auto 6. }
  destruct (H q) as [[A R]|(a & i & l & A & B & C)]; [left|right].
  - split; [|exact R]. intros a i E. destruct (G _ _ E) as (a' & E' & _). exact (A _ _ E').
  - destruct (Nat.eq_dec a m) as [-> |e].
    + exists n, i, l. split; [now rewrite upd_eq|]. split; [|exact C]. intros a i' E. destruct (G _ _ E) as (a' & E' & [[-> ->]|(X & Y & ->)]); [reflexivity|]. apply B in E'. contradiction.
    + assert (a <> n) by (intros ->; congruence). exists a, i, l. split; [now rewrite !upd_ne|]. split; [|exact C]. intros a2 i' E. destruct (G _ _ E) as (a' & E' & [[-> ->]|(X & Y & ->)]); apply B in E'; [congruence|exact E'].
Qed.
Lemma fine_release f tr n p id : fine f tr -> f n = Some (p, id) -> fine (upd f n None) (tr ++ [TDelete p id]).
Proof.
  intros H N q. rewrite of_ptr_app. unfold of_ptr at 2 4. cbn [filter concerns]. destruct (p =? q) eqn:E.
  - assert (p = q) by lia. subst q. left. destruct (H p) as [[A R]|(m & i & l & A & B & C & R)]; [now destruct (A n id)|].
    assert (n = m) by (eapply B; eauto). subst m. assert (i = id) by congruence. subst i. split.
    + intros m i. destruct (Nat.eq_dec m n) as [-> |e]; [rewrite upd_eq; discriminate|]. rewrite upd_ne by exact e. intros X. apply B in X. contradiction.
    + rewrite C, <- app_assoc. cbn [app]. now constructor.
  - rewrite app_nil_r. destruct (H q) as [[A R]|(m & i & l & A & B & C)]; [left|right].
    + split; [|exact R]. intros m i. destruct (Nat.eq_dec m n) as [-> |e]; [rewrite upd_eq; discriminate|rewrite upd_ne by exact e; apply A].
    + exists m, i, l. assert (m <> n) by (intros ->; assert (q = p) by congruence; lia). split; [now rewrite upd_ne|]. split; [|exact C]. intros m' i'. destruct (Nat.eq_dec m' n) as [-> |e]; [rewrite upd_eq; discriminate|rewrite upd_ne by exact e; apply B].
Qed.
Lemma fine_drop f tr n : f n = None -> fine f tr -> fine (upd f n None) tr.
Proof. intros E H. apply (fine_ext f); [|exact H]. intros m. destruct (Nat.eq_dec m n) as [-> |e]; [now rewrite upd_eq|now rewrite upd_ne]. Qed.

(** ** Steps *)
Definition valid (s : storage) : Prop := forall p d c, s = SPtr (Some p) d c -> d <> DEmpty /\ d <> DWrap None.
Definition all_valid (w : world) : Prop := forall n s, slots w n = Some s -> valid s.
Lemma set_eq f n x : set f n x n = x.
Proof. unfold set. now rewrite Nat.eqb_refl. Qed.
Lemma set_ne f n x m : m <> n -> set f n x m = f m.
Proof. intros H. unfold set. destruct (Nat.eqb m n) eqn:E; [apply Nat.eqb_eq in E; contradiction|reflexivity]. Qed.
Lemma own_set f tr n s m : own (mkWorld (set f n s) tr) m = upd (own (mkWorld f tr)) n (match s with Some s => key s | None => None end) m.
Proof. unfold own, set, upd. cbn [slots]. now destruct (Nat.eqb m n). Qed.
Lemma own_trace f tr tr' n : own (mkWorld f tr) n = own (mkWorld f tr') n.
Proof. reflexivity. Qed.
Lemma drop_valid s : valid s -> exists ev, drop s = Ok ev /\ match key s with Some (p, id) => ev = [TDelete p id] | None => ev = [] end.
Proof.
  intros V. destruct s as [b|[p|] d c]; cbn [drop key]; eauto. destruct (V p d c eq_refl) as [A B]. destruct d as [|id|[id|]]; try contradiction; cbn [call_deleter]; eauto.
Qed.
Lemma valid_set f n s tr : all_valid (mkWorld f tr) -> (forall x, s = Some x -> valid x) -> forall tr', all_valid (mkWorld (set f n s) tr').
Proof.
  intros A V tr' m x. cbn [slots]. destruct (Nat.eq_dec m n) as [-> |e]; [rewrite set_eq; apply V|]. rewrite set_ne by exact e. exact (A m x).
Qed.
Lemma valid_moved s : valid (moved s).
Proof. destruct s; cbn [moved]; intros p d c E; discriminate E. Qed.
Lemma key_moved s : key (moved s) = None.
Proof. now destruct s. Qed.
Definition inv (w : world) : Prop := all_valid w /\ fine (own w) (trace w).

Lemma fine_set w n s tr : (forall m, own (mkWorld (set (slots w) n s) tr) m = upd (own w) n (match s with Some s => key s | None => None end) m).
Proof. intros m. rewrite own_set. reflexivity. Qed.

Lemma step_inv w o : inv w -> has_deleter o -> fresh w o -> exists w', zstep w o = Ok w' /\ inv w'.
Proof.
  destruct w as [f tr]. intros [V F] HD FR. unfold inv. cbn [trace] in *. destruct o as [n|n b|n k ptr size del|n m|n m|n]; cbn [zstep slots trace].
  - destruct (f n) eqn:E; [eauto|]. eexists. split; [reflexivity|]. split; [apply (valid_set f n _ tr V); intros x X; injection X as <-; intros p d c Y; discriminate Y|].
    cbn [trace]. apply (fine_ext (upd (own (mkWorld f tr)) n None)); [intros; now rewrite own_set|]. apply fine_drop; [unfold own; cbn [slots]; now rewrite E|exact F].
  - destruct (f n) eqn:E; [eauto|]. eexists. split; [reflexivity|]. split; [apply (valid_set f n _ tr V); intros x X; injection X as <-; intros p d c Y; discriminate Y|].
    cbn [trace]. apply (fine_ext (upd (own (mkWorld f tr)) n None)); [intros; now rewrite own_set|]. apply fine_drop; [unfold own; cbn [slots]; now rewrite E|exact F].
  - destruct (f n) eqn:E; [eauto|]. unfold construct. destruct ptr as [p|].
    + rewrite andb_false_r. destruct del as [id|]; [|destruct HD]. cbn [has_deleter fresh] in *.
      assert (X : exists d, mk_deleter k (Some id) = d /\ key (SPtr (Some p) d size) = Some (p, id) /\ adopted (Some p) d = [TAdopt p id] /\ d <> DEmpty /\ d <> DWrap None).
      { destruct k; eexists; (split; [reflexivity|]); repeat split; discriminate. }
      destruct X as (d & -> & K & AD & N1 & N2). destruct d as [|i|i]; [contradiction| |].
      all: rewrite AD; eexists; (split; [reflexivity|]); split;
        [apply (valid_set f n _ tr V); intros x Y; injection Y as <-; intros q d c Z; injection Z as <- <- <-; auto|];
        cbn [trace]; eapply fine_ext; [intros m; symmetry; apply own_set|]; cbv iota beta; rewrite K; apply fine_adopt; [exact F| |unfold own; cbn [slots]; now rewrite E];
        intros m id' M; apply (FR m id'); now apply holds_own.
    + rewrite andb_true_r. destruct (0 <? size); cbn [drop bind]; [eauto|]. destruct (mk_deleter k del) as [|i|i] eqn:K; cbn [drop bind]; [eauto| |].
      all: cbn [adopted]; eexists; (split; [reflexivity|]); split;
        [apply (valid_set f n _ tr V); intros x Y; injection Y as <-; intros q d c Z; discriminate Z|];
        cbn [trace]; rewrite app_nil_r; eapply fine_ext; [intros m; symmetry; apply own_set|]; cbn [key]; apply fine_drop; [unfold own; cbn [slots]; now rewrite E|exact F].
  - destruct (f n) eqn:E; [eauto|]. destruct (f m) as [s|] eqn:M; [|eauto]. assert (D : n <> m) by (intros ->; congruence). eexists. split; [reflexivity|]. split.
    + apply (valid_set _ n _ tr); [apply (valid_set f m _ tr V)|]; intros x X; injection X as <-; [apply valid_moved|]. exact (V m s M).
    + cbn [trace]. apply (fine_ext (upd (upd (own (mkWorld f tr)) m None) n (own (mkWorld f tr) m))).
      * intros a. rewrite own_set. unfold upd at 1 3. destruct (Nat.eqb a n); [unfold own; cbn [slots]; now rewrite M|]. rewrite own_set, key_moved. reflexivity.
      * apply fine_transfer; [exact F|exact D|]. unfold own. cbn [slots]. now rewrite E.
  - destruct (f n) as [d|] eqn:E; [|eauto]. destruct (f m) as [s|] eqn:M; [|eauto]. destruct (Nat.eqb n m) eqn:D.
    + apply Nat.eqb_eq in D. subst m. assert (s = d) by congruence. subst d. eexists. split; [reflexivity|]. split.
      * apply (valid_set f n _ tr V). intros x X. injection X as <-. destruct s; cbn [self_assign]; [intros p d c Y; discriminate Y|exact (V n _ E)].
      * cbn [trace]. apply (fine_ext (own (mkWorld f tr))); [|exact F]. intros a. rewrite own_set. unfold upd. destruct (Nat.eqb a n) eqn:A; [|reflexivity]. apply Nat.eqb_eq in A. subst a. unfold own. cbn [slots]. rewrite E. now destruct s.
    + apply Nat.eqb_neq in D. unfold move_assign. destruct (drop_valid d (V n d E)) as (ev & DR & KD). rewrite DR. cbn [bind]. eexists. split; [reflexivity|]. split.
      * apply (valid_set _ n _ tr); [apply (valid_set f m _ tr V)|]; intros x X; injection X as <-; [apply valid_moved|]. exact (V m s M).
      * cbn [trace]. set (g := upd (own (mkWorld f tr)) n None).
        assert (G : fine g (tr ++ ev)).
        { assert (O : own (mkWorld f tr) n = key d) by (unfold own; cbn [slots]; now rewrite E). destruct (key d) as [[p id]|]; subst ev.
          - apply fine_release; [exact F|exact O].
          - rewrite app_nil_r. now apply fine_drop. }
        apply (fine_ext (upd (upd g m None) n (g m))).
        -- intros a. rewrite own_set. unfold upd at 1 3. destruct (Nat.eqb a n) eqn:A; [unfold g; rewrite upd_ne by congruence; unfold own; cbn [slots]; now rewrite M|].
           rewrite own_set, key_moved. unfold upd at 1 2. destruct (Nat.eqb a m); [reflexivity|]. unfold g, upd. rewrite A. reflexivity.
        -- apply fine_transfer; [exact G|exact D|]. unfold g. apply upd_eq.
  - destruct (f n) as [s|] eqn:E; [|eauto]. destruct (drop_valid s (V n s E)) as (ev & DR & KD). rewrite DR. cbn [bind]. eexists. split; [reflexivity|]. split.
    + apply (valid_set f n _ tr V). discriminate.
    + cbn [trace]. eapply fine_ext; [intros m; symmetry; apply own_set|]. assert (O : own (mkWorld f tr) n = key s) by (unfold own; cbn [slots]; now rewrite E). destruct (key s) as [[p id]|]; subst ev.
      * apply fine_release; [exact F|exact O].
      * rewrite app_nil_r. now apply fine_drop.
Qed.
Lemma inv0 : inv world0.
Proof. split; [intros n s E; discriminate E|]. intros p. left. split; [intros n id E; discriminate E|constructor]. Qed.
Lemma run_inv ops : forall w, inv w -> Forall has_deleter ops -> polite w ops -> exists w', zrun w ops = Ok w' /\ inv w'.
Proof.
  induction ops as [|o ops IH]; intros w I HD P; [exists w; split; [reflexivity|exact I]|]. apply Forall_cons_iff in HD. destruct HD as [HD1 HD]. cbn [polite] in P. destruct P as [FR P]. destruct (step_inv w o I HD1 FR) as (w1 & E & I1). cbn [zrun]. rewrite E. cbn [bind]. apply IH; auto.
Qed.
Theorem resources ops : Forall has_deleter ops -> polite world0 ops -> exists w, zrun world0 ops = Ok w /\ forall p,
  (forall n id, ~ holds w n p id) /\ released p (of_ptr p (trace w)) \/
  exists n id l, holds w n p id /\ (forall m id', holds w m p id' -> m = n) /\ of_ptr p (trace w) = l ++ [TAdopt p id] /\ released p l.
Proof.
  intros HD P. destruct (run_inv ops world0 inv0 HD P) as (w & E & _ & F). exists w. split; [exact E|]. intros p. destruct (F p) as [[A R]|(n & id & l & A & B & C)]; [left|right].
  - split; [|exact R]. intros n id H. apply holds_own in H. exact (A _ _ H).
  - exists n, id, l. split; [now apply holds_own|]. split; [|exact C]. intros m id' H. apply holds_own in H. eauto.
Qed.

(** ** Contents *)
Section Contents.
Variable blk : Z -> bytes.
Definition good (s : storage) (b : bytes) : Prop :=
  s = SVec b \/ (exists p d c, s = SPtr (Some p) d c /\ 0 <= c <= zlen (blk p) /\ b = firstn (Z.to_nat c) (blk p)) \/ (exists d, s = SPtr None d 0 /\ b = []).
Definition gone (s : storage) : Prop := s = SVec [] \/ (exists c, s = SPtr None DEmpty c) \/ exists b, good s b.
Definition agree (c : contents) (f : nat -> option storage) : Prop := forall n,
  match c n with
  | None => f n = None
  | Some (Some b) => exists s, f n = Some s /\ good s b
  | Some None => exists s, f n = Some s /\ gone s
  end.
Definition looks (x : option bytes) (s : storage) : Prop := match x with Some b => good s b | None => gone s end.
Lemma agree_some c f n : agree c f -> forall x, c n = Some x -> exists s, f n = Some s /\ looks x s.
Proof. intros A x E. specialize (A n). rewrite E in A. now destruct x. Qed.
Lemma agree_none c f n : agree c f -> (c n = None <-> f n = None).
Proof. intros A. specialize (A n). destruct (c n) as [[b|]|]; [destruct A as (s & -> & _)|destruct A as (s & -> & _)|]; split; congruence. Qed.
Lemma agree_set c f n x s : agree c f -> looks x s -> agree (cset c n (Some x)) (set f n (Some s)).
Proof. intros A L m. unfold cset, set. destruct (Nat.eqb m n); [|apply A]. destruct x; eauto. Qed.
Lemma agree_unset c f n : agree c f -> agree (cset c n None) (set f n None).
Proof. intros A m. unfold cset, set. destruct (Nat.eqb m n); [reflexivity|apply A]. Qed.
Lemma gone_moved s : gone (moved s).
Proof. destruct s; unfold gone; cbn [moved]; eauto. Qed.
Lemma agree_step c w o w' : agree c (slots w) -> honest blk o -> zstep w o = Ok w' -> agree (cstep blk c o) (slots w').
Proof.
  intros A H E. destruct o as [n|n b|n k ptr size del|n m|n m|n]; cbn [zstep cstep] in *.
  - pose proof (agree_none c _ n A) as N. destruct (slots w n) eqn:S; destruct (c n) eqn:C; try (exfalso; intuition congruence); injection E as <-; [exact A|].
    apply agree_set; [exact A|now left].
  - pose proof (agree_none c _ n A) as N. destruct (slots w n) eqn:S; destruct (c n) eqn:C; try (exfalso; intuition congruence); injection E as <-; [exact A|].
    apply agree_set; [exact A|now left].
  - pose proof (agree_none c _ n A) as N. destruct (slots w n) eqn:S; destruct (c n) eqn:C; try (exfalso; intuition congruence); [injection E as <-; exact A|].
    unfold construct in E. destruct H as [H0 H]. unfold is_null. destruct ptr as [p|].
    + rewrite andb_false_r in *. destruct k, del as [id|]; cbn [mk_deleter adopted drop call_deleter bind] in *; try discriminate; injection E as <-; cbn [slots]; apply agree_set; try exact A; right; left; exists p; eauto 6.
    + rewrite andb_true_r in *. destruct (0 <? size) eqn:Z0; cbn [drop bind] in E; [injection E as <-; exact A|]. assert (size = 0) by lia. subst size.
      destruct k, del as [id|]; cbn [mk_deleter adopted drop call_deleter bind] in *; try discriminate; injection E as <-; cbn [slots]; try exact A; apply agree_set; try exact A; right; right; eauto.
  - pose proof (agree_none c _ n A) as N. destruct (slots w n) eqn:S; destruct (c n) eqn:C; try (exfalso; intuition congruence); [injection E as <-; exact A|].
    pose proof (agree_none c _ m A) as M. destruct (slots w m) as [s|] eqn:T; destruct (c m) as [x|] eqn:X; try (exfalso; intuition congruence); injection E as <-; [|exact A].
    cbn [slots]. destruct (agree_some _ _ _ A _ X) as (s' & S' & L). assert (s' = s) by congruence. subst s'. apply agree_set; [|exact L]. apply agree_set; [exact A|apply gone_moved].
  - pose proof (agree_none c _ n A) as N. destruct (slots w n) as [d|] eqn:S; destruct (c n) as [y|] eqn:C; try (exfalso; intuition congruence); [|injection E as <-; exact A].
    pose proof (agree_none c _ m A) as M. destruct (slots w m) as [s|] eqn:T; destruct (c m) as [x|] eqn:X; try (exfalso; intuition congruence); [|injection E as <-; exact A].
    destruct (agree_some _ _ _ A _ X) as (s' & S' & L). assert (s' = s) by congruence. subst s'. destruct (Nat.eqb n m) eqn:D.
    + injection E as <-. cbn [slots]. apply agree_set; [exact A|]. cbn [looks]. destruct s as [b|p dd cc]; [now left|]. cbn [self_assign]. destruct x as [b|]; [right; right; exists b; exact L|exact L].
    + unfold move_assign in E. destruct (drop d) as [ev| | |]; try discriminate. cbn [bind] in E. injection E as <-. cbn [slots]. apply agree_set; [|exact L]. apply agree_set; [exact A|apply gone_moved].
  - destruct (slots w n) as [s|] eqn:S.
    + destruct (drop s) as [ev| | |]; try discriminate. cbn [bind] in E. injection E as <-. apply agree_unset. exact A.
    + injection E as <-. intros m. unfold cset. destruct (Nat.eqb m n) eqn:D; [apply Nat.eqb_eq in D; congruence|apply A].
Qed.
Lemma agree_run ops : forall c w w', agree c (slots w) -> Forall (honest blk) ops -> zrun w ops = Ok w' -> agree (fold_left (cstep blk) ops c) (slots w').
Proof.
  induction ops as [|o ops IH]; intros c w w' A H E; [injection E as <-; exact A|]. apply Forall_cons_iff in H. destruct H as [H1 H2]. cbn [zrun] in E. destruct (zstep w o) as [w1| | |] eqn:S; try discriminate. cbn [bind] in E.
  cbn [fold_left]. eapply IH; [|exact H2|exact E]. eapply agree_step; eauto.
Qed.
Lemma alive w n p d c : inv w -> slots w n = Some (SPtr (Some p) d c) -> mem_of blk w p = Some (blk p).
Proof.
  intros [V F] E. unfold mem_of, dead. destruct (V n _ E p d c eq_refl) as [D1 D2].
  assert (K : exists id, own w n = Some (p, id)) by (unfold own; rewrite E; destruct d as [|i|[i|]]; try contradiction; cbn [key]; eauto). destruct K as [id K].
  destruct (F p) as [[A _]|(m & i & l & _ & _ & -> & _)]; [now destruct (A n id)|]. rewrite rev_app_distr. reflexivity.
Qed.
Lemma zlen_firstn (l : bytes) c : 0 <= c <= zlen l -> zlen (firstn (Z.to_nat c) l) = c.
Proof. intros H. unfold zlen in *. rewrite firstn_length. lia. Qed.
Lemma good_reads w n s b : inv w -> slots w n = Some s -> good s b -> z_buf (mem_of blk w) s = Ok b /\ z_copy (mem_of blk w) s = Ok b /\ z_size s = zlen b /\ (z_null s = true -> b = []).
Proof.
  intros I E [-> |[(p & d & c & -> & C & ->)|(d & -> & ->)]].
  - unfold z_buf, z_copy, z_read. cbn [z_size z_null]. pose proof (zlen_nonneg b). destruct (zlen b =? 0) eqn:Z0.
    + assert (b = []) by (apply zlen_0; lia). subst b. auto.
    + rewrite Z.leb_refl. replace (0 <? zlen b) with true by lia. cbn [negb andb]. assert (FA : firstn (Z.to_nat (zlen b)) b = b) by (unfold zlen; rewrite Nat2Z.id; apply firstn_all). rewrite FA. repeat split; auto. discriminate.
  - pose proof (alive w n p d c I E) as M. unfold z_buf, z_copy, z_read. cbn [z_size z_null negb andb]. rewrite M. rewrite (zlen_firstn _ _ C). destruct (c =? 0) eqn:Z0.
    + assert (c = 0) by lia. subst c. cbn. auto.
    + replace (c <=? zlen (blk p)) with true by lia. replace (0 <? c) with true by lia. repeat split; auto. discriminate.
  - cbn. auto.
Qed.
Lemma gone_copies w n s : inv w -> slots w n = Some s -> gone s -> exists b, z_copy (mem_of blk w) s = Ok b.
Proof.
  intros I E [-> |[(c & ->)|(b & G)]]; [exists []; reflexivity|exists []; reflexivity|]. exists b. now apply (good_reads w n s b).
Qed.
End Contents.
Theorem contents_kept blk ops : Forall has_deleter ops -> Forall (honest blk) ops -> polite world0 ops -> exists w, zrun world0 ops = Ok w /\ forall n,
  match crun blk ops n with
  | None => slots w n = None
  | Some (Some b) => exists s, slots w n = Some s /\ z_buf (mem_of blk w) s = Ok b /\ z_copy (mem_of blk w) s = Ok b /\ z_size s = zlen b /\ (z_null s = true -> b = [])
  | Some None => exists s b, slots w n = Some s /\ z_copy (mem_of blk w) s = Ok b
  end.
Proof.
  intros HD HH P. destruct (run_inv ops world0 inv0 HD P) as (w & E & I). exists w. split; [exact E|]. intros n.
  assert (A : agree blk (crun blk ops) (slots w)) by (apply (agree_run blk ops _ world0 w); [intros m; reflexivity|exact HH|exact E]).
  specialize (A n). destruct (crun blk ops n) as [[b|]|].
  - destruct A as (s & S & G). exists s. split; [exact S|]. now apply (good_reads blk w n).
  - destruct A as (s & S & G). destruct (gone_copies blk w n s I S G) as (b & C). exists s, b. auto.
  - exact A.
Qed.

(** ** hexdump *)
(** Rows of [w] bytes from offset [ofs] on. *)
Inductive dump_text (w : nat) : Z -> bytes -> bytes -> Prop :=
| dt_done ofs : dump_text w ofs [] []
| dt_row ofs b r out : b <> [] -> row_text w ofs (firstn w b) r -> dump_text w (ofs + Z.of_nat w) (skipn w b) out ->
    dump_text w ofs b (r ++ out).
Lemma hexdigit_value d : 0 <= d < 16 -> digit_value (hexdigit d) = Some d.
Proof.
  intros H. unfold digit_value, hexdigit. destruct (d <? 10) eqn:E.
  - replace ((48 <=? 48 + d) && (48 + d <=? 57)) with true by lia. f_equal. lia.
  - replace ((48 <=? 87 + d) && (87 + d <=? 57)) with false by lia. replace ((97 <=? 87 + d) && (87 + d <=? 102)) with true by lia. f_equal. lia.
Qed.
Lemma hex_value_app a b acc x : hex_value acc a = Some x -> hex_value acc (a ++ b) = hex_value x b.
Proof.
  revert acc. induction a as [|c a IH]; intros acc E; cbn [hex_value app] in *; [now injection E as ->|]. destruct (digit_value c); [auto|discriminate].
Qed.
Lemma hex_digits_ok f : forall z, 0 <= z < 16 ^ Z.of_nat f -> (1 <= f)%nat ->
  hex_value 0 (hex_digits f z) = Some z /\ 1 <= zlen (hex_digits f z) /\ (1 < zlen (hex_digits f z) -> hd 48 (hex_digits f z) <> 48) /\ (0 < z -> hd 48 (hex_digits f z) <> 48).
Proof.
  induction f as [|f IH]; intros z H F; [lia|]. cbn [hex_digits].
  assert (M : 0 <= z mod 16 < 16) by (apply Z.mod_pos_bound; lia). destruct (z <? 16) eqn:E; cbn [app].
  - assert (z mod 16 = z) by (apply Z.mod_small; lia). rewrite H0. cbn [hex_value hd]. rewrite hexdigit_value by lia. repeat split; try (rewrite zlen_cons, zlen_nil; lia).
    unfold hexdigit. intros. destruct (z <? 10); lia.
  - assert (D : z = 16 * (z / 16) + z mod 16) by (apply Z.div_mod; lia).
    assert (P : 16 ^ Z.of_nat (S f) = 16 * 16 ^ Z.of_nat f) by (rewrite Nat2Z.inj_succ, Z.pow_succ_r by lia; reflexivity). rewrite P in H.
    assert (1 <= f)%nat by (destruct f; [change (16 ^ Z.of_nat 0) with 1 in H; clear - H E; lia|lia]).
    assert (Q : 0 <= z / 16 < 16 ^ Z.of_nat f) by (clear - H D M; lia).
    destruct (IH (z / 16) Q H0) as (V & L & N1 & N2). rewrite (hex_value_app _ _ _ _ V). cbn [hex_value]. rewrite hexdigit_value by exact M. rewrite zlen_app, zlen_cons, zlen_nil.
    assert (HD : hd 48 (hex_digits f (z / 16) ++ [hexdigit (z mod 16)]) = hd 48 (hex_digits f (z / 16))).
    { destruct (hex_digits f (z / 16)); [rewrite zlen_nil in L; lia|reflexivity]. }
    rewrite HD. assert (0 < z / 16) by (clear - D M E; lia). repeat split; auto; [f_equal; lia|lia].
Qed.
Lemma hex_value_zeros n s acc : hex_value 0 (repeat 48 n ++ s) = Some acc <-> hex_value 0 s = Some acc.
Proof. induction n as [|n IH]; [reflexivity|]. cbn [repeat app hex_value]. exact IH. Qed.
Lemma zlen_repeat {A} (x : A) n : zlen (repeat x n) = Z.of_nat n.
Proof. unfold zlen. now rewrite repeat_length. Qed.
Lemma put_hex_text w z : 1 <= w -> 0 <= z < 2 ^ 64 -> hex_text w z (put_hex w z).
Proof.
  intros W H. assert (P : 0 <= z < 16 ^ Z.of_nat 16) by exact H. destruct (hex_digits_ok 16 z P ltac:(lia)) as (V & L & N & _). unfold hex_text, put_hex, padded.
  set (l := hex_digits 16 z) in *. split; [now apply hex_value_zeros|]. rewrite zlen_app, zlen_repeat. split; [lia|].
  intros X. assert (w < zlen l) by lia. replace (Z.to_nat (w - zlen l)) with O by lia. cbn [repeat app]. apply N. lia.
Qed.
Lemma put_hex_2 c : 0 <= c < 256 -> zlen (put_hex 2 c) = 2.
Proof.
  intros H. unfold put_hex. assert (E : zlen (hex_digits 16 c) <= 2).
  { cbn [hex_digits]. destruct (c <? 16) eqn:E; [cbn [app]; rewrite zlen_cons, zlen_nil; lia|]. assert (0 <= c / 16 < 16) by (split; [apply Z.div_pos; lia|apply Z.div_lt_upper_bound; lia]).
    replace (c / 16 <? 16) with true by lia. cbn [app]. rewrite !zlen_cons, zlen_nil. lia. }
  unfold padded. rewrite zlen_app, zlen_repeat. lia.
Qed.

Section Row.
Variables (b : bytes) (i : Z).
Hypothesis B : bytes_ok b.
Hypothesis I : 0 <= i < zlen b.
Hypothesis N : zlen b < 2 ^ 63.
Let chunk (w : Z) := firstn (Z.to_nat w) (skipn (Z.to_nat i) b).
Lemma chunk_nth w j : 0 <= j < w -> i + j < zlen b -> exists c, get b (i + j) = Some c /\ nth_error (chunk w) (Z.to_nat j) = Some c /\ is_byte c.
Proof.
  intros J L. destruct (get_in b (i + j) ltac:(lia)) as (c & E). exists c. split; [exact E|]. split; [|exact (get_byte b _ c B E)].
  unfold chunk. rewrite nth_error_firstn by lia. rewrite nth_error_skipn. unfold get in E. replace ((0 <=? i + j) && (i + j <? zlen b)) with true in E by lia. rewrite <- E. f_equal. lia.
Qed.
Lemma chunk_none w j : 0 <= j < w -> zlen b <= i + j -> nth_error (chunk w) (Z.to_nat j) = None.
Proof. intros J L. unfold chunk. rewrite nth_error_firstn by lia. rewrite nth_error_skipn. apply nth_error_None. unfold zlen in L. lia. Qed.
Lemma wrap64_small z : 0 <= z < 2 ^ 64 -> wrap64 z = z.
Proof. apply Z.mod_small. Qed.

Lemma hex_loop w : i + w < 2 ^ 64 -> forall k j out, 0 <= j -> j + Z.of_nat k = w ->
  exists h, nloop k (hex_cell b (zlen b) i) (j, out) = Ok (inl (w, out ++ h)) /\ cells (chunk w) (Z.to_nat j) k h.
Proof.
  intros W. induction k as [|k IH]; intros j out J K.
  - exists []. cbn [nloop]. rewrite app_nil_r. split; [do 3 f_equal; lia|constructor].
  - cbn [nloop]. assert (HC : hex_cell b (zlen b) i (j, out) = bind (if wrap64 (i + j) <? zlen b then c <- rd b (wrap64 (i + j)) ;; Ok (put_hex 2 c ++ [32]) else Ok [32; 32; 32]) (fun cell => Ok (inl (j + 1, out ++ cell ++ (if j =? 7 then [32] else []))))) by reflexivity.
    rewrite HC. clear HC. rewrite wrap64_small by lia.
    assert (T : Z.to_nat (j + 1) = S (Z.to_nat j)) by lia. assert (G : (j =? 7) = Nat.eqb (Z.to_nat j) 7) by lia.
    destruct (i + j <? zlen b) eqn:L.
    + destruct (chunk_nth w j ltac:(lia) ltac:(lia)) as (c & E & C & BC). unfold rd. rewrite E. cbn [bind].
      destruct (IH (j + 1) (out ++ (put_hex 2 c ++ [32]) ++ (if j =? 7 then [32] else [])) ltac:(lia) ltac:(lia)) as (h & EQ & CH). rewrite EQ. rewrite T in CH.
      eexists. split; [|apply (cells_byte _ _ _ c (put_hex 2 c) h C); [apply put_hex_text; [lia|unfold is_byte in BC; lia]|exact CH]].
      rewrite G. do 3 f_equal. rewrite <- !app_assoc. reflexivity.
    + cbn [bind]. destruct (IH (j + 1) (out ++ [32; 32; 32] ++ (if j =? 7 then [32] else [])) ltac:(lia) ltac:(lia)) as (h & EQ & CH). rewrite EQ. rewrite T in CH.
      eexists. split; [|apply (cells_pad _ _ _ h); [apply chunk_none; lia|exact CH]].
      rewrite G. do 3 f_equal. rewrite <- !app_assoc. reflexivity.
Qed.
Lemma ascii_loop w : i + w < 2 ^ 64 -> forall k j out, 0 <= j -> j + Z.of_nat k = w ->
  let a := out ++ map shown (skipn (Z.to_nat j) (chunk w)) in
  nloop k (ascii_cell b (zlen b) i) (j, out) = Ok (inl (w, a)) \/ nloop k (ascii_cell b (zlen b) i) (j, out) = Ok (inr a).
Proof.
  intros W. induction k as [|k IH]; intros j out J K a.
  - left. cbn [nloop]. do 3 f_equal; [lia|]. unfold a. rewrite skipn_all2; [now rewrite app_nil_r|]. unfold chunk. pose proof (firstn_le_length (Z.to_nat w) (skipn (Z.to_nat i) b)). lia.
  - cbn [nloop]. assert (HC : ascii_cell b (zlen b) i (j, out) = if wrap64 (i + j) <? zlen b then c <- rd b (wrap64 (i + j)) ;; Ok (inl (j + 1, out ++ [if isprint c then c else 46])) else Ok (inr out)) by reflexivity.
    rewrite HC. clear HC. rewrite wrap64_small by lia. destruct (i + j <? zlen b) eqn:L.
    + destruct (chunk_nth w j ltac:(lia) ltac:(lia)) as (c & E & C & BC). unfold rd. rewrite E. cbn [bind].
      assert (A : a = (out ++ [if isprint c then c else 46]) ++ map shown (skipn (Z.to_nat (j + 1)) (chunk w))).
      { unfold a. rewrite <- app_assoc. f_equal. replace (Z.to_nat (j + 1)) with (S (Z.to_nat j)) by lia. clear - C. revert C. generalize (Z.to_nat j). generalize (chunk w). intros l n. revert l.
        induction n as [|n IHn]; intros [|x l] C; cbn [nth_error] in C; try discriminate; [injection C as ->; reflexivity|]. exact (IHn l C). }
      rewrite A. exact (IH (j + 1) _ ltac:(lia) ltac:(lia)).
    + right. do 2 f_equal. unfold a. rewrite skipn_all2; [now rewrite app_nil_r|]. unfold chunk. rewrite firstn_length, skipn_length. unfold zlen in L. lia.
Qed.
Lemma dump_row_ok w : 0 < w -> i + w < 2 ^ 64 -> exists r, dump_row b (zlen b) w i = Ok r /\ row_text (Z.to_nat w) i (chunk w) r.
Proof.
  intros W0 W. unfold dump_row. rewrite !zloop_nloop. destruct (hex_loop w W (Z.to_nat w) 0 [] ltac:(lia) ltac:(lia)) as (h & -> & CH). cbn [bind].
  assert (O : hex_text 8 i (put_hex 8 i)) by (apply put_hex_text; lia).
  destruct (ascii_loop w W (Z.to_nat w) 0 [] ltac:(lia) ltac:(lia)) as [-> | ->]; cbn [bind]; eexists; (split; [reflexivity|]); exists (put_hex 8 i), h; auto.
Qed.
End Row.

Lemma dump_rows_ok b w : bytes_ok b -> zlen b < 2 ^ 63 -> 0 < w -> forall fuel i out, 0 <= i -> i + w < 2 ^ 64 -> zlen b <= i + w * Z.of_nat fuel ->
  exists t, dump_rows fuel b (zlen b) w i out = Ok (out ++ t) /\ dump_text (Z.to_nat w) i (skipn (Z.to_nat i) b) t.
Proof.
  intros B N W fuel. induction fuel as [|f IH]; intros i out I IW F; cbn [dump_rows]; destruct (i <? zlen b) eqn:L.
  - exfalso. lia.
  - exists []. rewrite app_nil_r, skipn_all2 by (unfold zlen in L; lia). split; [reflexivity|constructor].
  - destruct (dump_row_ok b i B ltac:(lia) N w W IW) as (r & R & RT). rewrite R. cbn [bind]. rewrite wrap64_small by lia.
    assert (NE : skipn (Z.to_nat i) b <> []).
    { intros X. apply (f_equal (@List.length Z)) in X. rewrite skipn_length in X. cbn in X. unfold zlen in L. lia. }
    assert (SK : skipn (Z.to_nat w) (skipn (Z.to_nat i) b) = skipn (Z.to_nat (i + w)) b) by (rewrite skipn_skipn; f_equal; lia).
    destruct (i + w <? zlen b) eqn:L2.
    + destruct (IH (i + w) (out ++ r) ltac:(lia) ltac:(lia) ltac:(lia)) as (t & T & D). rewrite T. exists (r ++ t). rewrite app_assoc. split; [reflexivity|].
      constructor; [exact NE|exact RT|]. rewrite SK. replace (Z.of_nat (Z.to_nat w)) with w by lia. exact D.
    + exists r. split; [destruct f; cbn [dump_rows]; now rewrite L2|]. rewrite <- (app_nil_r r). constructor; [exact NE|exact RT|]. rewrite SK, skipn_all2 by (unfold zlen in L2; lia). constructor.
  - exists []. rewrite app_nil_r, skipn_all2 by (unfold zlen in L; lia). split; [reflexivity|constructor].
Qed.
Theorem hexdump_text b w fuel : bytes_ok b -> b <> [] -> zlen b < 2 ^ 63 -> 0 < w < 2 ^ 64 -> zlen b <= w * Z.of_nat fuel -> exists out, hexdump fuel b w = Ok out /\ dump_text (Z.to_nat w) 0 b out.
Proof.
  intros B NE N W F. unfold hexdump. destruct (zlen b =? 0) eqn:E; [exfalso; apply NE; apply zlen_0; lia|]. destruct (dump_rows_ok b w B N ltac:(lia) fuel 0 [] ltac:(lia) ltac:(lia) ltac:(lia)) as (t & T & D). exists t. auto.
Qed.
Lemma dump_text_rows w : (0 < w)%nat -> forall ofs b out, dump_text w ofs b out -> exists rows, out = concat rows /\
  zlen rows = (zlen b + Z.of_nat w - 1) / Z.of_nat w /\
  forall k r, nth_error rows k = Some r -> row_text w (ofs + Z.of_nat k * Z.of_nat w) (firstn w (skipn (k * w) b)) r.
Proof.
  intros W ofs b out D. induction D as [ofs|ofs b r out NE R D IH].
  - exists []. split; [reflexivity|]. split; [symmetry; apply Z.div_small; change (zlen (@nil Z)) with 0; lia|]. intros [|k] r E; discriminate E.
  - destruct IH as (rows & -> & L & RW). exists (r :: rows). split; [reflexivity|]. split.
    + rewrite zlen_cons, L. unfold zlen. rewrite skipn_length. destruct b as [|x b]; [congruence|]. cbn [List.length]. set (n := List.length b).
      destruct (le_lt_dec w (S n)) as [C|C].
      * replace (Z.of_nat (S n) + Z.of_nat w - 1) with (Z.of_nat (S n - w) + Z.of_nat w - 1 + 1 * Z.of_nat w) by (clear - C; lia). rewrite Z.div_add by (clear - W; lia). apply Z.add_comm.
      * replace (S n - w)%nat with O by (clear - C; lia). rewrite (Z.div_small (Z.of_nat 0 + Z.of_nat w - 1)) by (clear - W; lia). replace (Z.of_nat (S n) + Z.of_nat w - 1) with (Z.of_nat n + 1 * Z.of_nat w) by (clear; lia). rewrite Z.div_add by (clear - W; lia). rewrite Z.div_small by (clear - C; lia). reflexivity.
    + intros [|k] r' E; cbn [nth_error] in E.
      * injection E as <-. cbn [Nat.mul skipn]. rewrite Z.add_0_r. exact R.
      * apply RW in E. replace (ofs + Z.of_nat (S k) * Z.of_nat w) with (ofs + Z.of_nat w + Z.of_nat k * Z.of_nat w) by lia. rewrite skipn_skipn in E. replace (S k * w)%nat with (k * w + w)%nat by lia. rewrite ?(Nat.add_comm w (k * w)) in E. exact E.
Qed.
Theorem hexdump_rows b w fuel : bytes_ok b -> b <> [] -> zlen b < 2 ^ 63 -> 0 < w < 2 ^ 64 -> zlen b <= w * Z.of_nat fuel -> exists rows, hexdump fuel b w = Ok (concat rows) /\
  zlen rows = (zlen b + w - 1) / w /\
  forall k r, nth_error rows k = Some r -> row_text (Z.to_nat w) (Z.of_nat k * w) (firstn (Z.to_nat w) (skipn (k * Z.to_nat w) b)) r.
Proof.
  intros B NE N W F. destruct (hexdump_text b w fuel B NE N W F) as (out & E & D). destruct (dump_text_rows (Z.to_nat w) ltac:(lia) 0 b out D) as (rows & -> & L & R). exists rows. split; [exact E|].
  replace (Z.of_nat (Z.to_nat w)) with w in * by lia. split; [exact L|]. intros k r K. exact (R k r K).
Qed.
Theorem hexdump_width_0 b : b <> [] -> forall fuel, hexdump fuel b 0 = NoFuel.
Proof.
  intros NE fuel. unfold hexdump. destruct (zlen b =? 0) eqn:E; [exfalso; apply NE; apply zlen_0; lia|]. pose proof (zlen_nonneg b). generalize (@nil Z). assert (L : (0 <? zlen b) = true) by lia.
  induction fuel as [|f IH]; intros out; cbn [dump_rows]; rewrite L; [reflexivity|]. cbn [dump_row zloop bind]. unfold dump_row. cbn [zloop bind]. change (wrap64 (0 + 0)) with 0. apply IH.
Qed.
