(** KeyIterInst.v -- the key iterators of the protocols are positions in the list that a range-for loop over mapKeys() sees. *)

From Coq Require Import ZArith List Bool Lia ZifyBool ZifyNat.
From Verif Require Import Base BaseFacts Spec ZeraModel JsonModel FlexModel KeyIterModel KeyIterSpec KeyIterFacts.
From Verif Require MsgModel CborModel CborSpec CborFacts.
Import ListNotations.
Open Scope Z_scope.

Lemma keys_by_view {V} (R : reader V) views v ks : keys_by R views v = Some ks -> exists w, views v = Some w.
Proof. unfold keys_by. destruct (views v); [eauto|discriminate]. Qed.
Lemma keys_by_ok {V} (R : reader V) views v w ks : views v = Some w -> keys_by R views v = Some ks -> r_mapKeys R w = Ok ks.
Proof. unfold keys_by. intros ->. destruct (r_mapKeys R w); congruence. Qed.

Section Chain.
Context {S : Type} (D : S -> res bytes) (I : S -> res S) (stop : S -> Prop).
Fixpoint chain (s : S) (l : list bytes) : Prop :=
  match l with
  | [] => stop s
  | k :: l' => ~ stop s /\ D s = Ok k /\ exists s', I s = Ok s' /\ chain s' l'
  end.
Fixpoint iter (n : nat) (s : S) : res S :=
  match n with O => Ok s | Datatypes.S n' => s' <- I s ;; iter n' s' end.
Lemma iter_next : forall n s s', iter n s = Ok s' -> iter (Datatypes.S n) s = I s'.
Proof.
  induction n as [|n IH]; intros s s' E.
  - injection E as <-. cbn [iter]. destruct (I s); reflexivity.
  - cbn [iter] in E |- *. destruct (I s) as [x|?| |]; cbn [bind] in *; try discriminate E. exact (IH x s' E).
Qed.
Lemma chain_iter : forall l s n, chain s l -> (n <= length l)%nat -> exists s', iter n s = Ok s' /\ chain s' (skipn n l).
Proof.
  induction l as [|k l IH]; intros s n C N; cbn [length] in N.
  - assert (n = 0)%nat as -> by lia. exists s. split; [reflexivity|exact C].
  - destruct n as [|n]; [exists s; split; [reflexivity|exact C]|]. destruct C as (_ & _ & s1 & E & C).
    destruct (IH s1 n C ltac:(lia)) as (s' & A & B). exists s'. cbn [iter skipn]. rewrite E. cbn [bind]. auto.
Qed.
Lemma chain_at s l n k : chain s l -> nth_error l n = Some k -> exists s1 s2, iter n s = Ok s1 /\ D s1 = Ok k /\ I s1 = Ok s2 /\ iter (Datatypes.S n) s = Ok s2 /\ ~ stop s1.
Proof.
  intros C E. assert (n < length l)%nat as L by (apply nth_error_Some; congruence).
  destruct (chain_iter l s n C ltac:(lia)) as (s1 & A & B). destruct (skipn n l) as [|k' l'] eqn:SK.
  { pose proof (skipn_length n l) as H. rewrite SK in H. cbn [length] in H. lia. }
  assert (k' = k) as ->.
  { pose proof (firstn_skipn n l) as H. rewrite SK in H. rewrite <- H in E. rewrite nth_error_app2 in E by (rewrite firstn_length; lia).
    rewrite firstn_length, Nat.min_l, Nat.sub_diag in E by lia. cbn in E. congruence. }
  destruct B as (B0 & B1 & s2 & B2 & _). exists s1, s2. rewrite (iter_next n s s1 A). auto.
Qed.
Lemma chain_end s l : chain s l -> exists s', iter (length l) s = Ok s' /\ stop s'.
Proof. intros C. destruct (chain_iter l s (length l) C (Nat.le_refl _)) as (s' & A & B). rewrite skipn_all in B. eauto. Qed.
End Chain.

(** ** JSON *)
Theorem json_iters views p o : kexpect no_rules (keys_by json_reader views) p = Some o -> krun json_keys (kstart views) p = Ok o.
Proof.
  apply program_sim with (pos := fun v w ks r rg n it => rg = ks /\ it = skipn n ks /\ (n <= length ks)%nat).
  - apply keys_by_view.
  - intros v w ks W K. apply (keys_by_ok _ _ _ _ _ W) in K. cbn [json_reader r_mapKeys] in K. exists ks.
    cbn [json_keys kp_keys kp_begin kp_end]. split; [exact K|]. intros r. split; [exists ks|exists []]; rewrite ?skipn_all; repeat split; auto. lia.
  - intros v w ks r rg n it t env renv (-> & -> & L) T _ _. cbn [json_keys kp_deref kp_incr].
    assert (skipn n ks = t :: skipn (S n) ks) as ->.
    { clear - T. revert n T. induction ks as [|x ks IH]; intros [|n] T; cbn in *; try discriminate T; [congruence|apply (IH n T)]. }
    assert (n < length ks)%nat by (apply nth_error_Some; congruence).
    split; [exists false; split; [reflexivity|discriminate]|]. eexists. split; [reflexivity|]. repeat split. lia.
  - intros v w ks r rg n m it it2 (_ & -> & L1) (_ & -> & L2). cbn [json_keys kp_eq]. rewrite !skipn_length. lia.
Qed.

(** ** FlexBuffers *)
Theorem flex_iters fuel views p o : kexpect (mkRules false true false) (keys_by (flex_reader fuel) views) p = Some o -> krun flex_keys (kstart views) p = Ok o.
Proof.
  apply program_sim with (pos := fun v w ks r rg n it => rg = ks /\ it = (r, Z.of_nat n)).
  - apply keys_by_view.
  - intros v w ks W K. apply (keys_by_ok _ _ _ _ _ W) in K. cbn [flex_reader r_mapKeys] in K. exists ks.
    cbn [flex_keys kp_keys kp_begin kp_end]. split; [exact K|]. intros r. split; [exists (r, 0)|exists (r, zlen ks)]; repeat split.
  - intros v w ks r rg n it t env renv (-> & ->) T _ HR. cbn [flex_keys kp_deref kp_incr]. rewrite (HR eq_refl).
    assert (n < length ks)%nat by (apply nth_error_Some; congruence).
    split; [exists false; split; [|discriminate]|].
    + unfold key_at, get, zlen. replace ((0 <=? Z.of_nat n) && (Z.of_nat n <? Z.of_nat (length ks))) with true by lia.
      rewrite Nat2Z.id, T. reflexivity.
    + eexists. split; [reflexivity|]. repeat split. f_equal. lia.
  - intros v w ks r rg n m it it2 (_ & ->) (_ & ->). cbn [flex_keys kp_eq fst snd]. rewrite Nat.eqb_refl. cbn [andb]. lia.
Qed.

(** ** ZERA *)
Section Zera.
Variable w : zview.
Definition z_d (it : zkit) : res bytes := x <- zk_deref w it ;; rd_view (zv_buf w) x.
Lemma z_incr_i it it' : zk_incr w it = Ok it' -> ki_i it < ki_n it -> ki_i it' = ki_i it + 1 /\ ki_n it' = ki_n it.
Proof.
  unfold zk_incr. intros E L. replace (ki_n it <=? ki_i it) with false in E by lia.
  destruct (read_u16_le _ _) as [k|?| |]; cbn [bind] in E; try discriminate E.
  destruct (env_ptr_at _ _ _) as [c|?| |]; cbn [bind] in E; try discriminate E. injection E as <-. cbn [ki_i ki_n]. lia.
Qed.
Lemma z_deref_below it x : zk_deref w it = Ok x -> ki_i it < ki_n it.
Proof. unfold zk_deref. destruct (ki_n it <=? ki_i it) eqn:C; cbn [negb require bind]; [discriminate|lia]. Qed.
Lemma rd_views_app b l1 : forall l2 ks, rd_views b (l1 ++ l2) = Ok ks -> exists k1 k2, ks = k1 ++ k2 /\ rd_views b l2 = Ok k2 /\ length k1 = length l1.
Proof.
  induction l1 as [|x l1 IH]; intros l2 ks E; [exists [], ks; auto|]. cbn [app rd_views] in E.
  destruct (rd_view b x) as [s|?| |]; cbn [bind] in E; try discriminate E.
  destruct (rd_views b (l1 ++ l2)) as [r|?| |] eqn:E2; cbn [bind] in E; try discriminate E. injection E as <-.
  destruct (IH l2 r E2) as (k1 & k2 & -> & A & B). exists (s :: k1), k2. cbn [length app]. auto.
Qed.
Lemma z_loop : forall n it acc it2 out, nloop (R := unit) n (fun s => let '(it, acc) := s in k <- zk_deref w it ;; it' <- zk_incr w it ;; Ok (inl (it', k :: acc))) (it, acc) = Ok (inl (it2, out)) ->
  ki_n it = ki_i it + Z.of_nat n -> exists l, rev out = rev acc ++ l /\ length l = n /\
    (forall ks, rd_views (zv_buf w) l = Ok ks -> chain z_d (zk_incr w) (fun it => ki_i it = ki_n it) it ks /\ length ks = n).
Proof.
  induction n as [|n IH]; intros it acc it2 out E L; cbn [nloop] in E.
  - injection E as <- <-. exists []. rewrite app_nil_r. split; [reflexivity|]. split; [reflexivity|]. intros ks K. cbn in K. injection K as <-. cbn [chain length]. split; [lia|reflexivity].
  - destruct (zk_deref w it) as [k|?| |] eqn:D; cbn [bind] in E; try discriminate E.
    destruct (zk_incr w it) as [it'|?| |] eqn:I1; cbn [bind] in E; try discriminate E.
    pose proof (z_deref_below it k D) as B. destruct (z_incr_i it it' I1 B) as (J1 & J2).
    destruct (IH it' (k :: acc) it2 out E ltac:(lia)) as (l & A1 & A2 & A3). exists (k :: l). cbn [rev] in A1. rewrite <- app_assoc in A1.
    split; [exact A1|]. split; [cbn [length]; lia|]. intros ks K. cbn [rd_views] in K.
    destruct (rd_view (zv_buf w) k) as [s|?| |] eqn:RV; cbn [bind] in K; try discriminate K.
    destruct (rd_views (zv_buf w) l) as [r|?| |] eqn:RVS; cbn [bind] in K; try discriminate K. injection K as <-.
    destruct (A3 r eq_refl) as (C1 & C2). cbn [chain length]. split; [|lia]. split; [lia|]. split; [unfold z_d; rewrite D; cbn [bind]; exact RV|]. eauto.
Qed.
Lemma z_chain ks : r_mapKeys zera_reader w = Ok ks -> exists it, zv_mapKeys w = Ok it /\ ki_i it = 0 /\
  ((0 <= ki_n it -> ki_n it = zlen ks) /\ (ki_n it < 0 -> ks = [])) /\ (0 <= ki_n it -> chain z_d (zk_incr w) (fun it => ki_i it = ki_n it) it ks).
Proof.
  cbn [zera_reader r_mapKeys]. unfold zv_keys. destruct (zv_mapKeys w) as [it|?| |] eqn:M; cbn [bind]; try discriminate. intros E.
  exists it. assert (ki_i it = 0) as I0.
  { unfold zv_mapKeys in M. repeat (match type of M with bind ?m _ = _ => destruct m as [?|?| |]; cbn [bind] in M; try discriminate M end).
    injection M as <-. reflexivity. }
  split; [reflexivity|]. split; [exact I0|].
  destruct (zloop _ _ _) as [[[it2 out]|[]]|?| |] eqn:Z; cbn [bind] in E; try discriminate E; rewrite zloop_nloop in Z.
  - destruct (Z_lt_le_dec (ki_n it) 0) as [N|N].
    + replace (Z.to_nat (ki_n it)) with 0%nat in Z by lia. cbn [nloop] in Z. injection Z as <- <-. cbn in E. injection E as <-.
      split; [split; [lia|auto]|lia].
    + destruct (z_loop _ it [] it2 out Z ltac:(lia)) as (l & A1 & A2 & A3). cbn [rev app] in A1. rewrite A1 in E.
      destruct (A3 ks E) as (C1 & C2). split; [split; [unfold zlen; lia|lia]|auto].
  - exfalso. clear E I0 M. revert Z. generalize (it, @nil (Z * Z)). induction (Z.to_nat (ki_n it)) as [|n IH]; intros s Z; cbn [nloop] in Z; [discriminate Z|].
    destruct s as [i acc]. destruct (zk_deref w i) as [?|?| |]; cbn [bind] in Z; try discriminate Z.
    destruct (zk_incr w i) as [?|?| |]; cbn [bind] in Z; try discriminate Z. exact (IH _ Z).
Qed.
End Zera.
Lemma ok_eq {A} (a x : A) : Ok a = Ok x -> x = a.
Proof. congruence. Qed.
Lemma u32_nonneg b p x : bytes_ok b -> read_u32_le b p = Ok x -> 0 <= x.
Proof.
  intros B. unfold read_u32_le. destruct (rd b p) as [b0|?| |] eqn:E0; cbn [bind]; try discriminate.
  destruct (rd b (p + 1)) as [b1|?| |] eqn:E1; cbn [bind]; try discriminate. destruct (rd b (p + 2)) as [b2|?| |] eqn:E2; cbn [bind]; try discriminate.
  destruct (rd b (p + 3)) as [b3|?| |] eqn:E3; cbn [bind]; try discriminate. intros H. apply ok_eq in H. subst x.
  pose proof (rd_byte b _ _ B E0). pose proof (rd_byte b _ _ B E1). pose proof (rd_byte b _ _ B E2). pose proof (rd_byte b _ _ B E3). unfold is_byte in *.
  repeat (apply Z.lor_nonneg; split); try apply Z.shiftl_nonneg; try lia.
Qed.
Lemma z_count w it : bytes_ok (zv_buf w) -> zv_mapKeys w = Ok it -> 0 <= ki_n it.
Proof.
  intros B M. unfold zv_mapKeys in M. destruct (zv_tag w) as [t|?| |]; cbn [bind] in M; try discriminate M.
  destruct (t =? TObject); cbn [require bind] in M; try discriminate M.
  destruct (require_flags_ok w) as [u|?| |]; cbn [bind] in M; try discriminate M. destruct (zv_a w) as [a|?| |]; cbn [bind] in M; try discriminate M.
  destruct (env_ptr_at w a 4) as [p|?| |]; cbn [bind] in M; try discriminate M.
  destruct (read_u32_le (zv_buf w) p) as [c|?| |] eqn:C; cbn [bind] in M; try discriminate M.
  destruct (env_ptr_at w _ 0) as [e|?| |]; cbn [bind] in M; try discriminate M. injection M as <-. cbn [ki_n]. exact (u32_nonneg _ _ _ B C).
Qed.
Definition z_stop (it : zkit) : Prop := ki_i it = ki_n it.
Lemma z_iter_i w : forall n it it', iter (zk_incr w) n it = Ok it' -> ki_i it + Z.of_nat n <= ki_n it -> ki_i it' = ki_i it + Z.of_nat n /\ ki_n it' = ki_n it.
Proof.
  induction n as [|n IH]; intros it it' E L; cbn [iter] in E; [injection E as <-; lia|].
  destruct (zk_incr w it) as [i1|?| |] eqn:I1; cbn [bind] in E; try discriminate E. destruct (z_incr_i w it i1 I1 ltac:(lia)) as (A & B).
  destruct (IH i1 it' E ltac:(lia)). lia.
Qed.
Definition z_pos (v : nat) (w : zview) (ks : list bytes) (r : nat) (rg : nat * zkit) (n : nat) (it : nat * zkit) : Prop :=
  (n <= length ks)%nat /\ fst it = v /\ fst rg = v /\ ki_i (snd it) = Z.of_nat n /\ ki_n (snd it) = zlen ks /\
  ki_i (snd rg) = 0 /\ ki_n (snd rg) = zlen ks /\ chain (z_d w) (zk_incr w) z_stop (snd rg) ks /\
  ((n < length ks)%nat -> iter (zk_incr w) n (snd rg) = Ok (snd it)).
Theorem zera_iters views p o : (forall v w, views v = Some w -> bytes_ok (zv_buf w)) ->
  kexpect (mkRules true false false) (keys_by zera_reader views) p = Some o -> krun zera_keys (kstart views) p = Ok o.
Proof.
  intros OK. apply program_sim with (pos := z_pos).
  - apply keys_by_view.
  - intros v w ks W K. apply (keys_by_ok _ _ _ _ _ W) in K. destruct (z_chain w ks K) as (it & M & I0 & (N & _) & C).
    pose proof (z_count w it (OK v w W) M) as N0. specialize (N N0). specialize (C N0).
    exists (v, it). cbn [zera_keys kp_keys kp_begin kp_end]. rewrite M. split; [reflexivity|]. intros r. split.
    + exists (v, it). split; [reflexivity|]. unfold z_pos. cbn [fst snd iter]. repeat split; auto. lia.
    + eexists. split; [reflexivity|]. unfold z_pos. cbn [fst snd ki_i ki_n]. unfold zlen in *. repeat split; auto; lia.
  - intros v w ks r [self rg] n [self2 it] t env renv (L & <- & E2 & I1 & I2 & I3 & I4 & C & IT) T HV _. cbn [fst snd] in *. subst self.
    assert (n < length ks)%nat as L2 by (apply nth_error_Some; congruence). specialize (IT L2). specialize (HV eq_refl).
    destruct (chain_at _ _ _ _ _ _ _ C T) as (s1 & s2 & A1 & A2 & A3 & A4 & A5). assert (s1 = it) as -> by congruence.
    cbn [zera_keys kp_deref kp_incr]. unfold zlen in *. replace (ki_n it <=? ki_i it) with false by lia. rewrite HV. split.
    + exists false. split; [|discriminate]. unfold z_d in A2. destruct (zk_deref w it) as [x|?| |]; cbn [bind] in *; try discriminate A2. now rewrite A2.
    + rewrite A3. cbn [bind]. eexists. split; [reflexivity|]. unfold z_pos. cbn [fst snd]. destruct (z_incr_i w it s2 A3 ltac:(lia)) as (B1 & B2).
      unfold zlen in *. repeat split; auto; try lia.
  - intros v w ks r rg n m it it2 (_ & A1 & _ & A2 & A3 & _) (_ & B1 & _ & B2 & B3 & _). cbn [zera_keys kp_eq].
    rewrite A1, A2, A3, B1, B2, B3, Nat.eqb_refl, Z.eqb_refl, andb_true_r. cbn [andb]. lia.
Qed.

(** ** MessagePack *)
Section Msg.
Import MsgModel.
Variables (w : mspan) (c e : Z).
Definition m_d (it : Z * Z) : res bytes := x <- mk_deref w (snd it) ;; rd_view (ms_buf w) x.
Definition m_i (it : Z * Z) : res (Z * Z) := o <- mk_incr w (snd it) ;; Ok (fst it + 1, o).
Definition m_stop (it : Z * Z) : Prop := it = (c, e).
Lemma m_loop : forall n i off acc out, nloop n (fun s => let '(i, off, acc) := s in
            if (i =? c) && (off =? e) then Ok (inr (rev acc)) else
            w0 <- mk_deref w off ;; off' <- mk_incr w off ;; Ok (inl (i + 1, off', w0 :: acc))) (i, off, acc) = Ok (inr out) ->
  exists l, out = rev acc ++ l /\ forall ks, mp_rd_views (ms_buf w) l = Ok ks -> chain m_d m_i m_stop (i, off) ks.
Proof.
  induction n as [|n IH]; intros i off acc out E; cbn [nloop] in E; [discriminate E|].
  destruct ((i =? c) && (off =? e)) eqn:C.
  - cbn [bind] in E. injection E as <-. exists []. rewrite app_nil_r. split; [reflexivity|]. intros ks K. injection K as <-. cbn [chain]. unfold m_stop. f_equal; lia.
  - destruct (mk_deref w off) as [x|?| |] eqn:D; cbn [bind] in E; try discriminate E.
    destruct (mk_incr w off) as [o'|?| |] eqn:I1; cbn [bind] in E; try discriminate E.
    destruct (IH _ _ _ _ E) as (l & A1 & A2). exists (x :: l). cbn [rev] in A1. rewrite <- app_assoc in A1. split; [exact A1|].
    intros ks K. cbn [mp_rd_views] in K. destruct (rd_view (ms_buf w) x) as [s|?| |] eqn:RV; cbn [bind] in K; try discriminate K.
    destruct (mp_rd_views (ms_buf w) l) as [r|?| |] eqn:RVS; cbn [bind] in K; try discriminate K. injection K as <-.
    cbn [chain]. split; [unfold m_stop; intros H; injection H as -> ->; lia|]. split; [unfold m_d; cbn [snd]; rewrite D; exact RV|].
    exists (i + 1, o'). split; [unfold m_i; cbn [fst snd]; rewrite I1; reflexivity|]. now apply A2.
Qed.
Lemma m_iter_i : forall n it it', iter m_i n it = Ok it' -> fst it' = fst it + Z.of_nat n.
Proof.
  induction n as [|n IH]; intros it it' E; cbn [iter] in E; [injection E as <-; lia|].
  unfold m_i at 1 in E. destruct (mk_incr w (snd it)) as [o|?| |]; cbn [bind] in E; try discriminate E. specialize (IH _ _ E). cbn [fst] in IH. lia.
Qed.
End Msg.
Definition m_pos (v : nat) (w : MsgModel.mspan) (ks : list bytes) (r : nat) (rg : MsgModel.mspan * Z * Z) (n : nat) (it : MsgModel.mspan * Z * Z) : Prop :=
  (n <= length ks)%nat /\ fst (fst rg) = w /\ fst (fst it) = w /\ iter (m_i w) n (0, snd rg) = Ok (snd (fst it), snd it) /\
  exists e, chain (m_d w) (m_i w) (m_stop (snd (fst rg)) e) (0, snd rg) ks.
Theorem msgpack_iters views p o :
  kexpect no_rules (keys_by MsgModel.mp_reader views) p = Some o -> krun msgpack_keys (kstart views) p = Ok o.
Proof.
  apply program_sim with (pos := m_pos).
  - apply keys_by_view.
  - intros v w ks W K. apply (keys_by_ok _ _ _ _ _ W) in K. cbn [MsgModel.mp_reader r_mapKeys] in K. unfold MsgModel.mp_keys in K.
    cbn [msgpack_keys kp_keys kp_begin kp_end]. unfold mp_keys_range.
    destruct (MsgModel.mp_is _ w) as [k|?| |]; cbn [bind] in *; try discriminate K. destruct k; cbn [require bind] in *; try discriminate K.
    destruct (MsgModel.map_info w) as [[c off]|?| |]; cbn [bind] in *; try discriminate K.
    destruct (MsgModel.skip_pairs _ w c off) as [e|?| |] eqn:SP; cbn [bind] in K; try discriminate K.
    destruct (zloop _ _ _) as [[?|out]|?| |] eqn:Z; cbn [bind] in K; try discriminate K. rewrite zloop_nloop in Z.
    destruct (m_loop w c e _ _ _ _ _ Z) as (l & A1 & A2). cbn [rev app] in A1. subst out. specialize (A2 ks K).
    exists (w, c, off). split; [reflexivity|]. intros r. split.
    + exists (w, 0, off). split; [reflexivity|]. unfold m_pos. cbn [fst snd iter]. repeat split; eauto. lia.
    + exists (w, c, e). rewrite SP. split; [reflexivity|]. destruct (chain_end _ _ _ _ _ A2) as (s' & E1 & E2). unfold m_stop in E2. subst s'.
      unfold m_pos. cbn [fst snd]. repeat split; eauto.
  - intros v w ks r [[w1 c] off] n [[w2 i] q] t env renv (L & E1 & E2 & IT & e & C) T _ _. cbn [fst snd] in *. subst w1 w2.
    destruct (chain_at _ _ _ _ _ _ _ C T) as (s1 & s2 & A1 & A2 & A3 & A4 & A5). assert (s1 = (i, q)) as -> by congruence.
    assert (n < length ks)%nat as L2 by (apply nth_error_Some; congruence).
    cbn [msgpack_keys kp_deref kp_incr]. split.
    + exists false. split; [|discriminate]. unfold m_d in A2. cbn [snd] in A2. destruct (MsgModel.mk_deref w q) as [x|?| |]; cbn [bind] in *; try discriminate A2. now rewrite A2.
    + unfold m_i in A3. cbn [fst snd] in A3. destruct (MsgModel.mk_incr w q) as [q'|?| |]; cbn [bind] in *; try discriminate A3.
      exists (w, i + 1, q'). split; [reflexivity|]. unfold m_pos. cbn [fst snd]. repeat split; eauto. congruence.
  - intros v w ks r [[w0 c] off] n m [[w1 i] q] [[w2 i2] q2] (L1 & _ & A1 & A2 & _) (L2 & _ & B1 & B2 & _). cbn [fst snd] in *. subst w1 w2.
    cbn [msgpack_keys kp_eq]. rewrite Z.eqb_refl. cbn [andb].
    pose proof (m_iter_i _ _ _ _ A2) as I1. pose proof (m_iter_i _ _ _ _ B2) as I2. cbn [fst] in *.
    destruct (Nat.eqb n m) eqn:E; [apply Nat.eqb_eq in E; subst m; assert (i2 = i /\ q2 = q) as (-> & ->) by (split; congruence); lia|].
    apply Nat.eqb_neq in E. lia.
Qed.

(** ** CBOR *)
Section Cbor.
Import CborModel.
Variables (hard : bool) (fuel : nat) (b : bytes) (indef : bool) (e : Z).
Definition c_d (s : Z * Z) : res bytes := k_deref hard fuel b (fst s).
Definition c_i (s : Z * Z) : res (Z * Z) := k_incr fuel b indef s.
Definition c_stop (s : Z * Z) : Prop := fst s = e.
Lemma c_loop : forall n s acc out, floop n (keys_step hard fuel b indef e) (s, acc) = Ok out ->
  exists l, out = rev acc ++ l /\ chain c_d c_i c_stop s l.
Proof.
  induction n as [|n IH]; intros [q r] acc out E; cbn [floop] in E; [discriminate E|]. unfold keys_step at 1 in E.
  destruct (q =? e) eqn:C.
  - cbn [bind] in E. injection E as <-. exists []. rewrite app_nil_r. split; [reflexivity|]. cbn [chain]. unfold c_stop. cbn [fst]. lia.
  - destruct (k_deref hard fuel b q) as [k|?| |] eqn:D; cbn [bind] in E; try discriminate E.
    destruct (k_incr fuel b indef (q, r)) as [s'|?| |] eqn:I1; cbn [bind] in E; try discriminate E.
    destruct (IH s' (k :: acc) out E) as (l & A1 & A2). exists (k :: l). cbn [rev] in A1. rewrite <- app_assoc in A1. split; [exact A1|].
    cbn [chain]. split; [unfold c_stop; cbn [fst]; lia|]. split; [exact D|]. exists s'. auto.
Qed.
(** An increment that moves the cursor does so as a function of the cursor alone; one that does not is repeated for ever. *)
Definition c_next (q : Z) : res Z := q1 <- k_skip fuel b q ;; k_skip fuel b q1.
Lemma c_i_cases s s' : c_i s = Ok s' -> s' = s \/ c_next (fst s) = Ok (fst s').
Proof.
  destruct s as [q r]. unfold c_i, k_incr, c_next. destruct indef.
  - destruct (rd b q) as [x|?| |]; cbn [bind]; try discriminate. destruct (x =? 255); [intros H; injection H as <-; auto|].
    destruct (k_skip fuel b q) as [q1|?| |] eqn:E1; cbn [bind]; try discriminate. destruct (k_skip fuel b q1) as [q2|?| |] eqn:E2; cbn [bind]; try discriminate.
    intros H. injection H as <-. right. cbn [fst]. rewrite E1. exact E2.
  - destruct (r =? 0); [intros H; injection H as <-; auto|].
    destruct (k_skip fuel b q) as [q1|?| |] eqn:E1; cbn [bind]; try discriminate. destruct (k_skip fuel b q1) as [q2|?| |] eqn:E2; cbn [bind]; try discriminate.
    intros H. injection H as <-. right. cbn [fst]. rewrite E1. exact E2.
Qed.
Lemma c_stuck : forall l s, chain c_d c_i c_stop s l -> c_i s = Ok s -> l = [].
Proof.
  induction l as [|k l IH]; intros s C E; [reflexivity|]. destruct C as (N & _ & s' & E2 & C).
  assert (s' = s) as -> by congruence. rewrite (IH s C E) in C. contradiction.
Qed.
Lemma c_chain_len : forall l1 s1 l2 s2, chain c_d c_i c_stop s1 l1 -> chain c_d c_i c_stop s2 l2 -> fst s1 = fst s2 -> length l1 = length l2.
Proof.
  induction l1 as [|k1 l1 IH]; intros s1 [|k2 l2] s2 C1 C2 E; cbn [chain] in *.
  - reflexivity.
  - destruct C2 as (N & _). unfold c_stop in *. congruence.
  - destruct C1 as (N & _). unfold c_stop in *. congruence.
  - destruct C1 as (N1 & _ & t1 & I1 & C1), C2 as (N2 & _ & t2 & I2 & C2). cbn [length]. f_equal.
    destruct (c_i_cases s1 t1 I1) as [->|J1].
    { pose proof (c_stuck l1 s1 C1 I1) as ->. contradiction. }
    destruct (c_i_cases s2 t2 I2) as [->|J2].
    { pose proof (c_stuck l2 s2 C2 I2) as ->. contradiction. }
    apply (IH t1 l2 t2 C1 C2). rewrite E in J1. congruence.
Qed.
End Cbor.
Definition c_pos (hard : bool) (fuel : nat) (v : nat) (w : CborModel.cview) (ks : list bytes) (r : nat) (rg : CborModel.cview) (n : nat) (it : ckit) : Prop :=
  (n <= length ks)%nat /\ exists h e s0 s, ck_buf it = CborModel.cv_buf w /\ ck_indef it = CborModel.h_indef h /\
  CborModel.k_read_head (CborModel.cv_buf w) (CborModel.cv_pos w) = Ok h /\ CborModel.k_end fuel (CborModel.cv_buf w) (CborModel.cv_pos w) = Ok e /\
  s0 = (CborModel.cv_pos w + CborModel.h_len h, if CborModel.h_indef h then 0 else CborModel.h_val h) /\
  chain (c_d hard fuel (CborModel.cv_buf w)) (c_i fuel (CborModel.cv_buf w) (CborModel.h_indef h)) (c_stop e) s0 ks /\
  iter (c_i fuel (CborModel.cv_buf w) (CborModel.h_indef h)) n s0 = Ok s /\ ck_q it = fst s /\ ((n < length ks)%nat -> ck_rem it = snd s).
(** Every key of the map at [w] is a text string of definite length. *)
Definition c_plain (hard : bool) (fuel : nat) (w : CborModel.cview) (ks : list bytes) : Prop :=
  forall h e n s, CborModel.k_read_head (CborModel.cv_buf w) (CborModel.cv_pos w) = Ok h ->
    chain (c_d hard fuel (CborModel.cv_buf w)) (c_i fuel (CborModel.cv_buf w) (CborModel.h_indef h)) (c_stop e)
      (CborModel.cv_pos w + CborModel.h_len h, if CborModel.h_indef h then 0 else CborModel.h_val h) ks ->
    (n < length ks)%nat ->
    iter (c_i fuel (CborModel.cv_buf w) (CborModel.h_indef h)) n (CborModel.cv_pos w + CborModel.h_len h, if CborModel.h_indef h then 0 else CborModel.h_val h) = Ok s ->
    exists kh, CborModel.k_read_head (CborModel.cv_buf w) (fst s) = Ok kh /\ CborModel.h_major kh = 3 /\ CborModel.h_indef kh = false.
Theorem cbor_iters_gen F hard fuel views p o :
  (need_fresh F = true \/ forall v w ks, views v = Some w -> keys_by (CborModel.cbor_reader hard fuel) views v = Some ks -> c_plain hard fuel w ks) ->
  kexpect F (keys_by (CborModel.cbor_reader hard fuel) views) p = Some o -> krun (cbor_keys hard fuel) (kstart views) p = Ok o.
Proof.
  intros FR. apply program_sim with (pos := fun v w ks r rg n it => c_pos hard fuel v w ks r rg n it /\ (need_fresh F = true \/ c_plain hard fuel w ks)).
  - apply keys_by_view.
  - intros v w ks W K. assert (need_fresh F = true \/ c_plain hard fuel w ks) as FK by (destruct FR as [FR|FR]; [auto|right; exact (FR v w ks W K)]).
    apply (keys_by_ok _ _ _ _ _ W) in K. cbn [CborModel.cbor_reader r_mapKeys] in K. unfold CborModel.c_mapKeys in K.
    cbn [cbor_keys kp_keys kp_begin kp_end].
    destruct (CborModel.chd w) as [h0|?| |]; cbn [bind] in *; try discriminate K.
    destruct (CborModel.h_major h0 =? 5); cbn [require bind] in *; try discriminate K.
    destruct (CborModel.k_read_head (CborModel.cv_buf w) (CborModel.cv_pos w)) as [h|?| |] eqn:H; cbn [bind] in *; try discriminate K.
    destruct (CborModel.k_end fuel (CborModel.cv_buf w) (CborModel.cv_pos w)) as [e|?| |] eqn:KE; cbn [bind] in *; try discriminate K.
    destruct (c_loop _ _ _ _ _ _ _ _ _ K) as (l & A1 & A2). cbn [rev app] in A1. subst l.
    exists w. split; [reflexivity|]. intros r. rewrite H, KE. cbn [bind]. split.
    + eexists. split; [reflexivity|]. split; [|exact FK]. split; [lia|]. exists h, e. eexists. eexists. cbn [ck_buf ck_indef ck_q ck_rem iter].
      repeat (split; [reflexivity || eassumption|]). auto.
    + eexists. split; [reflexivity|]. split; [|exact FK]. split; [lia|]. destruct (chain_end _ _ _ _ _ A2) as (s' & E1 & E2). unfold c_stop in E2.
      exists h, e. eexists. exists s'. cbn [ck_buf ck_indef ck_q ck_rem].
      repeat (split; [reflexivity || eassumption|]). repeat split; auto; lia.
  - intros v w ks r rg n [b q rm ind] t env renv ((L & h & e & s0 & s & E1 & E2 & H & KE & E3 & C & IT & E4 & E5) & FK) T _ _.
    cbn [ck_buf ck_indef ck_q ck_rem] in *. assert (n < length ks)%nat as L2 by (apply nth_error_Some; congruence). specialize (E5 L2). subst b q rm ind.
    destruct (chain_at _ _ _ _ _ _ _ C T) as (s1 & s2 & A1 & A2 & A3 & A4 & A5). assert (s1 = s) as -> by congruence.
    cbn [cbor_keys kp_deref kp_incr ck_buf ck_indef ck_q ck_rem]. split.
    + unfold c_d, CborModel.k_deref in A2. destruct (CborModel.k_read_head (CborModel.cv_buf w) (fst s)) as [kh|?| |] eqn:KH; cbn [bind] in *; try discriminate A2.
      destruct ((CborModel.h_major kh =? 3) && negb (CborModel.h_indef kh)) eqn:KM.
      * exists false. split; [|discriminate]. destruct (CborModel.addr _ _ _) as [a|?| |]; cbn [bind] in *; try discriminate A2. now rewrite A2.
      * exists true. split; [now rewrite A2|]. intros _. destruct FK as [FK|FK]; [exact FK|]. exfalso. subst s0.
        destruct (FK h e n s H C L2 IT) as (kh2 & Q1 & Q2 & Q3). assert (kh2 = kh) as -> by congruence. rewrite Q2, Q3 in KM. discriminate KM.
    + unfold c_i in A3. replace (fst s, snd s) with s by (now destruct s). rewrite A3. cbn [bind]. destruct s2 as [q2 r2].
      eexists. split; [reflexivity|]. split; [|exact FK]. split; [lia|]. exists h, e, s0, (q2, r2). cbn [ck_buf ck_indef ck_q ck_rem fst snd]. auto 15.
  - intros v w ks r rg n m it it2 ((L1 & h & e & s0 & s & E1 & E2 & H & KE & E3 & C & IT & E4 & E5) & _) ((L2 & h2 & e2 & s02 & s2 & F1 & F2 & H2 & KE2 & F3 & C2 & IT2 & F4 & F5) & _).
    assert (h2 = h) as -> by congruence. assert (s02 = s0) as -> by congruence. clear F3 C2.
    cbn [cbor_keys kp_eq]. rewrite E4, F4.
    destruct (chain_iter _ _ _ _ _ _ C L1) as (x1 & X1 & X2). destruct (chain_iter _ _ _ _ _ _ C L2) as (y1 & Y1 & Y2).
    assert (x1 = s) as -> by congruence. assert (y1 = s2) as -> by congruence.
    destruct (Nat.eqb n m) eqn:E; [apply Nat.eqb_eq in E; subst m; assert (s2 = s) as -> by congruence; lia|].
    apply Nat.eqb_neq in E. apply Z.eqb_neq. intros Q.
    pose proof (c_chain_len _ _ _ _ _ _ _ _ _ X2 Y2 Q) as LL. rewrite !skipn_length in LL. lia.
Qed.
Theorem cbor_iters hard fuel views p o :
  kexpect (mkRules false false true) (keys_by (CborModel.cbor_reader hard fuel) views) p = Some o -> krun (cbor_keys hard fuel) (kstart views) p = Ok o.
Proof. apply cbor_iters_gen. now left. Qed.

Section Plain.
Import CborModel CborSpec CborFacts.
Lemma c_keys_plain hard fuel b indef e tl : zlen b < 2^63 -> zlen b < Z.of_nat fuel -> (indef = true -> exists t, tl = 255 :: t) -> forall ks l q r,
  chain (c_d hard fuel b) (c_i fuel b indef) (c_stop e) (q, r) ks -> has b q (flat_map (fun kx => enc (fst kx) ++ enc (snd kx)) l ++ tl) ->
  Forall (fun kx => item_in true (fst kx) /\ item_in true (snd kx)) l -> Forall (fun kx : item * item => exists f s, fst kx = CText f s) l ->
  (indef = false -> r = zlen l) -> forall n s, (n < length ks)%nat -> iter (c_i fuel b indef) n (q, r) = Ok s ->
  exists kh, k_read_head b (fst s) = Ok kh /\ h_major kh = 3 /\ h_indef kh = false.
Proof.
  intros B63 BF TL. induction ks as [|k0 ks IH]; intros l q r C H OK TX R n s N IT; [cbn in N; lia|].
  destruct l as [|[k x] l].
  { exfalso. assert (c_i fuel b indef (q, r) = Ok (q, r)) as ST.
    { unfold c_i, k_incr. destruct indef.
      - destruct (TL eq_refl) as (t & ->). cbn [flat_map app] in H. rewrite (has_rd _ _ _ _ H). reflexivity.
      - rewrite (R eq_refl). reflexivity. }
    pose proof (c_stuck hard fuel b indef e _ _ C ST) as X. discriminate X. }
  apply Forall_cons_iff in OK. destruct OK as ((OK1 & OK2) & OK). apply Forall_cons_iff in TX. destruct TX as ((f & t & ET) & TX). cbn [fst snd] in *.
  cbn [flat_map fst snd] in H. rewrite <- !app_assoc in H. pose proof (proj1 (has_app _ _ _ _) H) as (H1 & H23). pose proof (proj1 (has_app _ _ _ _) H23) as (H2 & H3).
  destruct n as [|n].
  - cbn [iter] in IT. injection IT as <-. cbn [fst]. destruct (item_head k b q OK1 H1) as (_ & HK). rewrite HK. eexists. split; [reflexivity|]. rewrite ET. split; reflexivity.
  - pose proof (has_bound _ _ _ H) as (Q0 & _). pose proof (has_bound _ _ _ H2) as (Q1 & _).
    pose proof (skipper_enc true b B63 k OK1 fuel q H1 ltac:(lia)) as S1. pose proof (skipper_enc true b B63 x OK2 fuel _ H2 ltac:(lia)) as S2. cbn [skipper] in S1, S2.
    assert (c_i fuel b indef (q, r) = Ok (q + zlen (enc k) + zlen (enc x), if indef then r else r - 1)) as E.
    { unfold c_i, k_incr. destruct indef.
      - destruct (enc_first k OK1) as (y & t' & EY & YR). rewrite EY in H1. rewrite (has_rd _ _ _ _ H1). cbn [bind]. replace (y =? 255) with false by lia. rewrite S1. cbn [bind]. rewrite S2. reflexivity.
      - rewrite (R eq_refl). pose proof (zlen_nonneg l). rewrite zlen_cons. replace (1 + zlen l =? 0) with false by lia. rewrite S1. cbn [bind]. rewrite S2. cbn [bind]. reflexivity. }
    cbn [iter] in IT. rewrite E in IT. cbn [bind] in IT. destruct C as (_ & _ & s2 & E2 & C). assert (s2 = (q + zlen (enc k) + zlen (enc x), if indef then r else r - 1)) as -> by congruence.
    refine (IH l _ _ C H3 OK TX _ n s _ IT); [|cbn [length] in N; lia]. intros ->. rewrite (R eq_refl), zlen_cons. lia.
Qed.
Theorem cbor_plain_iters hard fuel views p o :
  (forall v w, views v = Some w -> zlen (cv_buf w) < 2^63 /\ zlen (cv_buf w) < Z.of_nat fuel /\
    exists it, item_ok it /\ text_keyed it /\ has (cv_buf w) (cv_pos w) (enc it)) ->
  kexpect no_rules (keys_by (cbor_reader hard fuel) views) p = Some o -> krun (cbor_keys hard fuel) (kstart views) p = Ok o.
Proof.
  intros HV. apply cbor_iters_gen. right. intros v w ks W K h e n s HD C N IT. destruct (HV v w W) as (B1 & B2 & it & OK & TK & H).
  destruct (item_head it _ _ OK H) as (_ & HK). assert (h = hd_of it) as -> by congruence.
  destruct it; try contradiction; cbn [hd_of h_indef h_val h_len enc text_keyed] in *; unfold item_ok in OK.
  - apply item_in_map in OK. destruct OK as (CAP & OK). pose proof (proj1 (has_app _ _ _ _) H) as (_ & H2). rewrite zlen_hdr in H2.
    rewrite <- (app_nil_r (flat_map _ l)) in H2.
    refine (c_keys_plain hard fuel (cv_buf w) false e [] B1 B2 _ ks l _ _ C H2 OK TK _ n s N IT); [discriminate|reflexivity].
  - apply item_in_mapI in OK. cbn [app] in H. apply has_cons in H. destruct H as (_ & H).
    refine (c_keys_plain hard fuel (cv_buf w) true e [255] B1 B2 _ ks l _ _ C H OK TK _ n s N IT); [eauto|discriminate].
Qed.
End Plain.
