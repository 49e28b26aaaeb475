(** SizeCbor.v -- what a CBOR view says is no bigger than the rest of the buffer, nor than what skip() passes over. *)

From Coq Require Import ZArith List Bool Lia ZifyBool ZifyNat Permutation.
From Verif Require Import Base BaseFacts Spec SpecFacts CborModel CborSpec CborFacts CborRead CborSafe LookCbor SaysSpec SaysFacts TransSpec SizeSpec.
Import ListNotations.
Open Scope Z_scope.

Lemma total_perm {A} (f : A -> Z) l l' : Permutation l l' -> total f l = total f l'.
Proof. induction 1; unfold total in *; cbn [fold_right]; lia. Qed.
Lemma skip_same b f f' q e e' : skip f b q = Ok e -> skip f' b q = Ok e' -> e = e'.
Proof.
  intros H H'. apply (skip_mono b f (Nat.max f f')) in H; [|lia]. apply (skip_mono b f' (Nat.max f f')) in H'; [|lia]. congruence.
Qed.
Lemma floop_step {S R} n (f : S -> res (S + R)) s r : floop n f s = Ok r -> f s = Ok (inr r) \/ exists s' m, f s = Ok (inl s') /\ floop m f s' = Ok r.
Proof.
  destruct n as [|n]; [discriminate|]. rewrite floop_S. destruct (f s) as [[s'|r']| | |] eqn:E; cbn [bind]; try discriminate.
  - right. eauto.
  - intros [= ->]. now left.
Qed.

Section Buf.
  Variable b : bytes.
  Hypothesis B : bytes_ok b.
  Hypothesis HB : zlen b < 2^63.
  Hypothesis NH : no_huge b.
  Variable F : nat.
  Hypothesis HF : zlen b < Z.of_nat F.
  Variable hard : bool.
  Local Notation R := (cbor_reader hard F).
  Local Notation at_ p := (mkCView b p).

  Lemma skip_gt f q e : 0 <= q -> skip f b q = Ok e -> q < e <= zlen b.
  Proof.
    intros Q E. apply (skip_mono b f (Nat.max f F)) in E; [|lia]. apply (skip_on b B HB NH (Nat.max f F) ltac:(lia) q e Q E).
  Qed.
  Lemma head_in q h : 0 <= q -> read_head b q = Ok h -> 1 <= h_len h /\ q + h_len h <= zlen b /\ 0 <= h_val h.
  Proof. intros Q E. pose proof (out_head true true b q B Q) as O. rewrite E in O. destruct O as (H1 & H2 & H3 & _). lia. Qed.

  (** ** Positions *)
  Definition chain (i : nat) (q q' : Z) : Prop := Nat.iter i (fun r => bind r (skip F b)) (Ok q) = Ok q'.
  Lemma chain_next i q q' q'' : chain i q q' -> chain (S i) q q'' -> skip F b q' = Ok q''.
  Proof. unfold chain. change (Nat.iter (S i) ?f ?x) with (f (Nat.iter i f x)). intros ->. exact (fun H => H). Qed.
  Lemma chain_S i q q' q'' : chain i q q' -> skip F b q' = Ok q'' -> chain (S i) q q''.
  Proof. unfold chain. change (Nat.iter (S i) ?f ?x) with (f (Nat.iter i f x)). intros ->. exact (fun H => H). Qed.
  Lemma chain_fun i q q' q'' : chain i q q' -> chain i q q'' -> q' = q''.
  Proof. unfold chain. congruence. Qed.
  Lemma times_chain i q q' : times i (skip F b) q = Ok q' -> chain (Z.to_nat i) q q'.
  Proof.
    unfold times. rewrite zloop_nloop. generalize (Z.to_nat i) as n. clear i. intros n. revert q'. induction n as [|n IH]; intros q' H.
    - cbn in H. injection H as <-. reflexivity.
    - replace (S n) with (n + 1)%nat in H by lia. rewrite nloop_add in H. destruct (nloop n _ q) as [[m|[]]| | |] eqn:E in H; cbn [bind] in H; try discriminate H.
      cbn [nloop] in H. destruct (skip F b m) as [e| | |] eqn:E2; cbn [bind] in H; try discriminate H. injection H as <-.
      apply (chain_S n q m e); [|exact E2]. apply IH. rewrite E. reflexivity.
  Qed.
  Definition unbroken (q : Z) : Prop := exists x, rd b q = Ok x /\ (x =? 255) = false.
  Lemma idx_chain_ind j q0 : forall g q i c, 0 <= i -> chain (Z.to_nat i) q0 q -> floop g (idx_step F b j) (q, i) = Ok (Some c) ->
    exists q', c = at_ q' /\ chain (Z.to_nat j) q0 q' /\ unbroken q'.
  Proof.
    induction g as [|g IH]; intros q i c HI C H; [discriminate H|]. rewrite floop_S in H. unfold idx_step at 1 in H.
    destruct (q <? zlen b); cbn [require bind] in H; [|discriminate H]. destruct (rd b q) as [x| | |] eqn:RX; cbn [bind] in H; try discriminate H.
    destruct (x =? 255) eqn:X; [discriminate H|]. destruct (i =? j) eqn:IJ.
    - apply Z.eqb_eq in IJ. subst i. cbn [bind] in H. injection H as <-. exists q. split; [reflexivity|]. split; [exact C|]. exists x. auto.
    - destruct (skip F b q) as [q1| | |] eqn:SK; cbn [bind] in H; try discriminate H. apply (IH q1 (i + 1) c ltac:(lia)); [|exact H].
      replace (Z.to_nat (i + 1)) with (S (Z.to_nat i)) by lia. exact (chain_S _ _ _ _ C SK).
  Qed.
  Lemma idx_chain p h i c : read_head b p = Ok h -> c_idx F (at_ p) i = Ok c ->
    exists q, c = at_ q /\ chain (Z.to_nat i) (p + h_len h) q /\ (h_indef h = true -> unbroken q).
  Proof.
    intros RH E. unfold c_idx, chd in E. cbn [cv_buf cv_pos] in E. rewrite RH in E. cbn [bind] in E. destruct (h_major h =? 4); cbn [require bind] in E; [|discriminate E].
    destruct (h_indef h); cbn [negb] in E.
    - destruct (floop F (idx_step F b i) (p + h_len h, 0)) as [[c'|]| | |] eqn:FL; cbn [bind] in E; try discriminate E. injection E as ->.
      destruct (idx_chain_ind i (p + h_len h) F (p + h_len h) 0 c ltac:(lia) eq_refl FL) as (q & -> & C & U). eauto.
    - destruct (h_val h <=? i); [discriminate E|]. destruct (times i (skip F b) (p + h_len h)) as [q| | |] eqn:T; cbn [bind] in E; try discriminate E. injection E as <-.
      exists q. split; [reflexivity|]. split; [now apply times_chain|discriminate].
  Qed.

  (** ** Texts *)
  Lemma view_bound m p s : 0 <= p -> (w <- c_view hard m (at_ p) ;; rd_view b w) = Ok s -> m = 2 \/ m = 3 -> p + (1 + zlen s) <= zlen b /\
    forall f e, skip f b p = Ok e -> p + (1 + zlen s) <= e.
  Proof.
    intros P E M. unfold c_view, chd in E. cbn [cv_buf cv_pos] in E. destruct (read_head b p) as [h| | |] eqn:RH; cbn [bind] in E; try discriminate E.
    destruct (head_in p h P RH) as (H1 & H2 & H3). destruct (h_major h =? m) eqn:HM; cbn [require bind] in E; [|discriminate E]. destruct (h_indef h) eqn:ID; cbn [negb require bind] in E; [discriminate E|].
    destruct (_ <=? zlen b) eqn:LE in E; cbn [require bind] in E; [|discriminate E]. destruct (addr hard b (p + h_len h)) as [a| | |] eqn:AD; cbn [bind] in E; try discriminate E.
    assert (AE : a = p + h_len h). { unfold addr in AD. destruct (_ <? _) in AD; [congruence|]. destruct (_ && _) in AD; congruence. }
    unfold rd_view in E. cbn [fst snd] in E. destruct (_ && _) eqn:W in E; [|discriminate E]. assert (L : zlen s = h_val h) by (injection E as <-; apply zlen_slice; lia). clear E.
    split; [lia|]. intros [|f] e SK; [discriminate SK|]. rewrite skip_S, RH in SK. cbn [bind] in SK. cbv zeta in SK.
    replace ((h_major h =? 0) || (h_major h =? 1)) with false in SK by lia. replace ((h_major h =? 2) || (h_major h =? 3)) with true in SK by lia. rewrite ID in SK. cbn [negb] in SK.
    rewrite LE in SK. cbn [require bind] in SK. injection SK as <-. rewrite wrap64_small by lia. lia.
  Qed.
  Lemma chunks_bound : forall g q out k, 0 <= q -> floop g (str_chunk hard b) (q, out) = Ok k -> forall g' e, floop g' (skip_chunk b 3) q = Ok e -> zlen k - zlen out <= e - q - 1.
  Proof.
    induction g as [|g IH]; intros q out k Q H g' e H'; [discriminate H|]. destruct g' as [|g']; [discriminate H'|]. rewrite floop_S in H. rewrite floop_S in H'. unfold str_chunk at 1 in H. unfold skip_chunk at 1 in H'.
    destruct (q <? zlen b) eqn:QL; cbn [require bind] in H, H'; [|discriminate H]. destruct (rd b q) as [x| | |] eqn:RX; cbn [bind] in H, H'; try discriminate H.
    destruct (x =? 255).
    { cbn [bind] in H, H'. assert (E1 : out = k) by congruence. assert (E2 : q + 1 = e) by congruence. subst. lia. }
    destruct (read_head b q) as [h| | |] eqn:RH; cbn [bind] in H, H'; try discriminate H. destruct (head_in q h Q RH) as (H1 & H2 & H3).
    destruct ((h_major h =? 3) && negb (h_indef h)) eqn:M; cbn [require bind] in H; [|discriminate H]. apply andb_prop in M. destruct M as [M I]. rewrite M, I in H'. cbn [require bind] in H'.
    destruct (_ <=? zlen b) eqn:LE in H; cbn [require bind] in H; [|discriminate H]. destruct (addr hard b (q + h_len h)) as [a| | |] eqn:AD; cbn [bind] in H; try discriminate H.
    assert (AE : a = q + h_len h). { unfold addr in AD. destruct (_ <? _) in AD; [congruence|]. destruct (_ && _) in AD; congruence. }
    unfold mk_string in H. destruct (i64_max <? h_val h); [discriminate H|]. destruct (rd_view b (a, h_val h)) as [t| | |] eqn:RV; cbn [bind] in H; try discriminate H.
    unfold rd_view in RV. cbn [fst snd] in RV. destruct (_ && _) eqn:W in RV; [|discriminate RV]. assert (L : zlen t = h_val h) by (injection RV as <-; apply zlen_slice; lia). clear RV.
    rewrite (wrap64_small (h_len h + h_val h)) in H' by lia. rewrite wrap64_small in H' by lia. rewrite wrap64_small in H by lia. replace (q + (h_len h + h_val h)) with (q + h_len h + h_val h) in H' by lia.
    pose proof (IH (q + h_len h + h_val h) (out ++ t) k ltac:(lia) H g' e H') as K. rewrite zlen_app in K. lia.
  Qed.
  Lemma key_bound q k f e : 0 <= q -> c_asString hard F (at_ q) = Ok k -> skip f b q = Ok e -> q + (1 + zlen k) <= e.
  Proof.
    intros Q A SK. destruct f as [|f]; [discriminate SK|]. rewrite skip_S in SK. unfold c_asString, chd in A. cbn [cv_buf cv_pos] in A.
    destruct (read_head b q) as [h| | |] eqn:RH; cbn [bind] in A, SK; try discriminate A. destruct (head_in q h Q RH) as (H1 & H2 & H3). cbv zeta in SK.
    destruct (h_major h =? 3) eqn:M; cbn [require bind] in A; [|discriminate A]. apply Z.eqb_eq in M. rewrite M in SK. cbn [Z.eqb Pos.eqb orb] in SK.
    destruct (h_indef h); cbn [negb] in A, SK.
    - pose proof (chunks_bound F (q + h_len h) [] k ltac:(lia) A f e SK) as K. change (zlen []) with 0 in K. lia.
    - destruct (_ <=? zlen b) eqn:LE in A; cbn [require bind] in A; [|discriminate A]. rewrite LE in SK. cbn [require bind] in SK.
      destruct (addr hard b (q + h_len h)) as [a| | |] eqn:AD; cbn [bind] in A; try discriminate A.
      assert (AE : a = q + h_len h). { unfold addr in AD. destruct (_ <? _) in AD; [congruence|]. destruct (_ && _) in AD; congruence. }
      unfold mk_string in A. destruct (i64_max <? h_val h); [discriminate A|]. unfold rd_view in A. cbn [fst snd] in A. destruct (_ && _) eqn:W in A; [|discriminate A].
      assert (L : zlen k = h_val h) by (injection A as <-; apply zlen_slice; lia). clear A. rewrite wrap64_small in SK by lia. assert (e = q + h_len h + h_val h) by congruence. lia.
  Qed.

  (** ** Both bounds together *)
  Definition fits (p n : Z) : Prop := p + n <= zlen b /\ forall f e, skip f b p = Ok e -> p + n <= e.
  Definition small (x : val) : Prop := forall p, 0 <= p -> distinct_keys x -> says R (at_ p) x -> fits p (weight x).

  Lemma elems_end p h q0 : read_head b p = Ok h -> q0 = p + h_len h -> 0 <= q0 -> forall l, Forall small l -> Forall distinct_keys l -> forall i q, 0 <= i -> chain (Z.to_nat i) q0 q -> 0 <= q ->
    says_elems R (at_ p) i l -> l = [] \/ q + total weight l <= zlen b.
  Proof.
    intros RH EQ Q0. induction 1 as [|x l SX _ IH]; intros D i q HI C Q SA; [now left|]. right. apply Forall_cons_iff in D. destruct D as [DX DL].
    cbn [says_elems] in SA. destruct SA as ((c & EI & SC) & SA). cbn [r_idx cbor_reader] in EI. destruct (idx_chain p h i c RH EI) as (q1 & -> & C1 & _). rewrite <- EQ in C1.
    pose proof (chain_fun _ _ _ _ C C1) as <-. destruct (SX q Q DX SC) as [L1 L2]. destruct l as [|y l].
    - unfold total. cbn [fold_right]. lia.
    - assert (SA' := SA). cbn [says_elems] in SA. destruct SA as ((c' & EI' & _) & _). cbn [r_idx cbor_reader] in EI'. destruct (idx_chain p h (i + 1) c' RH EI') as (q' & -> & C' & _). rewrite <- EQ in C'.
      replace (Z.to_nat (i + 1)) with (S (Z.to_nat i)) in C' by lia. pose proof (chain_next _ _ _ _ C C') as SK. specialize (L2 F q' SK). pose proof (skip_gt _ _ _ Q SK).
      destruct (IH DL (i + 1) q' ltac:(lia) ltac:(replace (Z.to_nat (i + 1)) with (S (Z.to_nat i)) by lia; exact C') ltac:(lia) SA') as [E|K]; [discriminate E|].
      unfold total in *. cbn [fold_right] in *. lia.
  Qed.
  Lemma elems_times p h q0 f : read_head b p = Ok h -> q0 = p + h_len h -> 0 <= q0 -> forall l, Forall small l -> Forall distinct_keys l -> forall i q e, 0 <= i -> chain (Z.to_nat i) q0 q -> 0 <= q ->
    says_elems R (at_ p) i l -> times (zlen l) (skip f b) q = Ok e -> q + total weight l <= e.
  Proof.
    intros RH EQ Q0. induction 1 as [|x l SX _ IH]; intros D i q e HI C Q SA T; [change (zlen []) with 0 in T; cbn in T; assert (q = e) by congruence; unfold total; cbn [fold_right]; lia|].
    apply Forall_cons_iff in D. destruct D as [DX DL].
    cbn [says_elems] in SA. destruct SA as ((c & EI & SC) & SA). cbn [r_idx cbor_reader] in EI. destruct (idx_chain p h i c RH EI) as (q1 & -> & C1 & _). rewrite <- EQ in C1.
    pose proof (chain_fun _ _ _ _ C C1) as <-. destruct (SX q Q DX SC) as [L1 L2]. pose proof (zlen_nonneg l) as ZL.
    assert (TN : exists q', skip f b q = Ok q' /\ times (zlen l) (skip f b) q' = Ok e).
    { unfold times in *. rewrite zloop_nloop in T. rewrite zlen_cons in T. replace (Z.to_nat (1 + zlen l)) with (S (Z.to_nat (zlen l))) in T by lia. cbn [nloop] in T.
      destruct (skip f b q) as [q'| | |]; cbn [bind] in T; try discriminate T. exists q'. split; [reflexivity|]. rewrite zloop_nloop. exact T. }
    destruct TN as (q' & SK & T'). specialize (L2 f q' SK). pose proof (skip_gt _ _ _ Q SK). destruct l as [|y l].
    - change (zlen []) with 0 in T'. cbn in T'. assert (q' = e) by congruence. unfold total. cbn [fold_right]. lia.
    - assert (SA' := SA). cbn [says_elems] in SA. destruct SA as ((c' & EI' & _) & _). cbn [r_idx cbor_reader] in EI'. destruct (idx_chain p h (i + 1) c' RH EI') as (q2 & -> & C' & _). rewrite <- EQ in C'.
      replace (Z.to_nat (i + 1)) with (S (Z.to_nat i)) in C' by lia. pose proof (chain_next _ _ _ _ C C') as SK'. pose proof (skip_same _ _ _ _ _ _ SK SK') as <-.
      pose proof (IH DL (i + 1) q' e ltac:(lia) ltac:(replace (Z.to_nat (i + 1)) with (S (Z.to_nat i)) by lia; exact C') ltac:(lia) SA' T') as K.
      unfold total in *. cbn [fold_right] in *. lia.
  Qed.
  Lemma until_gt step g : (forall q q', 0 <= q -> step q = Ok q' -> q < q') -> forall q e, 0 <= q -> floop g (skip_until b step) q = Ok e -> q < e.
  Proof.
    intros ST. induction g as [|g IH]; intros q e Q H; [discriminate H|]. rewrite floop_S in H. unfold skip_until at 1 in H.
    destruct (q <? zlen b); cbn [require bind] in H; [|discriminate H]. destruct (rd b q) as [x| | |]; cbn [bind] in H; try discriminate H.
    destruct (x =? 255); [cbn [bind] in H; assert (q + 1 = e) by congruence; lia|]. destruct (step q) as [q'| | |] eqn:E; cbn [bind] in H; try discriminate H.
    pose proof (ST _ _ Q E). pose proof (IH q' e ltac:(lia) H). lia.
  Qed.
  Lemma until_next step q e g : unbroken q -> floop g (skip_until b step) q = Ok e -> exists q' g', step q = Ok q' /\ floop g' (skip_until b step) q' = Ok e.
  Proof.
    intros (x & RX & X) H. destruct g as [|g]; [discriminate H|]. rewrite floop_S in H. unfold skip_until at 1 in H.
    destruct (q <? zlen b); cbn [require bind] in H; [|discriminate H]. rewrite RX in H. cbn [bind] in H. rewrite X in H.
    destruct (step q) as [q'| | |]; cbn [bind] in H; try discriminate H. eauto.
  Qed.
  Lemma elems_until p h q0 f : read_head b p = Ok h -> h_indef h = true -> q0 = p + h_len h -> 0 <= q0 -> forall l, Forall small l -> Forall distinct_keys l -> forall i q e g, 0 <= i -> chain (Z.to_nat i) q0 q -> 0 <= q ->
    says_elems R (at_ p) i l -> floop g (skip_until b (skip f b)) q = Ok e -> q + total weight l <= e.
  Proof.
    intros RH ID EQ Q0. induction 1 as [|x l SX _ IH]; intros D i q e g HI C Q SA T.
    { pose proof (until_gt (skip f b) g (fun q q' H E => proj1 (skip_gt f q q' H E)) q e Q T). unfold total. cbn [fold_right]. lia. }
    apply Forall_cons_iff in D. destruct D as [DX DL].
    cbn [says_elems] in SA. destruct SA as ((c & EI & SC) & SA). cbn [r_idx cbor_reader] in EI. destruct (idx_chain p h i c RH EI) as (q1 & -> & C1 & U). rewrite <- EQ in C1.
    pose proof (chain_fun _ _ _ _ C C1) as <-. destruct (SX q Q DX SC) as [L1 L2]. destruct (until_next _ _ _ _ (U ID) T) as (q' & g' & SK & T').
    specialize (L2 f q' SK). pose proof (skip_gt _ _ _ Q SK). destruct l as [|y l].
    - pose proof (until_gt (skip f b) g' (fun q q' H E => proj1 (skip_gt f q q' H E)) q' e ltac:(lia) T'). unfold total. cbn [fold_right]. lia.
    - assert (SA' := SA). cbn [says_elems] in SA. destruct SA as ((c' & EI' & _) & _). cbn [r_idx cbor_reader] in EI'. destruct (idx_chain p h (i + 1) c' RH EI') as (q2 & -> & C' & _). rewrite <- EQ in C'.
      replace (Z.to_nat (i + 1)) with (S (Z.to_nat i)) in C' by lia. pose proof (chain_next _ _ _ _ C C') as SK'. pose proof (skip_same _ _ _ _ _ _ SK SK') as <-.
      pose proof (IH DL (i + 1) q' e g' ltac:(lia) ltac:(replace (Z.to_nat (i + 1)) with (S (Z.to_nat i)) by lia; exact C') ltac:(lia) SA' T') as K.
      unfold total in *. cbn [fold_right] in *. lia.
  Qed.

  (** ** Entries: distinct keys are found at distinct places. *)
  (** within [n] entries *)
  Inductive found (br : bool) (key : bytes) : nat -> Z -> Z -> Prop :=
  | found_here n q q1 : (br = true -> unbroken q) -> c_asString hard F (at_ q) = Ok key -> skip F b q = Ok q1 -> found br key (S n) q q1
  | found_next n q k q1 q2 c : (br = true -> unbroken q) -> c_asString hard F (at_ q) = Ok k -> k <> key -> skip F b q = Ok q1 -> skip F b q1 = Ok q2 -> found br key n q2 c ->
      found br key (S n) q c.
  Lemma key_found p h k c : read_head b p = Ok h -> c_key hard F (at_ p) k = Ok c ->
    exists q, c = at_ q /\ found (h_indef h) k (if h_indef h then F else Z.to_nat (h_val h)) (p + h_len h) q.
  Proof.
    intros RH E. unfold c_key, chd in E. cbn [cv_buf cv_pos] in E. rewrite RH in E. cbn [bind] in E. destruct (h_major h =? 5); cbn [require bind] in E; [|discriminate E].
    destruct (h_indef h); cbn [negb] in E.
    - destruct (floop F (key_ind hard F b k) (p + h_len h)) as [[c'|]| | |] eqn:FL; cbn [bind] in E; try discriminate E. injection E as ->. revert FL. generalize (p + h_len h) as q.
      assert (X : forall g q, floop g (key_ind hard F b k) q = Ok (Some c) -> exists q', c = at_ q' /\ found true k g q q'); [|exact (X F)].
      induction g as [|g IH]; intros q H; [discriminate H|]. rewrite floop_S in H. unfold key_ind at 1 in H.
      destruct (q <? zlen b); cbn [require bind] in H; [|discriminate H]. destruct (rd b q) as [x| | |] eqn:RX; cbn [bind] in H; try discriminate H.
      destruct (x =? 255) eqn:X; [discriminate H|]. assert (U : true = true -> unbroken q) by (exists x; auto).
      destruct (c_asString hard F (at_ q)) as [t| | |] eqn:AS; cbn [bind] in H; try discriminate H. destruct (skip F b q) as [q1| | |] eqn:S1; cbn [bind] in H; try discriminate H.
      destruct (beq t k) eqn:BE.
      + cbn [bind] in H. apply beq_eq in BE. subst t. exists q1. split; [congruence|]. now apply found_here.
      + destruct (skip F b q1) as [q2| | |] eqn:S2; cbn [bind] in H; try discriminate H. destruct (IH q2 H) as (q' & -> & FO). exists q'. split; [reflexivity|].
        apply (found_next true k g q t q1 q2); auto. intros ->. now rewrite beq_refl in BE.
    - destruct (zloop (h_val h) (key_def hard F b k) (p + h_len h)) as [[?|c']| | |] eqn:FL; cbn [bind] in E; try discriminate E. injection E as ->. revert FL. rewrite zloop_nloop.
      generalize (p + h_len h) as q. generalize (Z.to_nat (h_val h)) as n. induction n as [|n IH]; intros q H; [discriminate H|]. cbn [nloop] in H. unfold key_def at 1 in H.
      destruct (c_asString hard F (at_ q)) as [t| | |] eqn:AS; cbn [bind] in H; try discriminate H. destruct (skip F b q) as [q1| | |] eqn:S1; cbn [bind] in H; try discriminate H.
      assert (U : false = true -> unbroken q) by discriminate. destruct (beq t k) eqn:BE.
      + cbn [bind] in H. apply beq_eq in BE. subst t. exists q1. split; [congruence|]. now apply found_here.
      + destruct (skip F b q1) as [q2| | |] eqn:S2; cbn [bind] in H; try discriminate H. destruct (IH q2 H) as (q' & -> & FO). exists q'. split; [reflexivity|].
        apply (found_next false k n q t q1 q2); auto. intros ->. now rewrite beq_refl in BE.
  Qed.
  Definition cost (kx : bytes * val) : Z := 1 + zlen (fst kx) + weight (snd kx).
  Definition entry (br : bool) (n : nat) (q : Z) (kx : bytes * val) : Prop := exists c, found br (fst kx) n q c /\ fits c (weight (snd kx)).
  Lemma no_entry br q l : Forall (entry br 0 q) l -> l = [].
  Proof. destruct l as [|kx l]; [reflexivity|]. intros H. apply Forall_cons_iff in H. destruct H as [(c & FO & _) _]. inversion FO. Qed.
  (** The first entry can be taken out. *)
  Lemma take_first br n q l : 0 <= q -> NoDup (map fst l) -> Forall (entry br (S n) q) l -> l <> [] ->
    (br = true -> unbroken q) /\ exists q1, skip F b q = Ok q1 /\ q < q1 <= zlen b /\
      (exists l', (l' = l \/ exists kx, Permutation l (kx :: l') /\ q + 1 + zlen (fst kx) <= q1 /\ fits q1 (weight (snd kx))) /\
        NoDup (map fst l') /\ (l' = [] \/ exists q2, skip F b q1 = Ok q2 /\ q1 < q2 <= zlen b /\ Forall (entry br n q2) l')).
  Proof.
    intros Q ND FA NE. assert (ST : (br = true -> unbroken q) /\ exists k q1, c_asString hard F (at_ q) = Ok k /\ skip F b q = Ok q1).
    { destruct l as [|kx l]; [contradiction|]. apply Forall_cons_iff in FA. destruct FA as [(c & FO & _) _]. inversion FO; subst; eauto 10. }
    destruct ST as (U & k & q1 & AS & S1). split; [exact U|]. exists q1. split; [exact S1|]. pose proof (skip_gt _ _ _ Q S1) as G1. split; [exact G1|].
    assert (REST : forall l', incl l' l -> (forall kx, In kx l' -> fst kx <> k) -> l' = [] \/ exists q2, skip F b q1 = Ok q2 /\ q1 < q2 <= zlen b /\ Forall (entry br n q2) l').
    { intros l' IC NK. destruct l' as [|kx0 l0]; [now left|]. right. rewrite Forall_forall in FA.
      assert (S2 : exists q2, skip F b q1 = Ok q2).
      { destruct (FA kx0 (IC _ (or_introl eq_refl))) as (c & FO & _). inversion FO as [? ? ? ? A' ?|? ? k' q1' q2' ? ? A' ? S1' S2' ?]; subst; [|assert (q1' = q1) by congruence; subst; eauto].
        exfalso. apply (NK kx0 (or_introl eq_refl)). congruence. }
      destruct S2 as (q2 & S2). exists q2. split; [exact S2|]. split; [exact (skip_gt F q1 q2 ltac:(lia) S2)|]. rewrite Forall_forall. intros kx IN.
      destruct (FA kx (IC _ IN)) as (c & FO & FI). inversion FO as [? ? ? ? A' ?|? ? k' q1' q2' ? ? A' ? S1' S2' FO']; subst.
      - exfalso. apply (NK kx IN). congruence.
      - assert (q1' = q1) by congruence. subst. assert (q2' = q2) by congruence. subst. exists c. auto. }
    destruct (in_dec (list_eq_dec Z.eq_dec) k (map fst l)) as [IN|NI].
    - apply in_map_iff in IN. destruct IN as ([k' x] & EK & IN). cbn [fst] in EK. subst k'. destruct (in_split _ _ IN) as (l1 & l2 & ->). exists (l1 ++ l2).
      rewrite map_app in ND. cbn [map fst] in ND. pose proof (NoDup_remove_1 _ _ _ ND) as ND1. pose proof (NoDup_remove_2 _ _ _ ND) as ND2. rewrite <- map_app in ND1, ND2. split; [|split; [exact ND1|]].
      + right. exists (k, x). split; [symmetry; apply Permutation_middle|]. cbn [fst snd]. split; [pose proof (key_bound q k F q1 Q AS S1); lia|].
        rewrite Forall_forall in FA. destruct (FA _ IN) as (c & FO & FI). cbn [fst snd] in *. inversion FO as [? ? ? ? A' S1'|? ? k' q1' q2' ? ? A' NK ? ? ?]; subst; [|exfalso; congruence].
        assert (c = q1) by congruence. subst. exact FI.
      + apply REST.
        * intros y HY. apply in_app_iff in HY. apply in_app_iff. cbn. tauto.
        * intros [k' y] HY EY. cbn [fst] in EY. subst k'. apply ND2. exact (in_map fst _ _ HY).
    - exists l. split; [now left|]. split; [exact ND|]. apply REST; [apply incl_refl|]. intros kx IN E. apply NI. rewrite <- E. now apply in_map.
  Qed.
  Lemma entries_end br : forall n l q, 0 <= q -> NoDup (map fst l) -> Forall (entry br n q) l -> l = [] \/ q + total cost l <= zlen b.
  Proof.
    induction n as [|n IH]; intros l q Q ND FA; [left; exact (no_entry _ _ _ FA)|]. destruct l as [|kx0 l0] eqn:EL; [now left|]. right. rewrite <- EL in *. assert (NE : l <> []) by (rewrite EL; discriminate).
    destruct (take_first br n q l Q ND FA NE) as (_ & q1 & S1 & G1 & l' & HL & ND' & RS).
    assert (RS' : l' = [] \/ exists q2, skip F b q1 = Ok q2 /\ q1 < q2 <= zlen b /\ q2 + total cost l' <= zlen b).
    { destruct RS as [->|(q2 & S2 & G2 & FA')]; [now left|]. destruct (IH l' q2 ltac:(lia) ND' FA') as [->|K]; [now left|right; eauto]. }
    destruct HL as [->|(kx & PM & LK & [F1 F2])].
    - destruct RS' as [->|(q2 & S2 & G2 & K)]; [contradiction|lia].
    - rewrite (total_perm cost _ _ PM). unfold total. cbn [fold_right]. fold (total cost l'). unfold cost at 1. destruct RS' as [->|(q2 & S2 & G2 & K)]; [unfold total; cbn [fold_right]; lia|].
      specialize (F2 F q2 S2). lia.
  Qed.
  (** One round of a walk with another [fuel]. *)
  Lemma entries_round br n q q1 q2 f l (P : list (bytes * val) -> Prop) e : 0 <= q -> NoDup (map fst l) -> Forall (entry br (S n) q) l -> l <> [] -> skip f b q = Ok q1 -> skip f b q1 = Ok q2 ->
    (forall l', NoDup (map fst l') -> Forall (entry br n q2) l' -> q2 + total cost l' <= e) -> q + total cost l <= e.
  Proof.
    intros Q ND FA NE S1 S2 K. pose proof (skip_gt _ _ _ Q S1). pose proof (skip_gt f q1 q2 ltac:(lia) S2).
    destruct (take_first br n q l Q ND FA NE) as (_ & q1' & S1' & _ & l' & HL & ND' & RS). pose proof (skip_same _ _ _ _ _ _ S1 S1') as <-.
    assert (RS' : Forall (entry br n q2) l'). { destruct RS as [->|(q2' & S2' & _ & FA')]; [constructor|]. pose proof (skip_same _ _ _ _ _ _ S2 S2') as <-. exact FA'. }
    specialize (K l' ND' RS'). destruct HL as [->|(kx & PM & LK & [F1 F2])]; [lia|].
    rewrite (total_perm cost _ _ PM). unfold total. cbn [fold_right]. fold (total cost l'). unfold cost at 1. specialize (F2 f q2 S2). lia.
  Qed.
  Lemma entries_times f : forall n l q e, 0 <= q -> NoDup (map fst l) -> Forall (entry false n q) l ->
    times (Z.of_nat n) (fun q => q1 <- skip f b q ;; skip f b q1) q = Ok e -> q + total cost l <= e.
  Proof.
    induction n as [|n IH]; intros l q e Q ND FA T.
    - cbn in T. assert (q = e) by congruence. rewrite (no_entry _ _ _ FA). unfold total. cbn [fold_right]. lia.
    - assert (TN : exists q1 q2, skip f b q = Ok q1 /\ skip f b q1 = Ok q2 /\ times (Z.of_nat n) (fun q => q1 <- skip f b q ;; skip f b q1) q2 = Ok e).
      { unfold times in *. rewrite zloop_nloop in T. rewrite Nat2Z.id in T. cbn [nloop] in T.
        destruct (skip f b q) as [q1| | |]; cbn [bind] in T; try discriminate T. destruct (skip f b q1) as [q2| | |] eqn:S2; cbn [bind] in T; try discriminate T. exists q1, q2. split; [reflexivity|]. split; [exact S2|]. rewrite zloop_nloop, Nat2Z.id. exact T. }
      destruct TN as (q1 & q2 & S1 & S2 & T'). pose proof (skip_gt _ _ _ Q S1). pose proof (skip_gt f q1 q2 ltac:(lia) S2).
      destruct l as [|kx0 l0] eqn:EL; [pose proof (IH [] q2 e ltac:(lia) ND (Forall_nil _) T'); unfold total in *; cbn [fold_right] in *; lia|].
      rewrite <- EL in *. apply (entries_round false n q q1 q2 f l (fun _ => True) e Q ND FA ltac:(rewrite EL; discriminate) S1 S2). intros l' ND' FA'. apply IH; [lia|exact ND'|exact FA'|exact T'].
  Qed.
  Lemma entries_until f : forall n l q e g, 0 <= q -> NoDup (map fst l) -> Forall (entry true n q) l ->
    floop g (skip_until b (fun q => q1 <- skip f b q ;; skip f b q1)) q = Ok e -> q + total cost l <= e.
  Proof.
    assert (ST : forall q q', 0 <= q -> (q1 <- skip f b q ;; skip f b q1) = Ok q' -> q < q').
    { intros q q' Q E. destruct (skip f b q) as [q1| | |] eqn:E1; cbn [bind] in E; try discriminate E. pose proof (skip_gt _ _ _ Q E1). pose proof (skip_gt f q1 q' ltac:(lia) E). lia. }
    induction n as [|n IH]; intros l q e g Q ND FA T.
    - rewrite (no_entry _ _ _ FA). pose proof (until_gt _ g ST q e Q T). unfold total. cbn [fold_right]. lia.
    - destruct l as [|kx0 l0] eqn:EL; [pose proof (until_gt _ g ST q e Q T); unfold total; cbn [fold_right]; lia|]. rewrite <- EL in *. assert (NE : l <> []) by (rewrite EL; discriminate).
      destruct (take_first true n q l Q ND FA NE) as (U & _). destruct (until_next _ _ _ _ (U eq_refl) T) as (q2 & g' & S12 & T').
      destruct (skip f b q) as [q1| | |] eqn:S1; cbn [bind] in S12; try discriminate S12. pose proof (skip_gt _ _ _ Q S1). pose proof (skip_gt f q1 q2 ltac:(lia) S12).
      apply (entries_round true n q q1 q2 f l (fun _ => True) e Q ND FA NE S1 S12). intros l' ND' FA'. apply (IH l' q2 e g'); [lia|exact ND'|exact FA'|exact T'].
  Qed.

  Lemma leaf_fits p n : 0 <= p -> first_yes R (at_ p) n -> fits p 1.
  Proof.
    intros P ((q & QE & E) & _). assert (RH : exists h, read_head b p = Ok h).
    { do 9 (destruct n as [|n]; [injection QE as <-; cbn [cbor_reader r_isNull r_isBool r_isInt r_isUInt r_isFloat r_isString r_isBlob r_isMap r_isArray] in E; unfold c_is, chd in E; cbn [cv_buf cv_pos] in E;
        destruct (read_head b p) as [h| | |]; cbn [bind] in E; try discriminate E; eauto|]). destruct n; discriminate QE. }
    destruct RH as (h & RH). destruct (head_in p h P RH). split; [lia|]. intros f e SK. pose proof (skip_gt _ _ _ P SK). lia.
  Qed.
  Theorem says_small : forall x, small x.
  Proof.
    induction x as [| | | | | | |l IH|l IH] using val_ind'; intros p P D SY.
    1: exact (leaf_fits p _ P SY).
    1-4: exact (leaf_fits p _ P (proj1 SY)).
    - exact (view_bound 3 p s P (proj2 SY) (or_intror eq_refl)).
    - exact (view_bound 2 p b0 P (proj2 SY) (or_introl eq_refl)).
    - apply says_arr in SY. destruct SY as (Y & N & SE). apply every_arr in D. destruct D as [_ D]. pose proof (leaf_fits p _ P Y) as [L1 L2].
      cbn [r_arraySize cbor_reader] in N. unfold c_arraySize, chd in N. cbn [cv_buf cv_pos] in N. destruct (read_head b p) as [h| | |] eqn:RH; cbn [bind] in N; try discriminate N.
      destruct (head_in p h P RH) as (H1 & H2 & H3). destruct (h_major h =? 4) eqn:M; cbn [require bind] in N; [|discriminate N]. apply Z.eqb_eq in M. unfold weight. cbn [size]. fold weight. split.
      + destruct (elems_end p h _ RH eq_refl ltac:(lia) l IH D 0 _ ltac:(lia) eq_refl ltac:(lia) SE) as [-> |K]; [exact L1|lia].
      + intros [|f] e SK; [discriminate SK|]. rewrite skip_S, RH in SK. cbn [bind] in SK. cbv zeta in SK. rewrite M in SK. cbn [Z.eqb Pos.eqb orb] in SK. destruct (h_indef h) eqn:ID; cbn [negb] in SK, N.
        * pose proof (elems_until p h _ f RH ID eq_refl ltac:(lia) l IH D 0 _ e f ltac:(lia) eq_refl ltac:(lia) SE SK). lia.
        * assert (EN : h_val h = zlen l) by congruence. rewrite EN in SK. pose proof (elems_times p h _ f RH eq_refl ltac:(lia) l IH D 0 _ e ltac:(lia) eq_refl ltac:(lia) SE SK). lia.
    - apply says_map in SY. destruct SY as (Y & _ & SE). apply every_map in D. destruct D as [ND D]. pose proof (leaf_fits p _ P Y) as [L1 L2].
      assert (RH : exists h, read_head b p = Ok h /\ h_major h = 5).
      { destruct Y as ((q & QE & E) & _). injection QE as <-. cbn [cbor_reader r_isMap] in E. unfold c_is, chd in E. cbn [cv_buf cv_pos] in E.
        destruct (read_head b p) as [h| | |]; cbn [bind] in E; try discriminate E. exists h. split; [reflexivity|]. unfold p_major in E. injection E as E. lia. }
      destruct RH as (h & RH & M). destruct (head_in p h P RH) as (H1 & H2 & H3). unfold weight. cbn [size]. fold weight. change (total (fun kx => 1 + zlen (fst kx) + weight (snd kx)) l) with (total cost l).
      assert (EN : Forall (entry (h_indef h) (if h_indef h then F else Z.to_nat (h_val h)) (p + h_len h)) l).
      { clear ND Y L1 L2. induction l as [|[k x] l IL]; constructor.
        - cbn [says_entries] in SE. destruct SE as ((c & EC & SC) & _). apply Forall_cons_iff in IH. destruct IH as [IX _]. apply Forall_cons_iff in D. destruct D as [DX _].
          cbn [r_key cbor_reader] in EC. destruct (key_found p h k c RH EC) as (q & -> & FO). exists q. cbn [fst snd]. split; [exact FO|].
          assert (0 <= q). { assert (0 <= p + h_len h) as G by lia. clear - FO G B HB NH HF. induction FO as [n q q1 U A S1|n q k' q1 q2 c U A NK S1 S2 FO IF]; [pose proof (skip_gt _ _ _ G S1); lia|].
            apply IF. pose proof (skip_gt _ _ _ G S1). pose proof (skip_gt F q1 q2 ltac:(lia) S2). lia. }
          exact (IX q H DX SC).
        - apply Forall_cons_iff in IH. apply Forall_cons_iff in D. cbn [says_entries] in SE. apply IL; [apply IH|apply D|apply SE]. }
      split.
      + destruct (entries_end _ _ l (p + h_len h) ltac:(lia) ND EN) as [-> |K]; [exact L1|lia].
      + intros [|f] e SK; [discriminate SK|]. rewrite skip_S, RH in SK. cbn [bind] in SK. cbv zeta in SK. rewrite M in SK. cbn [Z.eqb Pos.eqb orb] in SK. destruct (h_indef h); cbn [negb] in SK.
        * pose proof (entries_until f _ l (p + h_len h) e f ltac:(lia) ND EN SK). lia.
        * pose proof (entries_times f (Z.to_nat (h_val h)) l (p + h_len h) e ltac:(lia) ND EN ltac:(rewrite Z2Nat.id by lia; exact SK)). lia.
  Qed.
End Buf.
Theorem cbor_weight hard b x F : bytes_ok b -> zlen b < 2^63 -> no_huge b -> zlen b < Z.of_nat F -> distinct_keys x -> says (cbor_reader hard F) (cb_open b) x -> weight x <= zlen b.
Proof. intros B HB NH HF D SY. exact (proj1 (says_small b B HB NH F HF hard x 0 ltac:(lia) D SY)). Qed.
