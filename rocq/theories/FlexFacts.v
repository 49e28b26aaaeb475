(** FlexFacts.v -- binary search, sorting, round trip. *)

From Coq Require Import ZArith List Bool Permutation Sorted Lia ZifyBool ZifyNat.
From Verif Require Import Base BaseFacts Spec SpecFacts FlexModel FlexSpec.
Import ListNotations.
Open Scope Z_scope.

(** ** The order *)
Lemma lex_refl a : lex a a = Eq.
Proof. induction a; cbn [lex]; [reflexivity|]. now rewrite Z.compare_refl. Qed.
Lemma lex_eq a : forall b, lex a b = Eq -> a = b.
Proof.
  induction a as [|x a IH]; intros [|y b]; cbn [lex]; try discriminate; [reflexivity|]. destruct (x ?= y) eqn:E; try discriminate.
  apply Z.compare_eq in E. intros H. apply IH in H. congruence.
Qed.
Lemma lex_opp a : forall b, lex b a = CompOpp (lex a b).
Proof.
  induction a as [|x a IH]; intros [|y b]; cbn [lex]; try reflexivity. rewrite (Z.compare_antisym x y). destruct (x ?= y); cbn [CompOpp]; auto.
Qed.
Lemma key_lt_trans a : forall b c, key_lt a b -> key_lt b c -> key_lt a c.
Proof.
  unfold key_lt. induction a as [|x a IH]; intros [|y b] [|z c]; cbn [lex]; try discriminate; auto.
  destruct (x ?= y) eqn:E1; try discriminate; destruct (y ?= z) eqn:E2; try discriminate; intros H1 H2.
  - apply Z.compare_eq in E1, E2. subst. rewrite Z.compare_refl. eauto.
  - apply Z.compare_eq in E1. subst. now rewrite E2.
  - apply Z.compare_eq in E2. subst. now rewrite E1.
  - rewrite Z.compare_lt_iff in *. replace (x ?= z) with Lt; [reflexivity|]. symmetry. rewrite Z.compare_lt_iff. lia.
Qed.
Lemma key_lt_irrefl a : ~ key_lt a a.
Proof. unfold key_lt. rewrite lex_refl. discriminate. Qed.
Lemma le_lt a b : key_le a b -> a <> b -> key_lt a b.
Proof. unfold key_le, key_lt. intros H N. destruct (lex a b) eqn:E; [apply lex_eq in E|reflexivity|]; congruence. Qed.
Lemma le_trans a b c : key_le a b -> key_le b c -> key_le a c.
Proof.
  intros H1 H2. destruct (lex a b) eqn:E1; [apply lex_eq in E1; now subst| |now destruct H1].
  destruct (lex b c) eqn:E2; [apply lex_eq in E2; now subst| |now destruct H2]. pose proof (key_lt_trans a b c E1 E2) as H. unfold key_le. rewrite H. discriminate.
Qed.
Lemma le_total a b : lex a b = Gt -> key_le b a.
Proof. intros H. unfold key_le. rewrite lex_opp, H. discriminate. Qed.

(** ** memcmp and lengths *)
Lemma memcmp_lex a : forall b n, n = Z.to_nat (if zlen a <? zlen b then zlen a else zlen b) ->
  match lex a b with
  | Lt => memcmp a b n < 0 \/ memcmp a b n = 0 /\ zlen a < zlen b
  | Gt => 0 < memcmp a b n \/ memcmp a b n = 0 /\ zlen b < zlen a
  | Eq => memcmp a b n = 0 /\ zlen a = zlen b
  end.
Proof.
  induction a as [|x a IH]; intros [|y b] n ->.
  - cbn. lia.
  - cbn [lex]. replace (Z.to_nat _) with O by (pose proof (zlen_nonneg (y :: b)); destruct (_ <? _) eqn:E; cbn in *; lia). right. rewrite zlen_cons. pose proof (zlen_nonneg b).
    change (zlen []) with 0. cbn [memcmp]. lia.
  - cbn [lex]. replace (Z.to_nat _) with O by (pose proof (zlen_nonneg (x :: a)); destruct (_ <? _) eqn:E; cbn in *; lia). right. rewrite zlen_cons. pose proof (zlen_nonneg a).
    change (zlen []) with 0. cbn [memcmp]. lia.
  - rewrite !zlen_cons. pose proof (zlen_nonneg a). pose proof (zlen_nonneg b).
    replace (Z.to_nat _) with (S (Z.to_nat (if zlen a <? zlen b then zlen a else zlen b))) by (destruct (zlen a <? zlen b) eqn:E1, (1 + zlen a <? 1 + zlen b) eqn:E2; lia).
    cbn [lex memcmp]. specialize (IH b _ eq_refl). destruct (Z.compare_spec x y) as [E|E|E].
    + subst. rewrite Z.ltb_irrefl. destruct (lex a b); lia.
    + replace (x <? y) with true by lia. lia.
    + replace (x <? y) with false by lia. replace (y <? x) with true by lia. lia.
Qed.

(** ** Binary search *)
Lemma get_range {A} (l : list A) i : 0 <= i < zlen l -> exists x, get l i = Some x.
Proof.
  intros H. unfold get. replace ((0 <=? i) && (i <? zlen l)) with true by lia. destruct (nth_error l (Z.to_nat i)) eqn:E; [eauto|].
  apply nth_error_None in E. unfold zlen in H. lia.
Qed.
Lemma get_bound {A} (l : list A) i x : get l i = Some x -> 0 <= i < zlen l.
Proof. unfold get. destruct (_ && _) eqn:E; [lia|discriminate]. Qed.
Lemma get_ordered ks : ordered ks -> forall i j a b, i < j -> get ks i = Some a -> get ks j = Some b -> key_lt a b.
Proof.
  induction 1 as [|k ks S IH F]; intros i j a b L A B.
  - apply get_bound in A. change (zlen (@nil bytes)) with 0 in A. lia.
  - pose proof (get_bound _ _ _ A) as A1. pose proof (get_bound _ _ _ B) as B1. unfold get in A, B. rewrite zlen_cons in *.
    replace ((0 <=? i) && _) with true in A by lia. replace ((0 <=? j) && _) with true in B by lia.
    assert (J : get ks (j - 1) = Some b).
    { unfold get. replace ((0 <=? j - 1) && _) with true by lia. replace (Z.to_nat j) with (Datatypes.S (Z.to_nat (j - 1))) in B by lia. exact B. }
    destruct (Z.eq_dec i 0) as [->|N].
    + injection A as <-. rewrite Forall_forall in F. apply F. unfold get in J. destruct (_ && _); [|discriminate]. now apply nth_error_In in J.
    + apply (IH (i - 1) (j - 1) a b ltac:(lia)); [|exact J]. unfold get. replace ((0 <=? i - 1) && _) with true by lia.
      replace (Z.to_nat i) with (Datatypes.S (Z.to_nat (i - 1))) in A by lia. exact A.
Qed.
Lemma search_spec ks key : ordered ks -> zlen ks < 2^63 -> forall f lo hi,
  0 <= lo <= hi -> hi <= zlen ks -> hi - lo < 2 ^ Z.of_nat f ->
  (forall i k, get ks i = Some k -> i < lo -> key_lt k key) -> (forall i k, get ks i = Some k -> hi <= i -> key_lt key k) ->
  (exists i, x_search (S f) ks key lo hi = Ok (Some i) /\ get ks i = Some key) \/
  (x_search (S f) ks key lo hi = Ok None /\ ~ In key ks).
Proof.
  intros S LEN. induction f as [|f IH]; intros lo hi L H M LO HI.
  - assert (lo = hi) by (change (2 ^ Z.of_nat 0) with 1 in M; lia). subst. right. cbn [x_search]. rewrite Z.ltb_irrefl. split; [reflexivity|].
    intros I. apply In_nth_error in I. destruct I as [n I]. assert (G : get ks (Z.of_nat n) = Some key).
    { unfold get. assert (n < length ks)%nat by (apply nth_error_Some; congruence). unfold zlen. replace ((0 <=? _) && _) with true by lia. now rewrite Nat2Z.id. }
    destruct (Z_lt_ge_dec (Z.of_nat n) hi); [apply (key_lt_irrefl key (LO _ _ G ltac:(lia)))|apply (key_lt_irrefl key (HI _ _ G ltac:(lia)))].
  - rewrite Nat2Z.inj_succ, Z.pow_succ_r in M by lia. cbn [x_search]. destruct (lo <? hi) eqn:E.
    2: { right. split; [reflexivity|]. assert (lo = hi) by lia. subst. intros I. apply In_nth_error in I. destruct I as [n I]. assert (G : get ks (Z.of_nat n) = Some key).
         { unfold get. assert (n < length ks)%nat by (apply nth_error_Some; congruence). unfold zlen. replace ((0 <=? _) && _) with true by lia. now rewrite Nat2Z.id. }
         destruct (Z_lt_ge_dec (Z.of_nat n) hi); [apply (key_lt_irrefl key (LO _ _ G ltac:(lia)))|apply (key_lt_irrefl key (HI _ _ G ltac:(lia)))]. }
    cbv zeta. assert (MID : wrap64 (lo + hi) / 2 = (lo + hi) / 2) by (unfold wrap64; rewrite Z.mod_small by (clear - L H LEN; lia); reflexivity).
    set (mid := wrap64 (lo + hi) / 2) in *. assert (B : lo <= mid < hi) by (rewrite MID; clear - E L; split; [apply Z.div_le_lower_bound; lia|apply Z.div_lt_upper_bound; lia]).
    assert (D : mid - lo <= hi - mid - 1 \/ mid - lo = hi - mid) by (rewrite MID; clear - E L; pose proof (Z.div_mod (lo + hi) 2 ltac:(lia)); pose proof (Z.mod_pos_bound (lo + hi) 2 ltac:(lia)); lia).
    assert (D1 : mid - lo < 2 ^ Z.of_nat f /\ hi - (mid + 1) < 2 ^ Z.of_nat f).
    { rewrite MID. clear - E L M. pose proof (Z.div_mod (lo + hi) 2 ltac:(lia)). pose proof (Z.mod_pos_bound (lo + hi) 2 ltac:(lia)). lia. }
    destruct (get_range ks mid ltac:(lia)) as [k G]. unfold key_at. rewrite G.
    pose proof (memcmp_lex k key _ eq_refl) as C. set (c := memcmp k key _) in *.
    assert (UP : key_lt k key -> forall i k', get ks i = Some k' -> i < mid + 1 -> key_lt k' key).
    { intros Lk i k' Gi Li. destruct (Z.eq_dec i mid) as [->|N]; [congruence|]. eapply key_lt_trans; [|exact Lk]. apply (get_ordered ks S i mid); auto. lia. }
    assert (DOWN : lex k key = Gt -> forall i k', get ks i = Some k' -> mid <= i -> key_lt key k').
    { intros Gk i k' Gi Li. assert (KK : key_lt key k) by (unfold key_lt; rewrite lex_opp, Gk; reflexivity).
      destruct (Z.eq_dec i mid) as [->|N]; [congruence|]. eapply key_lt_trans; [exact KK|]. apply (get_ordered ks S mid i); auto. lia. }
    destruct (lex k key) eqn:LX.
    + destruct C as [C1 C2]. replace (c <? 0) with false by (clear - C1; lia). replace (0 <? c) with false by (clear - C1; lia).
      replace (zlen k <? zlen key) with false by (clear - C2; lia). replace (zlen key <? zlen k) with false by (clear - C2; lia).
      left. exists mid. apply lex_eq in LX. subst. auto.
    + specialize (UP LX). destruct (IH (mid + 1) hi ltac:(lia) H ltac:(lia) UP HI) as [R|R];
        (destruct C as [C|[C1 C2]];
         [replace (c <? 0) with true by (clear - C; lia); auto|
          replace (c <? 0) with false by (clear - C1; lia); replace (0 <? c) with false by (clear - C1; lia); replace (zlen k <? zlen key) with true by (clear - C2; lia); auto]).
    + specialize (DOWN eq_refl). destruct (IH lo mid ltac:(lia) ltac:(lia) ltac:(lia) LO DOWN) as [R|R];
        (destruct C as [C|[C1 C2]];
         [replace (c <? 0) with false by (clear - C; lia); replace (0 <? c) with true by (clear - C; lia); auto|
          replace (c <? 0) with false by (clear - C1; lia); replace (0 <? c) with false by (clear - C1; lia); replace (zlen k <? zlen key) with false by (clear - C2; lia);
          replace (zlen key <? zlen k) with true by (clear - C2; lia); auto]).
Qed.
Lemma search_exact fuel ks key : ordered ks -> zlen ks < 2^63 -> (64 <= fuel)%nat ->
  (exists i, x_search fuel ks key 0 (zlen ks) = Ok (Some i) /\ get ks i = Some key) \/
  (x_search fuel ks key 0 (zlen ks) = Ok None /\ ~ In key ks).
Proof.
  intros S L F. destruct fuel as [|f]; [lia|]. pose proof (zlen_nonneg ks). apply search_spec; auto; try lia.
  - assert (2 ^ 63 <= 2 ^ Z.of_nat f) by (apply Z.pow_le_mono_r; lia). lia.
  - intros i k G I. apply get_bound in G. lia.
  - intros i k G I. apply get_bound in G. lia.
Qed.

(** ** Sorting *)
Lemma insert_perm {A} (kx : bytes * A) l : Permutation (insert kx l) (kx :: l).
Proof.
  induction l as [|ky l IH]; cbn [insert]; [reflexivity|]. destruct (lex _ _); try reflexivity. rewrite IH. apply perm_swap.
Qed.
Lemma by_key_perm {A} (l : list (bytes * A)) : Permutation (by_key l) l.
Proof. induction l as [|kx l IH]; [reflexivity|]. cbn [by_key fold_right]. rewrite insert_perm. now constructor. Qed.
Lemma insert_sorted {A} (kx : bytes * A) l : StronglySorted (fun a b => key_le (fst a) (fst b)) l ->
  StronglySorted (fun a b => key_le (fst a) (fst b)) (insert kx l).
Proof.
  induction 1 as [|ky l S IH F]; cbn [insert]; [constructor; constructor|].
  assert (LE : lex (fst kx) (fst ky) <> Gt -> StronglySorted (fun a b : bytes * A => key_le (fst a) (fst b)) (kx :: ky :: l)).
  { intros N. constructor; [constructor; assumption|]. constructor; [exact N|]. eapply Forall_impl; [|exact F]. cbv beta. intros z Z. eapply le_trans; [exact N|exact Z]. }
  destruct (lex (fst kx) (fst ky)) eqn:E; try (apply LE; discriminate). constructor; [exact IH|]. rewrite Forall_forall in *. intros z Z.
  apply (Permutation_in _ (insert_perm kx l)) in Z. destruct Z as [<-|Z]; [now apply le_total|auto].
Qed.
Lemma by_key_sorted {A} (l : list (bytes * A)) : StronglySorted (fun a b => key_le (fst a) (fst b)) (by_key l).
Proof. induction l as [|kx l IH]; [constructor|]. now apply insert_sorted. Qed.
Lemma by_key_sorts {A} : sorts (@by_key A).
Proof. intros l. split; [apply by_key_perm|apply by_key_sorted]. Qed.
Lemma sorted_unique {A} (l1 : list (bytes * A)) : forall l2, StronglySorted (fun a b => key_le (fst a) (fst b)) l1 -> StronglySorted (fun a b => key_le (fst a) (fst b)) l2 ->
  NoDup (map fst l1) -> Permutation l1 l2 -> l1 = l2.
Proof.
  induction l1 as [|a l1 IH]; intros l2 S1 S2 N P; [now apply Permutation_nil in P|].
  destruct l2 as [|b l2]; [apply Permutation_sym, Permutation_nil in P; discriminate|].
  inversion S1 as [|? ? S1' F1]; inversion S2 as [|? ? S2' F2]; subst. inversion N as [|? ? N1 N2]; subst.
  assert (E : a = b).
  { assert (Ia : In a (b :: l2)) by (apply (Permutation_in _ P); now left). assert (Ib : In b (a :: l1)) by (apply (Permutation_in _ (Permutation_sym P)); now left).
    destruct Ia as [->|Ia]; [reflexivity|]. destruct Ib as [->|Ib]; [reflexivity|]. rewrite Forall_forall in *. pose proof (F1 _ Ib) as L1. pose proof (F2 _ Ia) as L2.
    exfalso. apply N1. assert (fst a = fst b).
    { destruct (lex (fst a) (fst b)) eqn:LX; [now apply lex_eq|exfalso; apply L2; now rewrite lex_opp, LX|now destruct L1]. }
    rewrite H. now apply in_map. }
  subst b. f_equal. apply IH; auto. now apply Permutation_cons_inv in P.
Qed.
Lemma srt_by_key {A} (srt : list (bytes * A) -> list (bytes * A)) l : sorts srt -> NoDup (map fst l) -> srt l = by_key l.
Proof.
  intros S N. destruct (S l) as [P Q]. apply sorted_unique; auto using by_key_sorted.
  - eapply Permutation_NoDup; [|exact N]. apply Permutation_map. now symmetry.
  - rewrite P. symmetry. apply by_key_perm.
Qed.
Lemma by_key_map {A B} (f : A -> B) (l : list (bytes * A)) : by_key (map (fun kx => (fst kx, f (snd kx))) l) = map (fun kx => (fst kx, f (snd kx))) (by_key l).
Proof.
  induction l as [|kx l IH]; [reflexivity|]. cbn [map by_key fold_right]. fold (by_key (map (fun kx => (fst kx, f (snd kx))) l)). fold (by_key l). rewrite IH. clear IH.
  induction (by_key l) as [|ky m IHm]; [reflexivity|]. cbn [map insert fst]. destruct (lex (fst kx) (fst ky)); cbn [map]; try reflexivity. now rewrite IHm.
Qed.
Lemma sorted_ordered {A} (l : list (bytes * A)) : StronglySorted (fun a b => key_le (fst a) (fst b)) l -> NoDup (map fst l) -> ordered (map fst l).
Proof.
  unfold ordered. induction 1 as [|a l S IH F]; intros N; [constructor|]. cbn [map] in *. inversion N as [|? ? N1 N2]; subst. constructor; [auto|].
  rewrite Forall_forall in *. intros k K. apply in_map_iff in K. destruct K as (b & <- & K). apply le_lt; [auto|]. intros E. apply N1. rewrite E. now apply in_map.
Qed.

(** ** What the reader shows on a well-formed tree *)
Fixpoint emb (v : val) : fx :=
  match v with
  | VNull => XNull | VBool b => XBool b | VInt z => XInt z | VUInt z => XUInt z | VDbl d => XDbl d | VStr s => XStr s | VBlob b => XBlob b
  | VArr l => XVec (map emb l)
  | VMap l => XMap (map (fun kx => (fst kx, emb (snd kx))) l)
  end.
Definition tidy : val -> Prop := every (fun v => match v with VMap l => ordered (map fst l) /\ zlen l < 2^63 | _ => True end).

Lemma ordered_nodup ks : ordered ks -> NoDup ks.
Proof.
  induction 1 as [|k ks S IH F]; constructor; [|exact IH]. intros I. rewrite Forall_forall in F. apply (key_lt_irrefl k), F, I.
Qed.
Lemma existsb_in k ks : existsb (beq k) ks = true <-> In k ks.
Proof.
  rewrite existsb_exists. split; [intros (x & I & E); apply beq_eq in E; now subst|]. intros I. exists k. split; [exact I|]. now apply beq_eq.
Qed.
Lemma key_lookup fuel l key : ordered (map fst l) -> zlen l < 2^63 -> (64 <= fuel)%nat ->
  x_contains fuel (XMap l) key = Ok (existsb (beq key) (map fst l)) /\
  (existsb (beq key) (map fst l) = false -> x_key fuel (XMap l) key = Throw EDeser) /\
  (forall x, In (key, x) l -> x_key fuel (XMap l) key = Ok x).
Proof.
  intros S L F. unfold x_contains, x_key. cbn [x_isMap negb require bind map_keys map_vals].
  assert (L' : zlen (map fst l) < 2^63) by (unfold zlen in *; now rewrite map_length).
  destruct (search_exact fuel (map fst l) key S L' F) as [(i & -> & G)|(-> & N)].
  - assert (I : In key (map fst l)) by (apply nth_error_In with (n := Z.to_nat i); unfold get in G; destruct (_ && _); [exact G|discriminate]).
    assert (E : existsb (beq key) (map fst l) = true) by now apply existsb_in. rewrite E. cbn [bind]. repeat split; [discriminate|].
    intros x X. f_equal. unfold vec_at, get in *. unfold zlen in *.
    rewrite map_length in *. destruct (_ && _); [|discriminate]. rewrite nth_error_map in G. destruct (nth_error l (Z.to_nat i)) as [[k' x']|] eqn:NE; [|discriminate]. cbn [option_map fst] in G. injection G as ->.
    rewrite nth_error_map, NE. cbn [option_map snd]. apply nth_error_In in NE. apply ordered_nodup in S. clear - S X NE.
    induction l as [|[k y] l IH]; [destruct NE|]. cbn [map fst] in S. inversion S as [|? ? S1 S2]; subst. destruct NE as [N|N], X as [X|X].
    + congruence.
    + injection N as -> ->. exfalso. apply S1. apply in_map_iff. exists (key, x). auto.
    + injection X as -> ->. exfalso. apply S1. apply in_map_iff. exists (key, x'). auto.
    + auto.
  - assert (E : existsb (beq key) (map fst l) = false) by (destruct (existsb _ _) eqn:E; [apply existsb_in in E; contradiction|reflexivity]). rewrite E. cbn [bind]. repeat split.
    intros x X. exfalso. apply N. apply in_map_iff. exists (key, x). auto.
Qed.
Lemma flex_shows fuel v : tidy v -> (64 <= fuel)%nat -> shows (flex_reader fuel) flex_table (emb v) v.
Proof.
  intros T F. revert T. induction v as [| | | | | | |l IH|l IH] using val_ind'; intros D;
    try (apply shows_leaf; [exact I|]; split; [unfold observes; repeat split; reflexivity|repeat split; reflexivity]).
  - apply every_arr in D. destruct D as [_ D]. apply shows_arr. split; [unfold observes; repeat split; reflexivity|].
    assert (Z : zlen (map emb l) = zlen l) by (unfold zlen; now rewrite map_length).
    split; [cbn [flex_reader r_arraySize emb x_arraySize AsVector]; unfold x_arraySize; cbn [x_isArray require bind AsVector]; now rewrite Z|]. split.
    { intros i Hi. cbn [flex_reader r_idx emb]. unfold x_idx. cbn [x_isArray require bind AsVector]. rewrite Z. replace (i <? zlen l) with false by lia. reflexivity. }
    split; [|repeat split; reflexivity]. apply elems_intro. intros l1 x l2 ->. exists (emb x). split.
    { cbn [flex_reader r_idx emb]. unfold x_idx. cbn [x_isArray require bind AsVector]. rewrite Z, zlen_app, zlen_cons. pose proof (zlen_nonneg l2).
      replace (_ <? _) with true by lia. cbn [require bind]. unfold vec_at. rewrite map_app. cbn [map].
      replace (zlen l1) with (zlen (map emb l1)) by (unfold zlen; now rewrite map_length). now rewrite get_mid. }
    rewrite Forall_forall in *. apply IH, D; apply in_or_app; right; now left.
  - apply every_map in D. destruct D as [[S L] D]. apply shows_map. split; [unfold observes; repeat split; reflexivity|].
    set (f := fun kx : bytes * val => (fst kx, emb (snd kx))).
    assert (K : map fst (map f l) = map fst l) by (rewrite map_map; apply map_ext; reflexivity).
    assert (Z : zlen (map f l) = zlen l) by (unfold zlen; now rewrite map_length).
    change (emb (VMap l)) with (XMap (map f l)). cbn [flex_reader r_mapKeys r_contains r_key r_arraySize r_idx].
    assert (LK : forall key, x_contains fuel (XMap (map f l)) key = Ok (existsb (beq key) (map fst l)) /\
      (existsb (beq key) (map fst l) = false -> x_key fuel (XMap (map f l)) key = Throw EDeser) /\
      (forall x, In (key, x) (map f l) -> x_key fuel (XMap (map f l)) key = Ok x)).
    { intros key. rewrite <- K. apply key_lookup; [now rewrite K|now rewrite Z|exact F]. }
    split; [unfold x_mapKeys; cbn [x_isMap require bind map_keys]; now rewrite K|]. split; [intros k _; apply LK|]. split; [intros k _; apply LK|].
    split; [|repeat split; reflexivity]. apply entries_intro. intros l1 k x l2 -> _. exists (emb x). split.
    { apply LK. apply in_map_iff. exists (k, x). split; [reflexivity|]. apply in_or_app; right; now left. }
    rewrite Forall_forall in *. apply (IH (k, x)), (D (k, x)); apply in_or_app; right; now left.
Qed.

(** ** Writing *)
Section Run.
  Variable dbg : bool.
  Variable srt : list (bytes * fx) -> list (bytes * fx).
  Let W := flex_writer dbg srt.
  Fixpoint built (v : val) : fx :=
    match v with
    | VNull => XNull | VBool b => XBool b | VInt z => XInt z | VUInt z => XUInt z | VDbl d => XDbl d | VStr s => XStr s | VBlob b => XBlob b
    | VArr l => XVec (map built l)
    | VMap l => XMap (srt (map (fun kx => (c_str (fst kx), built (snd kx))) l))
    end.
  Lemma frun_one s e es : run W s (e :: es) = match f_step dbg srt s e with (s', Ok _) => run W s' es | (s', r) => (s', r) end.
  Proof. reflexivity. Qed.
  Lemma split_at {A} (l1 l2 : list A) : firstn (Z.to_nat (zlen l1)) (l1 ++ l2) = l1 /\ skipn (Z.to_nat (zlen l1)) (l1 ++ l2) = l2.
  Proof.
    unfold zlen. rewrite Nat2Z.id. split; [rewrite firstn_app, firstn_all, Nat.sub_diag; cbn [firstn]; apply app_nil_r|].
    rewrite skipn_app, skipn_all, Nat.sub_diag. reflexivity.
  Qed.
  Lemma pairs_entries l : f_pairs dbg (flat_map (fun kx => [XKey (fst kx); built (snd kx)]) l) = Ok (map (fun kx => (c_str (fst kx), built (snd kx))) l).
  Proof. induction l as [|[k x] l IH]; [reflexivity|]. cbn [flat_map app f_pairs fst snd map]. rewrite IH. reflexivity. Qed.

  Lemma frun_value :
    (forall v es, calls v es -> forall stack st w, run W (mkFst stack st w false) es = (mkFst (stack ++ [built v]) st true false, Ok tt)) /\
    (forall l es, calls_list l es -> forall stack st, run W (mkFst stack st true false) es = (mkFst (stack ++ map built l) st true false, Ok tt)) /\
    (forall l es, calls_entries l es -> forall stack st,
       run W (mkFst stack st true false) es = (mkFst (stack ++ flat_map (fun kx => [XKey (fst kx); built (snd kx)]) l) st true false, Ok tt)).
  Proof.
    apply calls_mutind; try (intros; reflexivity).
    - intros n l es C IH stack st w. rewrite frun_one. cbn [f_step f_begin fs_stack fs_st fs_finished]. rewrite run_app, IH, frun_one. cbn [f_step]. unfold f_end_array.
      cbn [fs_st fs_stack]. destruct (split_at stack (map built l)) as [-> ->]. reflexivity.
    - intros n l es C IH stack st w. rewrite frun_one. cbn [f_step f_begin fs_stack fs_st fs_finished]. rewrite run_app, IH, frun_one. cbn [f_step]. unfold f_end_map.
      cbn [fs_st fs_stack]. destruct (split_at stack (flat_map (fun kx => [XKey (fst kx); built (snd kx)]) l)) as [-> ->]. rewrite pairs_entries. reflexivity.
    - intros stack st. cbn [run map]. now rewrite app_nil_r.
    - intros x l es1 es2 Cx IHx Cl IHl stack st. rewrite run_app, IHx, IHl. cbn [map]. now rewrite <- app_assoc.
    - intros stack st. cbn [run flat_map]. now rewrite app_nil_r.
    - intros k x l es1 es2 Cx IHx Cl IHl stack st. rewrite frun_one. cbn [f_step f_key fs_stack fs_st fs_wrote fs_finished]. rewrite run_app, IHx, IHl. cbn [flat_map fst snd app].
      now rewrite <- !app_assoc.
  Qed.
  Lemma flex_calls v es : calls v es -> exists s, run W (w_init W) es = (s, Ok tt) /\ snd (w_finish W s) = Ok (Some (built v)).
  Proof. intros C. eexists. split; [exact (proj1 frun_value v es C [] [] false)|reflexivity]. Qed.
End Run.

Lemma c_str_id k : ~ In 0 k -> c_str k = k.
Proof. induction k as [|x k IH]; [reflexivity|]. intros H. cbn [c_str]. destruct (x =? 0) eqn:E; [exfalso; apply H; left; lia|]. f_equal. apply IH. intros G. apply H. now right. Qed.
Lemma built_emb srt v : sorts srt -> flex_ok v -> built srt v = emb (in_key_order v).
Proof.
  intros S. induction v as [| | | | | | |l IH|l IH] using val_ind'; intros OK; try reflexivity.
  - apply every_arr in OK. destruct OK as [_ OK]. cbn [built in_key_order emb]. f_equal. rewrite map_map. apply map_ext_in. rewrite Forall_forall in *. intros x X. exact (IH x X (OK x X)).
  - apply every_map in OK. destruct OK as [(N & Z & _) OK]. cbn [built in_key_order emb]. f_equal. rewrite <- by_key_map, map_map. cbn [fst snd].
    assert (E : map (fun kx => (c_str (fst kx), built srt (snd kx))) l = map (fun kx => (fst kx, emb (in_key_order (snd kx)))) l).
    { apply map_ext_in. rewrite Forall_forall in *. intros kx I. rewrite (c_str_id _ (Z _ I)), (IH _ I (OK _ I)). reflexivity. }
    rewrite E. apply srt_by_key; [exact S|]. rewrite map_map. cbn [fst]. exact N.
Qed.
Lemma key_order_tidy v : flex_ok v -> tidy (in_key_order v).
Proof.
  induction v as [| | | | | | |l IH|l IH] using val_ind'; intros OK; try (split; exact I).
  - apply every_arr in OK. destruct OK as [_ OK]. cbn [in_key_order]. apply every_arr. split; [exact I|]. rewrite Forall_map. rewrite Forall_forall in *. intros x X. exact (IH x X (OK x X)).
  - apply every_map in OK. destruct OK as [(N & Z & L) OK]. cbn [in_key_order]. set (g := fun kx : bytes * val => (fst kx, in_key_order (snd kx))).
    assert (K : map fst (map g l) = map fst l) by (rewrite map_map; apply map_ext; reflexivity).
    apply every_map. split; [split|].
    + apply sorted_ordered; [apply by_key_sorted|]. eapply Permutation_NoDup; [apply Permutation_map; symmetry; apply by_key_perm|]. now rewrite K.
    + unfold zlen in *. rewrite (Permutation_length (by_key_perm (map g l))), map_length. exact L.
    + rewrite Forall_forall in *. intros kx I. apply (Permutation_in _ (by_key_perm _)) in I. apply in_map_iff in I. destruct I as (ky & <- & I). apply (IH _ I (OK _ I)).
Qed.
Lemma flex_round_trip dbg srt fuel v es : sorts srt -> flex_ok v -> (64 <= fuel)%nat -> calls v es ->
  exists s b, run (flex_writer dbg srt) (w_init (flex_writer dbg srt)) es = (s, Ok tt) /\ snd (w_finish (flex_writer dbg srt) s) = Ok b /\
    shows (flex_reader fuel) flex_table (flex_open b) (in_key_order v).
Proof.
  intros S OK F C. destruct (flex_calls dbg srt v es C) as (s & R & FI). exists s, (Some (built srt v)). split; [exact R|]. split; [exact FI|]. cbn [flex_open].
  rewrite (built_emb srt v S OK). apply flex_shows; [now apply key_order_tidy|exact F].
Qed.
