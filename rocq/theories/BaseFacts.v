(** BaseFacts.v -- lemmas about Base.v: buffers, machine integers, loops. *)

From Coq Require Import ZArith List Bool Lia ZifyBool ZifyNat.
From Verif Require Import Base.
Import ListNotations.
Open Scope Z_scope.

Ltac Zify.zify_post_hook ::= Z.div_mod_to_equations.

Lemma zlen_nonneg {A} (l : list A) : 0 <= zlen l.
Proof. unfold zlen; lia. Qed.
#[export] Hint Resolve zlen_nonneg : core.

Lemma zlen_nil {A} : zlen (@nil A) = 0. Proof. reflexivity. Qed.
Lemma zlen_cons {A} (x : A) l : zlen (x :: l) = 1 + zlen l.
Proof. unfold zlen; cbn [length]; lia. Qed.
Lemma zlen_app {A} (a b : list A) : zlen (a ++ b) = zlen a + zlen b.
Proof. unfold zlen; rewrite app_length; lia. Qed.
Lemma zlen_rev {A} (l : list A) : zlen (rev l) = zlen l.
Proof. unfold zlen; now rewrite rev_length. Qed.
Lemma zlen_map {A B} (f : A -> B) l : zlen (map f l) = zlen l.
Proof. unfold zlen; now rewrite map_length. Qed.
Lemma zlen_repeat {A} (x : A) n : zlen (repeat x (Z.to_nat n)) = Z.max 0 n.
Proof. unfold zlen; rewrite repeat_length; lia. Qed.
Lemma zlen_0 {A} (l : list A) : zlen l = 0 -> l = [].
Proof. destruct l; [reflexivity|]; rewrite zlen_cons; pose proof (zlen_nonneg l); lia. Qed.

Lemma beq_refl a : beq a a = true.
Proof. induction a; cbn; [reflexivity|]. rewrite Z.eqb_refl; assumption. Qed.
Lemma beq_eq a b : beq a b = true <-> a = b.
Proof.
  split; [|intros ->; apply beq_refl].
  revert b; induction a as [|x a IH]; destruct b as [|y b]; cbn; try congruence.
  rewrite andb_true_iff, Z.eqb_eq. intros [-> H]. f_equal; auto.
Qed.
Lemma beq_neq a b : beq a b = false <-> a <> b.
Proof.
  destruct (beq a b) eqn:E; split; try congruence.
  - apply beq_eq in E; congruence.
  - intros _ ->. rewrite beq_refl in E; discriminate.
Qed.
Lemma beq_sym a b : beq a b = beq b a.
Proof.
  destruct (beq a b) eqn:E.
  - apply beq_eq in E; subst; now rewrite beq_refl.
  - symmetry; apply beq_neq; apply beq_neq in E; congruence.
Qed.
Lemma existsb_beq_In k l : existsb (beq k) l = true <-> In k l.
Proof.
  rewrite existsb_exists. split.
  - intros (x & Hx & E). apply beq_eq in E; now subst.
  - intros H; exists k; split; auto. apply beq_refl.
Qed.
Lemma existsb_beq_notIn k l : existsb (beq k) l = false <-> ~ In k l.
Proof.
  rewrite <- existsb_beq_In. destruct (existsb (beq k) l); split; congruence.
Qed.

(** ** slice *)
Lemma skipn_skipn {A} n m (l : list A) : skipn n (skipn m l) = skipn (n + m) l.
Proof.
  revert l; induction m as [|m IH]; intros l; [now rewrite Nat.add_0_r|].
  rewrite Nat.add_succ_r. destruct l; cbn [skipn]; [apply skipn_nil|apply IH].
Qed.
Lemma slice_nil {A} (l : list A) i : slice l i 0 = [].
Proof. reflexivity. Qed.
Lemma zlen_slice {A} (l : list A) i n :
  0 <= i -> 0 <= n -> i + n <= zlen l -> zlen (slice l i n) = n.
Proof.
  unfold slice, zlen. intros. rewrite firstn_length, skipn_length. lia.
Qed.
Lemma slice_app_split {A} (l : list A) i n m :
  0 <= i -> 0 <= n -> 0 <= m -> slice l i (n + m) = slice l i n ++ slice l (i + n) m.
Proof.
  unfold slice; intros.
  rewrite !Z2Nat.inj_add by lia.
  rewrite <- (firstn_skipn (Z.to_nat n) (skipn (Z.to_nat i) l)) at 1.
  rewrite firstn_app, firstn_firstn, firstn_length, skipn_length.
  rewrite (Nat.add_comm (Z.to_nat i)), <- skipn_skipn.
  f_equal.
  - f_equal. lia.
  - destruct (Nat.le_gt_cases (Z.to_nat n) (length l - Z.to_nat i)).
    + f_equal. lia.
    + rewrite (skipn_all2 (skipn _ l)) by (rewrite skipn_length; lia).
      now rewrite !firstn_nil.
Qed.
Lemma slice_app_l {A} (a b : list A) i n :
  0 <= i -> 0 <= n -> i + n <= zlen a -> slice (a ++ b) i n = slice a i n.
Proof.
  unfold slice, zlen; intros.
  rewrite skipn_app, firstn_app, skipn_length.
  replace (Z.to_nat n - (length a - Z.to_nat i))%nat with O by lia.
  now rewrite firstn_O, app_nil_r.
Qed.
Lemma slice_app_r {A} (a b : list A) i n :
  zlen a <= i -> 0 <= n -> slice (a ++ b) i n = slice b (i - zlen a) n.
Proof.
  unfold slice, zlen; intros.
  rewrite skipn_app, (skipn_all2 a) by lia. cbn [app].
  do 2 f_equal. lia.
Qed.
Lemma slice_full {A} (l : list A) : slice l 0 (zlen l) = l.
Proof. unfold slice, zlen. rewrite Nat2Z.id. cbn. apply firstn_all. Qed.
Lemma slice_slice {A} (l : list A) i n j m :
  0 <= i -> 0 <= j -> 0 <= m -> j + m <= n ->
  slice (slice l i n) j m = slice l (i + j) m.
Proof.
  unfold slice; intros.
  rewrite skipn_firstn_comm, firstn_firstn, skipn_skipn.
  f_equal; [lia|]. f_equal. lia.
Qed.
Lemma nth_error_skipn {A} (l : list A) n m : nth_error (skipn n l) m = nth_error l (n + m).
Proof.
  revert l; induction n as [|n IH]; intros l; [reflexivity|].
  destruct l as [|x l]; cbn; [destruct m; reflexivity|]. apply IH.
Qed.
Lemma nth_error_firstn {A} (l : list A) n m :
  (m < n)%nat -> nth_error (firstn n l) m = nth_error l m.
Proof.
  revert l m; induction n as [|n IH]; intros l m H; [lia|].
  destruct l as [|x l]; cbn; [reflexivity|]. destruct m; cbn; [reflexivity|]. apply IH; lia.
Qed.

(** ** get *)
Lemma get_some {A} (l : list A) i x : get l i = Some x -> 0 <= i < zlen l.
Proof.
  unfold get. destruct ((0 <=? i) && (i <? zlen l)) eqn:E; [|discriminate]. intros _; lia.
Qed.
Lemma get_in {A} (l : list A) i : 0 <= i < zlen l -> exists x, get l i = Some x.
Proof.
  intros H. unfold get. replace ((0 <=? i) && (i <? zlen l)) with true by lia.
  destruct (nth_error l (Z.to_nat i)) eqn:E; [eauto|].
  apply nth_error_None in E. unfold zlen in H. lia.
Qed.
Lemma get_slice {A} (l : list A) p n i :
  0 <= p -> p + n <= zlen l -> 0 <= i < n -> get (slice l p n) i = get l (p + i).
Proof.
  intros Hp Hn Hi. unfold get.
  rewrite zlen_slice by lia.
  replace ((0 <=? i) && (i <? n)) with true by lia.
  replace ((0 <=? p + i) && (p + i <? zlen l)) with true by lia.
  unfold slice. rewrite nth_error_firstn, nth_error_skipn by lia. f_equal; lia.
Qed.
Lemma get_app_l {A} (a b : list A) i : i < zlen a -> get (a ++ b) i = get a i.
Proof.
  intros H. unfold get. rewrite zlen_app. pose proof (zlen_nonneg b).
  destruct (0 <=? i) eqn:E; [|reflexivity]. cbn [andb].
  replace (i <? zlen a + zlen b) with true by lia. replace (i <? zlen a) with true by lia.
  apply nth_error_app1. unfold zlen in H; lia.
Qed.
Lemma get_app_r {A} (a b : list A) i : zlen a <= i -> get (a ++ b) i = get b (i - zlen a).
Proof.
  intros H. unfold get. rewrite zlen_app. pose proof (zlen_nonneg a).
  replace (0 <=? i) with true by lia. replace (0 <=? i - zlen a) with true by lia. cbn [andb].
  replace (i - zlen a <? zlen b) with (i <? zlen a + zlen b) by lia.
  destruct (i <? zlen a + zlen b); [|reflexivity].
  unfold zlen in *. rewrite nth_error_app2 by lia. f_equal; lia.
Qed.
Lemma get_cons_0 {A} (x : A) l : get (x :: l) 0 = Some x.
Proof.
  unfold get. rewrite zlen_cons. pose proof (zlen_nonneg l).
  replace ((0 <=? 0) && (0 <? 1 + zlen l)) with true by lia. reflexivity.
Qed.
Lemma get_byte l i x : bytes_ok l -> get l i = Some x -> is_byte x.
Proof.
  unfold get. destruct ((0 <=? i) && (i <? zlen l)); [|discriminate].
  intros H E. apply nth_error_In in E. unfold bytes_ok in H. rewrite Forall_forall in H. auto.
Qed.

(** ** [has b p l]: the bytes [l] stand at offset [p] of [b]. *)
Definition has {A} (b : list A) (p : Z) (l : list A) : Prop :=
  0 <= p /\ p + zlen l <= zlen b /\ slice b p (zlen l) = l.

Lemma has_self {A} (l : list A) : has l 0 l.
Proof. repeat split; try lia. apply slice_full. Qed.
Lemma has_mid {A} (a b c : list A) : has (a ++ b ++ c) (zlen a) b.
Proof.
  repeat split; auto.
  - rewrite !zlen_app. pose proof (zlen_nonneg c). lia.
  - rewrite slice_app_r by (try lia; auto). rewrite Z.sub_diag, slice_app_l by (try lia; auto).
    apply slice_full.
Qed.
Lemma has_end {A} (a b : list A) : has (a ++ b) (zlen a) b.
Proof. pose proof (has_mid a b []) as H. now rewrite app_nil_r in H. Qed.
Lemma has_nil {A} (b : list A) p : 0 <= p <= zlen b -> has b p [].
Proof. intros H; repeat split; rewrite ?zlen_nil; try lia. Qed.
Lemma app_eq_len {A} (a b c d : list A) : length a = length c -> a ++ b = c ++ d -> a = c /\ b = d.
Proof.
  revert c; induction a as [|x a IH]; destruct c as [|y c]; cbn; intros HL HE; try discriminate; auto.
  injection HE as -> HE. injection HL as HL. destruct (IH _ HL HE); subst; auto.
Qed.
Lemma has_app {A} (b : list A) p l1 l2 :
  has b p (l1 ++ l2) <-> has b p l1 /\ has b (p + zlen l1) l2.
Proof.
  pose proof (zlen_nonneg l1); pose proof (zlen_nonneg l2).
  unfold has. rewrite zlen_app. split.
  - intros (Hp & Hb & E). rewrite slice_app_split in E by lia.
    assert (zlen (slice b p (zlen l1)) = zlen l1) as HL by (apply zlen_slice; lia).
    assert (slice b p (zlen l1) = l1 /\ slice b (p + zlen l1) (zlen l2) = l2) as [E1 E2].
    { apply app_eq_len; [apply Nat2Z.inj; exact HL|exact E]. }
    repeat split; try lia; auto.
  - intros ((Hp & Hb & E1) & (Hp2 & Hb2 & E2)). repeat split; try lia.
    rewrite slice_app_split by lia. now rewrite E1, E2.
Qed.
Lemma has_cons {A} (b : list A) p x l :
  has b p (x :: l) <-> has b p [x] /\ has b (p + 1) l.
Proof. change (x :: l) with ([x] ++ l). rewrite has_app. reflexivity. Qed.
Lemma has_trans {A} (b m l : list A) p q : has b p m -> has m q l -> has b (p + q) l.
Proof.
  intros (Hp & Hb & E) (Hq & Hm & E2). pose proof (zlen_nonneg l). repeat split; try lia.
  rewrite <- E in E2. rewrite slice_slice in E2 by lia. exact E2.
Qed.
Lemma has_app_l {A} (a b l : list A) p : has a p l -> has (a ++ b) p l.
Proof.
  intros (Hp & Hb & E). repeat split; auto.
  - rewrite zlen_app; pose proof (zlen_nonneg b); lia.
  - pose proof (zlen_nonneg l). rewrite slice_app_l by lia. exact E.
Qed.
Lemma has_app_r {A} (a b l : list A) p : has b p l -> has (a ++ b) (zlen a + p) l.
Proof. intros H. eapply has_trans; [apply has_end|exact H]. Qed.
Lemma has_bound {A} (b : list A) p l : has b p l -> 0 <= p /\ p + zlen l <= zlen b.
Proof. intros (?&?&?); auto. Qed.
Lemma has_get {A} (b : list A) p l i : has b p l -> 0 <= i < zlen l -> get b (p + i) = get l i.
Proof.
  intros (Hp & Hb & E) Hi. pose proof (get_slice b p (zlen l) i Hp Hb Hi) as G. rewrite E in G. now symmetry.
Qed.
Lemma has_rd b p x l : has b p (x :: l) -> rd b p = Ok x.
Proof.
  intros H. unfold rd. pose proof (has_get b p (x :: l) 0 H) as G.
  rewrite zlen_cons in G. pose proof (zlen_nonneg l).
  rewrite Z.add_0_r in G. rewrite G by lia. now rewrite get_cons_0.
Qed.
Lemma has_rd_view b p l : has b p l -> rd_view b (p, zlen l) = Ok l.
Proof.
  intros (Hp & Hb & E). unfold rd_view; cbn [fst snd].
  pose proof (zlen_nonneg l).
  replace ((0 <=? p) && (0 <=? zlen l) && (p + zlen l <=? zlen b)) with true by lia.
  now rewrite E.
Qed.
Lemma has_split {A} (b : list A) p l :
  has b p l -> exists pre post, b = pre ++ l ++ post /\ zlen pre = p.
Proof.
  intros (Hp & Hb & E). pose proof (zlen_nonneg l).
  exists (firstn (Z.to_nat p) b), (skipn (Z.to_nat (p + zlen l)) b). split.
  - rewrite <- (firstn_skipn (Z.to_nat p) b) at 1. f_equal.
    rewrite <- (firstn_skipn (Z.to_nat (zlen l)) (skipn (Z.to_nat p) b)) at 1.
    unfold slice in E. rewrite E. f_equal. rewrite skipn_skipn. f_equal; lia.
  - unfold zlen in *. rewrite firstn_length. lia.
Qed.

(** ** bytes_ok *)
Lemma bytes_ok_app a b : bytes_ok (a ++ b) <-> bytes_ok a /\ bytes_ok b.
Proof. unfold bytes_ok. apply Forall_app. Qed.
Lemma bytes_ok_cons x l : bytes_ok (x :: l) <-> is_byte x /\ bytes_ok l.
Proof. unfold bytes_ok. split; [inversion 1; auto|intros []; constructor; auto]. Qed.
Lemma bytes_ok_nil : bytes_ok []. Proof. constructor. Qed.
Lemma bytes_ok_repeat0 n : bytes_ok (repeat 0 n).
Proof. induction n; constructor; auto. unfold is_byte; lia. Qed.
Lemma Forall_skipn' {A} (P : A -> Prop) n l : Forall P l -> Forall P (skipn n l).
Proof. intros H. rewrite <- (firstn_skipn n l), Forall_app in H. tauto. Qed.
Lemma Forall_firstn' {A} (P : A -> Prop) n l : Forall P l -> Forall P (firstn n l).
Proof. intros H. rewrite <- (firstn_skipn n l), Forall_app in H. tauto. Qed.
Lemma bytes_ok_slice l i n : bytes_ok l -> bytes_ok (slice l i n).
Proof. intros H. apply Forall_firstn', Forall_skipn', H. Qed.

(** ** rd *)
Lemma rd_in l i : 0 <= i < zlen l -> exists x, rd l i = Ok x.
Proof. intros H. unfold rd. destruct (get_in l i H) as [x ->]. eauto. Qed.
Lemma rd_inv l i x : rd l i = Ok x -> 0 <= i < zlen l.
Proof. unfold rd. destruct (get l i) eqn:E; [|discriminate]. intros _. eapply get_some; eauto. Qed.
Lemma rd_byte l i x : bytes_ok l -> rd l i = Ok x -> is_byte x.
Proof.
  unfold rd. destruct (get l i) eqn:E; [|discriminate]. intros H [= <-]. eapply get_byte; eauto.
Qed.
Lemma rd_view_in l w : view_in l w -> rd_view l w = Ok (slice l (fst w) (snd w)).
Proof.
  intros (A & B & C). unfold rd_view.
  now replace ((0 <=? fst w) && (0 <=? snd w) && (fst w + snd w <=? zlen l)) with true by lia.
Qed.

(** ** machine integers *)
Lemma wrap32_small z : 0 <= z < 2^32 -> wrap32 z = z.
Proof. intros. unfold wrap32. now apply Z.mod_small. Qed.
Lemma wrap32_range z : 0 <= wrap32 z < 2^32.
Proof. unfold wrap32. apply Z.mod_pos_bound. reflexivity. Qed.
Lemma wrap64_small z : 0 <= z < 2^64 -> wrap64 z = z.
Proof. intros. unfold wrap64. now apply Z.mod_small. Qed.
Lemma wrap64_range z : 0 <= wrap64 z < 2^64.
Proof. unfold wrap64. apply Z.mod_pos_bound. reflexivity. Qed.
Lemma wrap16_small z : 0 <= z < 2^16 -> wrap16 z = z.
Proof. intros. unfold wrap16. now apply Z.mod_small. Qed.
Lemma to_signed_small n z : 0 < n -> 0 <= z < 2^(n-1) -> to_signed n z = z.
Proof.
  intros Hn H. unfold to_signed.
  assert (2^n = 2 * 2^(n-1)) by (rewrite <- Z.pow_succ_r by lia; f_equal; lia).
  rewrite Z.mod_small by lia. replace (z <? 2^(n-1)) with true by lia. reflexivity.
Qed.
Lemma to_signed_id n z : 0 < n -> - 2^(n-1) <= z < 2^(n-1) -> to_signed n z = z.
Proof.
  intros Hn H. unfold to_signed.
  assert (E : 2^n = 2 * 2^(n-1)) by (rewrite <- Z.pow_succ_r by lia; f_equal; lia).
  destruct (Z_lt_le_dec z 0).
  - replace (z mod 2^n) with (z + 2^n).
    2:{ rewrite <- (Z.mod_small (z + 2^n) (2^n)) by lia.
        rewrite <- (Z.mul_1_l (2^n)) at 1. now rewrite Z_mod_plus_full. }
    cbv zeta. replace (z + 2^n <? 2^(n-1)) with false by lia. lia.
  - rewrite Z.mod_small by lia. cbv zeta. now replace (z <? 2^(n-1)) with true by lia.
Qed.
Lemma to_signed_wrap n z : 0 < n -> - 2^(n-1) <= z < 2^(n-1) -> to_signed n (z mod 2^n) = z.
Proof.
  intros. unfold to_signed. rewrite Zmod_mod. now apply to_signed_id.
Qed.

Lemma lor_shiftl a b n : 0 <= n -> 0 <= a < 2^n -> Z.lor a (Z.shiftl b n) = a + b * 2^n.
Proof.
  intros Hn Ha. rewrite <- Z.lxor_lor, <- Z.add_nocarry_lxor.
  - now rewrite Z.shiftl_mul_pow2.
  - apply Z.bits_inj'. intros k Hk. rewrite Z.land_spec, Z.bits_0, Z.shiftl_spec by lia.
    destruct (Z_lt_le_dec k n).
    + rewrite (Z.testbit_neg_r b) by lia. apply andb_false_r.
    + rewrite <- (Z.mod_small a (2^n)) by lia. rewrite Z.mod_pow2_bits_high by lia. reflexivity.
  - apply Z.bits_inj'. intros k Hk. rewrite Z.land_spec, Z.bits_0, Z.shiftl_spec by lia.
    destruct (Z_lt_le_dec k n).
    + rewrite (Z.testbit_neg_r b) by lia. apply andb_false_r.
    + rewrite <- (Z.mod_small a (2^n)) by lia. rewrite Z.mod_pow2_bits_high by lia. reflexivity.
Qed.
Lemma land_255 z : Z.land z 255 = z mod 256.
Proof. change 255 with (Z.ones 8). now rewrite Z.land_ones. Qed.
Lemma land_ffff z : Z.land z 4294967295 = z mod 2^32.
Proof. change 4294967295 with (Z.ones 32). now rewrite Z.land_ones. Qed.
Lemma shiftr_div z n : 0 <= n -> Z.shiftr z n = z / 2^n.
Proof. apply Z.shiftr_div_pow2. Qed.

(** ** loops *)
Lemma nloop_add {S R} (f : S -> res (S + R)) n m s :
  nloop (n + m) f s =
  bind (nloop n f s) (fun x => match x with inl s' => nloop m f s' | inr r => Ok (inr r) end).
Proof.
  revert s; induction n as [|n IH]; intros s; [reflexivity|].
  cbn [nloop plus]. destruct (f s) as [[s'|r]|e| |]; cbn [bind]; auto.
Qed.
Lemma ploop_nloop {S R} (f : S -> res (S + R)) p s : ploop p f s = nloop (Pos.to_nat p) f s.
Proof.
  revert s; induction p as [p IH|p IH|]; intros s; cbn [ploop].
  - rewrite Pos2Nat.inj_xI. cbn [nloop].
    destruct (f s) as [[s'|r]|e| |]; cbn [bind]; auto.
    replace (2 * Pos.to_nat p)%nat with (Pos.to_nat p + Pos.to_nat p)%nat by lia.
    rewrite nloop_add, IH. destruct (nloop (Pos.to_nat p) f s') as [[s2|r]|e| |]; cbn [bind]; auto.
  - rewrite Pos2Nat.inj_xO.
    replace (2 * Pos.to_nat p)%nat with (Pos.to_nat p + Pos.to_nat p)%nat by lia.
    rewrite nloop_add, IH. destruct (nloop (Pos.to_nat p) f s) as [[s2|r]|e| |]; cbn [bind]; auto.
  - change (Pos.to_nat 1) with 1%nat. cbn [nloop].
    destruct (f s) as [[s2|r]|e| |]; cbn [bind]; auto.
Qed.
Lemma zloop_nloop {S R} (f : S -> res (S + R)) n s : zloop n f s = nloop (Z.to_nat n) f s.
Proof. destruct n; cbn [zloop]; try reflexivity. apply ploop_nloop. Qed.
Lemma zloop_0 {S R} (f : S -> res (S + R)) s : zloop 0 f s = Ok (inl s).
Proof. reflexivity. Qed.
Lemma zloop_succ {S R} (f : S -> res (S + R)) n s : 0 <= n ->
  zloop (1 + n) f s =
  bind (f s) (fun x => match x with inl s' => zloop n f s' | inr r => Ok (inr r) end).
Proof.
  intros. rewrite zloop_nloop. replace (Z.to_nat (1 + n)) with (Datatypes.S (Z.to_nat n)) by lia.
  cbn [nloop]. destruct (f s) as [[s'|r]|e| |]; cbn [bind]; auto. now rewrite zloop_nloop.
Qed.

(** Invariant rule: a loop whose body preserves [I] and never yields a bad outcome. *)
Lemma nloop_inv {S R} (f : S -> res (S + R)) (I : S -> Prop) (Q : res (S + R) -> Prop) :
  (forall s, I s -> match f s with
                    | Ok (inl s') => I s'
                    | Ok (inr r) => Q (Ok (inr r))
                    | x => Q x
                    end) ->
  (forall s, I s -> Q (Ok (inl s))) ->
  forall n s, I s -> Q (nloop n f s).
Proof.
  intros Hf Hd n. induction n as [|n IH]; intros s Hs; cbn [nloop]; [auto|].
  specialize (Hf s Hs). destruct (f s) as [[s'|r]|e| |]; cbn [bind]; auto.
Qed.
Lemma zloop_inv {S R} (f : S -> res (S + R)) (I : S -> Prop) (Q : res (S + R) -> Prop) :
  (forall s, I s -> match f s with
                    | Ok (inl s') => I s'
                    | Ok (inr r) => Q (Ok (inr r))
                    | x => Q x
                    end) ->
  (forall s, I s -> Q (Ok (inl s))) ->
  forall n s, I s -> Q (zloop n f s).
Proof. intros. rewrite zloop_nloop. eapply nloop_inv; eauto. Qed.

(** ** finite checks over 0..n-1 *)
Definition upto (n : nat) : list Z := map Z.of_nat (seq 0 n).
Lemma upto_in n x : 0 <= x < Z.of_nat n -> In x (upto n).
Proof. intros H. unfold upto. apply in_map_iff. exists (Z.to_nat x). split; [lia|]. apply in_seq. lia. Qed.
Lemma forall_upto (P : Z -> bool) n : forallb P (upto n) = true -> forall x, 0 <= x < Z.of_nat n -> P x = true.
Proof. intros H x Hx. rewrite forallb_forall in H. apply H. now apply upto_in. Qed.
Lemma forall_upto2 (P : Z -> bool) :
  forallb (fun a => forallb (fun c => P (256 * a + c)) (upto 256)) (upto 256) = true ->
  forall x, 0 <= x < 65536 -> P x = true.
Proof.
  intros H x Hx. assert (A : 0 <= x / 256 < 256) by (split; [apply Z.div_pos; lia|apply Z.div_lt_upper_bound; lia]).
  assert (C : 0 <= x mod 256 < 256) by (apply Z.mod_pos_bound; lia).
  pose proof (forall_upto _ 256 H _ A) as H1. cbv beta in H1. pose proof (forall_upto _ 256 H1 _ C) as H2. cbv beta in H2.
  now rewrite <- Z.div_mod in H2 by lia.
Qed.


Lemma get_mid {A} (l1 l2 : list A) x : get (l1 ++ x :: l2) (zlen l1) = Some x.
Proof. rewrite get_app_r by lia. rewrite Z.sub_diag. apply get_cons_0. Qed.
