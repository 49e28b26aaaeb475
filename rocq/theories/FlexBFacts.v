(** FlexBFacts.v -- FlexBuffers as bytes: the reader on represented trees, the writer step by step. *)

From Coq Require Import ZArith List Bool Lia ZifyBool ZifyNat Permutation Sorted.
From Verif Require Import Base BaseFacts Spec SpecFacts HalfModel FloatModel FloatFacts NarrowModel NarrowFacts FlexModel FlexSpec FlexFacts FlexBModel FlexBSpec FlexBFormat.
Import ListNotations.
Open Scope Z_scope.
Ltac Zify.zify_post_hook ::= idtac.

(** ** Numbers *)
Lemma le_put_len n : forall z, length (le_put n z) = n.
Proof. induction n as [|n IH]; intros z; [reflexivity|]. cbn [le_put length]. now rewrite IH. Qed.
Lemma le_put_zlen n z : 0 <= n -> zlen (le_put (Z.to_nat n) z) = n.
Proof. intros H. unfold zlen. rewrite le_put_len. lia. Qed.
Lemma le_get_put n : forall z, le_get (le_put n z) = z mod 2 ^ (8 * Z.of_nat n).
Proof.
  induction n as [|n IH]; intros z; [now rewrite Z.mod_1_r|]. cbn [le_put le_get]. rewrite IH.
  replace (8 * Z.of_nat (S n)) with (8 + 8 * Z.of_nat n) by lia. rewrite Z.pow_add_r by lia. rewrite Z.rem_mul_r by lia. reflexivity.
Qed.
Lemma class_pow w : 0 <= w <= 3 -> width_class (2 ^ w) = 2 ^ w.
Proof. intros H. assert (w = 0 \/ w = 1 \/ w = 2 \/ w = 3) as [-> |[-> |[-> | ->]]] by lia; reflexivity. Qed.
Lemma pow_range w : 0 <= w <= 3 -> 1 <= 2 ^ w <= 8.
Proof. intros H. assert (w = 0 \/ w = 1 \/ w = 2 \/ w = 3) as [-> |[-> |[-> | ->]]] by lia; cbn; lia. Qed.
Lemma rd_u_put B p w z : 0 <= w <= 3 -> has B p (le_put (Z.to_nat (2 ^ w)) z) -> rd_u B p (2 ^ w) = Ok (z mod 2 ^ (8 * 2 ^ w)).
Proof.
  intros Hw H. pose proof (pow_range w Hw). unfold rd_u. rewrite class_pow by lia. pose proof (has_rd_view _ _ _ H) as E. rewrite le_put_zlen in E by lia.
  rewrite E. cbn [bind]. rewrite le_get_put. do 3 f_equal. lia.
Qed.
Lemma rd_u_small B p w z : 0 <= w <= 3 -> 0 <= z < 2 ^ (8 * 2 ^ w) -> has B p (le_put (Z.to_nat (2 ^ w)) z) -> rd_u B p (2 ^ w) = Ok z.
Proof. intros Hw Hz H. rewrite (rd_u_put B p w z Hw H). f_equal. now apply Z.mod_small. Qed.

(** ** Places *)
Lemma lies_has B p l : lies B p l <-> has B p l.
Proof. split; [intros (pre & post & -> & <-); apply has_mid|]. intros H. destruct (has_split _ _ _ H) as (pre & post & E & L). now exists pre, post. Qed.
Lemma little_get l : little l = le_get l.
Proof. induction l as [|b l IH]; [reflexivity|]. cbn. now rewrite IH. Qed.
Lemma width_in w : 0 <= w <= 3 -> In (2 ^ w) [1; 2; 4; 8].
Proof. intros H. assert (w = 0 \/ w = 1 \/ w = 2 \/ w = 3) as [-> |[-> |[-> | ->]]] by lia; cbn; auto. Qed.
Lemma class_in w : In w [1; 2; 4; 8] -> width_class w = w.
Proof. intros [<-|[<-|[<-|[<-|[]]]]]; reflexivity. Qed.
Lemma number_put (al : Z -> Z -> Prop) B p w z : 0 <= w <= 3 -> al p (2 ^ w) -> has B p (le_put (Z.to_nat (2 ^ w)) z) -> number al B p (2 ^ w) (z mod 2 ^ (8 * 2 ^ w)).
Proof.
  intros Hw A H. pose proof (pow_range w Hw). split; [now apply width_in|]. split; [exact A|]. eexists. split; [apply lies_has, H|]. change little with le_get. rewrite le_put_zlen, le_get_put by lia. split; [reflexivity|].
  now rewrite Z2Nat.id by lia.
Qed.
Lemma number_small (al : Z -> Z -> Prop) B p w z : 0 <= w <= 3 -> al p (2 ^ w) -> 0 <= z < 2 ^ (8 * 2 ^ w) -> has B p (le_put (Z.to_nat (2 ^ w)) z) -> number al B p (2 ^ w) z.
Proof. intros Hw A Hz H. pose proof (number_put al B p w z Hw A H) as N. now rewrite Z.mod_small in N by lia. Qed.
Lemma number_rd al B p w n : number al B p w n -> rd_u B p w = Ok n.
Proof.
  intros (W & _ & l & L & <- & <-). unfold rd_u. rewrite (class_in _ W). rewrite (has_rd_view _ _ _ (proj1 (lies_has _ _ _) L)). reflexivity.
Qed.
Lemma signed_rd al B p w z : signed al B p w z -> rd_s B p w = Ok z.
Proof.
  intros (R & N). unfold rd_s. rewrite (number_rd _ _ _ _ _ N). cbn [bind]. destruct N as (W & _). rewrite (class_in _ W). f_equal. apply to_signed_wrap; [|exact R].
  destruct W as [<-|[<-|[<-|[<-|[]]]]]; lia.
Qed.
Lemma real_rd al B p w d : real al B p w d -> rd_f B p w = Ok d.
Proof. unfold rd_f. intros [(-> & N)|(-> & f & N & ->)]; rewrite (number_rd _ _ _ _ _ N); reflexivity. Qed.
Lemma offset_rd al B p w q : offset al B p w q -> indirect B p w = Ok q.
Proof. intros (n & N & ->). unfold indirect. now rewrite (number_rd _ _ _ _ _ N). Qed.

(** ** What a reference must find in the bytes to stand for a tree *)
Definition sized (al : Z -> Z -> Prop) (B : bytes) (r : fref) (s t : bytes) : Prop :=
  exists loc, offset al B (f_data r) (f_pw r) loc /\ number al B (loc - f_bw r) (f_bw r) (zlen s) /\ lies B loc (s ++ t).
Definition elem_at (B : bytes) (loc bw n i : Z) (r : fref) : Prop :=
  exists pt, lies B (loc + n * bw + i) [pt] /\ r = packed_ref (loc + i * bw) bw pt.
Definition indir (al : Z -> Z -> Prop) (far : bool) (B : bytes) (r : fref) (t1 t2 : Z) (P : Z -> Z -> Prop) : Prop :=
  f_ty r = t1 /\ P (f_data r) (f_pw r) \/ f_ty r = t2 /\ far = true /\ exists q, offset al B (f_data r) (f_pw r) q /\ P q (f_bw r).
Section Rep.
Variables (al : Z -> Z -> Prop) (far : bool).
Fixpoint rep (B : bytes) (x : fx) (r : fref) {struct x} : Prop :=
  match x with
  | XNull => f_ty r = 0
  | XBool b => f_ty r = 26 /\ exists z, number al B (f_data r) (f_pw r) z /\ negb (z =? 0) = b
  | XInt z => indir al far B r 1 6 (fun p w => signed al B p w z)
  | XUInt z => indir al far B r 2 7 (fun p w => number al B p w z)
  | XDbl d => indir al far B r 3 8 (fun p w => real al B p w d)
  | XStr s => f_ty r = 5 /\ sized al B r s [0]
  | XBlob s => f_ty r = 25 /\ sized al B r s []
  | XKey _ => f_ty r = 4
  | XTyped _ => False
  | XVec l => f_ty r = 10 /\ exists loc, offset al B (f_data r) (f_pw r) loc /\ number al B (loc - f_bw r) (f_bw r) (zlen l) /\
      (fix go (l0 : list fx) (i : Z) : Prop :=
         match l0 with [] => True | y :: l' => (exists r', elem_at B loc (f_bw r) (zlen l) i r' /\ rep B y r') /\ go l' (i + 1) end) l 0
  | XMap l => f_ty r = 9 /\ exists loc kd kbw, offset al B (f_data r) (f_pw r) loc /\ number al B (loc - f_bw r) (f_bw r) (zlen l) /\
      offset al B (loc - 3 * f_bw r) (f_bw r) kd /\ number al B (loc - 2 * f_bw r) (f_bw r) kbw /\ keys_at al B kd kbw (map fst l) /\
      (fix go (l0 : list (bytes * fx)) (i : Z) : Prop :=
         match l0 with [] => True | y :: l' => (exists r', elem_at B loc (f_bw r) (zlen l) i r' /\ rep B (snd y) r') /\ go l' (i + 1) end) l 0
  end.
End Rep.
Lemma get_cons {A} (x : A) l i : get (x :: l) i = if i =? 0 then Some x else get l (i - 1).
Proof.
  destruct (i =? 0) eqn:E; [now replace i with 0 by lia|]. unfold get. rewrite zlen_cons. destruct ((0 <=? i) && (i <? 1 + zlen l)) eqn:A1.
  - replace ((0 <=? i - 1) && (i - 1 <? zlen l)) with true by lia. replace (Z.to_nat i) with (S (Z.to_nat (i - 1))) by lia. reflexivity.
  - now replace ((0 <=? i - 1) && (i - 1 <? zlen l)) with false by lia.
Qed.
Lemma go_iff {A} (P : Z -> A -> Prop) (l : list A) : forall i,
  (fix go (l0 : list A) (i : Z) : Prop := match l0 with [] => True | y :: l' => P i y /\ go l' (i + 1) end) l i <->
  forall j y, get l j = Some y -> P (i + j) y.
Proof.
  induction l as [|x l IH]; intros i.
  - split; [intros _ j y G; unfold get, zlen in G; cbn in G; destruct (_ && _) eqn:E; [lia|discriminate]|easy].
  - cbn beta iota. rewrite IH. split.
    + intros (A1 & A2) j y G. rewrite get_cons in G. destruct (j =? 0) eqn:E; [injection G as <-; now replace (i + j) with i by lia|].
      replace (i + j) with (i + 1 + (j - 1)) by lia. now apply A2.
    + intros H. split; [specialize (H 0 x); rewrite get_cons_0, Z.add_0_r in H; now apply H|]. intros j y G. replace (i + 1 + j) with (i + (j + 1)) by lia. apply H.
      rewrite get_cons. pose proof (get_some _ _ _ G). replace (j + 1 =? 0) with false by lia. now replace (j + 1 - 1) with j by lia.
Qed.
Lemma rep_vec al far B l r : rep al far B (XVec l) r <-> f_ty r = 10 /\ exists loc, offset al B (f_data r) (f_pw r) loc /\ number al B (loc - f_bw r) (f_bw r) (zlen l) /\
  forall i y, get l i = Some y -> exists r', elem_at B loc (f_bw r) (zlen l) i r' /\ rep al far B y r'.
Proof.
  split; intros (T & loc & A1 & A2 & A3); (split; [exact T|]); exists loc; (split; [exact A1|]); (split; [exact A2|]).
  - exact (proj1 (go_iff (fun i y => exists r', elem_at B loc (f_bw r) (zlen l) i r' /\ rep al far B y r') l 0) A3).
  - exact (proj2 (go_iff (fun i y => exists r', elem_at B loc (f_bw r) (zlen l) i r' /\ rep al far B y r') l 0) A3).
Qed.
Lemma rep_map al far B l r : rep al far B (XMap l) r <-> f_ty r = 9 /\ exists loc kd kbw, offset al B (f_data r) (f_pw r) loc /\ number al B (loc - f_bw r) (f_bw r) (zlen l) /\
  offset al B (loc - 3 * f_bw r) (f_bw r) kd /\ number al B (loc - 2 * f_bw r) (f_bw r) kbw /\ keys_at al B kd kbw (map fst l) /\
  forall i y, get l i = Some y -> exists r', elem_at B loc (f_bw r) (zlen l) i r' /\ rep al far B (snd y) r'.
Proof.
  split; intros (T & loc & kd & kbw & A1 & A2 & A3 & A4 & A5 & A6); (split; [exact T|]); exists loc, kd, kbw; repeat (split; [assumption|]).
  - exact (proj1 (go_iff (fun i y => exists r', elem_at B loc (f_bw r) (zlen l) i r' /\ rep al far B (snd y) r') l 0) A6).
  - exact (proj2 (go_iff (fun i y => exists r', elem_at B loc (f_bw r) (zlen l) i r' /\ rep al far B (snd y) r') l 0) A6).
Qed.

(** ** Reading *)
Lemma until_nul_iff k : forall l, until_nul l = Some k <-> ~ In 0 k /\ exists t, l = k ++ 0 :: t.
Proof.
  induction k as [|c k IH]; intros l.
  - split.
    + destruct l as [|c l]; cbn [until_nul]; [discriminate|]. destruct (c =? 0) eqn:E; [|destruct (until_nul l); discriminate]. intros _. split; [easy|]. exists l. cbn. f_equal. lia.
    + intros (_ & t & ->). reflexivity.
  - split.
    + destruct l as [|d l]; cbn [until_nul]; [discriminate|]. destruct (d =? 0) eqn:E; [discriminate|]. destruct (until_nul l) as [r|] eqn:U; [|discriminate]. cbn [option_map]. intros Q. injection Q as <- <-.
      apply IH in U. destruct U as (N & t & ->). split; [|now exists t]. intros [C|C]; [lia|auto].
    + intros (N & t & ->). cbn [app until_nul]. assert (c <> 0) by (intros ->; apply N; now left). replace (c =? 0) with false by lia.
      rewrite (proj2 (IH (k ++ 0 :: t))); [reflexivity|]. split; [intros C; apply N; now right|now exists t].
Qed.
Lemma c_string_has B p k : c_string B p = Ok k <-> ~ In 0 k /\ has B p (k ++ [0]).
Proof.
  unfold c_string. split.
  - destruct (_ && _) eqn:E; [|discriminate]. destruct (until_nul _) as [r|] eqn:U; [|discriminate]. intros Q. injection Q as <-. apply until_nul_iff in U. destruct U as (N & t & U). split; [exact N|].
    rewrite <- (firstn_skipn (Z.to_nat p) B), U. replace p with (zlen (firstn (Z.to_nat p) B)) at 2 by (unfold zlen in *; rewrite firstn_length; lia).
    replace (r ++ 0 :: t) with ((r ++ [0]) ++ t) by now rewrite <- app_assoc. apply has_mid.
  - intros (N & H). pose proof (has_bound _ _ _ H) as Q. pose proof (zlen_nonneg (k ++ [0])). replace ((0 <=? p) && (p <=? zlen B)) with true by lia.
    destruct (has_split _ _ _ H) as (pre & post & -> & <-). unfold zlen. rewrite Nat2Z.id, skipn_app, skipn_all, Nat.sub_diag. cbn [app skipn].
    rewrite (proj2 (until_nul_iff k _)); [reflexivity|]. split; [exact N|]. exists post. now rewrite <- app_assoc.
Qed.
Lemma get_none {A} (l : list A) i : zlen l <= i -> get l i = None.
Proof. intros H. unfold get. destruct (_ && _) eqn:E; [lia|reflexivity]. Qed.
Lemma key_at_eq B kd kbw ks i : size_at B kd kbw = Ok (zlen ks) -> (forall i k, get ks i = Some k -> fb_key_at B kd kbw i = Ok k) -> 0 <= i ->
  fb_key_at B kd kbw i = Ok (key_at ks i).
Proof.
  intros S K H. unfold key_at. destruct (get ks i) as [k|] eqn:G; [now apply K|]. unfold fb_key_at. rewrite S. cbn [bind]. destruct (zlen ks <=? i) eqn:E; [reflexivity|].
  destruct (get_in ks i ltac:(lia)) as (x & X). congruence.
Qed.
Lemma search_eq B kd kbw ks : size_at B kd kbw = Ok (zlen ks) -> (forall i k, get ks i = Some k -> fb_key_at B kd kbw i = Ok k) ->
  forall fuel key lo hi, fb_search B fuel kd kbw key lo hi = x_search fuel ks key lo hi.
Proof.
  intros S K. induction fuel as [|f IH]; intros key lo hi; [reflexivity|]. cbn [fb_search x_search]. destruct (lo <? hi); [|reflexivity]. cbv zeta.
  rewrite (key_at_eq B kd kbw ks) by (auto; (apply Z.div_pos; [apply wrap64_range|lia])). cbn [bind].
  destruct (_ <? 0); [apply IH|]. destruct (0 <? _); [apply IH|]. destruct (_ <? _); [apply IH|]. destruct (_ <? _); [apply IH|reflexivity].
Qed.
Lemma search_nonneg ks key : forall fuel lo hi mid, x_search fuel ks key lo hi = Ok (Some mid) -> 0 <= mid.
Proof.
  induction fuel as [|f IH]; intros lo hi mid H; [discriminate|]. cbn [x_search] in H. destruct (lo <? hi); [|discriminate]. cbv zeta in H.
  destruct (_ <? 0); [now apply IH in H|]. destruct (0 <? _); [now apply IH in H|]. destruct (_ <? _); [now apply IH in H|]. destruct (_ <? _); [now apply IH in H|].
  injection H as <-. apply Z.div_pos; [apply wrap64_range|lia].
Qed.
Lemma keys_loop B kd kbw ks : (forall i k, get ks i = Some k -> fb_key_at B kd kbw i = Ok k) ->
  zloop (zlen ks) (fun '(i, acc) => k <- fb_key_at B kd kbw i ;; Ok (inl (i + 1, acc ++ [k])) : res (Z * list bytes + list bytes)) (0, []) = Ok (inl (zlen ks, ks)).
Proof.
  intros K. rewrite zloop_nloop. unfold zlen at 1. rewrite Nat2Z.id.
  enough (G : forall l pre, ks = pre ++ l -> nloop (length l) (fun '(i, acc) => k <- fb_key_at B kd kbw i ;; Ok (inl (i + 1, acc ++ [k])) : res (Z * list bytes + list bytes)) (zlen pre, pre) = Ok (inl (zlen ks, ks))).
  { exact (G ks [] eq_refl). }
  induction l as [|x l IH]; intros pre E; cbn [length nloop].
  - now rewrite app_nil_r in E; subst.
  - rewrite (K _ x) by (subst ks; apply get_mid). cbn [bind]. replace (zlen pre + 1) with (zlen (pre ++ [x])) by (rewrite zlen_app, zlen_cons, zlen_nil; lia). apply IH.
    now rewrite <- app_assoc.
Qed.
Lemma at_eq B loc bw n i : size_at B loc bw = Ok n -> 0 <= i -> forall r', (i < n -> elem_at B loc bw n i r') -> (n <= i -> r' = null_ref) -> fb_at B loc bw i = Ok r'.
Proof.
  intros S H r' L G. unfold fb_at. rewrite S. cbn [bind]. destruct (n <=? i) eqn:E; [now rewrite G by lia|]. destruct (L ltac:(lia)) as (pt & R & ->). now rewrite (has_rd _ _ _ [] (proj1 (lies_has _ _ _) R)).
Qed.
Lemma keys_rd al B kd kbw ks : keys_at al B kd kbw ks -> size_at B kd kbw = Ok (zlen ks) /\ forall i k, get ks i = Some k -> fb_key_at B kd kbw i = Ok k.
Proof.
  intros (N & K). assert (SZ : size_at B kd kbw = Ok (zlen ks)) by (unfold size_at; now rewrite (number_rd _ _ _ _ _ N)). split; [exact SZ|].
  intros i k G. destruct (K i k G) as (kp & O & L & NN). unfold fb_key_at. rewrite SZ. cbn [bind]. pose proof (get_some _ _ _ G). replace (zlen ks <=? i) with false by lia.
  rewrite (offset_rd _ _ _ _ _ O). cbn [bind]. apply c_string_has. split; [exact NN|now apply lies_has].
Qed.
Lemma rep_same al far B fuel n : forall x r, rep al far B x r -> same n (flexb_reader B fuel) (flex_reader fuel) r x.
Proof.
  induction n as [|n IH]; intros x r H; [exact I|]. cbn [same flexb_reader flex_reader r_isNull r_isBool r_isInt r_isUInt r_isFloat r_isString r_isBlob r_isMap r_isArray
    r_asBool r_asInt r_asUInt r_asDouble r_asString r_asStringView r_asBlob r_arraySize r_contains r_mapKeys r_idx r_key].
  destruct x as [|b|z|z|d|s|s|k|l|l|l].
  11: { apply rep_map in H. destruct H as (T & loc & kd & kbw & O1 & N2 & O3 & N4 & K5 & A6).
    assert (A1 := offset_rd _ _ _ _ _ O1). assert (A2 : size_at B loc (f_bw r) = Ok (zlen l)) by exact (number_rd _ _ _ _ _ N2).
    destruct (keys_rd _ _ _ _ _ K5) as (A4' & A5). assert (A4 : size_at B kd kbw = Ok (zlen l)) by now rewrite zlen_map in A4'.
    assert (A3 : fb_keys B loc (f_bw r) = Ok (kd, kbw)).
    { unfold fb_keys. destruct O3 as (o & O3 & ->). rewrite (number_rd _ _ _ _ _ O3), (number_rd _ _ _ _ _ N4). cbn [bind]. do 2 f_equal. apply Z.mod_small. destruct K5 as ((W & _) & _). destruct W as [<-|[<-|[<-|[<-|[]]]]]; lia. }
    unfold fb_is, fb_isMap, fb_isArray, fb_asBool, fb_asInt, fb_asUInt, fb_asDouble, fb_sized, fb_arraySize, fb_idx, fb_key, fb_contains, fb_mapKeys, any_vector, fb_isMap, fb_isArray.
    rewrite T. cbn [existsb Z.eqb Z.leb Pos.eqb Z.compare Pos.compare Pos.compare_cont andb orb negb require bind].
    repeat (split; [reflexivity|]). split; [|split; [|split]].
    - intros key. unfold x_contains. cbn [x_isMap negb map_keys]. rewrite A1. cbn [bind]. rewrite A3. cbn [bind]. rewrite A4. cbn [bind].
      rewrite (search_eq B kd kbw _ A4' A5), zlen_map. reflexivity.
    - unfold x_mapKeys. cbn [x_isMap require bind map_keys]. rewrite A1. cbn [bind]. rewrite A3. cbn [bind]. rewrite A4'. cbn [bind]. rewrite (keys_loop B kd kbw _ A5). reflexivity.
    - intros i Hi. reflexivity.
    - intros key. unfold x_key. cbn [x_isMap require bind map_keys map_vals]. rewrite A1. cbn [bind]. rewrite A3. cbn [bind]. rewrite A4. cbn [bind].
      rewrite (search_eq B kd kbw _ A4' A5), zlen_map. destruct (x_search _ _ _ _ _) as [[mid|]|e| |] eqn:E; cbn [bind alike]; auto.
      apply search_nonneg in E. unfold vec_at. destruct (get l mid) as [y|] eqn:G.
      + destruct (A6 mid y G) as (r' & R1 & R2). rewrite (at_eq B loc (f_bw r) _ mid A2 E r') by (auto; intros L; apply get_some in G; lia). cbn [alike].
        assert (GM : get (map snd l) mid = Some (snd y)) by (unfold get in *; rewrite zlen_map; destruct (_ && _); [now rewrite nth_error_map, G|discriminate]).
        rewrite GM. now apply IH.
      + assert (L : zlen l <= mid) by (destruct (Z_le_gt_dec (zlen l) mid) as [|C]; [assumption|]; destruct (get_in l mid ltac:(lia)); congruence).
        rewrite (at_eq B loc (f_bw r) _ mid A2 E null_ref) by (auto; lia). rewrite get_none by (rewrite zlen_map; lia). cbn [alike]. apply IH. reflexivity. }
  9: { apply rep_vec in H. destruct H as (T & loc & O1 & N2 & A3).
    assert (A1 := offset_rd _ _ _ _ _ O1). assert (A2 : size_at B loc (f_bw r) = Ok (zlen l)) by exact (number_rd _ _ _ _ _ N2).
    unfold fb_is, fb_isMap, fb_isArray, fb_asBool, fb_asInt, fb_asUInt, fb_asDouble, fb_sized, fb_arraySize, fb_idx, fb_key, fb_contains, fb_mapKeys, any_vector, fb_isMap, fb_isArray.
    rewrite T. cbn [existsb Z.eqb Z.leb Pos.eqb Z.compare Pos.compare Pos.compare_cont andb orb negb require bind].
    repeat (split; [reflexivity|]). split; [|split; [|split; [|split]]].
    - unfold x_arraySize. cbn [x_isArray require bind AsVector]. rewrite A1. exact A2.
    - reflexivity.
    - reflexivity.
    - intros i Hi. unfold x_idx. cbn [x_isArray require bind AsVector]. rewrite A1. cbn [bind]. rewrite A2. cbn [bind]. destruct (i <? zlen l) eqn:L; cbn [require bind alike]; [|reflexivity].
      destruct (get_in l i ltac:(lia)) as (y & G). destruct (A3 i y G) as (r' & R1 & R2). rewrite (at_eq B loc (f_bw r) _ i A2 Hi r') by (auto; lia). cbn [alike]. unfold vec_at.
      rewrite G. now apply IH.
    - reflexivity. }
  9: { destruct H. }
  all: cbn [rep] in H; unfold sized in H;
    unfold fb_is, fb_isMap, fb_isArray, fb_asBool, fb_asInt, fb_asUInt, fb_asDouble, fb_sized, fb_arraySize, fb_idx, fb_key, fb_contains, fb_mapKeys, any_vector, fb_isMap, fb_isArray,
      x_asBool, x_asInt, x_asUInt, x_asDouble, x_asString, x_asBlob, x_arraySize, x_idx, x_contains, x_key, x_mapKeys.
  1: { rewrite H. repeat split. }
  1: { destruct H as (T & z & A1 & A2). rewrite T. cbn [existsb Z.eqb Z.leb Pos.eqb Z.compare Pos.compare Pos.compare_cont andb orb negb require bind]. rewrite (number_rd _ _ _ _ _ A1). cbn [bind]. rewrite A2. repeat split. }
  1-3: destruct H as [(T & A1)|(T & _ & q & O & A1)]; rewrite T; cbn [existsb Z.eqb Z.leb Pos.eqb Z.compare Pos.compare Pos.compare_cont andb orb negb require bind]; try rewrite (offset_rd _ _ _ _ _ O); cbn [bind];
    rewrite ?(signed_rd _ _ _ _ _ A1), ?(number_rd _ _ _ _ _ A1), ?(real_rd _ _ _ _ _ A1); cbn [bind]; repeat split.
  1-2: destruct H as (T & loc & A1 & A2 & A3); rewrite T; cbn [existsb Z.eqb Z.leb Pos.eqb Z.compare Pos.compare Pos.compare_cont andb orb negb require bind]; rewrite (offset_rd _ _ _ _ _ A1); cbn [bind];
    unfold size_at; rewrite (number_rd _ _ _ _ _ A2); cbn [bind]; apply lies_has in A3; apply has_app in A3; rewrite (has_rd_view _ _ _ (proj1 A3)); repeat split.
  rewrite H. repeat split.
Qed.
