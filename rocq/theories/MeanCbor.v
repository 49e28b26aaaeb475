(** MeanCbor.v -- what a CBOR view says is what the item at its beginning stands for. *)

From Coq Require Import ZArith List Bool Lia ZifyBool ZifyNat.
From Verif Require Import Base BaseFacts Spec SpecFacts FloatModel FloatSpec CborModel CborSpec CborFacts CborRead CborMain TransSpec SaysSpec SaysFacts MeanSpec MeanFacts MeanCSpec.
Import ListNotations.
Open Scope Z_scope.

Lemma common_arr f l : cb_common (CArr f l) <-> Forall cb_common l.
Proof. cbn [cb_common]. induction l as [|x l IH]; [split; constructor|]. rewrite Forall_cons_iff, <- IH. tauto. Qed.
Lemma common_arrI l : cb_common (CArrI l) <-> Forall cb_common l.
Proof. exact (common_arr A0 l). Qed.
Lemma common_map f l : cb_common (CMap f l) <-> Forall (fun kx => cb_common (snd kx)) l.
Proof. cbn [cb_common]. induction l as [|x l IH]; [split; constructor|]. rewrite Forall_cons_iff, <- IH. tauto. Qed.

Lemma lookup_in k l x : lookup k l = Some (Some x) -> exists kk, In (kk, x) l.
Proof.
  induction l as [|[kk y] l IH]; cbn [lookup fst snd]; [discriminate|]. destruct (text_of kk) as [s|]; [|discriminate]. destruct (beq s k).
  - intros [= ->]. exists kk. now left.
  - intros H. destruct (IH H) as (k' & IN). exists k'. now right.
Qed.
Lemma keys_first l : forall ks, keys_of l = Some ks -> forall k d, In k ks ->
  first_of k d (combine ks (map (fun kx => cb_meaning (snd kx)) l)) = match lookup k l with Some (Some x) => cb_meaning x | _ => None end.
Proof.
  induction l as [|[kk x] l IH]; intros ks K k d IN; cbn [keys_of fst] in K.
  - injection K as <-. destruct IN.
  - destruct (text_of kk) as [k0|] eqn:E; [|discriminate K]. destruct (keys_of l) as [r|]; [|discriminate K]. injection K as <-.
    cbn [map combine first_of lookup fst snd]. rewrite E. destruct (beq k0 k) eqn:B; [reflexivity|].
    destruct IN as [-> |IN]; [rewrite beq_refl in B; discriminate B|]. now apply IH.
Qed.
Lemma keys_length l : forall ks, keys_of l = Some ks -> List.length ks = List.length l.
Proof.
  induction l as [|kx l IH]; intros ks K; cbn [keys_of] in K; [now injection K as <-|].
  destruct (text_of (fst kx)); [|discriminate K]. destruct (keys_of l) as [r|]; [|discriminate K]. injection K as <-. cbn. now rewrite (IH r).
Qed.
Lemma combine_fst {A B} (a : list A) (b : list B) : List.length a = List.length b -> map fst (combine a b) = a.
Proof. revert b. induction a as [|x a IH]; intros [|y b] L; cbn in *; try discriminate; [reflexivity|]. now rewrite IH by lia. Qed.
Lemma signed_small z : 0 <= z < 2^63 -> to_signed 64 z = z.
Proof. intros H. unfold to_signed. rewrite Z.mod_small by lia. change (2^(64-1)) with (2^63). destruct (z <? 2^63) eqn:E; lia. Qed.
Lemma arg_cap_le f : arg_cap f <= 2^64.
Proof. destruct f; cbn; lia. Qed.

Section Items.
  Variables (hard : bool) (fuel : nat) (b : bytes).
  Hypothesis HB : zlen b < 2^63.
  Hypothesis HF : zlen b < Z.of_nat fuel.
  Notation R := (cbor_reader hard fuel).

  Lemma no_answer w t x : observes R w t -> first_true (answers t) = None -> says R w x -> False.
  Proof. intros OB N SY. apply says_rank in SY. apply (observes_yes R w t _ OB) in SY. congruence. Qed.

  Lemma arr_says it l p x : (exists f, it = CArr f l) \/ it = CArrI l -> item_plain it -> sits hard b p it ->
    (forall e, In e l -> forall q y, sits hard b q e -> says R (mkCView b q) y <-> cb_meaning e = Some y) ->
    says R (mkCView b p) x <-> option_map VArr (all_some (map cb_meaning l)) = Some x.
  Proof.
    intros SH IP ST IH. assert (IO := plain_ok it IP).
    assert (OB : observes R (mkCView b p) (ideal (VArr []))) by (destruct SH as [[f ->] | ->]; exact (observes_item hard fuel b p _ HB IO eq_refl ST)).
    assert (SZ : c_arraySize fuel (mkCView b p) = Ok (zlen l)) by (destruct SH as [[f ->] | ->]; [exact (size_def fuel b p f l IO (sits_has _ _ _ _ ST))|exact (size_ind fuel b HB HF p l IP (sits_has _ _ _ _ ST))]).
    assert (FA : Forall item_plain l) by (unfold item_plain in IP; destruct SH as [[f ->] | ->]; [apply item_in_arr in IP; apply IP|now apply item_in_arrI in IP]).
    assert (EL : forall l2 l1 xs, l = l1 ++ l2 -> says_elems R (mkCView b p) (zlen l1) xs /\ zlen xs = zlen l2 <-> all_some (map cb_meaning l2) = Some xs).
    { induction l2 as [|e l2 IL]; intros l1 xs E.
      - cbn [map]. rewrite all_some_nil, zlen_nil. split; [intros [_ L]; now apply zlen_0|]. intros ->. split; [exact I|reflexivity].
      - cbn [map]. rewrite all_some_cons.
        assert (F1 : Forall item_plain l1) by (rewrite E in FA; apply Forall_app in FA; apply FA).
        destruct (idx_item hard fuel b HB HF p l1 e l2 it ltac:(rewrite <- E; exact SH) IO F1 ST) as (q & EC & SC).
        assert (IN : In e l) by (rewrite E; apply in_or_app; right; now left).
        pose proof (fun y => IH e IN q y SC) as IX. specialize (IL (l1 ++ [e])). rewrite zlen_app, zlen_cons, zlen_nil in IL.
        split.
        + intros [SE L]. destruct xs as [|x0 xs]; [rewrite zlen_nil, zlen_cons in L; pose proof (zlen_nonneg l2); lia|]. rewrite !zlen_cons in L. cbn [says_elems] in SE. destruct SE as [(c' & EC' & SX) SE].
          exists x0, xs. split; [reflexivity|]. split; [apply IX; congruence|]. apply IL; [rewrite E, <- app_assoc; reflexivity|]. split; [exact SE|lia].
        + intros (x0 & xs' & -> & M & A). apply IL in A; [|rewrite E, <- app_assoc; reflexivity]. destruct A as [SE L]. rewrite !zlen_cons. split; [|lia]. cbn [says_elems].
          split; [exists (mkCView b q); split; [exact EC|now apply IX]|exact SE]. }
    split.
    + intros SY. pose proof (says_is R _ _ x 8 OB eq_refl SY) as RX. destruct x as [| | | | | | |xs|]; try discriminate RX. apply says_arr in SY. destruct SY as (_ & N & SE).
      cbn [r_arraySize cbor_reader] in N. assert (NL : zlen xs = zlen l) by congruence. rewrite (proj1 (EL l [] xs eq_refl) (conj SE NL)). reflexivity.
    + intros M. destruct (all_some _) as [xs|] eqn:A in M; [|discriminate M]. injection M as <-. apply (EL l [] xs eq_refl) in A. destruct A as [SE L]. apply says_arr.
      split; [apply (observes_yes R _ _ _ OB); reflexivity|]. split; [cbn [r_arraySize cbor_reader]; now rewrite SZ, L|exact SE].
  Qed.

  Theorem item_says : forall it, item_plain it -> cb_common it -> forall p x, sits hard b p it -> says R (mkCView b p) x <-> cb_meaning it = Some x.
  Proof.
    induction it as [it Hl|f l IH|l IH|f l IH|l IH|f n it IH] using item_ind'; intros IP CM p x ST; pose proof (plain_ok _ IP) as IO.
    - assert (NC : is_chunked_text it = false) by (destruct it; try reflexivity; destruct CM).
      pose proof (observes_item hard fuel b p it HB IO NC ST) as OB. unfold item_plain in IP.
      destruct it; try contradiction; cbn [item_in item_table cb_meaning cb_common] in *.
      + rewrite (says_scalar R _ _ x OB) by discriminate. cbn [scalar int_tbl t_null t_bool t_int t_asInt].
        replace (n <? 0) with false by lia. replace (n <? 2^63) with true by lia. rewrite signed_small by lia. unfold fits_s.
        replace ((smin I64 <=? n) && (n <=? smax I64)) with true by (change (smin I64) with (-2^63); change (smax I64) with (2^63 - 1); lia). cbn [option_map]. split; congruence.
      + rewrite (says_scalar R _ _ x OB) by discriminate. cbn [scalar int_tbl t_null t_bool t_int t_asInt].
        replace (-1 - n <? 0) with true by lia. unfold fits_s. destruct (n <? 2^63) eqn:E.
        * replace ((smin I64 <=? -1 - n) && (-1 - n <=? smax I64)) with true by (change (smin I64) with (-2^63); change (smax I64) with (2^63 - 1); lia). cbn [option_map]. split; congruence.
        * replace ((smin I64 <=? -1 - n) && (-1 - n <=? smax I64)) with false by (change (smin I64) with (-2^63); change (smax I64) with (2^63 - 1); lia). cbn [option_map]. split; congruence.
      + rewrite (says_scalar R _ _ x OB) by discriminate. cbn. split; congruence.
      + rewrite (says_scalar R _ _ x OB) by discriminate. cbn. split; congruence.
      + destruct (n =? 20); [rewrite (says_scalar R _ _ x OB) by discriminate; cbn; split; congruence|].
        destruct (n =? 21); [rewrite (says_scalar R _ _ x OB) by discriminate; cbn; split; congruence|].
        destruct (n =? 22); [rewrite (says_scalar R _ _ x OB) by discriminate; cbn; split; congruence|].
        split; [|discriminate]. intros SY. destruct (no_answer _ _ x OB eq_refl SY).
      + destruct IP as [IP _]. discriminate IP.
      + rewrite (says_scalar R _ _ x OB) by discriminate. cbn. split; congruence.
      + rewrite (says_scalar R _ _ x OB) by discriminate. cbn. split; congruence.
      + rewrite (says_scalar R _ _ x OB) by discriminate. cbn. split; congruence.
    - apply (arr_says (CArr f l) l p x); [left; eauto|exact IP|exact ST|]. apply common_arr in CM. unfold item_plain in IP. apply item_in_arr in IP. destruct IP as [_ IP].
      rewrite Forall_forall in *. intros e IN q y SQ. exact (IH e IN (IP e IN) (CM e IN) q y SQ).
    - apply (arr_says (CArrI l) l p x); [right; reflexivity|exact IP|exact ST|]. apply common_arrI in CM. unfold item_plain in IP. apply item_in_arrI in IP.
      rewrite Forall_forall in *. intros e IN q y SQ. exact (IH e IN (IP e IN) (CM e IN) q y SQ).
    - assert (FA : Forall (fun kx => item_plain (fst kx) /\ item_plain (snd kx)) l) by (unfold item_plain in IP; apply item_in_map in IP; exact (proj2 IP)).
      apply common_map in CM. pose proof (observes_item hard fuel b p _ HB IO eq_refl ST) as OB.
      pose proof (keys_item_def hard fuel b HB HF p f l IO (sits_has _ _ _ _ ST)) as KI. cbn [cb_meaning].
      set (G := fun k => match lookup k l with Some (Some y) => cb_meaning y | _ => None end).
      assert (EN : forall xs, says_entries R (mkCView b p) xs <-> Forall (fun kx => G (fst kx) = Some (snd kx)) xs).
      { induction xs as [|[k x0] xs IX]; cbn [says_entries]; [split; constructor|]. rewrite Forall_cons_iff, IX. apply and_iff_compat_r. cbn [fst snd]. unfold G.
        pose proof (key_item hard fuel b HB HF p l _ k (or_introl (ex_intro _ f eq_refl)) IP ST) as KT. destruct (lookup k l) as [[y|]|] eqn:FI.
        - apply lookup_in in FI. destruct FI as (kk & IN). destruct KT as (q & EC & SC). rewrite Forall_forall in IH, FA, CM.
          pose proof (proj2 (IH _ IN) (proj2 (FA _ IN)) (CM _ IN) q x0 SC) as IV. cbn [snd] in IV. split; [intros (c' & EC' & SX); apply IV; congruence|intros M; exists (mkCView b q); split; [exact EC|now apply IV]].
        - rewrite KT. split; [intros (c' & EC' & _); discriminate EC'|discriminate].
        - rewrite KT. split; [intros (c' & EC' & _); discriminate EC'|discriminate]. }
      assert (FM : forall ks, keys_of l = Some ks -> firsts (combine ks (map (fun kx => cb_meaning (snd kx)) l)) = map (fun k => (k, G k)) ks).
      { intros ks K. pose proof (combine_fst ks (map (fun kx => cb_meaning (snd kx)) l) ltac:(rewrite map_length; now apply keys_length)) as CF.
        rewrite (firsts_map _ G); rewrite CF; [reflexivity|]. intros k d IN. exact (keys_first l ks K k d IN). }
      split.
      + intros SY. pose proof (says_is R _ _ x 7 OB eq_refl SY) as RX. destruct x as [| | | | | | | |xs]; try discriminate RX. apply says_map in SY. destruct SY as (_ & K & SE).
        cbn [r_mapKeys cbor_reader] in K. rewrite KI in K. apply or_throw_ok in K. rewrite K, (FM _ K), (proj2 (entries_iff G _ _) (conj eq_refl (proj1 (EN _) SE))). reflexivity.
      + intros M. destruct (keys_of l) as [ks|] eqn:K in M; [|discriminate M]. rewrite (FM _ K) in M. destruct (all_entries _) as [xs|] eqn:A in M; [|discriminate M]. injection M as <-.
        apply entries_iff in A. destruct A as [A B]. apply says_map. split; [apply (observes_yes R _ _ _ OB); reflexivity|]. split; [cbn [r_mapKeys cbor_reader]; rewrite KI, K, A; reflexivity|now apply EN].
    - destruct CM.
    - pose proof (observes_item hard fuel b p _ HB IO eq_refl ST) as OB. cbn [cb_meaning]. split; [|discriminate]. intros SY. destruct (no_answer _ _ x OB eq_refl SY).
  Qed.

  (** ** The rest *)
  Lemma large_says f n p x : item_ok (CUInt f n) -> 2^63 <= n -> sits hard b p (CUInt f n) -> says R (mkCView b p) x <-> x = VInt (n - 2^64).
  Proof.
    intros IO L ST. pose proof (observes_item hard fuel b p _ HB IO eq_refl ST) as OB. unfold item_ok in IO. cbn [item_in] in IO. pose proof (arg_cap_le f).
    rewrite (says_scalar R _ _ x OB) by discriminate. cbn [scalar item_table int_tbl t_null t_bool t_int t_asInt]. replace (n <? 0) with false by lia.
    assert (E : to_signed 64 n = n - 2^64) by (unfold to_signed; rewrite Z.mod_small by lia; change (2^(64-1)) with (2^63); replace (n <? 2^63) with false by lia; reflexivity).
    rewrite E. unfold fits_s. replace ((smin I64 <=? n - 2^64) && (n - 2^64 <=? smax I64)) with true by (change (smin I64) with (-2^63); change (smax I64) with (2^63 - 1); lia). cbn [option_map]. split; congruence.
  Qed.
  Lemma chunked_silent it l p x : it = CTextI l \/ it = CBytesI l -> item_ok it -> sits hard b p it -> ~ says R (mkCView b p) x.
  Proof.
    intros SH IO ST SY. destruct SH as [-> | ->].
    - destruct (item_head _ b p IO (sits_has _ _ _ _ ST)) as [HD _]. cbn [hd_of] in HD.
      assert (FY : first_yes R (mkCView b p) 5).
      { apply (yes_list R _ [false; false; false; false; false; true; false; false; false]); [|reflexivity]. unfold questions. cbn [cbor_reader r_isNull r_isBool r_isInt r_isUInt r_isFloat r_isString r_isBlob r_isMap r_isArray].
        repeat (constructor; [rewrite (c_is_at b p _ HD); reflexivity|]). constructor. }
      pose proof (says_rank R _ x SY) as RX. pose proof (first_yes_fun R _ _ _ FY RX) as E. destruct x; try discriminate E. cbn [says] in SY. destruct SY as [_ SY].
      cbn [r_asStringView cbor_reader] in SY. unfold c_asStringView in SY. rewrite (no_view_indef hard b p _ HD 3 eq_refl) in SY. discriminate SY.
    - pose proof (observes_item hard fuel b p _ HB IO eq_refl ST) as OB. apply (says_scalar R _ _ x OB) in SY; [|discriminate]. discriminate SY.
  Qed.
  Lemma indef_map_silent l p x : item_ok (CMapI l) -> sits hard b p (CMapI l) -> ~ says R (mkCView b p) x.
  Proof.
    intros IO ST SY. pose proof (observes_item hard fuel b p _ HB IO eq_refl ST) as OB. pose proof (says_is R _ _ x 7 OB eq_refl SY) as RX. destruct x as [| | | | | | | |xs]; try discriminate RX.
    apply says_map in SY. destruct SY as (_ & K & _). cbn [r_mapKeys cbor_reader] in K. rewrite (keys_item_ind hard fuel b HB HF p l IO (sits_has _ _ _ _ ST)) in K. discriminate K.
  Qed.
End Items.

Lemma at_start hard it suf : item_ok it -> hard = false \/ ends_empty it = false \/ suf <> [] -> sits hard (enc it ++ suf) 0 it.
Proof.
  intros OK H. apply has_sits; [apply has_app_l, has_self|]. rewrite zlen_app. destruct H as [H|[H|H]]; auto. right. right. destruct suf as [|y suf]; [now destruct H|]. rewrite zlen_cons. pose proof (zlen_nonneg suf). lia.
Qed.
