(** MeanJson.v -- what the JSON reader says about a text is what the text stands for. *)

From Coq Require Import ZArith List Bool Lia ZifyBool ZifyNat.
From Verif Require Import Base BaseFacts Spec SpecFacts HalfModel FloatSpec Utf8Model Utf8Spec Utf8Facts TransSpec SaysSpec SaysFacts MeanSpec MeanFacts MeanJSpec
  JsonModel JsonSpec JsonFacts JsonMain DecSpec DecFacts DecMain JTextModel JTextSpec JTextFacts JTextMain.
Import ListNotations.
Open Scope Z_scope.
Ltac Zify.zify_post_hook ::= idtac.

Section Real.
Variable real : bool -> Z -> Z -> Z.
Hypothesis IEEE : ieee_rounding real.
Notation value_of := (json_value real).

(** Documents: integers of 64 bits that int64_t has. *)
Definition small : val -> Prop := every (fun v => match v with VInt z | VUInt z => ~ (2 ^ 63 <= z < 2 ^ 64) | _ => True end).

Lemma first_getn (f : val -> option val) l k d : In k (map fst l) ->
  first_of k d (map (fun kx => (fst kx, f (snd kx))) l) = match yy_obj_getn l k with Some y => f y | None => None end.
Proof.
  induction l as [|[k' y] l IH]; intros IN; [destruct IN|]. cbn [map fst snd first_of yy_obj_getn]. destruct (beq k' k) eqn:E; [reflexivity|].
  destruct IN as [IN|IN]; [cbn [fst] in IN; subst k'; rewrite beq_refl in E; discriminate E|]. exact (IH IN).
Qed.
Lemma getn_elem l k y : yy_obj_getn l k = Some y -> exists k', In (k', y) l.
Proof.
  induction l as [|[k' y'] l IH]; cbn [yy_obj_getn]; [discriminate|]. destruct (beq k' k); [intros [= <-]; exists k'; now left|]. intros H. destruct (IH H) as [k0 IN]. exists k0. now right.
Qed.

Theorem doc_says w : json_doc w -> small w -> forall x, says json_reader w x <-> value_of w = Some x.
Proof.
  induction w as [| |z|z|d|s|s|l IH|l IH] using val_ind'; intros D S x; pose proof (json_observes _ D) as OB.
  - rewrite (says_scalar _ _ _ _ OB); [|discriminate]. cbn. split; [now intros [= <-]|now intros [= <-]].
  - rewrite (says_scalar _ _ _ _ OB); [|discriminate]. cbn. split; [now intros [= <-]|now intros [= <-]].
  - rewrite (says_scalar _ _ _ _ OB); [|discriminate]. destruct D as [D _]. assert (E : int_value real z = VInt z) by (unfold int_value, is_i64, i64_min, i64_max in *; replace ((- 2 ^ 63 <=? z) && (z <? 2 ^ 63)) with true by lia; reflexivity).
    cbn [json_table scalar t_null t_bool t_int t_asInt option_map json_value]. rewrite E. rewrite (to_signed_exact (ibits I64) z); [|cbn; lia|unfold is_i64, i64_min, i64_max in D; cbn [ibits]; lia]. split; [now intros [= <-]|now intros [= <-]].
  - rewrite (says_scalar _ _ _ _ OB); [|discriminate]. destruct D as [D _]. destruct S as [S _]. assert (E : int_value real z = VInt z) by (unfold int_value, is_u64, u64_max in *; replace ((- 2 ^ 63 <=? z) && (z <? 2 ^ 63)) with true by lia; reflexivity).
    cbn [json_table scalar t_null t_bool t_int t_asInt option_map json_value]. rewrite E. rewrite (to_signed_exact (ibits I64) z); [|cbn; lia|unfold is_u64, u64_max in D; cbn [ibits]; lia]. split; [now intros [= <-]|now intros [= <-]].
  - rewrite (says_scalar _ _ _ _ OB); [|discriminate]. cbn. split; [now intros [= <-]|now intros [= <-]].
  - rewrite (says_scalar _ _ _ _ OB); [|discriminate]. cbn. split; [now intros [= <-]|now intros [= <-]].
  - destruct D as [[] _].
  - cbn [json_value]. cbn [json_table] in OB. destruct (blob_text (VArr l)) as [s|] eqn:BT.
    + rewrite (says_scalar _ _ _ _ OB); [|discriminate]. cbn. destruct (unb64 s); cbn; split; congruence.
    + apply every_arr in D, S. destruct D as [_ D], S as [_ S].
      assert (EL : forall l2 l1 xs, l = l1 ++ l2 -> says_elems json_reader (VArr l) (zlen l1) xs /\ zlen xs = zlen l2 <-> all_some (map value_of l2) = Some xs).
      { induction l2 as [|y l2 IL]; intros l1 xs E.
        - cbn [map]. rewrite all_some_nil. split; [intros [_ L]; destruct xs; [reflexivity|rewrite zlen_cons in L; pose proof (zlen_nonneg xs); change (zlen (@nil val)) with 0 in L; lia]|intros ->; split; [exact I|reflexivity]].
        - cbn [map]. rewrite all_some_cons. specialize (IL (l1 ++ [y])). assert (IN : In y l) by (rewrite E; apply in_or_app; right; now left).
          rewrite Forall_forall in IH, D, S. pose proof (IH y IN (D y IN) (S y IN)) as IY.
          assert (EI : r_idx json_reader (VArr l) (zlen l1) = Ok y) by (cbn [json_reader r_idx j_idx]; unfold yy_arr_get; rewrite E, get_mid; reflexivity).
          rewrite zlen_app in IL. change (zlen [y]) with 1 in IL. split.
          + intros [SE L]. destruct xs as [|x0 xs]; [rewrite zlen_cons in L; pose proof (zlen_nonneg l2); change (zlen (@nil val)) with 0 in L; lia|]. rewrite !zlen_cons in L. cbn [says_elems] in SE. destruct SE as [(c' & EC' & SX) SE].
            exists x0, xs. split; [reflexivity|]. split; [apply IY; congruence|]. apply IL; [rewrite E, <- app_assoc; reflexivity|]. split; [exact SE|lia].
          + intros (x0 & xs' & -> & M & A). apply IL in A; [|rewrite E, <- app_assoc; reflexivity]. destruct A as [SE L]. rewrite !zlen_cons. split; [|lia]. cbn [says_elems].
            split; [|exact SE]. exists y. split; [exact EI|]. now apply IY. }
      specialize (EL l [] ). split.
      * intros SY. pose proof (says_is _ _ _ _ 8%nat OB eq_refl SY) as RK. destruct x; try discriminate RK. apply says_arr in SY. destruct SY as (_ & SZ & SE). cbn [json_reader r_arraySize j_arraySize] in SZ. injection SZ as SZ.
        rewrite (proj1 (EL l0 eq_refl)); [reflexivity|]. split; [exact SE|congruence].
      * intros H. destruct (all_some (map value_of l)) as [xs|]; [|discriminate H]. injection H as <-. destruct (proj2 (EL xs eq_refl) eq_refl) as [SE L]. apply says_arr.
        split; [apply (observes_yes _ _ _ _ OB); reflexivity|]. split; [cbn; f_equal; congruence|exact SE].
  - apply every_map in D, S. destruct D as [_ D], S as [_ S]. cbn [json_value]. set (G := fun k => match yy_obj_getn l k with Some y => value_of y | None => None end).
    rewrite (firsts_map _ G). 2:{ intros k d IN. rewrite map_map in IN. cbn [fst] in IN. apply first_getn. exact IN. }
    assert (KS : map fst (map (fun kx => (fst kx, value_of (snd kx))) l) = map fst l) by (rewrite map_map; reflexivity). rewrite KS.
    assert (EN : forall xs, says_entries json_reader (VMap l) xs <-> Forall (fun kx => G (fst kx) = Some (snd kx)) xs).
    { induction xs as [|[k x0] xs IX]; cbn [says_entries]; [split; constructor|]. rewrite Forall_cons_iff, IX. apply and_iff_compat_r. cbn [fst snd]. unfold G. cbn [json_reader r_key j_key].
      destruct (yy_obj_getn l k) as [y|] eqn:GY; [|split; [intros (w' & H & _); discriminate H|discriminate]].
      destruct (getn_elem _ _ _ GY) as [k' IN]. rewrite Forall_forall in IH, D, S. pose proof (IH _ IN (D _ IN) (S _ IN) x0) as IY. cbn [snd] in IY. rewrite <- IY.
      split; [intros (w' & [= <-] & H); exact H|intros H; exists y; split; [reflexivity|exact H]]. }
    split.
    + intros SY. pose proof (says_is _ _ _ _ 7%nat OB eq_refl SY) as RK. destruct x; try discriminate RK. apply says_map in SY. destruct SY as (_ & SZ & SE). cbn [json_reader r_mapKeys j_mapKeys] in SZ. injection SZ as SZ.
      rewrite (proj2 (entries_iff G (map fst l) l0)); [reflexivity|]. split; [now symmetry|]. now apply EN.
    + intros H. destruct (all_entries _) as [xs|] eqn:A; [|discriminate H]. injection H as <-. apply entries_iff in A. destruct A as [A1 A2]. apply says_map.
      split; [apply (observes_yes _ _ _ _ OB); reflexivity|]. split; [cbn; f_equal; now symmetry|now apply EN].
Qed.

(** ** From the text to the document *)
Lemma of_int_real z : z <> 0 -> to_bits (of_int z) = real (z <? 0) (Z.abs z) 0.
Proof.
  intros N. transitivity (dec_double (z <? 0) (Z.abs z) 0).
  - rewrite <- of_int_dec by lia. do 2 f_equal. destruct (z <? 0) eqn:E; lia.
  - apply (nearest_unique (z <? 0) (Z.abs z) 0); [lia|apply dec_ieee; lia|apply IEEE; lia].
Qed.
Lemma big_value z w : yy_big z = Some w -> z < i64_min \/ u64_max < z -> w = int_value real z /\ exists d, int_value real z = VDbl d /\ finite d.
Proof.
  intros H R. unfold yy_big in H. destruct (is_finite _) eqn:F; [|discriminate H]. injection H as <-.
  assert (E : int_value real z = VDbl (real (z <? 0) (Z.abs z) 0)).
  { unfold int_value, i64_min, u64_max in *. replace ((- 2 ^ 63 <=? z) && (z <? 2 ^ 63)) with false by lia. replace ((2 ^ 63 <=? z) && (z <? 2 ^ 64)) with false by lia. reflexivity. }
  rewrite E, <- of_int_real by (unfold i64_min, u64_max in *; lia). split; [reflexivity|]. eexists. split; [reflexivity|]. apply finite_iff. exact F.
Qed.

(** Reading succeeds on texts with UTF-8 strings and finite numbers only, and keeps the value. *)
Definition fine (t : val) : Prop := texts_utf8 t /\ numbers_finite real t.
Lemma texts_arr l : texts_utf8 (VArr l) <-> Forall texts_utf8 l.
Proof. cbn [texts_utf8]. induction l as [|x l IH]; [split; constructor|]. rewrite Forall_cons_iff, <- IH. reflexivity. Qed.
Lemma texts_map l : texts_utf8 (VMap l) <-> Forall (fun kx => is_utf8 (fst kx) /\ texts_utf8 (snd kx)) l.
Proof. cbn [texts_utf8]. induction l as [|[k x] l IH]; [split; constructor|]. rewrite Forall_cons_iff, <- IH. cbn [fst snd]. tauto. Qed.
Lemma fine_arr l : fine (VArr l) <-> Forall fine l.
Proof. unfold fine, numbers_finite. rewrite texts_arr, every_arr. rewrite (Forall_both texts_utf8). tauto. Qed.
Lemma fine_map l : fine (VMap l) <-> Forall (fun kx => is_utf8 (fst kx) /\ fine (snd kx)) l.
Proof.
  unfold fine, numbers_finite. rewrite texts_map, every_map. split.
  - intros [A [_ B]]. rewrite Forall_forall in *. intros kx IN. split; [apply A, IN|split; [apply A, IN|apply B, IN]].
  - intros A. split; [|split; [exact I|]]; rewrite Forall_forall in *; intros kx IN; destruct (A kx IN) as (A1 & A2 & A3); [now split|exact A3].
Qed.
Lemma blob_text_same l l' : Forall2 (fun t w => (forall s, t = VStr s <-> w = VStr s)) l l' -> blob_text (VArr l) = blob_text (VArr l').
Proof.
  intros F. destruct F as [|t1 w1 l l' H1 F]; [reflexivity|]. destruct F as [|t2 w2 l l' H2 F]; [destruct t1, w1; reflexivity|]. destruct F as [|t3 w3 l l' H3 F]; [destruct t1, w1; try reflexivity; destruct t2, w2; reflexivity|].
  destruct F as [|t4 w4 l l' H4 F]; [|destruct t1, w1; try reflexivity; destruct t2, w2; try reflexivity; destruct t3, w3; reflexivity].
  destruct t1; try (destruct w1; try reflexivity; destruct (proj2 (H1 _) eq_refl); fail).
  all: try (destruct w1; try reflexivity; discriminate (proj2 (H1 _) eq_refl)).
  rewrite (proj1 (H1 _) eq_refl). destruct t2; try (destruct w2; try reflexivity; discriminate (proj2 (H2 _) eq_refl)).
  rewrite (proj1 (H2 _) eq_refl). destruct t3; try (destruct w3; try reflexivity; discriminate (proj2 (H3 _) eq_refl)).
  rewrite (proj1 (H3 _) eq_refl). reflexivity.
Qed.
Definition kept (t w : val) : Prop := fine t /\ value_of w = value_of t /\ (forall s, t = VStr s <-> w = VStr s) /\ (small t -> small w).
Ltac keep tac := split; [split; [try exact I|split; [tac|exact I]]|split; [try reflexivity|split; [intros ?; split; try discriminate; try tauto|try (intros H; exact H)]]].
Lemma read_kept t : both t -> forall w, yy_read t = Some w -> kept t w.
Proof.
  unfold both, kept. induction t as [|b|z|z|d|s|s|l IH|l IH] using val_ind'; intros [J T] w E.
  - injection E as <-. keep ltac:(exact I).
  - injection E as <-. keep ltac:(exact I).
  - cbn [yy_read] in E. destruct J as [J _]. destruct (i64_min <=? z) eqn:L.
    + injection E as <-. keep idtac. unfold int_value, i64_min in *. replace ((- 2 ^ 63 <=? z) && (z <? 2 ^ 63)) with true by lia. exact I.
    + destruct (big_value z w E ltac:(lia)) as (EW & d & E0 & F). rewrite E0 in EW. subst w.
      keep ltac:(rewrite E0; exact F); [cbn [json_value]; now rewrite E0|]. intros _. split; exact I.
  - cbn [yy_read] in E. destruct J as [J _]. destruct (z <=? u64_max) eqn:L.
    + injection E as <-. keep idtac. unfold int_value, u64_max in *. destruct ((- 2 ^ 63 <=? z) && (z <? 2 ^ 63)) eqn:Q; [exact I|]. replace ((2 ^ 63 <=? z) && (z <? 2 ^ 64)) with true by lia. exact I.
    + destruct (big_value z w E ltac:(lia)) as (EW & d & E0 & F). rewrite E0 in EW. subst w.
      keep ltac:(rewrite E0; exact F); [cbn [json_value]; now rewrite E0|]. intros _. split; exact I.
  - cbn [yy_read] in E. destruct (is_finite d) eqn:F; [|discriminate E]. injection E as <-. keep ltac:(apply finite_iff; exact F).
  - cbn [yy_read] in E. destruct (utf8_valid s) eqn:F; [|discriminate E]. injection E as <-. destruct J as [J _]. keep ltac:(exact I). exact (utf8_sound _ s (le_n _) J F).
  - discriminate E.
  - cbn [yy_read] in E. match type of E with option_map _ ?m = _ => destruct m as [r|] eqn:G; [|discriminate E] end. injection E as <-.
    apply every_arr in J, T. destruct J as [_ J], T as [_ T].
    assert (F2 : Forall2 kept l r).
    { revert r G. induction l as [|x l IL]; intros r G; [injection G as <-; constructor|].
      apply Forall_cons_iff in IH, J, T. destruct IH as [IX IH], J as [JX J], T as [TX T].
      destruct (yy_read x) as [y|]; [|discriminate G]. match type of G with match ?m with _ => _ end = _ => destruct m as [r'|] eqn:G'; [|discriminate G] end.
      injection G as <-. constructor; [exact (IX (conj JX TX) y eq_refl)|exact (IL IH J T r' eq_refl)]. }
    clear - F2. split; [|split; [|split]].
    + apply fine_arr. induction F2 as [|x y l r K F IHF]; constructor; [apply K|exact IHF].
    + cbn [json_value]. rewrite (blob_text_same l r). 2:{ induction F2 as [|x y l r K F IHF]; constructor; [apply K|exact IHF]. }
      destruct (blob_text (VArr r)); [reflexivity|]. do 2 f_equal. induction F2 as [|x y l r K F IHF]; [reflexivity|]. cbn [map]. f_equal; [apply K|exact IHF].
    + intros s. split; discriminate.
    + intros SM. apply every_arr in SM. destruct SM as [_ SM]. apply every_arr. split; [exact I|]. induction F2 as [|x y l r K F IHF]; [constructor|]. apply Forall_cons_iff in SM. destruct SM as [SX SM]. constructor; [now apply K|now apply IHF].
  - cbn [yy_read] in E. match type of E with option_map _ ?m = _ => destruct m as [r|] eqn:G; [|discriminate E] end. injection E as <-.
    apply every_map in J, T. destruct J as [_ J], T as [K T].
    assert (F2 : Forall2 (fun kx ky => fst ky = fst kx /\ is_utf8 (fst kx) /\ kept (snd kx) (snd ky)) l r).
    { revert r G. induction l as [|[k x] l IL]; intros r G; [injection G as <-; constructor|].
      apply Forall_cons_iff in IH, J, K, T. destruct IH as [IX IH], J as [JX J], K as [KX K], T as [TX T]. cbn [fst snd] in *.
      destruct (utf8_valid k) eqn:U; [|discriminate G]. destruct (yy_read x) as [y|]; [|discriminate G]. match type of G with match ?m with _ => _ end = _ => destruct m as [r'|] eqn:G'; [|discriminate G] end.
      injection G as <-. constructor; [|exact (IL IH J K T r' eq_refl)]. cbn [fst snd]. split; [reflexivity|]. split; [exact (utf8_sound _ k (le_n _) KX U)|exact (IX (conj JX TX) y eq_refl)]. }
    clear - F2. split; [|split; [|split]].
    + apply fine_map. induction F2 as [|x y l r H F IHF]; constructor; [split; apply H|exact IHF].
    + cbn [json_value]. do 3 f_equal. induction F2 as [|x y l r H F IHF]; [reflexivity|]. cbn [map]. destruct H as (H1 & _ & H2). f_equal; [rewrite H1; f_equal; apply H2|exact IHF].
    + intros s. split; discriminate.
    + intros SM. apply every_map in SM. destruct SM as [_ SM]. apply every_map. split; [exact I|]. induction F2 as [|x y l r H F IHF]; [constructor|]. apply Forall_cons_iff in SM. destruct SM as [SX SM]. constructor; [now apply H|now apply IHF].
Qed.
Lemma fine_read t : both t -> fine t -> exists w, yy_read t = Some w.
Proof.
  unfold both. induction t as [|b|z|z|d|s|s|l IH|l IH] using val_ind'; intros [J T] F; cbn [yy_read].
  - eauto.
  - eauto.
  - destruct (i64_min <=? z) eqn:L; [eauto|]. destruct F as [_ [F _]]. unfold yy_big.
    assert (E : int_value real z = VDbl (to_bits (of_int z))).
    { rewrite of_int_real by (unfold i64_min in L; lia). unfold int_value, i64_min in *. replace ((- 2 ^ 63 <=? z) && (z <? 2 ^ 63)) with false by lia. replace ((2 ^ 63 <=? z) && (z <? 2 ^ 64)) with false by lia. reflexivity. }
    rewrite E in F. apply finite_iff in F. rewrite F. eauto.
  - destruct (z <=? u64_max) eqn:L; [eauto|]. destruct F as [_ [F _]]. unfold yy_big.
    assert (E : int_value real z = VDbl (to_bits (of_int z))).
    { rewrite of_int_real by (unfold u64_max in L; lia). unfold int_value, u64_max in *. replace ((- 2 ^ 63 <=? z) && (z <? 2 ^ 63)) with false by lia. replace ((2 ^ 63 <=? z) && (z <? 2 ^ 64)) with false by lia. reflexivity. }
    rewrite E in F. apply finite_iff in F. rewrite F. eauto.
  - destruct F as [_ [F _]]. apply finite_iff in F. rewrite F. eauto.
  - destruct F as [F _]. rewrite (utf8_complete s F). eauto.
  - destruct J as [[] _].
  - apply fine_arr in F. apply every_arr in J, T. destruct J as [_ J], T as [_ T].
    match goal with |- exists w, option_map _ ?m = _ => assert (G : exists r, m = Some r) end; [|destruct G as [r ->]; cbn; eauto].
    induction l as [|x l IL]; [eauto|]. apply Forall_cons_iff in IH, J, T, F. destruct IH as [IX IH], J as [JX J], T as [TX T], F as [FX F].
    destruct (IX (conj JX TX) FX) as [y ->]. destruct (IL IH J T F) as [r ->]. eauto.
  - apply fine_map in F. apply every_map in J, T. destruct J as [_ J], T as [K T].
    match goal with |- exists w, option_map _ ?m = _ => assert (G : exists r, m = Some r) end; [|destruct G as [r ->]; cbn; eauto].
    induction l as [|[k x] l IL]; [eauto|]. apply Forall_cons_iff in IH, J, K, T, F. destruct IH as [IX IH], J as [JX J], K as [KX K], T as [TX T], F as [FX F]. cbn [fst snd] in *.
    rewrite (utf8_complete k (proj1 FX)). destruct (IX (conj JX TX) (proj2 FX)) as [y ->]. destruct (IL IH J K T F) as [r ->]. eauto.
Qed.

Theorem json_iff b x : bytes_ok b -> no_large_ints real b ->
  (exists w, json_open_text b = Ok w /\ says json_reader w x) <-> json_stands_for real b x.
Proof.
  intros B NL. split.
  - intros (w & O & SY). apply open_text_iff in O. destruct O as (t & T & O). unfold json_open in O. destruct (yy_read t) as [r|] eqn:R; [|discriminate O]. injection O as ->.
    pose proof (text_tree b t B T) as BT. destruct (read_kept t BT w R) as ((F1 & F2) & F3 & _ & F4).
    pose proof (text_agree dec_double real dec_ieee IEEE b t T) as T'. exists t. split; [exact T'|]. split; [exact F1|]. split; [exact F2|]. rewrite <- F3.
    apply doc_says; [exact (read_doc t (proj1 BT) w R)|apply F4, (NL t T')|exact SY].
  - intros (t & T' & F1 & F2 & E). pose proof (text_agree real dec_double IEEE dec_ieee b t T') as T. pose proof (text_tree b t B T) as BT.
    destruct (fine_read t BT (conj F1 F2)) as [w R]. destruct (read_kept t BT w R) as (_ & F3 & _ & F4). exists w. split.
    + apply open_text_iff. exists t. split; [exact T|]. unfold json_open. now rewrite R.
    + apply doc_says; [exact (read_doc t (proj1 BT) w R)|apply F4, (NL t T')|congruence].
Qed.
End Real.
