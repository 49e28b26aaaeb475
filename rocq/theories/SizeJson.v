(** SizeJson.v -- JSON messages: the value read is not bigger than the text; repeated keys. *)

From Coq Require Import ZArith List Bool String Lia ZifyBool ZifyNat.
From Verif Require Import Base BaseFacts Spec SpecFacts FloatModel FloatSpec B64Model B64Spec B64Facts Utf8Model Utf8Spec JsonModel JsonSpec JTextSpec JTextModel JTextFacts JTextMain.
From Verif Require MsgModel.
From Verif Require Import TransModel TransSpec TransFacts SaysSpec SaysFacts SizeSpec SizeGrow.
Import ListNotations.
Open Scope Z_scope.
Ltac Zify.zify_post_hook ::= idtac.

(** ** A text is at least as long as its tree is heavy *)
Lemma utf8_short u : zlen (utf8_code u) <= 4.
Proof. unfold utf8_code. repeat destruct (_ <? _); unfold zlen; cbn; lia. Qed.
Lemma hex4_len u h : hex4 u h -> zlen h = 4.
Proof. intros (? & ? & ? & ? & ? & ? & ? & ? & -> & _). reflexivity. Qed.
Lemma chars_len s l : chars s l -> zlen s <= zlen l.
Proof.
  induction 1; rewrite ?zlen_app, ?zlen_cons, ?zlen_app, ?zlen_cons, ?zlen_app; try lia;
    repeat match goal with H : hex4 _ _ |- _ => apply hex4_len in H; rewrite H end.
  - pose proof (utf8_short u). lia.
  - match goal with |- context [utf8_code ?u] => pose proof (utf8_short u) end. lia.
Qed.
Lemma int_part_len l : int_part l -> 1 <= zlen l.
Proof. intros [-> |(c & l' & -> & _)]; [easy|]. rewrite zlen_cons. pose proof (zlen_nonneg l'). lia. Qed.
Definition entry_weight (kx : bytes * val) : Z := 1 + zlen (fst kx) + weight (snd kx).
Lemma weight_entry k x : entry_weight (k, x) = 1 + zlen k + weight x. Proof. reflexivity. Qed.
Lemma weight_arr l : weight (VArr l) = 1 + total weight l. Proof. reflexivity. Qed.
Lemma weight_map l : weight (VMap l) = 1 + total entry_weight l. Proof. reflexivity. Qed.
Lemma total_cons {A} (f : A -> Z) x l : total f (x :: l) = f x + total f l. Proof. reflexivity. Qed.
Lemma total_nil {A} (f : A -> Z) : total f [] = 0. Proof. reflexivity. Qed.

Ltac lens := repeat (rewrite ?zlen_app, ?zlen_cons, ?zlen_nil); repeat match goal with |- context [zlen ?t] => lazymatch goal with H : 0 <= zlen t |- _ => fail | _ => pose proof (zlen_nonneg t) end end.
Lemma grammar_len real : (forall t l, value real t l -> weight t <= zlen l) /\ (forall xs l, elems real xs l -> total weight xs + 1 <= zlen l) /\
  (forall xs l, members real xs l -> total entry_weight xs + 1 <= zlen l).
Proof.
  apply grammar_ind; intros; rewrite ?weight_arr, ?weight_map, ?total_cons, ?total_nil, ?weight_entry;
    repeat match goal with H : chars _ _ |- _ => apply chars_len in H | H : int_part _ |- _ => apply int_part_len in H end;
    try match goal with |- weight (VStr ?s) <= _ => change (1 + zlen s <= zlen (34 :: l ++ [34])) end;
    try match goal with |- weight (VDbl _) <= _ => change (1 <= zlen (sign ++ i ++ lf ++ lx)) end;
    try match goal with |- weight (VUInt _) <= ?r => change (1 <= r) end; try match goal with |- weight (VInt _) <= ?r => change (1 <= r) end;
    lens; try lia.
  all: try (change (weight VNull) with 1); try (change (weight (VBool true)) with 1); try (change (weight (VBool false)) with 1); lia.
Qed.
Lemma text_len real b t : text real b t -> weight t <= zlen b.
Proof. intros (w1 & l & w2 & -> & _ & V & _). apply (proj1 (grammar_len real)) in V. lens. lia. Qed.

(** ** Opening keeps the weight *)
Lemma yy_big_weight z w : yy_big z = Some w -> weight w = 1.
Proof. unfold yy_big. destruct (is_finite _); [|discriminate]. intros E. injection E as <-. reflexivity. Qed.
Lemma yy_read_weight t : forall w, yy_read t = Some w -> weight w = weight t.
Proof.
  induction t as [|b|z|z|d|s|s|l IH|l IH] using val_ind'; intros w; cbn [yy_read]; intros E.
  - now injection E as <-.
  - now injection E as <-.
  - destruct (_ <=? _); [now injection E as <-|exact (yy_big_weight _ _ E)].
  - destruct (_ <=? _); [now injection E as <-|exact (yy_big_weight _ _ E)].
  - destruct (is_finite d); [now injection E as <-|discriminate E].
  - destruct (utf8_valid s); [now injection E as <-|discriminate E].
  - discriminate E.
  - match type of E with option_map _ ?m = _ => destruct m as [r|] eqn:G; [|discriminate E] end. injection E as <-. rewrite !weight_arr. f_equal.
    revert r G. induction l as [|x l IL]; intros r G; [injection G as <-; reflexivity|]. apply Forall_cons_iff in IH. destruct IH as [IX IH].
    destruct (yy_read x) as [y|]; [|discriminate G]. match type of G with match ?m with _ => _ end = _ => destruct m as [r'|] eqn:G'; [|discriminate G] end.
    injection G as <-. rewrite !total_cons. rewrite (IX y eq_refl), (IL IH r' eq_refl). reflexivity.
  - match type of E with option_map _ ?m = _ => destruct m as [r|] eqn:G; [|discriminate E] end. injection E as <-. rewrite !weight_map. f_equal.
    revert r G. induction l as [|[k x] l IL]; intros r G; [injection G as <-; reflexivity|]. apply Forall_cons_iff in IH. destruct IH as [IX IH]. cbn [snd] in IX.
    destruct (utf8_valid k); [|discriminate G].
    destruct (yy_read x) as [y|]; [|discriminate G]. match type of G with match ?m with _ => _ end = _ => destruct m as [r'|] eqn:G'; [|discriminate G] end.
    injection G as <-. rewrite !total_cons. rewrite !weight_entry. rewrite (IX y eq_refl), (IL IH r' eq_refl). reflexivity.
Qed.

(** ** Reading by key and index *)
Lemma total_pos {A} (f : A -> Z) l : Forall (fun x => 0 <= f x) l -> 0 <= total f l.
Proof. induction 1; [reflexivity|]. rewrite total_cons. lia. Qed.
Lemma weight_pos v : 1 <= weight v. 
Proof.
  induction v as [| | | | |s|s|l IH|l IH] using val_ind'; try (change (1 <= 1); lia); try (change (1 <= 1 + zlen s); pose proof (zlen_nonneg s); lia).
  - rewrite weight_arr. assert (0 <= total weight l) by (apply total_pos; eapply Forall_impl; [|exact IH]; cbn beta; lia). lia.
  - rewrite weight_map. assert (0 <= total entry_weight l); [|lia]. apply total_pos. eapply Forall_impl; [|exact IH]. intros [k x] X. rewrite weight_entry. cbn [snd] in X. pose proof (zlen_nonneg k). lia.
Qed.
Lemma before_pad_len s : zlen (before_pad s) <= zlen s.
Proof. induction s as [|c s IH]; [reflexivity|]. cbn [before_pad]. destruct (c =? 61); lens; lia. Qed.
Lemma decode_len s out : bytes_ok s -> base64Decode s = Ok out -> zlen out <= zlen s.
Proof.
  intros B E. pose proof (decode_spec s B) as D. destruct (forallb _ _); [|rewrite D in E; discriminate E]. destruct D as (o & D & L & _). rewrite E in D. injection D as <-.
  rewrite L. pose proof (before_pad_len s). pose proof (zlen_nonneg (before_pad s)). assert (6 * zlen (before_pad s) / 8 <= zlen (before_pad s)) by (apply Z.div_le_upper_bound; lia). lia.
Qed.
(** A blob is an array of which the second element is a text. *)
Lemma asBlob_text w out : j_asBlob w = Ok out -> exists x s l, w = VArr (x :: VStr s :: l) /\ base64Decode s = Ok out.
Proof.
  unfold j_asBlob. destruct (j_isBlob w) as [[]| | |]; cbn [require bind]; try discriminate. destruct (j_idx w 1) as [x| | |] eqn:I1; cbn [bind]; try discriminate.
  destruct x; cbn [j_asString bind]; try discriminate. intros E. destruct w as [| | | | | | |l|]; try discriminate I1. cbn [j_idx yy_arr_get] in I1.
  destruct l as [|x [|y l]]; try discriminate I1.
  assert (G : get (x :: y :: l) 1 = Some y) by (exact (get_mid [x] l y)). unfold yy_arr_get in I1. rewrite G in I1. injection I1 as ->. now exists x, s, l.
Qed.

Lemma getn_in l k x : yy_obj_getn l k = Some x -> In (k, x) l.
Proof.
  induction l as [|[k' y] l IL]; cbn [yy_obj_getn]; [discriminate|]. destruct (beq k' k) eqn:E; [|intros H; right; auto].
  intros H. injection H as <-. left. apply beq_eq in E. now subst.
Qed.
Lemma getn_cons k y l k' : k' <> k -> yy_obj_getn ((k, y) :: l) k' = yy_obj_getn l k'.
Proof. intros H. cbn [yy_obj_getn]. destruct (beq k k') eqn:E; [apply beq_eq in E; congruence|reflexivity]. Qed.

Theorem json_reads_small x : forall w, json_doc w -> distinct_keys x -> says json_reader w x -> weight x <= weight w.
Proof.
  induction x as [| | | | |s|s|l IH|l IH] using val_ind'; intros w J D SY; try exact (weight_pos w).
  - destruct SY as [_ E]. cbn [r_asStringView json_reader] in E. destruct w; try discriminate E. injection E as ->. reflexivity.
  - destruct SY as [_ E]. cbn [r_asBlob json_reader] in E. apply asBlob_text in E. destruct E as (x & t & l & -> & E). apply every_arr in J. destruct J as [_ J].
    apply Forall_cons_iff in J. destruct J as [_ J]. apply Forall_cons_iff in J. destruct J as [J _]. apply decode_len in E; [|apply J].
    rewrite weight_arr, !total_cons. pose proof (weight_pos x). change (weight (VStr t)) with (1 + zlen t). change (weight (VBlob s)) with (1 + zlen s).
    assert (0 <= total weight l) by (clear; induction l as [|y l IL]; [reflexivity|]; rewrite total_cons; pose proof (weight_pos y); lia). lia.
  - apply says_arr in SY. destruct SY as (_ & N & SE). apply every_arr in D. destruct D as [_ D]. cbn [r_arraySize json_reader] in N. destruct w as [| | | | | | |ws|]; try discriminate N.
    apply every_arr in J. destruct J as [_ J]. cbn [j_arraySize] in N. injection N as N. rewrite !weight_arr. apply Zplus_le_compat_l.
    assert (G : forall pre xs, says_elems json_reader (VArr (pre ++ xs)) (zlen pre) l -> zlen xs = zlen l -> Forall json_doc xs -> total weight l <= total weight xs).
    { clear SE N J ws. induction l as [|y l IL]; intros pre xs SE N J; [destruct xs; [reflexivity|rewrite zlen_cons, zlen_nil in N; pose proof (zlen_nonneg xs); lia]|].
      destruct xs as [|w xs]; [rewrite zlen_cons, zlen_nil in N; pose proof (zlen_nonneg l); lia|].
      apply Forall_cons_iff in IH. destruct IH as [IX IH]. apply Forall_cons_iff in D. destruct D as [DX D]. apply Forall_cons_iff in J. destruct J as [JX J].
      cbn [says_elems] in SE. destruct SE as ((c & C & SC) & SE). cbn [r_idx json_reader j_idx] in C. unfold yy_arr_get in C. rewrite get_mid in C. injection C as <-.
      rewrite !total_cons. specialize (IX w JX DX SC). specialize (IL IH D (pre ++ [w]) xs). rewrite <- app_assoc, zlen_app in IL. cbn [app] in IL.
      specialize (IL SE ltac:(rewrite !zlen_cons in N; lia) J). lia. }
    exact (G [] ws SE N J).
  - apply says_map in SY. destruct SY as (_ & N & SE). apply every_map in D. destruct D as [ND D]. cbn [r_mapKeys json_reader] in N. destruct w as [| | | | | | | |ws]; try discriminate N.
    apply every_map in J. destruct J as [_ J]. cbn [j_mapKeys] in N. injection N as N. rewrite !weight_map. apply Zplus_le_compat_l.
    assert (SE' : Forall (fun kx => exists c, yy_obj_getn ws (fst kx) = Some c /\ says json_reader c (snd kx)) l).
    { clear - SE. induction l as [|[k x] l IL]; constructor; cbn [says_entries] in SE; destruct SE as ((c & C & SC) & SE); [|exact (IL SE)].
      cbn [fst snd]. exists c. split; [|exact SC]. cbn [r_key json_reader j_key] in C. destruct (yy_obj_getn ws k); [now injection C as ->|discriminate C]. }
    clear SE. revert ws N SE' J. induction l as [|[k x] l IL]; intros ws N SE J; [destruct ws; [reflexivity|discriminate N]|].
    destruct ws as [|[k' y] ws]; [discriminate N|]. cbn [map fst] in N. injection N as -> N.
    apply Forall_cons_iff in IH. destruct IH as [IX IH]. apply Forall_cons_iff in D. destruct D as [DX D]. apply Forall_cons_iff in J. destruct J as [JX J].
    apply Forall_cons_iff in SE. destruct SE as [(c & C & SC) SE]. cbn [fst snd] in *. cbn [yy_obj_getn] in C. rewrite beq_refl in C. injection C as <-.
    cbn [map fst] in ND. apply NoDup_cons_iff in ND. destruct ND as [NI ND].
    rewrite !total_cons. rewrite !weight_entry. specialize (IX y JX DX SC). specialize (IL IH ND D ws N).
    assert (SE2 : Forall (fun kx => exists c, yy_obj_getn ws (fst kx) = Some c /\ says json_reader c (snd kx)) l).
    { apply Forall_forall. intros kx I. rewrite Forall_forall in SE. destruct (SE kx I) as (c & C & SC'). exists c. split; [|exact SC']. rewrite getn_cons in C; [exact C|].
      intros E. apply NI. rewrite <- E. now apply in_map. }
    specialize (IL SE2 J). lia.
Qed.

Theorem json_weight b w x : bytes_ok b -> json_open_text b = Ok w -> distinct_keys x -> says json_reader w x -> weight x <= zlen b.
Proof.
  intros B O D SY. destruct (open_text_any b B) as [E|(w' & E & J & _)]; [rewrite E in O; discriminate O|]. rewrite O in E. injection E as <-.
  apply open_text_iff in O. destruct O as (t & T & O). unfold json_open in O. destruct (yy_read t) as [r|] eqn:R; [|discriminate O]. injection O as ->.
  apply yy_read_weight in R. apply text_len in T. pose proof (json_reads_small x w J D SY). lia.
Qed.

(** ** Repeated keys *)
(** {"a":{"a":null,"a":null},"a":null}, nested [n] deep *)
Fixpoint dup_text (n : nat) : bytes :=
  match n with O => codes "null" | S n => codes "{""a"":" ++ dup_text n ++ codes ",""a"":null}" end.
Lemma dup_text_len n : zlen (dup_text n) = 15 * Z.of_nat n + 4.
Proof. induction n as [|n IH]; [reflexivity|]. cbn [dup_text]. rewrite !zlen_app, IH. change (zlen (codes "{""a"":")) with 5. change (zlen (codes ",""a"":null}")) with 10. lia. Qed.
Lemma dup_text_value real n : value real (dupv n) (dup_text n).
Proof.
  induction n as [|n IH]; [apply v_null|]. cbn [dup_text dupv].
  assert (A : chars [97] [97]) by (apply ch_plain; try lia; apply ch_nil).
  assert (W : ws []) by constructor.
  pose proof (m_last real [97] [97] VNull (codes "null") [] [] [] A (v_null real) W W W) as M1.
  pose proof (m_more real [97] [97] (dupv n) (dup_text n) [] [] [] [] _ _ A IH W W W W M1) as M2.
  exact (v_map real [] _ _ W M2).
Qed.
Lemma dup_text_ok n : bytes_ok (dup_text n).
Proof. induction n as [|n IH]; cbn [dup_text]; rewrite ?bytes_ok_app; repeat split; auto; repeat constructor; unfold is_byte; lia. Qed.
Lemma dup_read n : yy_read (dupv n) = Some (dupv n).
Proof. induction n as [|n IH]; [reflexivity|]. cbn [dupv yy_read]. rewrite IH. reflexivity. Qed.
Lemma dup_opens n : json_open_text (dup_text n) = Ok (dupv n).
Proof.
  apply open_text_iff. exists (dupv n). split; [|unfold json_open; now rewrite dup_read]. exists [], (dup_text n), []. rewrite app_nil_r. split; [reflexivity|].
  split; [constructor|]. split; [apply dup_text_value|constructor].
Qed.
Lemma dup_says n : says json_reader (dupv n) (twice n).
Proof.
  induction n as [|n IH].
  - split; [eexists; split; [reflexivity|reflexivity]|]. intros m q M. lia.
  - cbn [twice]. apply says_map. split; [|split; [reflexivity|]].
    + split; [eexists; split; [reflexivity|reflexivity]|]. intros m q M Q. do 7 (destruct m as [|m]; [injection Q as <-; reflexivity|]). lia.
    + cbn [says_entries]. split; [|split; [|exact I]]; (exists (dupv n); split; [reflexivity|exact IH]).
Qed.
Theorem dup_json n : exists b b' m, bytes_ok b /\ zlen b = 15 * Z.of_nat n + 4 /\ json_open_text b = Ok (dupv n) /\ 2 ^ Z.of_nat n <= zlen b' /\
  forall fuel, (m <= fuel)%nat -> translate json_reader MsgModel.mp_writer (fun b => Ok (MsgModel.mp_open b)) fuel (dupv n) = Ok (MsgModel.mp_open b').
Proof.
  destruct (mp_len (twice n)) as (b2 & E2 & L2). exists (dup_text n), b2, (S (height (twice n))). split; [apply dup_text_ok|]. split; [apply dup_text_len|]. split; [apply dup_opens|].
  split; [rewrite L2; apply twice_mp_len|]. intros fuel F. rewrite (says_translates json_reader MsgModel.mp_writer (fun b => Ok (MsgModel.mp_open b)) (twice n) (dupv n) (dup_says n)) by lia.
  rewrite E2. reflexivity.
Qed.
