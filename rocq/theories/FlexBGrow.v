(** FlexBGrow.v -- how small FlexBuffers messages can be, compared with what they hold: written ones, and others. *)

From Coq Require Import ZArith List Bool Lia ZifyBool ZifyNat Permutation.
From Verif Require Import Base BaseFacts Spec SpecFacts FlexModel FlexSpec FlexFacts FlexBModel FlexBSpec FlexBFormat FlexBFacts FlexBWrite FlexBSim FlexBMain FlexBSize FlexBConf.
From Verif Require Import TransModel TransSpec TransFacts TransMain TransAll SaysSpec SaysFacts MeanShows SizeSpec SizeFSpec SizeGrow.
From Verif Require MsgModel.
Import ListNotations.
Open Scope Z_scope.
Ltac Zify.zify_post_hook ::= idtac.

(** ** Written messages *)
Definition ev_bulk (e : ev) : Z :=
  match e with
  | EStr s | EBin s => 1 + zlen s
  | EBeginArr _ | EBeginMap _ => 0
  | _ => 1
  end.
Definition evs_bulk (es : list ev) : Z := fold_right (fun e n => ev_bulk e + n) 0 es.
Lemma evs_bulk_app a b : evs_bulk (a ++ b) = evs_bulk a + evs_bulk b.
Proof. unfold evs_bulk. induction a as [|e a IH]; cbn [app fold_right]; lia. Qed.
Lemma calls_bulk : forall v es, calls v es -> evs_bulk es = bulk v.
Proof.
  fix IH 3. intros v es C. destruct C as [|b|z|z|z|s|b|n l es C|n l es C]; try (cbn; lia).
  - change (EBeginArr n :: es ++ [EEndArr]) with ([EBeginArr n] ++ es ++ [EEndArr]). rewrite !evs_bulk_app. cbn [bulk]. assert (Q : evs_bulk es = total bulk l); [|cbn [evs_bulk ev_bulk fold_right]; lia].
    induction C as [|x l es1 es2 C1 C2 IH2]; [reflexivity|]. rewrite evs_bulk_app, (IH _ _ C1), IH2. reflexivity.
  - change (EBeginMap n :: es ++ [EEndMap]) with ([EBeginMap n] ++ es ++ [EEndMap]). rewrite !evs_bulk_app. cbn [bulk]. assert (Q : evs_bulk es = total (fun kx => 1 + bulk (snd kx)) l); [|cbn [evs_bulk ev_bulk fold_right]; lia].
    induction C as [|k x l es1 es2 C1 C2 IH2]; [reflexivity|]. change (EKey k :: es1 ++ es2) with ([EKey k] ++ es1 ++ es2). rewrite !evs_bulk_app, (IH _ _ C1), IH2. cbn [evs_bulk ev_bulk total fold_right fst snd]. lia.
Qed.

Lemma write_any_some v w pos : 0 <= w <= 3 -> 1 <= zlen (write_any v (2 ^ w) pos).
Proof.
  intros W. pose proof (pow_range w W). unfold write_any. destruct (v_ty v =? 3); [destruct (2 ^ w =? 8); cbn; lia|]. destruct (is_inline _); rewrite le_put_zlen; lia.
Qed.
Lemma write_all_some w : 0 <= w <= 3 -> forall vs pos, zlen vs <= zlen (write_all vs (2 ^ w) pos).
Proof.
  intros W. induction vs as [|v vs IH]; intros pos; [cbn; lia|]. cbn [write_all]. rewrite zlen_app, zlen_cons. pose proof (write_any_some v w pos W). specialize (IH (pos + 2 ^ w)). lia.
Qed.
Lemma vector_some buf len vs step (typed : bool) keys : Forall tame vs -> (forall k, keys = Some k -> tame k) ->
  zlen buf + 1 + (if typed then 1 else 2) * zlen vs <= zlen (fst (create_vector buf len vs step typed keys)).
Proof.
  intros HV HK. unfold create_vector. cbv zeta. cbn [fst snd].
  set (w := max_width vs (zlen buf) _ step _).
  assert (W : 0 <= w <= 3).
  { unfold w. pose proof (width_u_range len) as WL. match goal with |- 0 <= max_width _ _ ?i _ ?w0 <= 3 => assert (W0 : 0 <= w0 <= 3) by (destruct keys as [k|]; [|lia]; destruct (HK k eq_refl) as (Q & _); pose proof (elem_width_range k (zlen buf) 0 Q); lia);
      destruct (max_width_spec vs (zlen buf) step i w0) as (M & _); [intros v V; rewrite Forall_forall in HV; now apply HV|exact W0|lia] end. }
  clearbody w. pose proof (pow_range w W) as PW. pose proof (padding_range (zlen buf) w ltac:(lia)) as PR. pose proof (align_len buf w W) as AL.
  set (b2 := match keys with Some _ => _ | None => _ end).
  assert (L2 : zlen buf <= zlen b2) by (unfold b2; destruct keys; rewrite ?zlen_app, ?le_put_zlen; lia). clearbody b2.
  pose proof (write_all_some w W vs (zlen (b2 ++ le_put (Z.to_nat (2 ^ w)) len))) as WL. pose proof (zlen_nonneg vs).
  destruct typed; rewrite ?zlen_app, ?zlen_map, ?le_put_zlen in *; lia.
Qed.
Lemma blob_some buf s t ty : zlen buf + zlen s <= zlen (fst (create_blob buf s t ty)).
Proof.
  unfold create_blob. cbv zeta. cbn [fst]. pose proof (width_u_range (zlen s)) as W. pose proof (pow_range _ W). pose proof (padding_range (zlen buf) (width_u (zlen s)) ltac:(lia)). rewrite !zlen_app, le_put_zlen by lia. rewrite align_len by exact W. pose proof (zlen_nonneg t). lia.
Qed.
Definition depot (s : fbst) : Z := zlen (b_buf s) + zlen (b_stack s).

Section Low.
Variables (dbg : bool) (srt : forall A, list (bytes * A) -> list (bytes * A)).
Hypothesis KS : key_sort srt.
Local Notation WB := (flexb_writer dbg (srt (bval * bval)%type)).
Lemma step_depot s e : ev_ok e -> well s -> snd (fb_step dbg (srt _) s e) = Ok tt -> depot s + ev_bulk e <= depot (fst (fb_step dbg (srt _) s e)).
Proof.
  intros EV (B & F). unfold depot. assert (P : forall buf v, zlen (b_buf (fst (fb_push buf v s))) + zlen (b_stack (fst (fb_push buf v s))) = zlen buf + zlen (b_stack s) + 1) by (intros; unfold fb_push; cbn [fst b_buf b_stack]; rewrite zlen_app, zlen_cons, zlen_nil; lia).
  destruct e; cbn [fb_step ev_bulk]; try (intros _; rewrite P; lia).
  - pose proof (blob_some (b_buf s) s0 [0] 5). destruct (create_blob _ _ _ _). intros _. rewrite P. cbn [fst] in *. lia.
  - pose proof (blob_some (b_buf s) b [] 25). destruct (create_blob _ _ _ _). intros _. rewrite P. cbn [fst] in *. lia.
  - intros _. unfold fb_add_key. pose proof (zlen_nonneg k). destruct (pool_find _ _ _); cbn [fst b_buf b_stack]; unfold zlen in *; rewrite ?app_length; cbn [length]; lia.
  - intros _. unfold fb_begin. cbn [fst b_buf b_stack]. lia.
  - unfold fb_end_array. destruct (b_st s) as [|[[] st] sts]; cbn [fst snd]; try discriminate. intros _. pose proof (vector_some (b_buf s) (zlen (skipn (Z.to_nat st) (b_stack s))) (skipn (Z.to_nat st) (b_stack s)) 1 false None (Forall_skipn' _ _ _ F) ltac:(discriminate)) as V.
    pose proof (split_len (Z.to_nat st) (b_stack s)). pose proof (zlen_nonneg (skipn (Z.to_nat st) (b_stack s))).
    destruct (create_vector _ _ _ _ _ _). cbn [fst b_buf b_stack] in *. rewrite zlen_app, zlen_cons, zlen_nil. lia.
  - intros _. unfold fb_begin. cbn [fst b_buf b_stack]. lia.
  - unfold fb_end_map. destruct (b_st s) as [|[[] st] sts]; cbn [fst snd]; try discriminate. destruct (fb_pairs _ _ _) as [[l odd]|x| |] eqn:E; cbn [fst snd]; try discriminate.
    destruct (pairs_tame _ _ _ _ _ _ (le_n _) (Forall_skipn' _ (Z.to_nat st) _ F) E) as (FL & FO). pose proof (pairs_len _ _ _ _ _ _ (le_n _) E) as PL. destruct KS as (SO & _). destruct (SO _ l) as (PM & _). pose proof (Permutation_length PM) as ML. apply Permutation_sym in PM. eapply Permutation_Forall in FL; [|exact PM].
    set (l' := srt _ l) in *. clearbody l'. assert (LL : zlen l' = zlen l) by (unfold zlen; lia).
    assert (F1 : Forall tame (map (fun x => fst (snd x)) l' ++ odd)) by (apply Forall_app; split; [|exact FO]; apply Forall_map; eapply Forall_impl; [|exact FL]; now intros x (? & ?)).
    assert (F2 : Forall tame (map (fun x => snd (snd x)) l')) by (apply Forall_map; eapply Forall_impl; [|exact FL]; now intros x (? & ?)).
    pose proof (vector_some (b_buf s) (zlen l') _ 2 true None F1 ltac:(discriminate)) as L1. pose proof (vector_bytes (b_buf s) (zlen l') _ 2 true None B F1 ltac:(discriminate)) as (_ & V2).
    destruct (create_vector (b_buf s) _ _ _ _ _) as [buf1 kv]. cbn [fst snd] in *.
    pose proof (vector_some buf1 (zlen l') _ 2 false (Some kv) F2 ltac:(intros k Q; now injection Q as <-)) as L2. destruct (create_vector buf1 _ _ _ _ _) as [buf2 v]. cbn [fst snd b_buf b_stack] in *. intros _.
    rewrite zlen_app, !zlen_map in *. rewrite zlen_cons, zlen_nil. pose proof (split_len (Z.to_nat st) (b_stack s)). pose proof (zlen_nonneg l). pose proof (zlen_nonneg odd). lia.
Qed.
Lemma run_depot es : forall s, Forall ev_ok es -> well s -> snd (run WB s es) = Ok tt -> depot s + evs_bulk es <= depot (fst (run WB s es)).
Proof.
  induction es as [|e es IH]; intros s EV H; [cbn; lia|]. apply Forall_cons_iff in EV. destruct EV as [E EV]. cbn [run w_step flexb_writer evs_bulk fold_right]. pose proof (step_well dbg srt KS s e E H) as H'. pose proof (step_depot s e E H) as L.
  destruct (fb_step _ _ s e) as [s' [[]|x| |]]; cbn [fst snd] in *; try discriminate. specialize (L eq_refl). specialize (IH s' EV H'). cbn [flexb_writer] in IH. intros Q. specialize (IH Q). unfold evs_bulk in IH. lia.
Qed.
Theorem written_bulk v es s b : calls v es -> Forall ev_ok es -> run WB (w_init WB) es = (s, Ok tt) -> snd (w_finish WB s) = Ok b -> bulk v + 1 <= zlen b.
Proof.
  intros C EV R FI. pose proof (run_depot es (w_init WB) EV (well_init dbg srt)) as D. rewrite R in D. specialize (D eq_refl). cbn [fst] in D. rewrite (calls_bulk v es C) in D.
  destruct (run_like dbg (srt (bval * bval)%type) (srt fx) es _ _ (likes_init dbg (srt _) (srt _))) as (_ & LK). rewrite R in LK. cbn [fst] in LK.
  pose proof (proj1 (frun_value dbg (srt fx)) v es C [] [] false) as RT. change (mkFst [] [] false false) with (w_init (flex_writer dbg (srt fx))) in RT. rewrite RT in LK. cbn [fst] in LK.
  destruct LK as (F2 & _ & _ & FN). cbn [fs_stack fs_finished app] in *. apply zlen_F2 in F2. rewrite zlen_cons, zlen_nil in F2.
  pose proof (run_well dbg srt KS es _ EV (well_init dbg srt)) as (_ & W). rewrite R in W. cbn [fst] in W. pose proof (finish_size dbg s b FN W FI) as (Z & _). unfold depot in D. change (zlen (b_buf (w_init WB))) with 0 in D. change (zlen (b_stack (w_init WB))) with 0 in D. lia.
Qed.
End Low.

(** ** Others: the two elements of an array may be one and the same. *)
Fixpoint floors (n : nat) : bytes := match n with O => [2; 0; 0; 0; 0] | S n => floors n ++ [2; 5; 6; 40; 40] end.
Definition tower (n : nat) : bytes := floors n ++ [4; 40; 1].
Lemma zlen_floors n : zlen (floors n) = 5 * Z.of_nat n + 5.
Proof. induction n as [|n IH]; [reflexivity|]. cbn [floors]. rewrite zlen_app, IH. change (zlen [2; 5; 6; 40; 40]) with 5. lia. Qed.
Lemma tower_bytes n : bytes_ok (tower n).
Proof. assert (bytes_ok (floors n)); [|apply Forall_app; split; [assumption|okay]]. induction n as [|n IH]; [okay|]. cbn [floors]. apply Forall_app. split; [exact IH|okay]. Qed.
Lemma number_1 B p x : lies B p [x] -> number aligned B p 1 x.
Proof. intros L. split; [cbn; auto|]. split; [apply Z.mod_1_r|]. exists [x]. split; [exact L|]. split; [reflexivity|]. cbn [little]. lia. Qed.
Lemma lies_sub B a m c : B = a ++ m ++ c -> lies B (zlen a) m.
Proof. intros E. exists a, c. auto. Qed.
Lemma floor_lays B n rest p : B = floors n ++ rest -> offset aligned B p 1 (5 * Z.of_nat n + 1) -> lays aligned B false false p 1 (4 * 10 + 0) (arrs (S n)).
Proof.
  revert rest p. induction n as [|n IH]; intros rest p E O; cbn [floors] in E; cbn [arrs].
  - apply (lays_arr aligned B false false p 1 0 1 (fun _ => 4 * 0 + 0)); [lia|exact O|change (2 ^ 0) with 1; apply number_1; apply (lies_sub B [] [2] ([0; 0; 0; 0] ++ rest)); exact E| |];
      intros i x G; pose proof (get_some _ _ _ G) as R; change (zlen _) with 2 in R; assert (Q : i = 0 \/ i = 1) by lia; destruct Q; subst i; injection G as <-.
    + apply (lies_sub B [2; 0; 0] [0] ([0] ++ rest)). exact E.
    + apply (lies_sub B [2; 0; 0; 0] [0] rest). exact E.
    + apply lays_null. lia.
    + apply lays_null. lia.
  - rewrite <- app_assoc in E. pose proof (zlen_floors n) as ZF. set (f := floors n) in *.
    assert (L : forall a x c, [2; 5; 6; 40; 40] = a ++ [x] ++ c -> lies B (5 * Z.of_nat n + 5 + zlen a) [x]).
    { intros a x c Q. rewrite <- ZF. rewrite <- zlen_app. apply (lies_sub B (f ++ a) [x] (c ++ rest)). rewrite E, Q. rewrite <- !app_assoc. reflexivity. }
    apply (lays_arr aligned B false false p 1 0 (5 * Z.of_nat (S n) + 1) (fun _ => 4 * 10 + 0)); [lia|exact O| | |].
    + change (2 ^ 0) with 1. apply number_1. change (zlen [arrs (S n); arrs (S n)]) with 2. replace (5 * Z.of_nat (S n) + 1 - 1) with (5 * Z.of_nat n + 5 + zlen (@nil Z)) by (rewrite zlen_nil; lia). now apply (L [] 2 [5; 6; 40; 40]).
    + intros i x G. pose proof (get_some _ _ _ G) as R. change (2 ^ 0) with 1. change (zlen _) with 2 in R. change (zlen _) with 2. assert (Q : i = 0 \/ i = 1) by lia. destruct Q; subst i.
      * replace (5 * Z.of_nat (S n) + 1 + 2 * 1 + 0) with (5 * Z.of_nat n + 5 + zlen [2; 5; 6]) by (change (zlen [2; 5; 6]) with 3; lia). now apply (L _ 40 [40]).
      * replace (5 * Z.of_nat (S n) + 1 + 2 * 1 + 1) with (5 * Z.of_nat n + 5 + zlen [2; 5; 6; 40]) by (change (zlen [2; 5; 6; 40]) with 4; lia). now apply (L _ 40 []).
    + intros i x G. pose proof (get_some _ _ _ G) as R. change (2 ^ 0) with 1. change (zlen _) with 2 in R. assert (Q : i = 0 \/ i = 1) by lia. destruct Q; subst i; injection G as <-; apply (IH ([2; 5; 6; 40; 40] ++ rest) _ E).
      * exists 5. split; [|lia]. apply number_1. replace (5 * Z.of_nat (S n) + 1 + 0 * 1) with (5 * Z.of_nat n + 5 + zlen [2]) by (change (zlen [2]) with 1; lia). now apply (L _ 5 [6; 40; 40]).
      * exists 6. split; [|lia]. apply number_1. replace (5 * Z.of_nat (S n) + 1 + 1 * 1) with (5 * Z.of_nat n + 5 + zlen [2; 5]) by (change (zlen [2; 5]) with 2; lia). now apply (L _ 6 [40; 40]).
Qed.
Lemma zlen_tower n : zlen (tower n) = 5 * Z.of_nat n + 8.
Proof. unfold tower. rewrite zlen_app, zlen_floors. change (zlen [4; 40; 1]) with 3. lia. Qed.
Lemma tower_message n : message aligned (tower n) false false (arrs (S n)).
Proof.
  exists 1, 40. rewrite zlen_tower. pose proof (zlen_floors n) as ZF. split.
  - replace (5 * Z.of_nat n + 8 - 2) with (zlen (floors n ++ [4])) by (rewrite zlen_app, ZF; change (zlen [4]) with 1; lia). apply (lies_sub (tower n) _ [40; 1] []). unfold tower. rewrite <- app_assoc. reflexivity.
  - apply (floor_lays (tower n) n [4; 40; 1]); [reflexivity|]. exists 4. split; [|lia]. apply number_1. replace (5 * Z.of_nat n + 8 - 2 - 1) with (zlen (floors n)) by lia. apply (lies_sub (tower n) _ [4] [40; 1]). reflexivity.
Qed.
Lemma arrs_exposed n : exposed flex_table (arrs n) = Some (arrs n).
Proof. induction n as [|n IH]; [reflexivity|]. cbn [arrs exposed]. change (scalar (flex_table _)) with (@None (option val)). cbn iota. cbn [map all_some]. rewrite !IH. reflexivity. Qed.
Lemma flex_table_ok : table_ok flex_table.
Proof. split; intros l _; [reflexivity|split; reflexivity]. Qed.
Theorem tower_grows n : 5 * Z.of_nat n + 8 < 2 ^ 63 -> exists r b' m, fb_open (tower n) = Ok r /\ zlen b' = 2 ^ (Z.of_nat n + 2) - 1 /\
  forall fuel, (m <= fuel)%nat -> says (flexb_reader (tower n) fuel) r (arrs (S n)) /\
    translate (flexb_reader (tower n) fuel) MsgModel.mp_writer (fun b => Ok (MsgModel.mp_open b)) fuel r = Ok (MsgModel.mp_open b').
Proof.
  intros N. destruct (mp_len (arrs (S n))) as (b' & E & L). destruct (message_shows aligned (tower n) false 64 _ (tower_message n) ltac:(rewrite zlen_tower; lia) (le_n _)) as (r & O & _).
  exists r, b', (64 + Datatypes.S (height (arrs (S n))))%nat. split; [exact O|]. split; [rewrite L, arrs_mp_len; f_equal; f_equal; lia|]. intros fuel F.
  destruct (message_shows aligned (tower n) false fuel _ (tower_message n) ltac:(rewrite zlen_tower; lia) ltac:(lia)) as (r' & O' & SH). rewrite O in O'. injection O' as <-.
  assert (SA : says (flexb_reader (tower n) fuel) r (arrs (S n))).
  { apply (shows_says _ flex_table flex_table_ok _ _ r SH). apply arrs_exposed. }
  split; [exact SA|]. rewrite (says_translates (flexb_reader (tower n) fuel) MsgModel.mp_writer _ (arrs (S n)) _ SA fuel ltac:(lia)), E. reflexivity.
Qed.

(** ** Written once, read often: the builder keeps one copy of equal keys. *)
Definition echo (n : nat) (k : bytes) : val := VArr (repeat (VMap [(k, VNull)]) n).
