(** FlexBSize.v -- how large FlexBuffers messages get. *)

From Coq Require Import ZArith List Bool Lia ZifyBool ZifyNat Permutation.
From Verif Require Import Base BaseFacts Spec SpecFacts FlexModel FlexSpec FlexFacts FlexBModel FlexBSpec FlexBFacts FlexBWrite FlexBSim FlexBMain.
Import ListNotations.
Open Scope Z_scope.
Ltac Zify.zify_post_hook ::= idtac.

Definition level (s : fbst) : Z := zlen (b_buf s) + 17 * zlen (b_stack s).
Lemma write_any_len v w pos : 0 <= w <= 3 -> 0 <= zlen (write_any v (2 ^ w) pos) <= 8.
Proof.
  intros W. split; [apply zlen_nonneg|]. pose proof (pow_range w W). unfold write_any. destruct (v_ty v =? 3); [destruct (2 ^ w =? 8); cbn; lia|]. destruct (is_inline _); rewrite le_put_zlen; lia.
Qed.
Lemma write_all_len w : 0 <= w <= 3 -> forall vs pos, zlen (write_all vs (2 ^ w) pos) <= 8 * zlen vs.
Proof.
  intros W. induction vs as [|v vs IH]; intros pos; [cbn; lia|]. cbn [write_all]. rewrite zlen_app, zlen_cons. pose proof (write_any_len v w pos W). specialize (IH (pos + 2 ^ w)). lia.
Qed.
Lemma vector_len buf len vs step typed keys : Forall tame vs -> (forall k, keys = Some k -> tame k) ->
  zlen (fst (create_vector buf len vs step typed keys)) <= zlen buf + 15 + (if typed then 8 else 9) * zlen vs + match keys with Some _ => 16 | None => 0 end.
Proof.
  intros HV HK. unfold create_vector. cbv zeta. cbn [fst snd].
  set (w := max_width vs (zlen buf) _ step _).
  assert (W : 0 <= w <= 3).
  { unfold w. pose proof (width_u_range len) as WL. match goal with |- 0 <= max_width _ _ ?i _ ?w0 <= 3 => assert (W0 : 0 <= w0 <= 3) by (destruct keys as [k|]; [|lia]; destruct (HK k eq_refl) as (Q & _); pose proof (elem_width_range k (zlen buf) 0 Q); lia);
      destruct (max_width_spec vs (zlen buf) step i w0) as (M & _); [intros v V; rewrite Forall_forall in HV; now apply HV|exact W0|lia] end. }
  clearbody w. pose proof (pow_range w W) as PW. pose proof (padding_range (zlen buf) w ltac:(lia)) as PR. pose proof (align_len buf w W) as AL.
  set (b2 := match keys with Some _ => _ | None => _ end).
  assert (L2 : zlen b2 <= zlen buf + 7 + match keys with Some _ => 16 | None => 0 end) by (unfold b2; destruct keys; rewrite ?zlen_app, ?le_put_zlen; lia). clearbody b2.
  pose proof (write_all_len w W vs (zlen (b2 ++ le_put (Z.to_nat (2 ^ w)) len))) as WL. pose proof (zlen_nonneg vs).
  destruct typed; rewrite ?zlen_app, ?zlen_map, ?le_put_zlen in *; destruct keys; lia.
Qed.
Lemma blob_len buf s t ty : zlen (fst (create_blob buf s t ty)) <= zlen buf + 15 + zlen s + zlen t.
Proof.
  unfold create_blob. cbv zeta. cbn [fst]. pose proof (width_u_range (zlen s)) as W. pose proof (pow_range _ W). pose proof (padding_range (zlen buf) (width_u (zlen s)) ltac:(lia)). rewrite !zlen_app, le_put_zlen by lia. rewrite align_len by exact W. lia.
Qed.
Lemma pairs_len dbg buf : forall k vs l odd, (length vs <= k)%nat -> fb_pairs dbg buf vs = Ok (l, odd) -> 2 * zlen l + zlen odd = zlen vs.
Proof.
  induction k as [|k IH]; intros vs l odd LN E.
  - destruct vs; [|cbn in LN; lia]. cbn in E. injection E as <- <-. reflexivity.
  - destruct vs as [|a [|b vs]]; cbn [fb_pairs] in E; [injection E as <- <-; reflexivity|destruct dbg; [discriminate|]; injection E as <- <-; reflexivity|].
    destruct (v_ty a =? 4); [|destruct dbg; discriminate]. destruct (c_string buf (v_u a)) as [c|e| |]; try discriminate. cbn [bind] in E.
    assert (LN' : (length vs <= k)%nat) by (cbn in LN; lia). destruct (fb_pairs dbg buf vs) as [[r o]|e| |] eqn:P; try discriminate. cbn [bind] in E. injection E as <- <-. specialize (IH vs r o LN' P). rewrite !zlen_cons. lia.
Qed.
Section Size.
Variables (dbg : bool) (srt : forall A, list (bytes * A) -> list (bytes * A)).
Hypothesis KS : key_sort srt.
Local Notation WB := (flexb_writer dbg (srt (bval * bval))).
Lemma split_len {A} n (l : list A) : zlen (firstn n l) + zlen (skipn n l) = zlen l.
Proof. rewrite <- zlen_app. now rewrite firstn_skipn. Qed.
Lemma step_level s e : ev_ok e -> well s -> level (fst (fb_step dbg (srt _) s e)) <= level s + ev_room e.
Proof.
  intros EV (B & F). unfold level. assert (P : forall buf v, zlen (b_buf (fst (fb_push buf v s))) + 17 * zlen (b_stack (fst (fb_push buf v s))) = zlen buf + 17 * zlen (b_stack s) + 17) by (intros; unfold fb_push; cbn [fst b_buf b_stack]; rewrite zlen_app, zlen_cons, zlen_nil; lia).
  destruct e; cbn [fb_step ev_room]; try (rewrite P; lia).
  - pose proof (blob_len (b_buf s) s0 [0] 5). destruct (create_blob _ _ _ _). rewrite P. cbn [fst] in *. change (zlen [0]) with 1 in *. lia.
  - pose proof (blob_len (b_buf s) b [] 25). destruct (create_blob _ _ _ _). rewrite P. cbn [fst] in *. rewrite zlen_nil in *. lia.
  - unfold fb_add_key. pose proof (zlen_nonneg k). destruct (pool_find _ _ _); cbn [fst b_buf b_stack]; unfold zlen in *; rewrite ?app_length; cbn [length]; lia.
  - unfold fb_begin. cbn [fst b_buf b_stack]. lia.
  - unfold fb_end_array. destruct (b_st s) as [|[[] st] sts]; cbn [fst]; try lia. pose proof (vector_len (b_buf s) (zlen (skipn (Z.to_nat st) (b_stack s))) (skipn (Z.to_nat st) (b_stack s)) 1 false None (Forall_skipn' _ _ _ F) ltac:(discriminate)) as V.
    pose proof (split_len (Z.to_nat st) (b_stack s)). pose proof (zlen_nonneg (skipn (Z.to_nat st) (b_stack s))).
    destruct (create_vector _ _ _ _ _ _). cbn [fst b_buf b_stack] in *. rewrite zlen_app, zlen_cons, zlen_nil. lia.
  - unfold fb_begin. cbn [fst b_buf b_stack]. lia.
  - unfold fb_end_map. destruct (b_st s) as [|[[] st] sts]; cbn [fst]; try lia. destruct (fb_pairs _ _ _) as [[l odd]|x| |] eqn:E; cbn [fst]; try lia.
    destruct (pairs_tame _ _ _ _ _ _ (le_n _) (Forall_skipn' _ (Z.to_nat st) _ F) E) as (FL & FO). pose proof (pairs_len _ _ _ _ _ _ (le_n _) E) as PL. destruct KS as (SO & _). destruct (SO _ l) as (PM & _). pose proof (Permutation_length PM) as ML. apply Permutation_sym in PM. eapply Permutation_Forall in FL; [|exact PM].
    set (l' := srt _ l) in *. clearbody l'. assert (LL : zlen l' = zlen l) by (unfold zlen; lia).
    assert (F1 : Forall tame (map (fun x => fst (snd x)) l' ++ odd)) by (apply Forall_app; split; [|exact FO]; apply Forall_map; eapply Forall_impl; [|exact FL]; now intros x (? & ?)).
    assert (F2 : Forall tame (map (fun x => snd (snd x)) l')) by (apply Forall_map; eapply Forall_impl; [|exact FL]; now intros x (? & ?)).
    pose proof (vector_len (b_buf s) (zlen l') _ 2 true None F1 ltac:(discriminate)) as L1. pose proof (vector_bytes (b_buf s) (zlen l') _ 2 true None B F1 ltac:(discriminate)) as (_ & V2).
    destruct (create_vector (b_buf s) _ _ _ _ _) as [buf1 kv]. cbn [fst snd] in *.
    pose proof (vector_len buf1 (zlen l') _ 2 false (Some kv) F2 ltac:(intros k Q; now injection Q as <-)) as L2. destruct (create_vector buf1 _ _ _ _ _) as [buf2 v]. cbn [fst snd b_buf b_stack] in *.
    rewrite zlen_app, !zlen_map in *. rewrite zlen_cons, zlen_nil. pose proof (split_len (Z.to_nat st) (b_stack s)). pose proof (zlen_nonneg l). pose proof (zlen_nonneg odd). lia.
Qed.
Lemma catch_level es : forall s, Forall ev_ok es -> well s -> level (fst (run_catch WB s es)) <= level s + evs_room es.
Proof.
  induction es as [|e es IH]; intros s EV H; [cbn; lia|]. apply Forall_cons_iff in EV. destruct EV as [E EV]. cbn [run_catch w_step flexb_writer evs_room fold_right]. pose proof (step_well dbg srt KS s e E H) as H'. pose proof (step_level s e E H) as L.
  destruct (fb_step _ _ s e) as [s' r]. cbn [fst] in *. specialize (IH s' EV H'). cbn [flexb_writer] in IH. destruct (run_catch _ s' es). cbn [fst] in *. unfold evs_room in IH. lia.
Qed.
Theorem histories_size es b : Forall ev_ok es -> snd (w_finish WB (fst (run_catch WB (w_init WB) es))) = Ok b -> zlen b <= evs_room es + 17.
Proof.
  intros EV H. pose proof (catch_well dbg srt KS es _ EV (well_init dbg srt)) as (_ & W). pose proof (finish_size dbg _ b (fb_finished_run dbg srt es (w_init WB)) W H) as (_ & Z).
  pose proof (catch_level es _ EV (well_init dbg srt)) as L. unfold level in L. change (zlen (b_buf (w_init WB))) with 0 in L. change (zlen (b_stack (w_init WB))) with 0 in L. pose proof (zlen_nonneg (b_stack (fst (run_catch WB (w_init WB) es)))). lia.
Qed.
End Size.
Lemma evs_room_app a b : evs_room (a ++ b) = evs_room a + evs_room b.
Proof. unfold evs_room. induction a as [|e a IH]; cbn [app fold_right]; lia. Qed.

Lemma calls_room : forall v es, calls v es -> evs_room es = room v.
Proof.
  fix IH 3. intros v es C. destruct C as [|b|z|z|z|s|b|n l es C|n l es C]; try (cbn; lia).
  - change (EBeginArr n :: es ++ [EEndArr]) with ([EBeginArr n] ++ es ++ [EEndArr]). rewrite !evs_room_app. cbn [room]. assert (Q : evs_room es = fold_right (fun x n => room x + n) 0 l); [|cbn [evs_room ev_room fold_right]; lia].
    induction C as [|x l es1 es2 C1 C2 IH2]; [reflexivity|]. rewrite evs_room_app, (IH _ _ C1), IH2. reflexivity.
  - change (EBeginMap n :: es ++ [EEndMap]) with ([EBeginMap n] ++ es ++ [EEndMap]). rewrite !evs_room_app. cbn [room]. assert (Q : evs_room es = fold_right (fun kx n => 18 + zlen (fst kx) + room (snd kx) + n) 0 l); [|cbn [evs_room ev_room fold_right]; lia].
    induction C as [|k x l es1 es2 C1 C2 IH2]; [reflexivity|]. change (EKey k :: es1 ++ es2) with ([EKey k] ++ es1 ++ es2). rewrite !evs_room_app, (IH _ _ C1), IH2. cbn [evs_room ev_room fold_right fst snd]. lia.
Qed.

(** ** Readers that carry their bytes *)
Lemma at_same B fuel : forall n r, same n (flexb_at fuel) (flexb_reader B fuel) (B, r) r.
Proof.
  induction n as [|n IH]; intros r; [exact I|]. cbn [same flexb_at r_isNull r_isBool r_isInt r_isUInt r_isFloat r_isString r_isBlob r_isMap r_isArray r_asBool r_asInt r_asUInt r_asDouble r_asString r_asStringView r_asBlob r_arraySize r_idx r_key r_contains r_mapKeys fst snd].
  repeat (split; [reflexivity|]). split; [|intros k]; [intros i _|].
  - change (alike (same n (flexb_at fuel) (flexb_reader B fuel)) (x <- fb_idx B r i ;; Ok (B, x)) (fb_idx B r i)). destruct (fb_idx B r i) as [x|e| |]; cbn [bind alike]; auto.
  - change (alike (same n (flexb_at fuel) (flexb_reader B fuel)) (x <- fb_key B fuel r k ;; Ok (B, x)) (fb_key B fuel r k)). destruct (fb_key B fuel r k) as [x|e| |]; cbn [bind alike]; auto.
Qed.
Lemma flexb_round_trip dbg srt fuel v : key_sort srt -> val_ok v -> flex_ok v -> room v < 2 ^ 61 -> (64 <= fuel)%nat ->
  exists b w, serialize (flexb_writer dbg (srt (bval * bval)%type)) v = Ok b /\ flexb_opened b = Ok w /\ shows (flexb_at fuel) flex_table w (in_key_order v).
Proof.
  intros KS V OK RM F. pose proof (events_ev_ok v V) as EV. destruct (round_trip dbg srt KS fuel v _ OK F (events_calls v) EV) as (s & b & R & FI & _ & SH).
  assert (L : zlen b <= room v + 17).
  { rewrite <- (calls_room v _ (events_calls v)). apply (histories_size dbg srt KS (events v)); [exact EV|]. rewrite run_is_catch; rewrite R; [exact FI|reflexivity]. }
  destruct (SH ltac:(lia) []) as (r & O & SW). cbn [app] in *. exists b, (b, r). unfold serialize. rewrite R. split; [exact FI|]. split; [unfold flexb_opened; now rewrite O|].
  eapply shows_same; [|exact SW]. intros n. apply at_same.
Qed.
