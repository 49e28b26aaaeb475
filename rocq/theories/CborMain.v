(** CborMain.v -- the CBOR writer emits well-formed items; round trip. *)

From Coq Require Import ZArith List Bool Lia ZifyBool ZifyNat.
From Verif Require Import Base BaseFacts Spec SpecFacts FloatModel FloatSpec HalfModel FloatFacts
  Utf8Model Utf8Spec Utf8Facts CborModel CborSpec CborFacts CborRead.
Import ListNotations.
Open Scope Z_scope.
Ltac Zify.zify_post_hook ::= Z.div_mod_to_equations.

(** ** The item each value is written as *)
Definition arg_of (n : Z) : arg :=
  if n <=? 23 then A0 else if n <=? 255 then A1 else if n <=? 65535 then A2 else if n <=? 4294967295 then A4 else A8.
Lemma arg_of_cap n : n < 2^64 -> n < arg_cap (arg_of n).
Proof.
  intros H. unfold arg_of. destruct (n <=? 23) eqn:E1; [cbn; lia|]. destruct (n <=? 255) eqn:E2; [cbn; lia|].
  destruct (n <=? 65535) eqn:E3; [cbn; lia|]. destruct (n <=? 4294967295) eqn:E4; cbn; lia.
Qed.
Lemma put_be_be n v : put_be n v = be n v.
Proof.
  induction n as [|n IH]; [reflexivity|]. cbn [put_be be]. rewrite IH, land_255, shiftr_div by lia. f_equal. f_equal. f_equal.
  rewrite Z.pow_mul_r by lia. reflexivity.
Qed.
Lemma put_head_hdr m v : put_head m v = hdr m (arg_of v) v.
Proof.
  unfold put_head, arg_of. destruct (v <=? 23); [reflexivity|]. destruct (v <=? 255); [cbn [hdr]; now rewrite put_be_be|].
  destruct (v <=? 65535); [cbn [hdr]; now rewrite put_be_be|]. destruct (v <=? 4294967295); cbn [hdr]; now rewrite put_be_be.
Qed.
Definition str_item (s : bytes) : item := CText (arg_of (zlen s)) s.
Definition dbl_item (x : Z) : item := match f64_to_f32 x with Some y => CF32 y | None => CF64 x end.
Definition int_item (z : Z) : item := if 0 <=? z then CUInt (arg_of z) z else CNeg (arg_of (-1 - z)) (-1 - z).
Fixpoint item_of (v : val) : item :=
  match v with
  | VNull => CSimple 22
  | VBool b => CSimple (if b then 21 else 20)
  | VInt z => int_item z
  | VUInt z => CUInt (arg_of z) z
  | VDbl x => dbl_item x
  | VStr s => str_item s
  | VBlob b => CBytes (arg_of (zlen b)) b
  | VArr l => CArr (arg_of (zlen l)) (map item_of l)
  | VMap l => CMap (arg_of (zlen l)) (map (fun kx => (str_item (fst kx), item_of (snd kx))) l)
  end.
Definition kv (kx : bytes * val) : item * item := (str_item (fst kx), item_of (snd kx)).

Lemma enc_nonempty it : 1 <= zlen (enc it).
Proof.
  assert (K : forall m f n (l : bytes), 1 <= zlen (hdr m f n ++ l)).
  { intros. rewrite zlen_app, zlen_hdr. pose proof (hlen_pos f). pose proof (zlen_nonneg l). lia. }
  destruct it; cbn [enc]; try apply K; try (rewrite zlen_hdr; apply hlen_pos);
    cbn [app]; rewrite zlen_cons; match goal with |- context [1 + zlen ?l] => pose proof (zlen_nonneg l) end; lia.
Qed.

(** Total size bounds every length in it. *)
Lemma zlen_flat_in {A} (e : A -> bytes) l x : In x l -> zlen (e x) <= zlen (flat_map e l).
Proof.
  induction l as [|y l IH]; intros H; [destruct H|]. cbn [flat_map]. rewrite zlen_app.
  pose proof (zlen_nonneg (e y)). pose proof (zlen_nonneg (flat_map e l)). destruct H as [-> |H]; [lia|]. specialize (IH H). lia.
Qed.
Lemma item_of_ok : forall v, val_ok v -> zlen (enc (item_of v)) < 2^63 -> item_plain (item_of v).
Proof.
  induction v as [| | | | | | |l IH|l IH] using val_ind'; intros OK SZ; cbn [item_of] in *; unfold item_plain.
  - cbn. lia.
  - cbn. destruct b; lia.
  - unfold int_item. unfold val_ok, is_i64, i64_min, i64_max in OK. destruct (0 <=? z) eqn:E; cbn [item_in].
    + split; [lia|]. apply arg_of_cap. lia.
    + split; [lia|]. apply arg_of_cap. lia.
  - unfold val_ok, is_u64, u64_max in OK. cbn [item_in]. split; [lia|]. apply arg_of_cap. lia.
  - unfold val_ok, is_u64, u64_max in OK. unfold dbl_item. destruct (f64_to_f32 b) as [y|] eqn:E; cbn [item_in]; [|lia].
    destruct (narrow_widen b y ltac:(lia) E) as [R _]. lia.
  - cbn [enc str_item item_in] in *. rewrite zlen_app, zlen_hdr in SZ. pose proof (hlen_pos (arg_of (zlen s))).
    split; [exact OK|]. apply arg_of_cap. lia.
  - cbn [enc item_in] in *. rewrite zlen_app, zlen_hdr in SZ. pose proof (hlen_pos (arg_of (zlen b))).
    split; [exact OK|]. apply arg_of_cap. lia.
  - apply val_ok_arr in OK. rewrite Forall_forall in *. cbn [enc] in SZ. rewrite zlen_app, zlen_hdr in SZ.
    pose proof (hlen_pos (arg_of (zlen l))). pose proof (flat_len enc (map item_of l) (fun x _ => enc_nonempty x)) as FL. rewrite zlen_map in FL.
    apply item_in_arr. rewrite zlen_map. split; [apply arg_of_cap; lia|]. apply Forall_forall. intros y Hy.
    pose proof (zlen_flat_in enc _ _ Hy). apply in_map_iff in Hy. destruct Hy as (x & <- & Hx). apply IH; auto. lia.
  - apply val_ok_map in OK. rewrite Forall_forall in *. cbn [enc] in SZ. rewrite zlen_app, zlen_hdr in SZ.
    pose proof (hlen_pos (arg_of (zlen l))).
    assert (FL : zlen (map (fun kx => (str_item (fst kx), item_of (snd kx))) l) <= zlen (flat_map encp (map (fun kx => (str_item (fst kx), item_of (snd kx))) l))).
    { apply flat_len. intros x _. rewrite zlen_app. pose proof (enc_nonempty (fst x)). pose proof (enc_nonempty (snd x)). lia. }
    rewrite zlen_map in FL.
    apply item_in_map. rewrite zlen_map. split; [apply arg_of_cap; lia|]. apply Forall_forall. intros y Hy.
    pose proof (zlen_flat_in encp _ _ Hy) as ZF. apply in_map_iff in Hy. destruct Hy as ([k x] & <- & Hx). cbn [fst snd] in *.
    rewrite zlen_app in ZF. pose proof (enc_nonempty (str_item k)). pose proof (enc_nonempty (item_of x)).
    split; [|apply (IH _ Hx); [apply (OK _ Hx)|cbn; lia]].
    cbn [item_in str_item]. split; [apply (OK _ Hx)|]. apply arg_of_cap. cbn [enc str_item] in ZF. rewrite zlen_app in ZF.
    pose proof (zlen_nonneg (hdr 3 (arg_of (zlen k)) (zlen k))). lia.
Qed.

(** ** What the writer does *)
Fixpoint writable (d : Z) (v : val) : bool :=
  match v with
  | VStr s => utf8_valid s
  | VArr l => (d + 1 <=? max_depth) && forallb (writable (d + 1)) l
  | VMap l => (d + 1 <=? max_depth) && forallb (fun kx => utf8_valid (fst kx) && writable (d + 1) (snd kx)) l
  | _ => true
  end.

Definition wrote (s : cwst) (v : val) : cwst := mkCW (cw_out s ++ enc (item_of v)) (bump (cw_st s)) true.
Definition run_spec (s : cwst) (v : val) : Prop :=
  if writable (zlen (cw_st s)) v then run cbor_writer s (events v) = (wrote s v, Ok tt)
  else exists s', run cbor_writer s (events v) = (s', Throw EThirdParty).

Lemma zlen_bump st : zlen (bump st) = zlen st.
Proof. destruct st as [|[[? ?] ?] ?]; [reflexivity|]. cbn [bump]. now rewrite !zlen_cons. Qed.

Lemma run_elems st l : forall out c n, Forall (fun v => forall s, run_spec s v) l ->
  let s := mkCW out ((false, n, c) :: st) true in
  if forallb (writable (zlen st + 1)) l
  then run cbor_writer s (flat_map events l) = (mkCW (out ++ flat_map enc (map item_of l)) ((false, n, c + zlen l) :: st) true, Ok tt)
  else exists s', run cbor_writer s (flat_map events l) = (s', Throw EThirdParty).
Proof.
  induction l as [|v l IH]; intros out c n H s.
  - cbn [forallb flat_map map run]. unfold s. rewrite app_nil_r, zlen_nil, Z.add_0_r. reflexivity.
  - inversion H as [|? ? H1 H2]; subst. cbn [forallb flat_map map]. specialize (H1 s). unfold run_spec in H1.
    replace (zlen (cw_st s)) with (zlen st + 1) in H1 by (unfold s; cbn [cw_st]; rewrite zlen_cons; lia).
    rewrite run_app. destruct (writable (zlen st + 1) v); cbn [andb].
    + rewrite H1. unfold wrote, s. cbn [cw_out cw_st bump]. 
      specialize (IH (out ++ enc (item_of v)) (c + 1) n H2). cbv zeta in IH.
      destruct (forallb _ l).
      * rewrite IH. rewrite <- app_assoc, zlen_cons. replace (c + (1 + zlen l)) with (c + 1 + zlen l) by lia. reflexivity.
      * exact IH.
    + destruct H1 as [s' ->]. now exists s'.
Qed.
Lemma run_entries st l : forall out c n, Forall (fun kx : bytes * val => forall s, run_spec s (snd kx)) l ->
  let s := mkCW out ((true, n, c) :: st) true in
  if forallb (fun kx => utf8_valid (fst kx) && writable (zlen st + 1) (snd kx)) l
  then run cbor_writer s (flat_map (fun kx => EKey (fst kx) :: events (snd kx)) l) =
       (mkCW (out ++ flat_map encp (map kv l)) ((true, n, c + 2 * zlen l) :: st) true, Ok tt)
  else exists s', run cbor_writer s (flat_map (fun kx => EKey (fst kx) :: events (snd kx)) l) = (s', Throw EThirdParty).
Proof.
  induction l as [|[k v] l IH]; intros out c n H s.
  - cbn [forallb flat_map map run]. unfold s. rewrite app_nil_r, (zlen_nil (A := bytes * val)), Z.mul_0_r, Z.add_0_r. reflexivity.
  - inversion H as [|? ? H1 H2]; subst. cbn [forallb flat_map map fst snd] in *. cbn [app run].
    change (w_step cbor_writer s (EKey k)) with (cw_step s (EKey k)). cbn [cw_step].
    destruct (utf8_valid k); cbn [andb]; [|eauto].
    set (s1 := mkCW (cw_out s ++ put_head 3 (zlen k) ++ k) (bump (cw_st s)) (cw_root s)).
    specialize (H1 s1). unfold run_spec in H1.
    replace (zlen (cw_st s1)) with (zlen st + 1) in H1 by (unfold s1, s; cbn [cw_st bump]; rewrite zlen_cons; lia).
    rewrite run_app. destruct (writable (zlen st + 1) v); cbn [andb].
    + rewrite H1. unfold wrote, s1, s. cbn [cw_out cw_st bump]. rewrite put_head_hdr.
      specialize (IH ((out ++ hdr 3 (arg_of (zlen k)) (zlen k) ++ k) ++ enc (item_of v)) (c + 1 + 1) n H2). cbv zeta in IH.
      destruct (forallb _ l).
      * rewrite IH. rewrite zlen_cons. replace (c + 2 * (1 + zlen l)) with (c + 1 + 1 + 2 * zlen l) by lia. cbn [kv fst snd enc str_item]. rewrite <- !app_assoc. reflexivity.
      * exact IH.
    + destruct H1 as [s' ->]. now exists s'.
Qed.

Theorem run_value : forall v s, run_spec s v.
Proof.
  induction v as [| | | | | | |l IH|l IH] using val_ind'; intros w; unfold run_spec, wrote; cbn [writable events item_of].
  - reflexivity.
  - destruct b; reflexivity.
  - cbn [run]. change (w_step cbor_writer w (EInt z)) with (cw_step w (EInt z)). cbn [cw_step]. unfold cw_value, int_item.
    destruct (0 <=? z); cbn [enc]; now rewrite put_head_hdr.
  - cbn [run]. change (w_step cbor_writer w (EUInt z)) with (cw_step w (EUInt z)). cbn [cw_step]. unfold cw_value.
    cbn [enc]; now rewrite put_head_hdr.
  - cbn [run]. change (w_step cbor_writer w (EDbl b)) with (cw_step w (EDbl b)). cbn [cw_step]. unfold cw_value, put_double, dbl_item.
    destruct (f64_to_f32 b); cbn [enc]; now rewrite put_be_be.
  - cbn [run]. change (w_step cbor_writer w (EStr s)) with (cw_step w (EStr s)). cbn [cw_step]. unfold cw_value.
    destruct (utf8_valid s); [|eauto]. cbn [enc str_item]; now rewrite put_head_hdr.
  - cbn [run]. change (w_step cbor_writer w (EBin b)) with (cw_step w (EBin b)). cbn [cw_step]. unfold cw_value.
    cbn [enc]; now rewrite put_head_hdr.
  - cbn [run]. change (w_step cbor_writer w (EBeginArr (zlen l))) with (cw_begin false w (zlen l)). unfold cw_begin.
    replace (max_depth <? zlen (cw_st w) + 1) with (negb (zlen (cw_st w) + 1 <=? max_depth)) by lia.
    destruct (zlen (cw_st w) + 1 <=? max_depth); cbn [negb andb]; [|eauto].
    rewrite run_app. pose proof (run_elems (cw_st w) l (cw_out w ++ put_head 4 (zlen l)) 0 (zlen l) IH) as R. cbv zeta in R.
    destruct (forallb _ l).
    + rewrite R. cbn [run]. match goal with |- context [w_step cbor_writer ?x EEndArr] => change (w_step cbor_writer x EEndArr) with (cw_end x) end.
      unfold cw_end. cbn [cw_st cw_out cw_root cw_count]. rewrite Z.add_0_l, Z.eqb_refl. cbn [enc]. rewrite put_head_hdr, zlen_map, <- app_assoc. reflexivity.
    + destruct R as [s' ->]. now exists s'.
  - cbn [run]. change (w_step cbor_writer w (EBeginMap (zlen l))) with (cw_begin true w (zlen l)). unfold cw_begin.
    replace (max_depth <? zlen (cw_st w) + 1) with (negb (zlen (cw_st w) + 1 <=? max_depth)) by lia.
    destruct (zlen (cw_st w) + 1 <=? max_depth); cbn [negb andb]; [|eauto].
    rewrite run_app. pose proof (run_entries (cw_st w) l (cw_out w ++ put_head 5 (zlen l)) 0 (zlen l) IH) as R. cbv zeta in R.
    destruct (forallb _ l).
    + rewrite R. cbn [run]. match goal with |- context [w_step cbor_writer ?x EEndMap] => change (w_step cbor_writer x EEndMap) with (cw_end x) end.
      unfold cw_end. cbn [cw_st cw_out cw_root cw_count]. rewrite Z.add_0_l, Z.mul_comm, Z.div_mul, Z.eqb_refl by lia. cbn [enc]. rewrite put_head_hdr, zlen_map, <- app_assoc. reflexivity.
    + destruct R as [s' ->]. now exists s'.
Qed.

(** ** The limits in plain terms: valid UTF-8 and at most 1024 levels *)
Lemma fold_max_le {A} (f : A -> Z) l m : 0 <= m -> (fold_right Z.max 0 (map f l) <= m <-> Forall (fun x => f x <= m) l).
Proof.
  intros M. induction l as [|x l IH]; cbn [map fold_right]; [split; [constructor|lia]|].
  rewrite Forall_cons_iff, <- IH. lia.
Qed.
Lemma fold_max_pos {A} (f : A -> Z) l : 0 <= fold_right Z.max 0 (map f l).
Proof. induction l as [|x l IH]; cbn [map fold_right]; lia. Qed.
Lemma writable_iff : forall v d, val_ok v -> 0 <= d <= max_depth ->
  writable d v = true <-> texts_utf8 v /\ depth v <= max_depth - d.
Proof.
  induction v as [| | | | | | |l IH|l IH] using val_ind'; intros d OK D;
    try (cbn [writable texts_utf8 depth]; split; [intros _; split; [exact I|lia]|reflexivity]).
  - cbn [writable texts_utf8 depth]. rewrite utf8_iff by exact OK. split; [intros H; split; [exact H|lia]|tauto].
  - apply val_ok_arr in OK. rewrite texts_arr. cbn [writable depth]. rewrite andb_true_iff, forallb_forall.
    pose proof (fold_max_pos depth l). rewrite Forall_forall in *. split.
    + intros [A B]. assert (D' : 0 <= d + 1 <= max_depth) by lia. split.
      * intros x Hx. apply (IH x Hx (d + 1) (OK x Hx) D'). auto.
      * assert (fold_right Z.max 0 (map depth l) <= max_depth - (d + 1)); [|lia]. apply fold_max_le; [lia|]. apply Forall_forall.
        intros x Hx. apply (IH x Hx (d + 1) (OK x Hx) D'). auto.
    + intros [A B]. assert (D' : 0 <= d + 1 <= max_depth) by lia. split; [lia|].
      intros x Hx. apply (IH x Hx (d + 1) (OK x Hx) D'). split; [auto|].
      assert (B' : fold_right Z.max 0 (map depth l) <= max_depth - (d + 1)) by lia. apply fold_max_le in B'; [|lia].
      rewrite Forall_forall in B'. auto.
  - apply val_ok_map in OK. rewrite texts_map. cbn [writable depth]. rewrite andb_true_iff, forallb_forall.
    pose proof (fold_max_pos (fun kx : bytes * val => depth (snd kx)) l). rewrite Forall_forall in *. split.
    + intros [A B]. assert (D' : 0 <= d + 1 <= max_depth) by lia. split.
      * intros x Hx. specialize (B x Hx). apply andb_prop in B. destruct B as [B1 B2]. split; [apply utf8_iff; [apply (OK x Hx)|exact B1]|].
        apply (IH x Hx (d + 1) (proj2 (OK x Hx)) D'). auto.
      * assert (fold_right Z.max 0 (map (fun kx : bytes * val => depth (snd kx)) l) <= max_depth - (d + 1)); [|lia]. apply fold_max_le; [lia|]. apply Forall_forall.
        intros x Hx. specialize (B x Hx). apply andb_prop in B. apply (IH x Hx (d + 1) (proj2 (OK x Hx)) D'). tauto.
    + intros [A B]. assert (D' : 0 <= d + 1 <= max_depth) by lia. split; [lia|].
      intros x Hx. destruct (A x Hx) as [A1 A2]. apply andb_true_intro. split; [apply utf8_iff; [apply (OK x Hx)|exact A1]|].
      apply (IH x Hx (d + 1) (proj2 (OK x Hx)) D'). split; [exact A2|].
      assert (B' : fold_right Z.max 0 (map (fun kx : bytes * val => depth (snd kx)) l) <= max_depth - (d + 1)) by lia. apply fold_max_le in B'; [|lia].
      rewrite Forall_forall in B'. apply (B' x Hx).
Qed.

Theorem cbor_serialize v : val_ok v ->
  texts_utf8 v /\ depth v <= 1024 -> serialize cbor_writer v = Ok (enc (item_of v)).
Proof.
  intros OK L. pose proof (run_value v (w_init cbor_writer)) as R. unfold run_spec in R.
  change (zlen (cw_st (w_init cbor_writer))) with 0 in R.
  rewrite (proj2 (writable_iff v 0 OK ltac:(unfold max_depth; lia))) in R by (unfold max_depth; rewrite Z.sub_0_r; exact L).
  unfold serialize. rewrite R. reflexivity.
Qed.
Theorem cbor_rejects v : val_ok v ->
  ~ (texts_utf8 v /\ depth v <= 1024) -> serialize cbor_writer v = Throw EThirdParty.
Proof.
  intros OK L. pose proof (run_value v (w_init cbor_writer)) as R. unfold run_spec in R.
  change (zlen (cw_st (w_init cbor_writer))) with 0 in R.
  destruct (writable 0 v) eqn:E.
  - apply writable_iff in E; [|exact OK|unfold max_depth; lia]. exfalso. apply L. unfold max_depth in E. rewrite Z.sub_0_r in E. exact E.
  - destruct R as [s' R]. unfold serialize. now rewrite R.
Qed.

(** ** Reading back *)
Lemma tbl_of v : val_ok v -> item_table (item_of v) = T_cbor v.
Proof.
  intros OK. destruct v; cbn [item_of]; try reflexivity.
  - destruct b; reflexivity.
  - cbn [T_cbor]. unfold int_item. destruct (0 <=? z) eqn:E; cbn [item_table]; f_equal; lia.
  - unfold dbl_item. cbn [T_cbor]. destruct (f64_to_f32 bits) as [y|] eqn:E; [|reflexivity]. cbn [item_table].
    unfold val_ok, is_u64, u64_max in OK. destruct (narrow_widen bits y ltac:(lia) E) as [_ W]. now rewrite W.
Qed.
Lemma not_chunked v : is_chunked_text (item_of v) = false.
Proof. destruct v; try reflexivity; cbn [item_of]; [unfold int_item; now destruct (0 <=? z)|unfold dbl_item; now destruct (f64_to_f32 bits)]. Qed.

Lemma ends_arr f l x : ends_empty (CArr f (l ++ [x])) = ends_empty x.
Proof.
  cbn [ends_empty]. induction l as [|y l IH]; [reflexivity|]. cbn [app]. rewrite <- IH.
  destruct l; reflexivity.
Qed.
Lemma ends_map f l k x : ends_empty (CMap f (l ++ [(k, x)])) = ends_empty x.
Proof.
  cbn [ends_empty]. induction l as [|[k' y] l IH]; [reflexivity|]. cbn [app]. rewrite <- IH.
  destruct l as [|[? ?] ?]; reflexivity.
Qed.
Lemma sits_after hard b p l (x : item) t :
  has b p (l ++ enc x ++ t) -> (t = [] -> hard = false \/ ends_empty x = false \/ p + zlen (l ++ enc x) < zlen b) ->
  sits hard b (p + zlen l) x.
Proof.
  intros H T. pose proof (has_bound _ _ _ H) as [_ B]. rewrite !zlen_app in B. apply has_app in H. destruct H as [_ H]. apply has_app in H. destruct H as [H _]. apply has_sits; [exact H|].
  destruct t as [|c t]; [specialize (T eq_refl); rewrite zlen_app in T; rewrite <- Z.add_assoc; exact T|].
  rewrite zlen_cons in B. pose proof (zlen_nonneg t). lia.
Qed.
Lemma encs_pos {A} (e : A -> bytes) l : (forall x, 1 <= zlen (e x)) -> flat_map e l = [] -> l = [].
Proof.
  intros P H. destruct l as [|x l]; [reflexivity|]. exfalso. specialize (P x). apply (f_equal zlen) in H. cbn [flat_map] in H.
  rewrite zlen_app in H. change (zlen []) with 0 in H. pose proof (zlen_nonneg (flat_map e l)). lia.
Qed.
Lemma encp_pos (kx : item * item) : 1 <= zlen (encp kx).
Proof. cbv beta. rewrite zlen_app. pose proof (enc_nonempty (fst kx)). pose proof (enc_nonempty (snd kx)). lia. Qed.

Lemma sits_elem hard b p f l1 x l2 : sits hard b p (CArr f (l1 ++ x :: l2)) ->
  sits hard b (p + hlen f + zlen (flat_map enc l1)) x.
Proof.
  intros S. assert (H := sits_has _ _ _ _ S). destruct S as (_ & _ & _ & RM).
  cbn [enc] in H, RM. rewrite flat_map_app in H, RM. cbn [flat_map] in H, RM.
  rewrite <- Z.add_assoc, <- (zlen_hdr 4 f (zlen (l1 ++ x :: l2))), <- zlen_app.
  apply (sits_after _ _ _ _ _ (flat_map enc l2)); [now rewrite <- app_assoc|].
  intros E. rewrite E, app_nil_r in RM. rewrite <- app_assoc. apply encs_pos in E; [|apply enc_nonempty]. subst l2.
  rewrite ends_arr in RM. exact RM.
Qed.
Lemma sits_elemI hard b p l1 x l2 : sits hard b p (CArrI (l1 ++ x :: l2)) ->
  sits hard b (p + 1 + zlen (flat_map enc l1)) x.
Proof.
  intros S. assert (H := sits_has _ _ _ _ S).
  cbn [enc] in H. rewrite flat_map_app in H. cbn [flat_map] in H.
  rewrite <- Z.add_assoc. change 1 with (zlen [159]). rewrite <- zlen_app.
  apply (sits_after _ _ _ _ _ (flat_map enc l2 ++ [255])); [now rewrite <- !app_assoc in *|].
  intros E. destruct (flat_map enc l2); discriminate.
Qed.
Lemma sits_entry hard b p f l1 k x l2 : sits hard b p (CMap f (l1 ++ (k, x) :: l2)) ->
  sits hard b (p + hlen f + zlen (flat_map encp l1) + zlen (enc k)) x.
Proof.
  intros S. assert (H := sits_has _ _ _ _ S). destruct S as (_ & _ & _ & RM).
  cbn [enc] in H, RM. rewrite flat_map_app in H, RM. cbn [flat_map fst snd] in H, RM.
  rewrite <- !Z.add_assoc, <- (zlen_hdr 5 f (zlen (l1 ++ (k, x) :: l2))), <- !zlen_app.
  apply (sits_after _ _ _ _ _ (flat_map encp l2)); [now rewrite <- !app_assoc in *|].
  intros E. rewrite E, app_nil_r in RM. rewrite <- !app_assoc. apply encs_pos in E; [|apply encp_pos]. subst l2.
  rewrite ends_map in RM. exact RM.
Qed.
Lemma sits_entryI hard b p l1 k x l2 : sits hard b p (CMapI (l1 ++ (k, x) :: l2)) ->
  sits hard b (p + 1 + zlen (flat_map encp l1) + zlen (enc k)) x.
Proof.
  intros S. assert (H := sits_has _ _ _ _ S).
  cbn [enc] in H. rewrite flat_map_app in H. cbn [flat_map fst snd] in H.
  rewrite <- !Z.add_assoc. change 1 with (zlen [191]). rewrite <- !zlen_app.
  apply (sits_after _ _ _ _ _ (flat_map encp l2 ++ [255])); [now rewrite <- !app_assoc in *|].
  intros E. destruct (flat_map encp l2); discriminate.
Qed.
Lemma lookup_found k : forall l x q, lookup k l = Some (Some x) ->
  exists l1 kk l2, l = l1 ++ (kk, x) :: l2 /\ text_of kk = Some k /\
    lookup k l1 = Some None /\ lookup_at k q l = q + zlen (flat_map encp l1) + zlen (enc kk).
Proof.
  induction l as [|[kk y] l IH]; intros x q H; [discriminate|]. cbn [lookup lookup_at fst snd] in *.
  destruct (text_of kk) as [s|] eqn:T; [|discriminate]. destruct (beq s k) eqn:E; cbn iota in *.
  - injection H as <-. apply beq_eq in E. subst s. exists [], kk, l. cbn [flat_map app lookup]. rewrite zlen_nil, Z.add_0_r. auto.
  - destruct (IH x (q + zlen (enc kk) + zlen (enc y)) H) as (l1 & k2 & l2 & -> & T2 & N & A). exists ((kk, y) :: l1), k2, l2.
    split; [reflexivity|]. split; [exact T2|]. split; [cbn [lookup fst]; now rewrite T, E|].
    cbn [flat_map fst snd]. rewrite !zlen_app, Z.add_assoc, A. lia.
Qed.

(** ** Container operations on items *)
Section Items.
  Variables (hard : bool) (fuel : nat) (b : bytes).
  Hypothesis HB : zlen b < 2^63.
  Hypothesis HF : zlen b < Z.of_nat fuel.
  Notation R := (cbor_reader hard fuel).

  Theorem idx_item p l1 x l2 it : (exists f, it = CArr f (l1 ++ x :: l2)) \/ it = CArrI (l1 ++ x :: l2) ->
    item_ok it -> Forall item_plain l1 -> sits hard b p it ->
    exists q, r_idx R (mkCView b p) (zlen l1) = Ok (mkCView b q) /\ sits hard b q x.
  Proof.
    intros [[f ->] | ->] OK O1 S; cbn [cbor_reader r_idx].
    - exists (p + hlen f + zlen (flat_map enc l1)). split; [|now apply sits_elem in S].
      eapply idx_def; eauto using sits_has.
    - exists (p + 1 + zlen (flat_map enc l1)). split; [|now apply sits_elemI in S].
      eapply idx_ind; eauto using sits_has.
  Qed.
  Theorem key_item p l it k : (exists f, it = CMap f l) \/ it = CMapI l -> item_plain it -> sits hard b p it ->
    match lookup k l with
    | Some (Some x) => exists q, r_key R (mkCView b p) k = Ok (mkCView b q) /\ sits hard b q x
    | _ => r_key R (mkCView b p) k = Throw EDeser
    end.
  Proof.
    intros [[f ->] | ->] OK S; cbn [cbor_reader r_key].
    - rewrite (key_item_def hard fuel b HB HF p f l k OK (sits_has _ _ _ _ S)).
      destruct (lookup k l) as [[x|]|] eqn:E; auto.
      destruct (lookup_found k l x (p + hlen f) E) as (l1 & kk & l2 & -> & _ & _ & A). rewrite A. eexists. split; [reflexivity|].
      now apply sits_entry in S.
    - rewrite (key_item_ind hard fuel b HB HF p l k OK (sits_has _ _ _ _ S)).
      destruct (lookup k l) as [[x|]|] eqn:E; auto.
      destruct (lookup_found k l x (p + 1) E) as (l1 & kk & l2 & -> & _ & _ & A). rewrite A. eexists. split; [reflexivity|].
      now apply sits_entryI in S.
  Qed.

  Lemma leaf_shows p v : is_leaf v -> val_ok v -> item_plain (item_of v) -> sits hard b p (item_of v) -> shows R T_cbor (mkCView b p) v.
  Proof.
    intros HL OK OI S. apply shows_leaf; [exact HL|]. assert (O := plain_ok _ OI).
    split; [rewrite <- tbl_of by exact OK; apply observes_item; auto; apply not_chunked|].
    destruct (item_head _ b p O (sits_has _ _ _ _ S)) as [HD _].
    assert (K := kinds_item _ O). rewrite tbl_of in K by exact OK. unfold kinds, tkinds in K. injection K as _ _ _ _ _ _ _ KM KA.
    assert (p_major 5 (hd_of (item_of v)) = false) by (rewrite KM; destruct v; try reflexivity; destruct HL).
    assert (p_major 4 (hd_of (item_of v)) = false) by (rewrite KA; destruct v; try reflexivity; destruct HL).
    cbn [cbor_reader r_arraySize r_idx r_key r_contains r_mapKeys]. repeat split; intros.
    - eapply no_size; eauto.
    - eapply no_idx; eauto.
    - eapply no_key; eauto.
    - eapply no_contains; eauto.
    - eapply no_keys; eauto.
  Qed.

  Lemma keys_kv l : keys_of (map kv l) = Some (map fst l).
  Proof. induction l as [|[k' x] l IH]; [reflexivity|]. cbn [map keys_of]. now rewrite IH. Qed.
  Lemma lookup_kv k l : lookup k (map kv l) = Some (option_map (fun kx => item_of (snd kx)) (find (fun kx => beq k (fst kx)) l)).
  Proof.
    induction l as [|[k' x] l IH]; [reflexivity|]. cbn [map lookup kv fst snd text_of str_item find]. rewrite beq_sym, IH.
    now destruct (beq k k').
  Qed.
  Lemma find_exists k l : existsb (beq k) (map fst l) = match find (fun kx : bytes * val => beq k (fst kx)) l with Some _ => true | None => false end.
  Proof. induction l as [|[k' x] l IH]; [reflexivity|]. cbn [map existsb fst find]. rewrite IH. now destruct (beq k k'). Qed.
  Lemma find_first k x l1 l2 : existsb (beq k) (map fst l1) = false ->
    find (fun kx : bytes * val => beq k (fst kx)) (l1 ++ (k, x) :: l2) = Some (k, x).
  Proof.
    induction l1 as [|[k' x'] l1 IH]; intros H; cbn [app find fst map existsb] in *; [now rewrite beq_refl|].
    apply orb_false_iff in H. destruct H as [-> H]. auto.
  Qed.

  Theorem cbor_shows : forall v, val_ok v -> item_plain (item_of v) -> forall p, sits hard b p (item_of v) ->
    shows R T_cbor (mkCView b p) v.
  Proof.
    induction v as [| | | | | | |l IH|l IH] using val_ind'; intros OK OI p S;
      try (apply leaf_shows; [exact I|exact OK|exact OI|exact S]).
    - assert (O := plain_ok _ OI). apply shows_arr.
      split; [rewrite <- tbl_of by exact OK; apply observes_item; auto; apply not_chunked|].
      destruct (item_head _ b p O (sits_has _ _ _ _ S)) as [HD _].
      apply val_ok_arr in OK. rewrite Forall_forall in IH, OK. cbn [item_of] in *.
      assert (OI' := OI). apply item_in_arr in OI'. destruct OI' as [_ OE]. rewrite Forall_forall in OE.
      cbn [cbor_reader r_arraySize r_idx r_key r_contains r_mapKeys]. repeat split; intros.
      + rewrite (size_def fuel b p _ _ O (sits_has _ _ _ _ S)). now rewrite zlen_map.
      + apply (idx_def_out fuel b p _ _ _ O (sits_has _ _ _ _ S)). rewrite zlen_map. lia.
      + apply elems_intro. intros l1 x l2 El.
        destruct (idx_item p (map item_of l1) (item_of x) (map item_of l2) (CArr (arg_of (zlen l)) (map item_of l))) as (q & EI & Sq); auto.
        * left. exists (arg_of (zlen l)). now rewrite El, map_app.
        * apply Forall_forall. intros y Hy. apply OE. rewrite El, map_app. apply in_or_app. now left.
        * rewrite zlen_map in EI. exists (mkCView b q). split; [exact EI|].
          assert (In x l) by (rewrite El; apply in_or_app; right; now left). apply IH; auto.
          apply OE. now apply in_map.
      + eapply no_key; eauto.
      + eapply no_contains; eauto.
      + eapply no_keys; eauto.
    - assert (O := plain_ok _ OI). apply shows_map.
      split; [rewrite <- tbl_of by exact OK; apply observes_item; auto; apply not_chunked|].
      destruct (item_head _ b p O (sits_has _ _ _ _ S)) as [HD _].
      apply val_ok_map in OK. rewrite Forall_forall in IH, OK. cbn [item_of] in *.
      change (map (fun kx => (str_item (fst kx), item_of (snd kx))) l) with (map kv l) in *.
      assert (OI' := OI). apply item_in_map in OI'. destruct OI' as [_ OE]. rewrite Forall_forall in OE.
      repeat split; intros.
      + cbn [cbor_reader r_mapKeys]. rewrite (keys_item_def hard fuel b HB HF p _ _ O (sits_has _ _ _ _ S)), keys_kv. reflexivity.
      + cbn [cbor_reader r_contains]. rewrite (contains_item_def hard fuel b HB HF p _ _ k OI (sits_has _ _ _ _ S)), lookup_kv, find_exists.
        now destruct (find _ l).
      + pose proof (key_item p _ _ k (or_introl (ex_intro _ _ eq_refl)) OI S) as KI.
        rewrite lookup_kv in KI. rewrite find_exists in H0. destruct (find _ l); [discriminate|exact KI].
      + apply entries_intro. intros l1 k x l2 El NI.
        pose proof (key_item p _ _ k (or_introl (ex_intro _ _ eq_refl)) OI S) as KI.
        rewrite lookup_kv in KI. rewrite El, find_first in KI by exact NI. cbn [option_map snd] in KI. destruct KI as (q & EK & Sq).
        exists (mkCView b q). split; [exact EK|].
        assert (IN : In (k, x) l) by (rewrite El; apply in_or_app; right; now left).
        apply (IH _ IN); [apply (OK _ IN)| |exact Sq]. apply (OE (kv (k, x))). now apply in_map.
      + cbn [cbor_reader r_arraySize]. eapply no_size; eauto.
      + cbn [cbor_reader r_idx]. eapply no_idx; eauto.
  Qed.
End Items.

Lemma last_empty_item : forall v, ends_empty (item_of v) = last_empty v.
Proof.
  induction v as [| | | | | | |l IH|l IH] using val_ind'; try reflexivity.
  - cbn [item_of]. unfold int_item. now destruct (0 <=? z).
  - cbn [item_of]. unfold dbl_item. now destruct (f64_to_f32 b).
  - destruct l as [|x l] using rev_ind; [reflexivity|]. cbn [item_of]. rewrite map_app. cbn [map]. rewrite ends_arr.
    apply Forall_app in IH. destruct IH as [_ IH]. inversion IH; subst. rewrite H1.
    clear. cbn [last_empty]. induction l as [|y l IHl]; [reflexivity|]. cbn [app]. rewrite IHl. destruct l; reflexivity.
  - destruct l as [|[k x] l] using rev_ind; [reflexivity|]. cbn [item_of]. rewrite map_app. cbn [map fst snd]. rewrite ends_map.
    apply Forall_app in IH. destruct IH as [_ IH]. inversion IH; subst. cbn [snd] in H1. rewrite H1.
    clear. cbn [last_empty]. induction l as [|[k' y] l IHl]; [reflexivity|]. cbn [app]. rewrite IHl. destruct l as [|[? ?] ?]; reflexivity.
Qed.

Theorem cbor_round_trip hard fuel v b : val_ok v -> serialize cbor_writer v = Ok b -> zlen b < 2^63 -> zlen b < Z.of_nat fuel ->
  hard = false \/ last_empty v = false -> shows (cbor_reader hard fuel) T_cbor (cb_open b) v.
Proof.
  intros OK S HB HF HL.
  assert (L : texts_utf8 v /\ depth v <= 1024).
  { pose proof (run_value v (w_init cbor_writer)) as R. unfold run_spec in R.
    change (zlen (cw_st (w_init cbor_writer))) with 0 in R. destruct (writable 0 v) eqn:E.
    - apply writable_iff in E; [|exact OK|unfold max_depth; lia]. unfold max_depth in E. now rewrite Z.sub_0_r in E.
    - destruct R as [s' R]. unfold serialize in S. rewrite R in S. discriminate. }
  rewrite (cbor_serialize v OK L) in S. injection S as <-.
  apply cbor_shows; auto; [now apply item_of_ok|].
  apply has_sits; [apply has_self|]. rewrite last_empty_item. tauto.
Qed.
