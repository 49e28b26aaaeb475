(** TextCbor.v -- the CBOR dump on messages written by the library. *)

From Coq Require Import ZArith List Bool String Lia ZifyBool ZifyNat.
From Verif Require Import Base BaseFacts Spec SpecFacts FloatModel Utf8Spec TextSpec CborModel CborSpec CborFacts CborRead CborMain TextModel TextFacts.
From Verif Require JsonMain.
Import ListNotations.
Open Scope Z_scope.

Section Dump.
  Context (fl : Z -> bytes) (hard : bool) (fuel : nat) (b : bytes).
  Hypothesis HB : zlen b < 2^63.
  Hypothesis HF : zlen b < Z.of_nat fuel.
  Let P := pretty (bar_leaf fl by_sign plain) plain.
  Let root := mkCView b 0.
  (** Arrays cannot be printed below a root that is not one. *)
  Context (r : val).
  Definition bad (v : val) : bool := match r with VArr _ => false | _ => has_array v end.
  Definition out_of (pad : Z) (v : val) : res bytes := if bad v then Throw EDeser else Ok (P pad v).

  Lemma skip_at it p : item_plain it -> has b p (enc it) -> CborModel.skip fuel b p = Ok (p + zlen (enc it)).
  Proof. intros OK H. pose proof (has_bound _ _ _ H) as [B0 _]. apply (skipper_enc false b HB it OK fuel p H). lia. Qed.

  Lemma c_elems d n pad : forall l p (pre : bytes) i out,
    (forall x q q', In x l -> sits hard b q (item_of x) -> c_dump fl hard fuel root d q q' = Ok (P q' x)) ->
    (forall x, In x l -> item_plain (item_of x)) ->
    (forall l1 x l2, l = l1 ++ x :: l2 -> sits hard b (p + zlen pre + zlen (flat_map enc (map item_of l1))) (item_of x)) ->
    i + zlen l = n ->
    exists o, nloop (List.length l) (c_elem (c_dump fl hard fuel root d) fuel b n pad) (i, p + zlen pre, out) =
      Ok (inl (n, o, out ++ rows (map (fun x => spaces (pad + 2) ++ P (pad + 2) x) l))).
  Proof.
    induction l as [|x l IH]; intros p pre i out D OK S E.
    - exists (p + zlen pre). cbn. change (zlen (@nil val)) with 0 in E. rewrite app_nil_r. repeat f_equal. lia.
    - assert (S0 := S [] x l eq_refl). cbn [map flat_map] in S0. rewrite zlen_nil, Z.add_0_r in S0.
      cbn [List.length]. rewrite nloop_S. unfold c_elem at 1. rewrite (D x _ _ (or_introl eq_refl) S0). cbn [bind].
      rewrite (skip_at _ _ (OK x (or_introl eq_refl)) (sits_has _ _ _ _ S0)). cbn [bind].
      rewrite zlen_cons in E. rewrite <- Z.add_assoc, <- zlen_app.
      match goal with |- exists o, nloop _ _ (_, _, ?t) = _ =>
        destruct (IH p (pre ++ enc (item_of x)) (i + 1) t) as (o & Eo); [| | |lia|] end.
      { intros y q q' Hy. apply D. now right. }
      { intros y Hy. apply OK. now right. }
      { intros l1 y l2 El. specialize (S (x :: l1) y l2). rewrite El in S. specialize (S eq_refl).
        cbn [map flat_map] in S. rewrite zlen_app in S |- *. rewrite !Z.add_assoc in *. exact S. }
      exists o. rewrite Eo. do 3 f_equal. cbn [map]. rewrite rows_cons. unfold tail.
      replace (i + 1 <? n) with (match map (fun x => spaces (pad + 2) ++ P (pad + 2) x) l with [] => false | _ => true end).
      { now rewrite <- !app_assoc. }
      replace n with (i + zlen l + 1) by lia. rewrite more_iff. now destruct l.
  Qed.

  Lemma key_read k p : item_plain (str_item k) -> sits hard b p (str_item k) -> c_asString hard fuel (mkCView b p) = Ok k.
  Proof.
    intros [_ L] S. destruct S as (B0 & H & B1 & R). assert (HH : has b p (enc (str_item k))) by (unfold has; tauto).
    cbn [str_item enc ends_empty] in *. eapply (read_definite hard fuel b p 3 (arg_of (zlen k)) k HB ltac:(lia) L HH); [|reflexivity].
    rewrite zlen_app, zlen_hdr in *. pose proof (zlen_nonneg k).
    destruct R as [R|[R|R]]; [tauto| |right; lia]. right. destruct k; [discriminate|rewrite zlen_cons in *; pose proof (zlen_nonneg k); lia].
  Qed.

  Lemma c_entries d n pad : forall l p (pre : bytes) i out f, l <> [] ->
    (forall kx q q', In kx l -> sits hard b q (item_of (snd kx)) -> c_dump fl hard fuel root d q q' = out_of q' (snd kx)) ->
    (forall kx, In kx l -> item_plain (str_item (fst kx)) /\ item_plain (item_of (snd kx))) ->
    (forall l1 k x l2, l = l1 ++ (k, x) :: l2 ->
       sits hard b (p + zlen pre + zlen (flat_map (fun kx => enc (fst kx) ++ enc (snd kx)) (map kv l1))) (str_item k) /\
       sits hard b (p + zlen pre + zlen (flat_map (fun kx => enc (fst kx) ++ enc (snd kx)) (map kv l1)) + zlen (enc (str_item k))) (item_of x)) ->
    i + zlen l = n -> (List.length l < f)%nat ->
    floop f (c_entry (c_dump fl hard fuel root d) hard fuel b false n pad) (i, p + zlen pre, out) =
      if existsb (fun kx => bad (snd kx)) l then Throw EDeser else
      Ok (out ++ rows (map (fun kx => spaces (pad + 2) ++ quote ++ plain (fst kx) ++ quote ++ txt ": " ++ P (pad + 2) (snd kx)) l)).
  Proof.
    induction l as [|[k x] l IH]; intros p pre i out f NE D OK S E F; [congruence|].
    destruct (S [] k x l eq_refl) as [Sk Sx]. cbn [map flat_map] in Sk, Sx. rewrite zlen_nil, Z.add_0_r in Sk, Sx.
    destruct (OK (k, x) (or_introl eq_refl)) as [OKk OKx]. cbn [fst snd] in OKk, OKx.
    destruct f as [|f]; [lia|]. rewrite floop_S. unfold c_entry at 1. cbn [bind negb andb].
    rewrite (key_read _ _ OKk Sk). cbn [bind]. rewrite (skip_at _ _ OKk (sits_has _ _ _ _ Sk)). cbn [bind].
    rewrite (D (k, x) _ _ (or_introl eq_refl) Sx). unfold out_of. cbn [existsb snd]. destruct (bad x); cbn [bind orb]; [reflexivity|]. rewrite (skip_at _ _ OKx (sits_has _ _ _ _ Sx)). cbn [bind].
    rewrite zlen_cons in E. cbn [map fst snd]. rewrite rows_cons. unfold tail.
    assert (M : (i + 1 <? n) = match map (fun kx => spaces (pad + 2) ++ quote ++ plain (fst kx) ++ quote ++ txt ": " ++ P (pad + 2) (snd kx)) l with [] => false | _ => true end).
    { replace n with (i + zlen l + 1) by lia. rewrite more_iff. now destruct l. }
    rewrite M. destruct l as [|e l].
    - change (zlen (@nil (bytes * val))) with 0 in E. replace (n <=? i + 1) with true by lia. cbn [bind map rows existsb].
      rewrite app_nil_r, <- !app_assoc. reflexivity.
    - rewrite zlen_cons in E. pose proof (zlen_nonneg l). replace (n <=? i + 1) with false by lia. cbn [bind].
      rewrite <- !Z.add_assoc, <- !zlen_app. cbn [List.length] in F.
      rewrite (IH p (pre ++ enc (str_item k) ++ enc (item_of x)) (i + 1)); [| discriminate | | | |rewrite zlen_cons; lia|cbn [List.length]; lia].
      + destruct (existsb _ _); [reflexivity|]. cbn [map]. rewrite <- !app_assoc. reflexivity.
      + intros y q q' Hy. apply D. now right.
      + intros y Hy. apply OK. now right.
      + intros l1 k' y l2 El. specialize (S ((k, x) :: l1) k' y l2). rewrite El in S. specialize (S eq_refl).
        cbn [map flat_map kv fst snd] in S. rewrite !zlen_app in S |- *. rewrite !Z.add_assoc in *. exact S.
  Qed.

  (** Where the keys of a map sit. *)
  Lemma sits_key p f l1 k x l2 : sits hard b p (CMap f (l1 ++ (k, x) :: l2)) ->
    sits hard b (p + hlen f + zlen (flat_map (fun kx => enc (fst kx) ++ enc (snd kx)) l1)) k.
  Proof.
    intros S. assert (H := sits_has _ _ _ _ S). destruct S as (_ & _ & _ & RM).
    cbn [enc] in H, RM. rewrite flat_map_app in H, RM. cbn [flat_map fst snd] in H, RM.
    rewrite <- Z.add_assoc, <- (zlen_hdr 5 f (zlen (l1 ++ (k, x) :: l2))), <- zlen_app.
    apply (sits_after _ _ _ _ _ (enc x ++ flat_map (fun kx => enc (fst kx) ++ enc (snd kx)) l2)); [now rewrite <- !app_assoc in *|].
    intros E. apply app_eq_nil in E. destruct E as [E _]. pose proof (enc_nonempty x). rewrite E in *. change (zlen []) with 0 in *. lia.
  Qed.

  Lemma c_dump_ok : c_arraySize fuel root = (match r with VArr m => Ok (zlen m) | _ => Throw EDeser end) ->
    forall v, val_ok v -> item_plain (item_of v) -> dumpable r v -> forall d p pad, (levels v < d)%nat -> sits hard b p (item_of v) ->
    c_dump fl hard fuel root d p pad = out_of pad v.
  Proof.
    intros HR. induction v as [|bb|z|z|x|s|bb|l IH|l IH] using val_ind'; intros OK OI DU d p pad LV ST;
      (destruct d as [|d]; [lia|]); cbn [c_dump];
      (assert (H := sits_has _ _ _ _ ST)); (assert (OI' := item_in_mono _ _ OI)); destruct (item_head _ b p OI' H) as [HD _];
      change (cv_buf root) with b; rewrite HD; cbn [bind]; unfold out_of;
      try (replace (bad _) with false by (unfold bad; destruct r; reflexivity)).
    - reflexivity.
    - destruct bb; reflexivity.
    - unfold P. cbn [pretty bar_leaf by_sign]. change (is_i64 z) in OK. unfold is_i64, i64_min, i64_max in OK.
      cbn [item_of]. unfold int_item. destruct (0 <=? z) eqn:E.
      + replace (z <? 0) with false by lia. reflexivity.
      + replace (z <? 0) with true by lia. cbn [hd_of h_major h_val Z.eqb Pos.eqb].
        rewrite to_signed_id by lia. replace (-1 - (-1 - z)) with z by lia. reflexivity.
    - unfold P. cbn [pretty bar_leaf by_sign]. change (is_u64 z) in OK. unfold is_u64, u64_max in OK.
      replace (z <? 0) with false by lia. reflexivity.
    - pose proof (observes_item hard fuel b p (item_of (VDbl x)) HB OI' (not_chunked (VDbl x)) ST) as OB.
      rewrite tbl_of in OB by exact OK. destruct OB as (_ & _ & _ & _ & _ & _ & _ & _ & _ & _ & _ & _ & A3 & _).
      cbn [cbor_reader r_asDouble T_cbor ideal t_asDouble or_throw] in A3. rewrite A3.
      cbn [item_of]. unfold dbl_item. destruct (f64_to_f32 x); reflexivity.
    - cbn [item_of str_item hd_of h_major h_addl h_val h_len h_indef Z.eqb Pos.eqb andb negb].
      destruct OI as [_ L]. destruct ST as (B0 & _ & B1 & R). cbn [item_of str_item enc ends_empty] in *.
      apply has_app in H. destruct H as [H1 H2]. rewrite zlen_app, zlen_hdr in *. pose proof (zlen_nonneg s).
      pose proof (hlen_pos (arg_of (zlen s))).
      rewrite addr_room; [|lia|].
      2:{ destruct R as [R|[R|R]]; [tauto| |right; lia]. right. destruct s; [discriminate|rewrite zlen_cons in *; pose proof (zlen_nonneg s); lia]. }
      cbn [bind]. rewrite (mk_string_has _ _ _ HB H2). reflexivity.
    - reflexivity.
    - cbn [item_of hd_of h_major h_addl h_val h_len h_indef Z.eqb Pos.eqb andb negb].
      apply every_arr in DU. destruct DU as [Lm DU]. rewrite HR.
      assert (B : exists m, r = VArr m \/ bad (VArr l) = true /\ match r with VArr m => Ok (zlen m) | _ => Throw EDeser end = Throw EDeser).
      { unfold bad. destruct r; cbn [has_array]; eauto. Unshelve. all: exact []. }
      destruct B as (m & [Em|[B ->]]); [|rewrite B; reflexivity]. assert (NB : forall v, bad v = false) by (intros; unfold bad; now rewrite Em).
      rewrite NB. rewrite Em in *. cbn [bind]. specialize (Lm m eq_refl).
      rewrite <- Lm. rewrite zloop_nloop. replace (Z.to_nat (zlen l)) with (List.length l) by (unfold zlen; lia).
      apply val_ok_arr in OK. cbn [item_of] in OI, ST. unfold item_plain in OI. apply item_in_arr in OI. destruct OI as [_ OI].
      rewrite Forall_forall in IH, OK, DU, OI. cbn [levels] in LV.
      destruct (c_elems d (zlen l) pad l (p + hlen (arg_of (zlen l))) [] 0 (txt "arr" ++ txt " [" ++ nl)) as (o & Eo).
      { intros x q q' Hx Sx. replace (Ok (P q' x)) with (out_of q' x) by (unfold out_of; now rewrite NB). apply IH; auto; [apply OI, in_map, Hx|apply DU, Hx|]. pose proof (max_in levels l x Hx). lia. }
      { intros x Hx. apply OI, in_map, Hx. }
      { intros l1 x l2 El. rewrite zlen_nil, Z.add_0_r. rewrite El in ST at 2. rewrite map_app in ST. cbn [map] in ST.
        now apply sits_elem in ST. }
      { lia. }
      change (zlen (@nil Z)) with 0 in Eo; rewrite Z.add_0_r in Eo. change (c_type_code _) with (txt "arr"). rewrite Eo. cbn [bind]. unfold P. cbn [pretty]. rewrite <- !app_assoc. reflexivity.
    - cbn [item_of hd_of h_major h_addl h_val h_len h_indef Z.eqb Pos.eqb andb negb].
      apply every_map in DU. destruct DU as [NE DU]. cbn [bind].
      change (map (fun kx => (str_item (fst kx), item_of (snd kx))) l) with (map kv l). rewrite zlen_map.
      apply val_ok_map in OK. cbn [item_of] in OI, ST. unfold item_plain in OI. apply item_in_map in OI. destruct OI as [_ OI].
      change (map (fun kx => (str_item (fst kx), item_of (snd kx))) l) with (map kv l) in OI, ST.
      rewrite Forall_forall in IH, OK, DU, OI. cbn [levels] in LV.
      change (c_type_code _) with (txt "map").
      assert (LF : (List.length l < fuel)%nat).
      { assert (L1 : zlen (map kv l) <= zlen (flat_map (fun kx => enc (fst kx) ++ enc (snd kx)) (map kv l))) by (apply flat_len; intros; apply encp_pos).
        rewrite zlen_map in L1. destruct ST as (B0 & _ & B1 & _). cbn [enc] in B1. rewrite zlen_app in B1.
        set (hh := zlen (hdr _ _ _)) in B1. assert (0 <= hh) by apply zlen_nonneg. clearbody hh. unfold zlen in L1 at 1. lia. }
      pose proof (c_entries d (zlen l) pad l (p + hlen (arg_of (zlen l))) [] 0 (txt "map" ++ txt " {" ++ nl) fuel NE) as CE.
      change (zlen (@nil Z)) with 0 in CE; rewrite Z.add_0_r in CE. rewrite CE; clear CE.
      + assert (EB : existsb (fun kx => bad (snd kx)) l = bad (VMap l)).
        { unfold bad. destruct r; try reflexivity. clear. induction l; [reflexivity|]. exact IHl. }
        rewrite EB. destruct (bad (VMap l)); [reflexivity|]. cbn [bind]. unfold P. cbn [pretty]. rewrite <- !app_assoc. reflexivity.
      + intros kx q q' Hx Sx. apply IH; auto; [apply OK, Hx|apply (OI (kv kx)), in_map, Hx|apply DU, Hx|]. pose proof (max_in (fun kx => levels (snd kx)) l kx Hx). lia.
      + intros kx Hx. apply (OI (kv kx)), in_map, Hx.
      + intros l1 k x l2 El. rewrite El in ST at 2. rewrite map_app in ST. cbn [map] in ST. unfold kv at 2 in ST. cbn [fst snd] in ST.
        split; [now apply sits_key in ST|now apply sits_entry in ST].
      + lia.
      + exact LF.
  Qed.
End Dump.

(** Enough fuel for the nesting. *)
Lemma fold_max_nat {A} (f : A -> nat) (e : A -> bytes) l : (forall x, In x l -> Z.of_nat (f x) <= zlen (e x)) ->
  Z.of_nat (fold_right Nat.max O (map f l)) <= zlen (flat_map e l).
Proof.
  induction l as [|x l IH]; intros H; [cbn; lia|]. cbn [map fold_right flat_map]. rewrite zlen_app.
  pose proof (H x (or_introl eq_refl)). assert (Z.of_nat (fold_right Nat.max O (map f l)) <= zlen (flat_map e l)) by (apply IH; intros; apply H; now right).
  pose proof (zlen_nonneg (e x)). pose proof (zlen_nonneg (flat_map e l)). lia.
Qed.
Lemma levels_enc : forall v, Z.of_nat (levels v) <= zlen (enc (item_of v)).
Proof.
  induction v as [|bb|z|z|x|s|bb|l IH|l IH] using val_ind'; try apply zlen_nonneg.
  - cbn [levels item_of enc]. rewrite zlen_app, zlen_hdr. pose proof (hlen_pos (arg_of (zlen l))). rewrite flat_map_concat_map, map_map, <- flat_map_concat_map.
    rewrite Forall_forall in IH. pose proof (fold_max_nat levels (fun x => enc (item_of x)) l IH). lia.
  - cbn [levels item_of enc]. rewrite zlen_app, zlen_hdr. pose proof (hlen_pos (arg_of (zlen l))). rewrite flat_map_concat_map, map_map, <- flat_map_concat_map.
    rewrite Forall_forall in IH. cbn [fst snd].
    pose proof (fold_max_nat (fun kx => levels (snd kx)) (fun kx : bytes * val => enc (str_item (fst kx)) ++ enc (item_of (snd kx))) l) as F.
    assert (Z.of_nat (fold_right Nat.max O (map (fun kx => levels (snd kx)) l)) <= zlen (flat_map (fun kx : bytes * val => enc (str_item (fst kx)) ++ enc (item_of (snd kx))) l)); [|lia].
    apply F. intros kx Hx. specialize (IH kx Hx). rewrite zlen_app. pose proof (zlen_nonneg (enc (str_item (fst kx)))). lia.
Qed.
Lemma serialize_enc v b : val_ok v -> serialize cbor_writer v = Ok b -> b = enc (item_of v).
Proof.
  intros OK S.
  assert (L : texts_utf8 v /\ depth v <= 1024).
  { pose proof (run_value v (w_init cbor_writer)) as R. unfold run_spec in R.
    change (zlen (cw_st (w_init cbor_writer))) with 0 in R. destruct (writable 0 v) eqn:E.
    - apply writable_iff in E; [|exact OK|unfold max_depth; lia]. unfold max_depth in E. now rewrite Z.sub_0_r in E.
    - destruct R as [s' R]. unfold serialize in S. rewrite R in S. discriminate. }
  rewrite (cbor_serialize v OK L) in S. now injection S as <-.
Qed.

Theorem cbor_text_all fl hard fuel v b : val_ok v -> serialize cbor_writer v = Ok b -> zlen b < 2^63 -> zlen b < Z.of_nat fuel ->
  hard = false \/ last_empty v = false -> dumpable v v ->
  c_to_string fl hard fuel (cb_open b) =
    if bad v v then Throw EDeser else Ok (pretty (bar_leaf fl by_sign plain) plain 0 v).
Proof.
  intros OK S HB HF HL DU. apply serialize_enc in S; [|exact OK]. subst b.
  assert (OI := item_of_ok v OK HB). unfold c_to_string, cb_open. cbn [cv_pos].
  apply (c_dump_ok fl hard fuel _ HB HF v); auto.
  - unfold c_arraySize, chd. cbn [cv_buf cv_pos].
    destruct (item_head _ (enc (item_of v)) 0 (item_in_mono _ _ OI) (has_self _)) as [-> _]. cbn [bind].
    destruct v; try reflexivity; cbn [item_of]; try (unfold int_item; destruct (0 <=? z); reflexivity);
      try (unfold dbl_item; destruct (f64_to_f32 bits); reflexivity).
    cbn [hd_of h_major h_indef h_val negb Z.eqb Pos.eqb]. cbn [require bind]. now rewrite zlen_map.
  - pose proof (levels_enc v). lia.
  - apply has_sits; [apply has_self|]. rewrite last_empty_item. tauto.
Qed.
Theorem cbor_text fl hard fuel v b : val_ok v -> serialize cbor_writer v = Ok b -> zlen b < 2^63 -> zlen b < Z.of_nat fuel ->
  hard = false \/ last_empty v = false -> dumpable v v -> (forall l, v = VMap l -> has_array v = false) ->
  c_to_string fl hard fuel (cb_open b) = Ok (pretty (bar_leaf fl by_sign plain) plain 0 v).
Proof.
  intros OK S HB HF HL DU NA. rewrite (cbor_text_all fl hard fuel v b) by assumption.
  replace (bad v v) with false; [reflexivity|]. unfold bad. destruct v; try reflexivity. symmetry. now apply (NA l).
Qed.
Theorem cbor_text_throws fl hard fuel l b : val_ok (VMap l) -> serialize cbor_writer (VMap l) = Ok b -> zlen b < 2^63 -> zlen b < Z.of_nat fuel ->
  hard = false \/ last_empty (VMap l) = false -> every (fun v => v <> VMap []) (VMap l) -> has_array (VMap l) = true ->
  c_to_string fl hard fuel (cb_open b) = Throw EDeser.
Proof.
  intros OK S HB HF HL NE HA. rewrite (cbor_text_all fl hard fuel (VMap l) b); try assumption.
  - unfold bad. now rewrite HA.
  - revert NE. apply JsonMain.every_mono. intros [| | | | | | |m|[|]] H; try exact I; try congruence; discriminate.
Qed.
