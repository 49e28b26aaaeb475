(** TextFacts.v -- lemmas about the dumps: escaping, layout, MsgPack and FlexBuffers. *)

From Coq Require Import ZArith List Bool String Lia ZifyBool ZifyNat Permutation.
From Verif Require Import Base BaseFacts Spec SpecFacts TextSpec MsgModel MsgSpec MsgFacts MsgMain FlexModel FlexSpec FlexFacts TextModel.
Import ListNotations.
Open Scope Z_scope.

(** ** Escaping *)
Lemma small_cases (P : Z -> Prop) (n : nat) : (forall k, (k < n)%nat -> P (Z.of_nat k)) -> forall c, 0 <= c < Z.of_nat n -> P c.
Proof. intros H c B. replace c with (Z.of_nat (Z.to_nat c)) by lia. apply H. lia. Qed.
Definition esc1 (ch : Z) : bytes := esc [ch].
Lemma esc_cons c s : esc (c :: s) = esc1 c ++ esc s.
Proof. unfold esc1. cbn [esc]. now rewrite app_nil_r. Qed.
Lemma short_none c : 93 <= c -> short_escape c = None.
Proof.
  intros H. unfold short_escape. destruct c as [|p|p]; try lia.
  do 7 (destruct p as [p|p|]; try reflexivity; try lia).
Qed.
Lemma esc1_spec c : is_byte c -> esc1 c = escape1 c.
Proof.
  intros [L U]. destruct (Z.ltb_spec c 93) as [S|S].
  - apply (small_cases (fun c => esc1 c = escape1 c) 93); [|lia].
    intros k Hk. do 93 (destruct k as [|k]; [reflexivity|]). lia.
  - unfold escape1. rewrite short_none by lia. unfold esc1. cbn [esc].
    replace (c =? 34) with false by lia. replace (c =? 92) with false by lia. replace (c =? 8) with false by lia.
    replace (c =? 12) with false by lia. replace (c =? 10) with false by lia. replace (c =? 13) with false by lia.
    replace (c =? 9) with false by lia. replace (c <? 32) with false by lia. apply app_nil_r.
Qed.
Lemma esc_spec s : bytes_ok s -> esc s = escaped s.
Proof.
  intros H. induction H as [|c s B _ IH]; [reflexivity|]. rewrite esc_cons, IH, esc1_spec by exact B. reflexivity.
Qed.

(** Escaped text read back by a JSON decoder. *)
Lemma unescape_one c t : is_byte c -> json_unescape (escape1 c ++ t) = option_map (cons c) (json_unescape t).
Proof.
  intros [L U]. destruct (Z.ltb_spec c 93) as [S|S].
  - apply (small_cases (fun c => json_unescape (escape1 c ++ t) = option_map (cons c) (json_unescape t)) 93); [|lia].
    intros k Hk. do 93 (destruct k as [|k]; [cbn -[json_unescape]; cbn [json_unescape]; destruct (json_unescape t); reflexivity|]). lia.
  - unfold escape1. rewrite short_none by lia. replace (c <? 32) with false by lia. cbn [app].
    destruct c as [|p|p]; try lia.
    assert (G : json_unescape (Z.pos p :: t) = if (Z.pos p <? 32) || (Z.pos p =? 34) || (Z.pos p =? 92) then None else option_map (cons (Z.pos p)) (json_unescape t)).
    { cbn [json_unescape]. do 7 (destruct p as [p|p|]; try reflexivity; try lia). }
    rewrite G. replace ((Z.pos p <? 32) || (Z.pos p =? 34) || (Z.pos p =? 92)) with false by lia. reflexivity.
Qed.
Theorem unescape_escaped s : bytes_ok s -> json_unescape (escaped s) = Some s.
Proof.
  intros H. induction H as [|c s B _ IH]; [reflexivity|]. cbn [escaped flat_map]. rewrite unescape_one by exact B.
  change (flat_map escape1 s) with (escaped s). now rewrite IH.
Qed.

(** ** Layout *)
Definition tail (more : bool) : bytes := (if more then comma else []) ++ nl.
Lemma rows_cons x l : rows (x :: l) = x ++ tail (match l with [] => false | _ => true end) ++ rows l.
Proof. destruct l; cbn [rows tail app]; [now rewrite app_nil_r|]. unfold tail. cbn [app]. now rewrite <- !app_assoc. Qed.
Lemma more_iff {A} (l : list A) i : (i + 1 <? i + zlen l + 1) = match l with [] => false | _ => true end.
Proof. destruct l; [change (zlen (@nil A)) with 0; lia|]. rewrite zlen_cons. pose proof (zlen_nonneg l). lia. Qed.

(** Levels of nesting. *)
Fixpoint levels (v : val) : nat :=
  match v with
  | VArr l => S (fold_right Nat.max O (map levels l))
  | VMap l => S (fold_right Nat.max O (map (fun kx => levels (snd kx)) l))
  | _ => O
  end.
Lemma max_in {A} (f : A -> nat) l x : In x l -> (f x <= fold_right Nat.max O (map f l))%nat.
Proof. induction l as [|y l IH]; [intros []|]. cbn [map fold_right]. intros [->|H]; [lia|]. specialize (IH H). lia. Qed.

(** ** MsgPack *)
Section Msg.
  Context (fl : Z -> bytes).
  Let P := pretty (colon_leaf fl escaped) escaped.

  Lemma obs_all w v : val_ok v -> lengths_below (2^32 - 5) v -> spans w (item_of v) -> observes mp_reader w (T_mp v).
  Proof.
    intros OK LB S. rewrite <- tbl_of by exact OK. apply (observes_item w _ (2^32-5)); [lia|now apply item_of_in|now apply spans_starts].
  Qed.

  Lemma child_ok v pre it rest : item_small it -> starts v (pre ++ enc it ++ rest) ->
    exists c, mp_child v (zlen pre) = Ok (c, zlen (pre ++ enc it)) /\ spans c it.
  Proof.
    intros OK S. unfold mp_child. assert (S' := S). apply starts_sub in S'. destruct S' as (w & -> & Sw & Lw). cbn [bind].
    apply starts_app_l in Sw. rewrite (skip_ok it w OK Sw). cbn [bind]. unfold subspan2.
    pose proof (starts_len _ _ Sw) as L1. pose proof (zlen_nonneg (enc it)).
    replace ((zlen pre <=? ms_len v) && (zlen (enc it) <=? ms_len v - zlen pre)) with true by lia. cbn [bind].
    eexists. split; [rewrite zlen_app; reflexivity|]. destruct S as [S _]. apply has_app in S. destruct S as [_ S]. apply has_app in S.
    split; [apply S|reflexivity].
  Qed.

  Lemma elems_loop f v n pad : forall l pre i out,
    (forall x, In x l -> item_small (item_of x) /\ (forall w p, spans w (item_of x) -> mp_dump fl f w p = Ok (P p x))) ->
    starts v (pre ++ flat_map enc (map item_of l)) -> i + zlen l = n ->
    exists o, nloop (List.length l) (mp_elem (mp_dump fl f) v n pad) (i, zlen pre, out) =
      Ok (inl (n, o, out ++ rows (map (fun x => spaces (pad + 2) ++ P (pad + 2) x) l))).
  Proof.
    induction l as [|x l IH]; intros pre i out H S E.
    - exists (zlen pre). cbn. change (zlen (@nil val)) with 0 in E. rewrite app_nil_r. repeat f_equal. lia.
    - cbn [map flat_map] in S. destruct (H x (or_introl eq_refl)) as [OK D].
      destruct (child_ok _ _ _ _ OK S) as (c & EC & Sc).
      cbn [List.length]. rewrite nloop_S. unfold mp_elem at 1. rewrite EC. cbn [bind]. rewrite (D _ _ Sc). cbn [bind].
      rewrite app_assoc in S. rewrite zlen_cons in E.
      destruct (IH (pre ++ enc (item_of x)) (i + 1)
        (out ++ spaces (pad + 2) ++ P (pad + 2) x ++ (if i + 1 <? n then comma else []) ++ nl)) as (o & Eo); [|exact S|lia|].
      { intros y Hy. apply H. now right. }
      exists o. rewrite Eo. do 3 f_equal. cbn [map]. rewrite rows_cons. unfold tail.
      replace (i + 1 <? n) with (match map (fun x => spaces (pad + 2) ++ P (pad + 2) x) l with [] => false | _ => true end).
      { now rewrite <- !app_assoc. }
      replace n with (i + zlen l + 1) by lia. rewrite more_iff. now destruct l.
  Qed.
  Lemma entries_loop f v n pad : forall l pre i out,
    (forall kx, In kx l -> bytes_ok (fst kx) /\ item_small (str_item (fst kx)) /\ item_small (item_of (snd kx)) /\
       (forall w p, spans w (item_of (snd kx)) -> mp_dump fl f w p = Ok (P p (snd kx)))) ->
    starts v (pre ++ flat_map (fun kx => enc (fst kx) ++ enc (snd kx)) (map kv l)) -> i + zlen l = n ->
    exists o, nloop (List.length l) (mp_entry (mp_dump fl f) v n pad) (i, zlen pre, out) =
      Ok (inl (n, o, out ++ rows (map (fun kx => spaces (pad + 2) ++ quote ++ escaped (fst kx) ++ quote ++ txt ": " ++ P (pad + 2) (snd kx)) l))).
  Proof.
    induction l as [|[k x] l IH]; intros pre i out H S E.
    - exists (zlen pre). cbn. change (zlen (@nil (bytes * val))) with 0 in E. rewrite app_nil_r. repeat f_equal. lia.
    - cbn [map flat_map kv fst snd] in S. rewrite <- app_assoc in S. destruct (H (k, x) (or_introl eq_refl)) as (BK & OKk & OK & D). cbn [fst snd] in *.
      destruct (child_ok _ _ _ _ OKk S) as (ck & EK & Sk).
      rewrite app_assoc in S. destruct (child_ok _ _ _ _ OK S) as (c & EC & Sc).
      cbn [List.length]. rewrite nloop_S. unfold mp_entry at 1. rewrite EK. cbn [bind]. rewrite EC. cbn [bind].
      apply spans_starts in Sk. cbn [str_item enc] in Sk. destruct OKk as [_ LK].
      rewrite (str_read _ _ _ (2^32-5) ltac:(lia) LK Sk). cbn [bind]. rewrite (view_rd _ _ _ (proj1 Sk)). cbn [bind].
      rewrite (D _ _ Sc). cbn [bind].
      rewrite app_assoc in S. rewrite zlen_cons in E.
      match goal with |- exists o, nloop _ _ (_, _, ?t) = _ =>
        destruct (IH ((pre ++ enc (str_item k)) ++ enc (item_of x)) (i + 1) t) as (o & Eo); [|exact S|lia|] end.
      { intros y Hy. apply H. now right. }
      exists o. rewrite Eo. do 3 f_equal. cbn [map fst snd]. rewrite rows_cons. unfold tail.
      replace (i + 1 <? n) with (match map (fun kx => spaces (pad + 2) ++ quote ++ escaped (fst kx) ++ quote ++ txt ": " ++ P (pad + 2) (snd kx)) l with [] => false | _ => true end).
      { rewrite <- !app_assoc. rewrite (esc_spec k BK). reflexivity. }
      replace n with (i + zlen l + 1) by lia. rewrite more_iff. now destruct l.
  Qed.

  Lemma mp_dump_ok : forall v, val_ok v -> lengths_below (2^32 - 5) v -> forall fuel w pad, (levels v < fuel)%nat -> spans w (item_of v) ->
    mp_dump fl fuel w pad = Ok (P pad v).
  Proof.
    induction v as [|b|z|z|d|s|b|l IH|l IH] using val_ind'; intros OK LB fuel w pad F Sp;
      assert (OB := obs_all _ _ OK LB Sp);
      destruct OB as (O0 & O1 & O2 & O3 & O4 & O5 & O6 & O7 & O8 & A0 & A1 & A2 & A3 & A4 & A5 & A6);
      (destruct fuel as [|fuel]; [lia|]); cbn [mp_dump];
      cbn [mp_reader r_isNull r_isBool r_isInt r_isUInt r_isFloat r_isString r_isBlob r_isMap r_isArray
           r_asBool r_asInt r_asUInt r_asDouble r_asString r_asStringView r_asBlob] in *;
      rewrite O0; cbn [bind T_mp ideal int_tbl t_null];
      try rewrite O1; cbn [bind T_mp ideal int_tbl t_bool]; try reflexivity;
      try rewrite O2; cbn [bind T_mp ideal int_tbl t_int]; try reflexivity.
    - (* bool *) rewrite A0. cbn [bind T_mp ideal t_asBool or_throw]. reflexivity.
    - (* int *) unfold P. cbn [pretty colon_leaf]. specialize (A1 I64). specialize (A2 I64). cbn [T_mp int_tbl t_asInt t_asUInt] in A1, A2.
      unfold mp_asInt in A1. unfold mp_asUInt in A2. change (is_i64 z) in OK. unfold is_i64, i64_min, i64_max in OK.
      destruct (z <? 128) eqn:E.
      + rewrite to_signed64_id in A1 by lia. unfold fits_s in A1. cbn [ibits smin smax] in A1.
        replace ((smin I64 <=? z) && (z <=? smax I64)) with true in A1 by (unfold smin, smax; cbn [ibits]; lia).
        destruct (mp_asInt64 w); cbn [bind or_throw] in A1; try discriminate. injection A1 as ->. reflexivity.
      + rewrite O3. cbn [bind T_mp int_tbl t_uint]. replace (0 <=? z) with true by lia.
        rewrite Z.mod_small in A2 by lia. unfold fits_u in A2.
        replace ((0 <=? z) && (z <=? umax I64)) with true in A2 by (unfold umax; cbn [ibits]; lia).
        destruct (mp_asUInt64 w); cbn [bind or_throw] in A2; try discriminate. injection A2 as ->. reflexivity.
    - (* uint *) unfold P. cbn [pretty colon_leaf]. specialize (A1 I64). specialize (A2 I64). cbn [T_mp int_tbl t_asInt t_asUInt] in A1, A2.
      unfold mp_asInt in A1. unfold mp_asUInt in A2. change (is_u64 z) in OK. unfold is_u64, u64_max in OK.
      destruct (z <? 128) eqn:E.
      + rewrite to_signed64_id in A1 by lia. unfold fits_s in A1. cbn [ibits smin smax] in A1.
        replace ((smin I64 <=? z) && (z <=? smax I64)) with true in A1 by (unfold smin, smax; cbn [ibits]; lia).
        destruct (mp_asInt64 w); cbn [bind or_throw] in A1; try discriminate. injection A1 as ->. reflexivity.
      + rewrite O3. cbn [bind T_mp int_tbl t_uint]. replace (0 <=? z) with true by lia.
        rewrite Z.mod_small in A2 by lia. unfold fits_u in A2.
        replace ((0 <=? z) && (z <=? umax I64)) with true in A2 by (unfold umax; cbn [ibits]; lia).
        destruct (mp_asUInt64 w); cbn [bind or_throw] in A2; try discriminate. injection A2 as ->. reflexivity.
    - (* double *) rewrite O3. cbn [bind T_mp ideal t_uint]. rewrite O4. cbn [bind T_mp ideal t_float].
      rewrite A3. reflexivity.
    - (* string *) rewrite O3. cbn [bind T_mp ideal t_uint]. rewrite O4. cbn [bind T_mp ideal t_float]. rewrite O5. cbn [bind T_mp ideal t_string].
      destruct (mp_asStringView w) as [vw| | |]; cbn [bind] in *; try discriminate. rewrite A5. cbn [bind or_throw T_mp ideal t_asString].
      unfold P. cbn [pretty colon_leaf]. change (bytes_ok s) in OK. rewrite (esc_spec s OK). reflexivity.
    - (* blob *) rewrite O3. cbn [bind T_mp ideal t_uint]. rewrite O4. cbn [bind T_mp ideal t_float]. rewrite O5. cbn [bind T_mp ideal t_string].
      rewrite O6. cbn [bind T_mp ideal t_blob]. apply spans_starts in Sp. cbn [item_of enc] in Sp.
      assert (OI := item_of_in _ OK LB). destruct OI as [_ LL].
      rewrite (bin_read _ _ _ (2^32-5) ltac:(lia) LL Sp). reflexivity.
    - (* array *) rewrite O3. cbn [bind T_mp ideal t_uint]. rewrite O4. cbn [bind T_mp ideal t_float]. rewrite O5. cbn [bind T_mp ideal t_string].
      rewrite O6. cbn [bind T_mp ideal t_blob]. rewrite O7. cbn [bind T_mp ideal t_map]. rewrite O8. cbn [bind T_mp ideal t_array].
      assert (OI := item_of_in _ OK LB). apply spans_starts in Sp. cbn [item_of] in Sp, OI.
      destruct (arr_info_ok _ _ _ _ OI Sp) as [-> _]. cbn [bind].
      cbn [enc] in Sp. set (h := arr_hdr _ _) in *. clearbody h. rewrite zlen_map. rewrite zloop_nloop. replace (Z.to_nat (zlen l)) with (List.length l) by (unfold zlen; lia).
      apply val_ok_arr in OK. apply lengths_arr in LB. destruct LB as [_ LB]. rewrite Forall_forall in IH, OK, LB.
      cbn [levels] in F.
      destruct (elems_loop fuel w (zlen l) pad l h 0 (txt "arr [" ++ nl)) as (o & ->).
      { intros x Hx. split; [apply item_of_in; auto|]. intros w' p' Sw. apply IH; auto. pose proof (max_in levels l x Hx). lia. }
      { exact Sp. } { lia. }
      cbn [bind]. unfold P. cbn [pretty]. now rewrite <- !app_assoc.
    - (* map *) rewrite O3. cbn [bind T_mp ideal t_uint]. rewrite O4. cbn [bind T_mp ideal t_float]. rewrite O5. cbn [bind T_mp ideal t_string].
      rewrite O6. cbn [bind T_mp ideal t_blob]. rewrite O7. cbn [bind T_mp ideal t_map].
      assert (OI := item_of_in _ OK LB). apply spans_starts in Sp. cbn [item_of] in Sp, OI.
      change (map (fun kx => (str_item (fst kx), item_of (snd kx))) l) with (map kv l) in Sp, OI.
      destruct (map_info_ok _ _ _ _ OI Sp) as [-> _]. cbn [bind].
      cbn [enc] in Sp. set (h := map_hdr _ _) in *. clearbody h. rewrite zlen_map. rewrite zloop_nloop. replace (Z.to_nat (zlen l)) with (List.length l) by (unfold zlen; lia).
      apply val_ok_map in OK. apply lengths_map in LB. destruct LB as [_ LB]. rewrite Forall_forall in IH, OK, LB.
      cbn [levels] in F.
      destruct (entries_loop fuel w (zlen l) pad l h 0 (txt "map {" ++ nl)) as (o & ->).
      { intros kx Hx. destruct (OK _ Hx). destruct (LB _ Hx). split; [assumption|]. split; [apply str_item_in; auto; lia|].
        split; [apply item_of_in; auto|]. intros w' p' Sw. apply IH; auto. pose proof (max_in (fun kx => levels (snd kx)) l kx Hx). lia. }
      { exact Sp. } { lia. }
      cbn [bind]. unfold P. cbn [pretty]. now rewrite <- !app_assoc.
  Qed.
End Msg.
