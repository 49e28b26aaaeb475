(** TextZera.v -- to_string of ZERA and FlexBuffers readers. *)

From Coq Require Import ZArith List Bool String Lia ZifyBool.
From Verif Require Import Base BaseFacts Spec SpecFacts TextSpec ZeraModel ZeraSafe FlexModel FlexSpec FlexFacts TextModel TextFacts.
Import ListNotations.
Open Scope Z_scope.

(** ** ZERA *)
Lemma is_tag (t : Z) v (b : bool) : zv_is t v = Ok b -> exists x, zv_tag v = Ok x /\ (x =? t) = b.
Proof. unfold zv_is. destruct (zv_tag v); cbn [bind]; try discriminate. injection 1 as <-. eauto. Qed.
Lemma rd_view_len b w s : rd_view b w = Ok s -> snd w = zlen s.
Proof.
  unfold rd_view. destruct w as [o n]. cbn [fst snd]. destruct (_ && _) eqn:E; [|discriminate]. injection 1 as <-.
  rewrite zlen_slice; lia.
Qed.
Lemma int64_of v z : zv_asInt I64 v = Ok z -> zv_asInt64 v = Ok z.
Proof. unfold zv_asInt. destruct (zv_asInt64 v); cbn [bind]; auto. Qed.
Lemma uint64_of v z : zv_asUInt I64 v = Ok z -> zv_asUInt64 v = Ok z.
Proof. unfold zv_asUInt. destruct (zv_asUInt64 v); cbn [bind]; auto. Qed.

Lemma bind_ok {A B} (m : res A) (f : A -> res B) b : bind m f = Ok b -> exists a, m = Ok a /\ f a = Ok b.
Proof. destruct m; cbn [bind]; try discriminate. eauto. Qed.
Ltac unbind H := match type of H with bind ?m _ = Ok _ => let a := fresh "a" in let E := fresh "E" in apply bind_ok in H; destruct H as (a & E & H); cbv beta in H end.

Lemma blob_b v w : zv_asBlob v = Ok w -> zv_b v = Ok (snd w).
Proof.
  unfold zv_asBlob. intros H. repeat unbind H. unfold arena_view in H. repeat unbind H. injection H as <-. cbn [snd]. assumption.
Qed.

Theorem zera_text fl w v : val_ok v -> shows zera_reader ideal w v -> zv_to_string fl w = Ok (summary fl v).
Proof.
  intros OK S.
  assert (OB : observes zera_reader w (ideal v)) by (destruct v; apply S).
  assert (SZ : forall l, v = VArr l -> zv_arraySize w = Ok (zlen l)) by (intros l ->; apply S).
  clear S. destruct OB as (O0 & O1 & O2 & O3 & O4 & O5 & O6 & O7 & O8 & A0 & A1 & A2 & A3 & A4 & A5 & A6).
  specialize (A1 I64). specialize (A2 I64).
  cbn [zera_reader r_isNull r_isBool r_isInt r_isUInt r_isFloat r_isString r_isBlob r_isMap r_isArray
       r_asBool r_asInt r_asUInt r_asDouble r_asString r_asStringView r_asBlob] in *.
  destruct (is_tag _ _ _ O0) as (x & T & X). unfold zv_to_string. rewrite T. cbn [bind].
  unfold zv_is in *. rewrite T in O1, O2, O3, O4, O5, O7, O8. cbn [bind] in O1, O2, O3, O4, O5, O7, O8.
  destruct v; cbn [ideal t_null t_bool t_int t_uint t_float t_string t_blob t_map t_array
                   t_asBool t_asInt t_asUInt t_asDouble t_asString t_asBlob or_throw] in *;
    injection O1 as O1; injection O2 as O2; injection O3 as O3; injection O4 as O4; injection O5 as O5; injection O7 as O7; injection O8 as O8;
    rewrite ?X, ?O1, ?O2, ?O3, ?O4, ?O5, ?O8, ?O7; cbn [bind]; try reflexivity.
  - rewrite A0. reflexivity.
  - assert (F : fits_s I64 z = Some z).
    { change (is_i64 z) in OK. unfold is_i64, i64_min, i64_max in OK. unfold fits_s, smin, smax. cbn [ibits].
      replace ((- 2 ^ (64 - 1) <=? z) && (z <=? 2 ^ (64 - 1) - 1)) with true by lia. reflexivity. }
    rewrite F in A1. rewrite (int64_of _ _ A1). reflexivity.
  - assert (F : fits_u I64 z = Some z).
    { change (is_u64 z) in OK. unfold is_u64, u64_max in OK. unfold fits_u, umax. cbn [ibits].
      replace ((0 <=? z) && (z <=? 2 ^ 64 - 1)) with true by lia. reflexivity. }
    rewrite F in A2. rewrite (uint64_of _ _ A2). reflexivity.
  - rewrite A3. reflexivity.
  - destruct (zv_asStringView w) as [vw| | |]; cbn [bind] in *; try discriminate.
    apply rd_view_len in A5. rewrite A5. reflexivity.
  - rewrite O6. unfold zv_isBlob in O6. rewrite T in O6. cbn [bind] in O6. destruct (x =? TTyped); [|discriminate]. cbn [bind].
    destruct (zv_asBlob w) as [vw| | |] eqn:EB; cbn [bind] in *; try discriminate. apply rd_view_len in A6. rewrite (blob_b _ _ EB), A6. reflexivity.
  - rewrite (SZ l eq_refl). reflexivity.
Qed.

(** On any buffer: text or a DeserializationError. *)
Lemma safe_to_string fl v : wfv v -> safe any (zv_to_string fl v).
Proof.
  intros W. unfold zv_to_string. eapply safe_bind; [now apply safe_tag|]. intros t Ht.
  eapply (safe_bind any); [|intros; exact I].
  repeat match goal with |- safe _ (if ?c then _ else _) => destruct c end; try exact I;
    (eapply safe_bind; [first [now apply safe_asBool|now apply safe_asInt64|now apply safe_asUInt64|now apply safe_asDouble
                              |now apply safe_asStringView|now apply safe_arraySize|now apply safe_isBlob]|]); intros; try exact I.
  eapply safe_bind; [now apply safe_b|]. intros; exact I.
Qed.
Theorem zera_text_safe fl b : bytes_ok b -> zlen b < 2^32 - 20 ->
  safe (fun v => forall w, reach zera_reader v w -> safe any (zv_to_string fl w)) (zera_open b).
Proof.
  intros H L. eapply safe_weaken; [now apply zera_open_safe|]. intros v W w R. apply safe_to_string. now apply (reach_wfv v w W R).
Qed.

(** ** FlexBuffers *)
Lemma fx_rows_ok ls : forall i, fx_rows (i + zlen ls) i ls = rows ls.
Proof.
  induction ls as [|t ls IH]; intros i; [reflexivity|]. rewrite rows_cons. cbn [fx_rows]. unfold tail. rewrite <- !app_assoc.
  rewrite zlen_cons. replace (i + (1 + zlen ls)) with (i + 1 + zlen ls) by lia. rewrite IH.
  replace (i + 1 + zlen ls) with (i + zlen ls + 1) by lia. now rewrite more_iff.
Qed.
Lemma fx_dump_ok fl : forall v, val_ok v -> forall pad, fx_dump fl (emb v) pad = pretty (bar_leaf fl as_written escaped) escaped pad v.
Proof.
  induction v as [|bb|z|z|x|s|bb|l IH|l IH] using val_ind'; intros OK pad; try reflexivity.
  - cbn [emb fx_dump pretty bar_leaf]. change (bytes_ok s) in OK. rewrite (esc_spec s OK). reflexivity.
  - cbn [emb fx_dump pretty]. apply val_ok_arr in OK. rewrite Forall_forall in IH, OK.
    rewrite map_map. do 3 f_equal.
    rewrite <- (fx_rows_ok _ 0), !zlen_map. cbn [Z.add]. f_equal. apply map_ext_in. intros y Hy. rewrite IH; auto.
  - cbn [emb fx_dump pretty]. apply val_ok_map in OK. rewrite Forall_forall in IH, OK.
    rewrite map_map. do 3 f_equal. rewrite <- (fx_rows_ok _ 0), !zlen_map. cbn [Z.add]. f_equal.
    apply map_ext_in. intros kx Hy. cbn [fst snd]. destruct (OK _ Hy). rewrite IH, esc_spec by auto. reflexivity.
Qed.
