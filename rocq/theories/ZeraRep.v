(** ZeraRep.v -- the ZERA representation relation and the reader on it. *)

From Coq Require Import ZArith List Bool Lia ZifyBool ZifyNat.
From Verif Require Import Base BaseFacts Spec SpecFacts ZeraModel ZeraFacts.
Import ListNotations.
Open Scope Z_scope.
Ltac Zify.zify_post_hook ::= Z.div_mod_to_equations.

(** ** Representation of a value by a ValueRef over an envelope and an arena *)
Definition inline_vr (s : bytes) : bytes :=
  [TString; 1] ++ u16_le (zlen s) ++ s ++ zeros (12 - zlen s).
Definition entry (k vr : bytes) : bytes := u16_le (zlen k) ++ u16_le 0 ++ k ++ vr.
Definition entries (es : list (bytes * bytes)) : bytes :=
  flat_map (fun e => entry (fst e) (snd e)) es.

Inductive vrep (env arena : bytes) : bytes -> val -> Prop :=
| rep_null : vrep env arena (make_vr TNull 0 0 0 0 0) VNull
| rep_bool (b : bool) : vrep env arena (make_vr TBool 0 (if b then 1 else 0) 0 0 0) (VBool b)
| rep_int z : is_i64 z ->
    vrep env arena (make_vr TI64 0 0 (lo32 (wrap64 z)) (hi32 (wrap64 z)) 0) (VInt z)
| rep_uint z : is_u64 z -> vrep env arena (make_vr TU64 0 0 (lo32 z) (hi32 z) 0) (VUInt z)
| rep_dbl z : is_u64 z -> vrep env arena (make_vr TF64 0 0 (lo32 z) (hi32 z) 0) (VDbl z)
| rep_str_inl s : zlen s <= InlineMax -> vrep env arena (inline_vr s) (VStr s)
| rep_str_far s ofs : zlen s <= u32_max -> ofs <= u32_max -> has arena ofs s ->
    vrep env arena (make_vr TString 0 0 ofs (zlen s) 0) (VStr s)
| rep_blob b ofs sofs : zlen b <= u32_max -> ofs <= u32_max -> sofs <= u32_max ->
    has arena ofs b -> ofs mod 16 = 0 -> has env sofs (shape_rank1 (zlen b)) ->
    vrep env arena (make_vr TTyped 0 DT_U8 ofs (zlen b) sofs) (VBlob b)
| rep_arr l vrs ofs : zlen l <= u32_max -> ofs <= u32_max ->
    has env ofs (u32_le (zlen l) ++ concat vrs) ->
    Forall2 (vrep env arena) vrs l ->
    vrep env arena (make_vr TArray 0 0 ofs 0 0) (VArr l)
| rep_map l es ofs : zlen l <= u32_max -> ofs <= u32_max ->
    has env ofs (u32_le (zlen l) ++ entries es) ->
    Forall2 (fun e kx => fst e = fst kx /\ zlen (fst kx) <= u16_max /\
                         vrep env arena (snd e) (snd kx)) es l ->
    vrep env arena (make_vr TObject 0 0 ofs 0 0) (VMap l).

Lemma zlen_zeros n : zlen (zeros n) = Z.max 0 n.
Proof. apply zlen_repeat. Qed.

Lemma zlen_inline_vr s : zlen s <= 12 -> zlen (inline_vr s) = 16.
Proof.
  intros H. unfold inline_vr. rewrite !zlen_app, zlen_u16_le, zlen_zeros.
  change (zlen [TString; 1]) with 2. pose proof (zlen_nonneg s). lia.
Qed.

Lemma vrep_len env arena vr v : vrep env arena vr v -> zlen vr = 16.
Proof. destruct 1; try apply zlen_make_vr. now apply zlen_inline_vr. Qed.

(** The representation survives growth of the envelope and the arena. *)
Lemma vrep_mono env arena e a : forall v vr,
  vrep env arena vr v -> vrep (env ++ e) (arena ++ a) vr v.
Proof.
  induction v as [| | | | | | |l IH|l IH] using val_ind'; intros vr H;
    inversion H; subst; try (econstructor; eauto using has_app_l; fail).
  - econstructor; eauto using has_app_l.
    match goal with F : Forall2 _ _ _ |- _ => clear - F IH; induction F as [|y x ? ? R F IHF] end;
      constructor; inversion IH; subst; auto.
  - econstructor; eauto using has_app_l.
    match goal with F : Forall2 _ _ _ |- _ => clear - F IH; induction F as [|y x ? ? R F IHF] end;
      constructor; inversion IH; subst; auto.
    destruct R as (R1 & R2 & R3). auto.
Qed.

(** ** A view over a buffer holding the envelope and the arena *)
Record zframe (v : zview) (env arena : bytes) : Prop := {
  zf_env : has (zv_buf v) HeaderSize env;
  zf_env_size : zv_env_size v = zlen env;
  zf_env_max : zlen env <= u32_max;
  zf_arena : has (zv_buf v) (zv_arena v) arena;
  zf_arena_len : zv_arena_len v = zlen arena
}.

Lemma zframe_child v env arena p : zframe v env arena -> zframe (zv_child v p) env arena.
Proof. intros [A B M C D]; split; assumption. Qed.

Ltac leaf_unfold :=
  unfold zv_asBool, zv_asInt, zv_asUInt, zv_asInt64, zv_asUInt64, zv_bits,
         zv_asDouble, zv_asString, zv_asStringView, zv_asBlob, zv_arraySize, zv_idx, zv_key,
         zv_contains, zv_keys, zv_mapKeys, require_flags_ok, zv_isBlob, zv_is, require.
Ltac leaf_go Ht Hf Hx :=
  cbn [zera_reader r_isNull r_isBool r_isInt r_isUInt r_isFloat r_isString r_isBlob r_isMap
       r_isArray r_asBool r_asInt r_asUInt r_asDouble r_asString r_asStringView r_asBlob
       r_arraySize r_idx r_key r_contains r_mapKeys ideal
       t_null t_bool t_int t_uint t_float t_string t_blob t_map t_array t_asBool t_asInt t_asUInt
       t_asDouble t_asString t_asBlob or_throw];
  leaf_unfold;
  repeat first [ rewrite Ht | rewrite Hf | rewrite Hx | progress cbn [bind negb orb andb] | progress zcase ];
  try reflexivity.

(** All observations that only depend on the tag being a given scalar tag. *)
Ltac split_leaf := split; [unfold observes; repeat split; intros | repeat split; intros].

Lemma show_null v : vr_at v (make_vr TNull 0 0 0 0 0) -> shows zera_reader ideal v VNull.
Proof.
  intros H. destruct (vr_fields _ _ _ _ _ _ _ H) as (Ht & Hf & Hx & _); try (unfold u16r, u32r; lia).
  rewrite shows_leaf by exact I. split_leaf; leaf_go Ht Hf Hx.
Qed.
Lemma show_bool v (b : bool) : vr_at v (make_vr TBool 0 (if b then 1 else 0) 0 0 0) ->
  shows zera_reader ideal v (VBool b).
Proof.
  intros H. destruct (vr_fields _ _ _ _ _ _ _ H) as (Ht & Hf & Hx & _);
    try (destruct b; unfold u16r, u32r; lia).
  rewrite shows_leaf by exact I. split_leaf; leaf_go Ht Hf Hx.
  destruct b; reflexivity.
Qed.

Lemma show_int v z : is_i64 z ->
  vr_at v (make_vr TI64 0 0 (lo32 (wrap64 z)) (hi32 (wrap64 z)) 0) ->
  shows zera_reader ideal v (VInt z).
Proof.
  intros Hz H.
  destruct (vr_fields _ _ _ _ _ _ _ H) as (Ht & Hf & Hx & Ha & Hb & _);
    try apply lo32_range; try apply hi32_range; try (unfold u16r, u32r; lia).
  assert (Hbits : zv_bits v = Ok (wrap64 z)).
  { unfold zv_bits. rewrite Ha, Hb. cbn [bind]. now rewrite lo_hi_bits by apply wrap64_range. }
  assert (Hsig : to_signed 64 (wrap64 z) = z).
  { apply to_signed_wrap; [lia|]. unfold is_i64, i64_min, i64_max in Hz. lia. }
  assert (H64 : zv_asInt64 v = Ok z).
  { unfold zv_asInt64, require_flags_ok, require. rewrite Ht, Hf, Hbits.
    cbn [bind]. zcase. cbn [bind orb]. zcase. cbn [bind]. now rewrite Hsig. }
  assert (HU64 : zv_asUInt64 v = if 0 <=? z then Ok z else Throw EDeser).
  { unfold zv_asUInt64, require_flags_ok, require. rewrite Ht, Hf, Hbits.
    cbn [bind]. zcase. cbn [bind orb]. zcase. cbn [bind]. rewrite Hsig.
    destruct (0 <=? z) eqn:E; cbn [bind]; [|reflexivity].
    rewrite wrap64_small; [reflexivity|]. unfold is_i64, i64_max in Hz. lia. }
  rewrite shows_leaf by exact I.
  split_leaf; try (leaf_go Ht Hf Hx; fail).
  - cbn [r_asInt zera_reader]. unfold zv_asInt. rewrite H64. unfold require.
    apply fits_s_spec; assumption.
  - cbn [r_asUInt zera_reader]. unfold zv_asUInt. rewrite HU64. unfold require.
    destruct (0 <=? z) eqn:E.
    + apply fits_u_spec. unfold is_i64, is_u64, i64_max, u64_max in *. lia.
    + cbn [bind ideal t_asUInt]. now rewrite fits_u_none by lia.
Qed.

Lemma show_uint v z : is_u64 z ->
  vr_at v (make_vr TU64 0 0 (lo32 z) (hi32 z) 0) ->
  shows zera_reader ideal v (VUInt z).
Proof.
  intros Hz H.
  destruct (vr_fields _ _ _ _ _ _ _ H) as (Ht & Hf & Hx & Ha & Hb & _);
    try apply lo32_range; try apply hi32_range; try (unfold u16r, u32r; lia).
  assert (Hbits : zv_bits v = Ok z).
  { unfold zv_bits. rewrite Ha, Hb. cbn [bind]. rewrite lo_hi_bits; [reflexivity|].
    unfold is_u64, u64_max in Hz. lia. }
  assert (H64 : zv_asInt64 v = if z <=? i64_max then Ok z else Throw EDeser).
  { unfold zv_asInt64, require_flags_ok, require. rewrite Ht, Hf, Hbits.
    cbn [bind]. zcase. cbn [bind orb]. zcase. cbn [bind].
    destruct (z <=? i64_max) eqn:E; cbn [bind]; [|reflexivity].
    rewrite to_signed_small; [reflexivity|lia|]. unfold is_u64, i64_max in *. lia. }
  assert (HU64 : zv_asUInt64 v = Ok z).
  { unfold zv_asUInt64, require_flags_ok, require. rewrite Ht, Hf, Hbits.
    cbn [bind]. zcase. cbn [bind orb]. zcase. reflexivity. }
  rewrite shows_leaf by exact I.
  split_leaf; try (leaf_go Ht Hf Hx; fail).
  - cbn [r_asInt zera_reader]. unfold zv_asInt. rewrite H64. unfold require.
    destruct (z <=? i64_max) eqn:E.
    + apply fits_s_spec. unfold is_i64, is_u64, i64_min, i64_max in *. lia.
    + cbn [bind ideal t_asInt]. rewrite fits_s_none; auto. lia.
  - cbn [r_asUInt zera_reader]. unfold zv_asUInt. rewrite HU64. unfold require.
    now apply fits_u_spec.
Qed.

Lemma show_dbl v z : is_u64 z ->
  vr_at v (make_vr TF64 0 0 (lo32 z) (hi32 z) 0) ->
  shows zera_reader ideal v (VDbl z).
Proof.
  intros Hz H.
  destruct (vr_fields _ _ _ _ _ _ _ H) as (Ht & Hf & Hx & Ha & Hb & _);
    try apply lo32_range; try apply hi32_range; try (unfold u16r, u32r; lia).
  rewrite shows_leaf by exact I.
  split_leaf; try (leaf_go Ht Hf Hx; fail).
  cbn [r_asDouble zera_reader]. unfold zv_asDouble, require_flags_ok, require, zv_bits.
  rewrite Ht, Hf, Ha, Hb. cbn [bind]. zcase. cbn [bind]. zcase. cbn [bind].
  rewrite lo_hi_bits; [reflexivity|].
  unfold is_u64, u64_max in Hz. lia.
Qed.

(** A string whose view is known. *)
Lemma show_str_gen v s f x w :
  zv_tag v = Ok TString -> zv_flags v = Ok f -> zv_aux v = Ok x ->
  zv_asStringView v = Ok w -> rd_view (zv_buf v) w = Ok s ->
  shows zera_reader ideal v (VStr s).
Proof.
  intros Ht Hf Hx Hv Hr.
  rewrite shows_leaf by exact I.
  split_leaf; try (leaf_go Ht Hf Hx; fail).
  - cbn [r_asString zera_reader]. unfold zv_asString. rewrite Hv. cbn [bind]. exact Hr.
  - cbn [r_asStringView zera_reader]. rewrite Hv. cbn [bind]. exact Hr.
Qed.

Lemma show_str_inl v s : zlen s <= InlineMax -> vr_at v (inline_vr s) ->
  shows zera_reader ideal v (VStr s).
Proof.
  unfold InlineMax. intros Hs H. pose proof (zlen_nonneg s) as Hs0.
  destruct (require_vr_at _ _ H) as (p & E & M & _).
  unfold inline_vr in M. rewrite has_app in M. destruct M as [M0 M].
  rewrite has_cons in M0. destruct M0 as [M0 M1].
  rewrite has_app in M. destruct M as [M2 M]. rewrite has_app in M. destruct M as [M3 _].
  change (zlen [TString; 1]) with 2 in *. rewrite zlen_u16_le in *.
  replace (p + 2 + 2) with (p + 4) in * by lia.
  assert (Ht : zv_tag v = Ok TString) by (unfold zv_tag; rewrite E; eapply has_rd; eauto).
  assert (Hf : zv_flags v = Ok 1) by (unfold zv_flags; rewrite E; eapply has_rd; eauto).
  assert (Hx : zv_aux v = Ok (zlen s)).
  { unfold zv_aux; rewrite E; cbn [bind]. apply read_u16_le_has; auto. lia. }
  eapply (show_str_gen v s 1 (zlen s) (p + 4, zlen s)); auto.
  - unfold zv_asStringView, require_flags_ok, inline_bytes_view, require. rewrite Ht, Hf, Hx, E.
    cbn [bind]. zcase. cbn [bind]. change (Z.land 1 254 =? 0) with true. cbn [bind].
    change (Z.land 1 1 =? 0) with false. cbn [negb].
    unfold InlineMax. replace (zlen s <=? 12) with true by lia. reflexivity.
  - now apply has_rd_view.
Qed.

Lemma show_str_far v env arena s ofs :
  zframe v env arena -> zlen s <= u32_max -> ofs <= u32_max -> has arena ofs s ->
  vr_at v (make_vr TString 0 0 ofs (zlen s) 0) ->
  shows zera_reader ideal v (VStr s).
Proof.
  unfold u32_max. intros F Hs Ho Hh H. pose proof (zlen_nonneg s) as Hs0.
  pose proof (has_bound _ _ _ Hh) as [B1 B2].
  destruct (vr_fields _ _ _ _ _ _ _ H) as (Ht & Hf & Hx & Ha & Hb & _); try (unfold u16r, u32r; lia).
  eapply (show_str_gen v s 0 0 (zv_arena v + ofs, zlen s)); auto.
  - unfold zv_asStringView, require_flags_ok, require. rewrite Ht, Hf, Ha, Hb.
    cbn [bind]. zcase. cbn [bind]. change (Z.land 0 254 =? 0) with true. cbn [bind].
    change (Z.land 0 1 =? 0) with true. cbn [negb].
    apply arena_view_ok; auto. rewrite (zf_arena_len _ _ _ F). lia.
  - apply has_rd_view. eapply has_trans; eauto. apply (zf_arena _ _ _ F).
Qed.

Lemma zlen_shape_rank1 n : zlen (shape_rank1 n) = 12. Proof. reflexivity. Qed.
Lemma shape_rank1_eq n : 0 <= n < 2^32 -> shape_rank1 n = u32_le 1 ++ u32_le n ++ u32_le 0.
Proof.
  intros H. unfold shape_rank1. rewrite u32_le_eq. cbn [map]. rewrite !land_255.
  change (8 * 0) with 0. change (8 * 1) with 8. change (8 * 2) with 16. change (8 * 3) with 24.
  change (8 * 4) with 32. change (8 * 5) with 40. change (8 * 6) with 48. change (8 * 7) with 56.
  rewrite !shiftr_div by lia.
  change (1 mod 256) with 1. change (1 / 256 mod 256) with 0. change (1 / 65536 mod 256) with 0.
  change (1 / 16777216 mod 256) with 0. cbn [app].
  change (u32_le 0) with [0; 0; 0; 0]. rewrite u32_le_eq. cbn [app].
  repeat (f_equal; try lia).
Qed.

Lemma show_blob v env arena b ofs sofs :
  zframe v env arena -> zlen b <= u32_max -> ofs <= u32_max -> sofs <= u32_max ->
  has arena ofs b -> has env sofs (shape_rank1 (zlen b)) ->
  vr_at v (make_vr TTyped 0 DT_U8 ofs (zlen b) sofs) ->
  shows zera_reader ideal v (VBlob b) /\ zv_asBlob v = Ok (zv_arena v + ofs, zlen b).
Proof.
  unfold u32_max. intros F Hb Ho Hso Hh Hsh H. pose proof (zlen_nonneg b) as Hb0.
  pose proof (has_bound _ _ _ Hh) as [B1 B2]. pose proof (has_bound _ _ _ Hsh) as [B3 B4].
  rewrite zlen_shape_rank1 in B4.
  destruct (vr_fields _ _ _ _ _ _ _ H) as (Ht & Hf & Hx & Ha & Hbb & Hc); try (unfold u16r, u32r, DT_U8; lia).
  pose proof (zf_env_size _ _ _ F) as ES.
  assert (Hs : has (zv_buf v) (HeaderSize + sofs) (u32_le 1 ++ u32_le (zlen b) ++ u32_le 0)).
  { rewrite <- shape_rank1_eq by lia. eapply has_trans; eauto. apply (zf_env _ _ _ F). }
  rewrite has_app in Hs. destruct Hs as [Hs1 Hs]. rewrite has_app in Hs. destruct Hs as [Hs2 Hs3].
  rewrite !zlen_u32_le in *.
  assert (HB : zv_asBlob v = Ok (zv_arena v + ofs, zlen b)).
  { unfold zv_asBlob, zv_isBlob, require_flags_ok, require. rewrite Ht, Hf, Hx, Ha, Hbb, Hc.
    cbn [bind]. zcase. cbn [bind]. zcase. cbn [bind].
    rewrite env_ptr_ok by lia. cbn [bind].
    rewrite (read_u32_le_has _ _ 1) by (auto; lia). cbn [bind]. zcase. cbn [bind].
    rewrite env_ptr_ok by lia. cbn [bind].
    unfold read_u64_le. rewrite (read_u32_le_has _ _ (zlen b)) by (auto; lia). cbn [bind].
    rewrite (read_u32_le_has _ _ 0) by (auto; lia). cbn [bind].
    rewrite Z.shiftl_0_l, Z.lor_0_r, Z.eqb_refl. cbn [bind].
    apply arena_view_ok; auto. rewrite (zf_arena_len _ _ _ F). lia. }
  split; [|exact HB].
  rewrite shows_leaf by exact I.
  split_leaf; try (leaf_go Ht Hf Hx; fail).
  cbn [r_asBlob zera_reader]. rewrite HB. cbn [bind].
  apply has_rd_view. eapply has_trans; eauto. apply (zf_arena _ _ _ F).
Qed.

(** ** Arrays *)
Lemma zlen_concat16 (vrs : list bytes) :
  Forall (fun x => zlen x = 16) vrs -> zlen (concat vrs) = 16 * zlen vrs.
Proof.
  induction 1 as [|x l Hx Hl IH]; [reflexivity|]. cbn [concat]. rewrite zlen_app, zlen_cons. lia.
Qed.
Lemma Forall2_zlen {A B} (P : A -> B -> Prop) l1 l2 : Forall2 P l1 l2 -> zlen l1 = zlen l2.
Proof. induction 1 as [|x y l1 l2 H HF IH]; [reflexivity|]. rewrite !zlen_cons, IH. reflexivity. Qed.
Lemma vrep_all16 env arena vrs l : Forall2 (vrep env arena) vrs l -> Forall (fun x => zlen x = 16) vrs.
Proof. induction 1; constructor; auto. eapply vrep_len; eauto. Qed.

Definition shows_ih (x : val) : Prop :=
  forall v env arena vr, zframe v env arena -> vrep env arena vr x -> vr_at v vr ->
  shows zera_reader ideal v x.

Lemma show_arr v env arena l vrs ofs :
  Forall shows_ih l ->
  zframe v env arena -> zlen l <= u32_max -> ofs <= u32_max ->
  has env ofs (u32_le (zlen l) ++ concat vrs) ->
  Forall2 (vrep env arena) vrs l ->
  vr_at v (make_vr TArray 0 0 ofs 0 0) ->
  shows zera_reader ideal v (VArr l).
Proof.
  unfold u32_max. intros IH F Hl Ho Hh HF H. pose proof (zlen_nonneg l) as Hl0.
  pose proof (vrep_all16 _ _ _ _ HF) as H16. pose proof (Forall2_zlen _ _ _ HF) as HL.
  pose proof (zlen_concat16 _ H16) as HC.
  pose proof (has_bound _ _ _ Hh) as [B1 B2]. rewrite zlen_app, zlen_u32_le, HC, HL in B2.
  destruct (vr_fields _ _ _ _ _ _ _ H) as (Ht & Hf & Hx & Ha & Hb & Hc); try (unfold u16r, u32r; lia).
  pose proof (zf_env_size _ _ _ F) as ES. pose proof (zf_env_max _ _ _ F) as EM. unfold u32_max in EM.
  assert (Hs : has (zv_buf v) (HeaderSize + ofs) (u32_le (zlen l) ++ concat vrs)).
  { eapply has_trans; eauto. apply (zf_env _ _ _ F). }
  rewrite has_app in Hs. destruct Hs as [Hcnt Hvrs]. rewrite zlen_u32_le in Hvrs.
  assert (Hidx : forall i, 0 <= i ->
     zv_idx v i = if i <? zlen l then Ok (zv_child v (HeaderSize + (ofs + 4 + 16 * i))) else Throw EDeser).
  { intros i Hi. unfold zv_idx, require_flags_ok, require. rewrite Ht, Hf, Ha.
    cbn [bind]. zcase. cbn [bind]. rewrite env_ptr_ok by lia. cbn [bind].
    rewrite (read_u32_le_has _ _ (zlen l)) by (auto; lia). cbn [bind].
    destruct (i <? zlen l) eqn:E; cbn [bind]; [|reflexivity].
    rewrite wrap32_small by lia. rewrite env_ptr_ok by lia. reflexivity. }
  rewrite shows_arr. split; [unfold observes; repeat split; intros; leaf_go Ht Hf Hx|].
  repeat split; intros; try (leaf_go Ht Hf Hx; fail).
  - cbn [r_arraySize zera_reader]. unfold zv_arraySize, require_flags_ok, require. rewrite Ht, Hf, Ha.
    cbn [bind]. zcase. cbn [bind]. rewrite env_ptr_ok by lia. cbn [bind].
    rewrite (read_u32_le_has _ _ (zlen l)) by (auto; lia). cbn [bind].
    rewrite env_ptr_ok by lia. reflexivity.
  - cbn [r_idx zera_reader]. rewrite Hidx by lia. now replace (i <? zlen l) with false by lia.
  - assert (forall pre post l2, vrs = pre ++ post -> Forall2 (vrep env arena) post l2 ->
              Forall shows_ih l2 -> zlen pre + zlen l2 = zlen l ->
              elems_ok zera_reader ideal v (zlen pre) l2) as G.
    { intros pre post l2. revert pre post.
      induction l2 as [|x l2 IHl]; intros pre post Hsp HF2 IH2 HLn; cbn [elems_ok]; [exact I|].
      inversion HF2 as [|vr x' post' l2' Hr HF3]; subst x' l2' post.
      inversion IH2 as [|x' l2' Hx1 Hx2]; subst x' l2'.
      rewrite zlen_cons in HLn. pose proof (zlen_nonneg pre). pose proof (zlen_nonneg l2).
      split.
      - exists (zv_child v (HeaderSize + (ofs + 4 + 16 * zlen pre))). split.
        + cbn [r_idx zera_reader]. rewrite Hidx by lia.
          now replace (zlen pre <? zlen l) with true by lia.
        + eapply Hx1; [apply zframe_child; exact F|exact Hr|].
          rewrite Hsp, concat_app in Hvrs. cbn [concat] in Hvrs.
          rewrite has_app in Hvrs. destruct Hvrs as [Hv1 Hv2].
          rewrite has_app in Hv2. destruct Hv2 as [Hv2 _].
          rewrite Hsp, Forall_app in H16. rewrite zlen_concat16 in Hv2 by tauto.
          eexists; split; [reflexivity|]. cbn [zv_child zv_buf zv_env_size].
          replace (HeaderSize + (ofs + 4 + 16 * zlen pre)) with (HeaderSize + ofs + 4 + 16 * zlen pre) by lia.
          split; [exact Hv2|]. pose proof (vrep_len _ _ _ _ Hr). unfold HeaderSize. lia.
      - replace (zlen pre + 1) with (zlen (pre ++ [vr])) by (rewrite zlen_app; reflexivity).
        apply IHl with (post := post'); auto.
        + now rewrite <- app_assoc.
        + rewrite zlen_app. change (zlen [vr]) with 1. lia. }
    apply (G [] vrs l); auto.
Qed.

(** ** Maps *)
Definition es_ok (es : list (bytes * bytes)) : Prop :=
  Forall (fun e => zlen (fst e) <= u16_max /\ zlen (snd e) = 16) es.

Lemma zlen_entry k vr : zlen (entry k vr) = 4 + zlen k + zlen vr.
Proof. unfold entry. rewrite !zlen_app, !zlen_u16_le. lia. Qed.
Lemma entries_cons e es : entries (e :: es) = entry (fst e) (snd e) ++ entries es.
Proof. reflexivity. Qed.
Lemma entries_app a b : entries (a ++ b) = entries a ++ entries b.
Proof. unfold entries. apply flat_map_app. Qed.

(** One entry at envelope offset [ofs]. *)
Lemma has_entry b p k vr :
  has b p (entry k vr) ->
  has b p (u16_le (zlen k)) /\ has b (p + 2) (u16_le 0) /\
  has b (p + 4) k /\ has b (p + 4 + zlen k) vr.
Proof.
  unfold entry. rewrite has_app. intros [A H]. rewrite has_app in H. destruct H as [B H].
  rewrite has_app in H. destruct H as [C D]. rewrite !zlen_u16_le in *.
  replace (p + 2 + 2) with (p + 4) in * by lia. auto.
Qed.

Lemma key_matches_has b p k key : has b p k -> key_matches b p (zlen k) key = Ok (beq key k).
Proof.
  intros H. unfold key_matches. destruct (zlen k =? zlen key) eqn:E.
  - rewrite (has_rd_view _ _ _ H). cbn [bind]. now rewrite beq_sym.
  - symmetry. f_equal. apply beq_neq. intros ->. lia.
Qed.

Definition contains_body (v : zview) (key : bytes) (ofs : Z) : res (Z + bool) :=
  e <- env_ptr_at v (wrap32 ofs) 4 ;;
  key_len <- read_u16_le (zv_buf v) e ;;
  read_u16_le (zv_buf v) (e + 2) ;;;
  kb <- env_ptr_at v (wrap32 (ofs + 4)) key_len ;;
  eq <- key_matches (zv_buf v) kb key_len key ;;
  if eq then Ok (inr true) else
  let ofs' := ofs + (4 + key_len + 16) in
  env_ptr_at v (wrap32 ofs') 0 ;;;
  Ok (inl ofs').
Definition key_body (v : zview) (key : bytes) (ofs : Z) : res (Z + zview) :=
  e <- env_ptr_at v (wrap32 ofs) 4 ;;
  key_len <- read_u16_le (zv_buf v) e ;;
  read_u16_le (zv_buf v) (e + 2) ;;;
  kb <- env_ptr_at v (wrap32 (ofs + 4)) key_len ;;
  vr <- env_ptr_at v (wrap32 (ofs + 4 + key_len)) 16 ;;
  eq <- key_matches (zv_buf v) kb key_len key ;;
  if eq then Ok (inr (zv_child v vr)) else
  let ofs' := ofs + (4 + key_len + 16) in
  env_ptr_at v (wrap32 ofs') 0 ;;;
  Ok (inl ofs').

Definition keys_body (v : zview) (s : zkit * list view) : res ((zkit * list view) + unit) :=
  let '(it, acc) := s in
  k <- zk_deref v it ;;
  it' <- zk_incr v it ;;
  Ok (inl (it', k :: acc)).

Section MapLoops.
  Variables (v : zview) (env arena : bytes).
  Hypothesis F : zframe v env arena.

  Let ES : zv_env_size v = zlen env := zf_env_size _ _ _ F.
  Let EM : zlen env <= u32_max := zf_env_max _ _ _ F.

  Lemma step_facts ofs k vr :
    zlen k <= u16_max -> zlen vr = 16 -> has env ofs (entry k vr) ->
    wrap32 ofs = ofs /\ wrap32 (ofs + 4) = ofs + 4 /\ wrap32 (ofs + 4 + zlen k) = ofs + 4 + zlen k /\
    env_ptr_at v ofs 4 = Ok (HeaderSize + ofs) /\
    read_u16_le (zv_buf v) (HeaderSize + ofs) = Ok (zlen k) /\
    read_u16_le (zv_buf v) (HeaderSize + ofs + 2) = Ok 0 /\
    env_ptr_at v (ofs + 4) (zlen k) = Ok (HeaderSize + (ofs + 4)) /\
    env_ptr_at v (ofs + 4 + zlen k) 16 = Ok (HeaderSize + (ofs + 4 + zlen k)) /\
    has (zv_buf v) (HeaderSize + (ofs + 4)) k /\
    wrap32 (ofs + (4 + zlen k + 16)) = ofs + (4 + zlen k + 16) /\
    env_ptr_at v (ofs + (4 + zlen k + 16)) 0 = Ok (HeaderSize + (ofs + (4 + zlen k + 16))) /\
    env_ptr_at v ofs (4 + zlen k + 16) = Ok (HeaderSize + ofs).
  Proof using F ES EM.
    intros Hk Hv H. unfold u16_max, u32_max in *.
    pose proof (has_bound _ _ _ H) as [B1 B2]. rewrite zlen_entry in B2.
    pose proof (zlen_nonneg k) as K0.
    assert (Hb : has (zv_buf v) (HeaderSize + ofs) (entry k vr))
      by (eapply has_trans; [apply (zf_env _ _ _ F)|exact H]).
    destruct (has_entry _ _ _ _ Hb) as (A & B & C & D).
    repeat split; try (apply wrap32_small; lia); try (apply env_ptr_ok; lia).
    - apply read_u16_le_has; auto; lia.
    - apply read_u16_le_has; auto; lia.
    - pose proof (has_bound _ _ _ C). unfold HeaderSize in *. lia.
    - pose proof (has_bound _ _ _ C). unfold HeaderSize in *. lia.
    - replace (HeaderSize + (ofs + 4)) with (HeaderSize + ofs + 4) by lia. apply C.
  Qed.

  Lemma contains_loop key : forall es ofs,
    es_ok es -> has env ofs (entries es) ->
    zloop (zlen es) (contains_body v key) ofs =
    if existsb (beq key) (map fst es) then Ok (inr true) else Ok (inl (ofs + zlen (entries es))).
  Proof using F ES EM.
    induction es as [|[k vr] es IH]; intros ofs Hes Hh.
    - cbn [map existsb]. rewrite zlen_nil, zloop_0. do 2 f_equal. cbn. lia.
    - inversion Hes as [|x y [Hk Hv] Hes']; subst. cbn [fst snd] in *.
      rewrite entries_cons, has_app in Hh. cbn [fst snd] in Hh. destruct Hh as [Hh1 Hh2].
      destruct (step_facts _ _ _ Hk Hv Hh1) as (W1 & W2 & W3 & P1 & R1 & R2 & P2 & P3 & HK & W4 & P4 & _).
      rewrite zlen_cons, zloop_succ by auto.
      unfold contains_body at 1. rewrite W1, P1. cbn [bind]. rewrite R1. cbn [bind].
      rewrite R2. cbn [bind]. rewrite W2, P2. cbn [bind]. rewrite (key_matches_has _ _ _ _ HK). cbn [bind].
      cbn [map fst existsb]. destruct (beq key k) eqn:E; [reflexivity|]. cbn [orb].
      cbv zeta. rewrite W4, P4. cbn [bind].
      rewrite zlen_entry, Hv in Hh2.
      replace (ofs + (4 + zlen k + 16)) with (ofs + (4 + zlen k + 16)) in Hh2 by lia.
      rewrite IH by auto. rewrite entries_cons, zlen_app, zlen_entry. cbn [fst snd]. rewrite Hv.
      destruct (existsb (beq key) (map fst es)); [reflexivity|]. do 2 f_equal. lia.
  Qed.

  (** Offset of the ValueRef of the first entry with the given key. *)
  Fixpoint find_ofs (key : bytes) (ofs : Z) (es : list (bytes * bytes)) : option Z :=
    match es with
    | [] => None
    | (k, vr) :: es' =>
        if beq key k then Some (ofs + 4 + zlen k) else find_ofs key (ofs + (4 + zlen k + 16)) es'
    end.

  Lemma key_loop key : forall es ofs,
    es_ok es -> has env ofs (entries es) ->
    zloop (zlen es) (key_body v key) ofs =
    match find_ofs key ofs es with
    | Some p => Ok (inr (zv_child v (HeaderSize + p)))
    | None => Ok (inl (ofs + zlen (entries es)))
    end.
  Proof using F ES EM.
    induction es as [|[k vr] es IH]; intros ofs Hes Hh.
    - cbn [find_ofs]. rewrite zlen_nil, zloop_0. do 2 f_equal. cbn. lia.
    - inversion Hes as [|x y [Hk Hv] Hes']; subst. cbn [fst snd] in *.
      rewrite entries_cons, has_app in Hh. cbn [fst snd] in Hh. destruct Hh as [Hh1 Hh2].
      destruct (step_facts _ _ _ Hk Hv Hh1) as (W1 & W2 & W3 & P1 & R1 & R2 & P2 & P3 & HK & W4 & P4 & _).
      rewrite zlen_cons, zloop_succ by auto.
      unfold key_body at 1. rewrite W1, P1. cbn [bind]. rewrite R1. cbn [bind].
      rewrite R2. cbn [bind]. rewrite W2, P2. cbn [bind]. rewrite W3, P3. cbn [bind].
      rewrite (key_matches_has _ _ _ _ HK). cbn [bind].
      cbn [find_ofs]. destruct (beq key k) eqn:E; [reflexivity|].
      cbv zeta. rewrite W4, P4. cbn [bind].
      rewrite zlen_entry, Hv in Hh2.
      rewrite IH by auto. rewrite entries_cons, zlen_app, zlen_entry. cbn [fst snd]. rewrite Hv.
      destruct (find_ofs key (ofs + (4 + zlen k + 16)) es); [reflexivity|]. do 2 f_equal. lia.
  Qed.

  (** Views of all keys. *)
  Fixpoint key_views (ofs : Z) (es : list (bytes * bytes)) : list view :=
    match es with
    | [] => []
    | (k, vr) :: es' => (HeaderSize + (ofs + 4), zlen k) :: key_views (ofs + (4 + zlen k + 16)) es'
    end.

  Lemma keys_loop n : forall es ofs i acc,
    es_ok es -> has env ofs (entries es) -> 0 <= i -> i + zlen es = n ->
    zloop (zlen es) (keys_body v) (mkZKit (HeaderSize + ofs) i n, acc) =
    Ok (inl (mkZKit (HeaderSize + (ofs + zlen (entries es))) n n, rev (key_views ofs es) ++ acc)).
  Proof using F ES EM.
    induction es as [|[k vr] es IH]; intros ofs i acc Hes Hh Hi Hn.
    - rewrite zlen_nil, zloop_0. rewrite zlen_nil in Hn.
      change (zlen (entries [])) with 0. cbn [key_views rev app].
      rewrite Z.add_0_r. replace i with n by lia. reflexivity.
    - inversion Hes as [|x y [Hk Hv] Hes']; subst x y. cbn [fst snd] in *.
      rewrite entries_cons, has_app in Hh. cbn [fst snd] in Hh. destruct Hh as [Hh1 Hh2].
      destruct (step_facts _ _ _ Hk Hv Hh1) as (W1 & W2 & W3 & P1 & R1 & R2 & P2 & P3 & HK & W4 & P4 & P5).
      rewrite zlen_cons in Hn. pose proof (zlen_nonneg es).
      rewrite zlen_cons, zloop_succ by auto.
      unfold keys_body at 1. unfold zk_deref, zk_incr, require; cbn [ki_n ki_i ki_cur].
      replace (n <=? i) with false by lia. cbn [negb bind].
      rewrite R1. cbn [bind].
      replace (HeaderSize + ofs - HeaderSize) with ofs by lia. rewrite W1, P5. cbn [bind].
      cbv zeta. rewrite W4, P4. cbn [bind].
      rewrite zlen_entry, Hv in Hh2.
      rewrite IH by (auto; lia).
      rewrite entries_cons, zlen_app, zlen_entry. cbn [fst snd key_views rev]. rewrite Hv.
      rewrite <- app_assoc. cbn [app].
      replace (ofs + (4 + zlen k + 16) + zlen (entries es)) with (ofs + (4 + zlen k + 16 + zlen (entries es))) by lia.
      replace (HeaderSize + ofs + 4) with (HeaderSize + (ofs + 4)) by lia.
      reflexivity.
  Qed.

  Lemma rd_key_views : forall es ofs,
    es_ok es -> has env ofs (entries es) -> rd_views (zv_buf v) (key_views ofs es) = Ok (map fst es).
  Proof using F ES EM.
    induction es as [|[k vr] es IH]; intros ofs Hes Hh; [reflexivity|].
    inversion Hes as [|x y [Hk Hv] Hes']; subst x y. cbn [fst snd] in *.
    rewrite entries_cons, has_app in Hh. cbn [fst snd] in Hh. destruct Hh as [Hh1 Hh2].
    destruct (step_facts _ _ _ Hk Hv Hh1) as (W1 & W2 & W3 & P1 & R1 & R2 & P2 & P3 & HK & W4 & P4 & P5).
    cbn [key_views rd_views map fst]. rewrite (has_rd_view _ _ _ HK). cbn [bind].
    rewrite zlen_entry, Hv in Hh2.
    rewrite IH by auto. reflexivity.
  Qed.
End MapLoops.

Lemma find_ofs_none key : forall es ofs,
  existsb (beq key) (map fst es) = false -> find_ofs key ofs es = None.
Proof.
  induction es as [|[k vr] es IH]; intros ofs H; [reflexivity|].
  cbn [map fst existsb] in H. apply orb_false_iff in H. destruct H as [A B].
  cbn [find_ofs]. rewrite A. auto.
Qed.
Lemma find_ofs_first key vr post : forall pre ofs,
  es_ok pre -> existsb (beq key) (map fst pre) = false ->
  find_ofs key ofs (pre ++ (key, vr) :: post) = Some (ofs + zlen (entries pre) + 4 + zlen key).
Proof.
  induction pre as [|[k vr'] pre IH]; intros ofs Hes H.
  - cbn [app find_ofs]. rewrite beq_refl. cbn. f_equal. lia.
  - inversion Hes as [|x y [Hk Hv] Hes']; subst. cbn [fst snd] in *.
    cbn [map fst existsb] in H. apply orb_false_iff in H. destruct H as [A B].
    cbn [app find_ofs]. rewrite A. rewrite IH by auto.
    rewrite entries_cons, zlen_app, zlen_entry. cbn [fst snd]. f_equal. lia.
Qed.

Lemma show_map v env arena l es ofs :
  Forall (fun kx => shows_ih (snd kx)) l ->
  zframe v env arena -> zlen l <= u32_max -> ofs <= u32_max ->
  has env ofs (u32_le (zlen l) ++ entries es) ->
  Forall2 (fun e kx => fst e = fst kx /\ zlen (fst kx) <= u16_max /\
                       vrep env arena (snd e) (snd kx)) es l ->
  vr_at v (make_vr TObject 0 0 ofs 0 0) ->
  shows zera_reader ideal v (VMap l).
Proof.
  unfold u32_max. intros IH F Hl Ho Hh HF H. pose proof (zlen_nonneg l) as Hl0.
  pose proof (Forall2_zlen _ _ _ HF) as HL.
  assert (Hes : es_ok es).
  { clear - HF. induction HF as [|e kx es l (A & B & C) HF IH]; [constructor|]. constructor; [|exact IH].
    cbv beta. rewrite A. split; [exact B|]. eapply vrep_len; eauto. }
  assert (Hfst : map fst es = map fst l).
  { clear - HF. induction HF as [|e kx es l (A & B & C) HF IH]; cbn; [reflexivity|]. now rewrite A, IH. }
  pose proof (has_bound _ _ _ Hh) as [B1 B2]. rewrite zlen_app, zlen_u32_le in B2.
  pose proof (zlen_nonneg (entries es)) as HE0.
  destruct (vr_fields _ _ _ _ _ _ _ H) as (Ht & Hf & Hx & Ha & Hb & Hc); try (unfold u16r, u32r; lia).
  pose proof (zf_env_size _ _ _ F) as ES. pose proof (zf_env_max _ _ _ F) as EM. unfold u32_max in EM.
  rewrite has_app in Hh. destruct Hh as [Hcnt Hent]. rewrite zlen_u32_le in Hent.
  assert (Hc2 : has (zv_buf v) (HeaderSize + ofs) (u32_le (zlen l))).
  { eapply has_trans; eauto. apply (zf_env _ _ _ F). }
  assert (Hcontains : forall k, zv_contains v k = Ok (existsb (beq k) (map fst l))).
  { intros k. unfold zv_contains, zv_is, require_flags_ok, require. rewrite Ht, Hf, Ha.
    cbn [bind]. zcase. cbn [bind negb]. zcase. cbn [bind]. rewrite env_ptr_ok by lia. cbn [bind].
    rewrite (read_u32_le_has _ _ (zlen l)) by (auto; lia). cbn [bind].
    rewrite wrap32_small by lia. rewrite <- HL.
    pose proof (contains_loop v env arena F k es (ofs + 4) Hes Hent) as L.
    unfold contains_body in L. rewrite L. rewrite Hfst.
    destruct (existsb (beq k) (map fst l)); reflexivity. }
  assert (Hkey : forall k, zv_key v k = match find_ofs k (ofs + 4) es with
             | Some p => Ok (zv_child v (HeaderSize + p)) | None => Throw EDeser end).
  { intros k. unfold zv_key, require_flags_ok, require. rewrite Ht, Hf, Ha.
    cbn [bind]. zcase. cbn [bind negb]. zcase. cbn [bind]. rewrite env_ptr_ok by lia. cbn [bind].
    rewrite (read_u32_le_has _ _ (zlen l)) by (auto; lia). cbn [bind].
    rewrite wrap32_small by lia. rewrite <- HL.
    pose proof (key_loop v env arena F k es (ofs + 4) Hes Hent) as L.
    unfold key_body in L. rewrite L. destruct (find_ofs k (ofs + 4) es); reflexivity. }
  assert (Hkeys : zv_keys v = Ok (key_views (ofs + 4) es)).
  { unfold zv_keys, zv_mapKeys, require_flags_ok, require. rewrite Ht, Hf, Ha.
    cbn [bind]. zcase. cbn [bind negb]. zcase. cbn [bind]. rewrite env_ptr_ok by lia. cbn [bind].
    rewrite (read_u32_le_has _ _ (zlen l)) by (auto; lia). cbn [bind].
    rewrite wrap32_small by lia. rewrite env_ptr_ok by lia. cbn [bind ki_n].
    rewrite <- HL.
    pose proof (keys_loop v env arena F (zlen es) es (ofs + 4) 0 [] Hes Hent ltac:(lia) ltac:(lia)) as L.
    unfold keys_body in L. rewrite L. cbn [bind]. now rewrite app_nil_r, rev_involutive. }
  rewrite shows_map. split; [unfold observes; repeat split; intros; leaf_go Ht Hf Hx|].
  repeat split; intros; try (leaf_go Ht Hf Hx; fail).
  - cbn [r_mapKeys zera_reader]. rewrite Hkeys. cbn [bind].
    rewrite (rd_key_views v env arena F es (ofs + 4) Hes Hent). now rewrite Hfst.
  - cbn [r_contains zera_reader]. apply Hcontains.
  - cbn [r_key zera_reader]. rewrite Hkey. rewrite find_ofs_none; [reflexivity|]. now rewrite Hfst.
  - assert (forall pre post l2 seen, es = pre ++ post ->
              (forall k, existsb (beq k) seen = existsb (beq k) (map fst pre)) ->
              Forall2 (fun e kx => fst e = fst kx /\ zlen (fst kx) <= u16_max /\
                       vrep env arena (snd e) (snd kx)) post l2 ->
              Forall (fun kx => shows_ih (snd kx)) l2 ->
              entries_ok zera_reader ideal v seen l2) as G.
    { intros pre post l2. revert pre post.
      induction l2 as [|[k x] l2 IHl]; intros pre post seen Hsp Hseen HF2 IH2; cbn [entries_ok]; [exact I|].
      inversion HF2 as [|[k' vr] x' post' l2' (Hk1 & Hk2 & Hr) HF3]; subst x' l2' post.
      cbn [fst snd] in Hk1, Hk2, Hr. subst k'.
      inversion IH2 as [|x' l2' Hx1 Hx2]; subst x' l2'. cbn [snd] in Hx1.
      rewrite Hsp in Hes. unfold es_ok in Hes. rewrite Forall_app in Hes. destruct Hes as [Hpre Hpost].
      split.
      - intros Hns. rewrite Hseen in Hns.
        exists (zv_child v (HeaderSize + (ofs + 4 + zlen (entries pre) + 4 + zlen k))). split.
        + cbn [r_key zera_reader]. rewrite Hkey. rewrite Hsp.
          now rewrite (find_ofs_first k vr post' pre (ofs + 4) Hpre Hns).
        + eapply Hx1; [apply zframe_child; exact F|exact Hr|].
          rewrite Hsp, entries_app, entries_cons in Hent. cbn [fst snd] in Hent.
          rewrite has_app in Hent. destruct Hent as [Hv1 Hv2].
          rewrite has_app in Hv2. destruct Hv2 as [Hv2 _].
          destruct (has_entry _ _ _ _ Hv2) as (_ & _ & Hv4 & Hv3).
          pose proof (has_bound _ _ _ Hv1). pose proof (has_bound _ _ _ Hv3).
          pose proof (has_bound _ _ _ Hv4). pose proof (zlen_nonneg (entries pre)).
          pose proof (zlen_nonneg k).
          pose proof (vrep_len _ _ _ _ Hr) as HL16.
          eexists; split; [reflexivity|]. cbn [zv_child zv_buf zv_env_size].
          split; [eapply has_trans; [apply (zf_env _ _ _ F)|exact Hv3]|].
          split; [exact HL16|]. unfold HeaderSize in *. lia.
      - apply (IHl (pre ++ [(k, vr)]) post'); auto.
        + now rewrite <- app_assoc.
        + intros k0. cbn [existsb]. rewrite map_app, existsb_app. cbn [map fst existsb].
          rewrite Hseen, orb_false_r. apply orb_comm. }
    apply (G [] es l []); auto.
Qed.

(** ** The reader shows every represented value *)
Theorem vrep_shows : forall x, shows_ih x.
Proof.
  induction x as [| | | | | | |l IH|l IH] using val_ind'; intros v env arena vr F H Hv;
    inversion H; subst.
  - now apply show_null.
  - now apply show_bool.
  - now apply show_int.
  - now apply show_uint.
  - now apply show_dbl.
  - now apply show_str_inl.
  - eapply show_str_far; eauto.
  - eapply proj1. eapply show_blob with (ofs := ofs) (sofs := sofs); eauto.
  - eapply show_arr; eauto.
  - eapply show_map; eauto.
Qed.
