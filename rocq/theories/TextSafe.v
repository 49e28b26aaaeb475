(** TextSafe.v -- MessagePack's to_string on well-formed objects it did not write itself. *)

From Coq Require Import ZArith List Bool String Lia ZifyBool ZifyNat.
From Verif Require Import Base BaseFacts Spec SpecFacts TextSpec MsgModel MsgSpec MsgFacts MsgSafe TextModel TextFacts.
From Verif Require TensorSafe.
Import ListNotations.
Open Scope Z_scope.

Lemma kind_map w it : item_small it -> starts w (enc it) -> mp_is k_map w = Ok true -> exists f l, it = MMap f l.
Proof.
  intros OK S E. destruct (enc_marker _ it OK) as (m & t & Em & K). rewrite Em in S. rewrite (mp_is_at _ _ _ _ S) in E.
  unfold kinds, tkinds in K. injection K as _ _ _ _ _ _ _ K _. rewrite K in E. destruct it; try discriminate E. eauto.
Qed.
Lemma kind_array w it : item_small it -> starts w (enc it) -> mp_is k_array w = Ok true -> exists f l, it = MArr f l.
Proof.
  intros OK S E. destruct (enc_marker _ it OK) as (m & t & Em & K). rewrite Em in S. rewrite (mp_is_at _ _ _ _ S) in E.
  unfold kinds, tkinds in K. injection K as _ _ _ _ _ _ _ _ K. rewrite K in E. destruct it; try discriminate E. eauto.
Qed.

Lemma child_wf v off c off' : wfs v -> 0 <= off -> mp_child v off = Ok (c, off') -> wfs c.
Proof.
  intros W O E. unfold mp_child in E. destruct (subspan v off) as [w| | |] eqn:E1; cbn [bind] in E; try discriminate.
  destruct (wfs_sub v off w W O E1) as (Ww & _). destruct (skip w) as [s| | |] eqn:E2; cbn [bind] in E; try discriminate.
  pose proof (skip_nonneg w s Ww E2) as Ns. unfold subspan2 in E.
  destruct ((off <=? ms_len v) && (s <=? ms_len v - off)) eqn:L; cbn [bind] in E; try discriminate.
  assert (c = mkSpan (ms_buf v) (ms_off v + off) s) as -> by congruence. destruct W. constructor; cbn [ms_buf ms_off ms_len]; auto; lia.
Qed.

Section Dump.
  Context (fl : Z -> bytes) (f : nat)
    (REC : forall it w pad, wfs w -> item_small it -> starts w (enc it) -> zlen (enc it) < Z.of_nat f -> safe any (mp_dump fl f w pad)).

  Lemma elems_safe v n pad : wfs v -> forall l pre i out, Forall item_small l ->
    starts v (pre ++ flat_map enc l) -> (forall x, In x l -> zlen (enc x) < Z.of_nat f) ->
    safe (fun r => exists s, r = inl s) (nloop (List.length l) (mp_elem (mp_dump fl f) v n pad) (i, zlen pre, out)).
  Proof.
    intros W. induction l as [|x l IH]; intros pre i out OK S F; [cbn; eauto|].
    inversion OK; subst. cbn [flat_map] in S. destruct (child_ok v pre x _ H1 S) as (c & EC & Sc).
    cbn [List.length]. rewrite nloop_S. unfold mp_elem at 1. rewrite EC. cbn [bind].
    pose proof (REC x c (pad + 2) (child_wf _ _ _ _ W (zlen_nonneg pre) EC) H1 (spans_starts _ _ Sc) (F x (or_introl eq_refl))) as D.
    destruct (mp_dump fl f c (pad + 2)) as [t|[]| |]; cbn [bind safe] in *; auto.
    rewrite app_assoc in S. apply IH; auto. intros y Hy. apply F. now right.
  Qed.
  Lemma entries_safe v n pad : wfs v -> forall l pre i out, Forall (fun kx => item_small (fst kx) /\ item_small (snd kx)) l ->
    starts v (pre ++ flat_map (fun kx => enc (fst kx) ++ enc (snd kx)) l) -> (forall kx, In kx l -> zlen (enc (snd kx)) < Z.of_nat f) ->
    safe (fun r => exists s, r = inl s) (nloop (List.length l) (mp_entry (mp_dump fl f) v n pad) (i, zlen pre, out)).
  Proof.
    intros W. induction l as [|[k x] l IH]; intros pre i out OK S F; [cbn; eauto|].
    inversion OK as [|? ? [OKk OKx] OK']; subst. cbn [flat_map fst snd] in *. rewrite <- app_assoc in S.
    destruct (child_ok v pre k _ OKk S) as (ck & EK & Sk). rewrite app_assoc in S.
    destruct (child_ok v _ x _ OKx S) as (c & EC & Sc).
    cbn [List.length]. rewrite nloop_S. unfold mp_entry at 1. rewrite EK. cbn [bind]. rewrite EC. cbn [bind].
    pose proof (child_wf _ _ _ _ W (zlen_nonneg pre) EK) as Wk.
    pose proof (observes_item ck k (2^32-5) ltac:(lia) OKk (spans_starts _ _ Sk)) as O.
    destruct O as (_ & _ & _ & _ & _ & _ & _ & _ & _ & _ & _ & _ & _ & O1 & _). cbn [mp_reader r_asString] in O1.
    destruct (mp_asStringView ck) as [kw|e| |]; cbn [bind] in *.
    - rewrite O1. destruct (t_asString (item_table k)); cbn [or_throw bind]; [|exact I].
      pose proof (REC x c (pad + 2) (child_wf _ _ _ _ W (zlen_nonneg _) EC) OKx (spans_starts _ _ Sc) (F _ (or_introl eq_refl))) as D.
      destruct (mp_dump fl f c (pad + 2)) as [t|[]| |]; cbn [bind safe] in *; auto.
      rewrite app_assoc in S. apply IH; auto. intros y Hy. apply F. now right.
    - destruct (t_asString (item_table k)); cbn [or_throw] in O1; [discriminate|]. assert (e = EDeser) as -> by congruence. exact I.
    - destruct (t_asString (item_table k)); discriminate.
    - destruct (t_asString (item_table k)); discriminate.
  Qed.
End Dump.

Lemma flat_len {A} (e : A -> bytes) l x : In x l -> zlen (e x) <= zlen (flat_map e l).
Proof.
  induction l as [|y l IH]; [intros []|]. cbn [flat_map]. rewrite zlen_app. pose proof (zlen_nonneg (e y)). pose proof (zlen_nonneg (flat_map e l)).
  intros [->|H1]; [lia|]. specialize (IH H1). lia.
Qed.

Theorem dump_safe fl : forall fuel it w pad, wfs w -> item_small it -> starts w (enc it) -> zlen (enc it) < Z.of_nat fuel ->
  safe any (mp_dump fl fuel w pad).
Proof.
  induction fuel as [|f IH]; intros it w pad W OK S F; [pose proof (zlen_nonneg (enc it)); lia|].
  pose proof (item_ops_safe _ w it W eq_refl OK S) as (_ & SC & _ & SB & _).
  destruct SC as (N & B & I' & U & FL & ST & BL & M & A & AB & _ & _ & AD).
  cbn [mp_reader r_isNull r_isBool r_isInt r_isUInt r_isFloat r_isString r_isBlob r_isMap r_isArray r_asBool r_asDouble] in *.
  pose proof (s_int64 w W) as AI. pose proof (s_uint64 w W) as AU.
  pose proof (observes_item w it (2^32-5) ltac:(lia) OK S) as O.
  destruct O as (_ & _ & _ & _ & _ & _ & _ & _ & _ & _ & _ & _ & _ & O1 & _). cbn [mp_reader r_asString] in O1.
  cbn [mp_dump].
  apply TensorSafe.safe_bind_any; [exact N|]. intros [] _; [exact I|].
  apply TensorSafe.safe_bind_any; [exact B|]. intros [] _; [apply TensorSafe.safe_bind_any; [exact AB|intros; exact I]|].
  apply TensorSafe.safe_bind_any; [exact I'|]. intros [] _; [apply TensorSafe.safe_bind_any; [exact AI|intros; exact I]|].
  apply TensorSafe.safe_bind_any; [exact U|]. intros [] _; [apply TensorSafe.safe_bind_any; [exact AU|intros; exact I]|].
  apply TensorSafe.safe_bind_any; [exact FL|]. intros [] _; [apply TensorSafe.safe_bind_any; [exact AD|intros; exact I]|].
  apply TensorSafe.safe_bind_any; [exact ST|]. intros [] _.
  { destruct (mp_asStringView w) as [kw|e| |]; cbn [bind] in *; destruct (t_asString (item_table it)); cbn [or_throw] in O1; try discriminate; rewrite ?O1; try exact I. }
  apply TensorSafe.safe_bind_any; [exact BL|]. intros [] _; [apply TensorSafe.safe_bind_any; [eapply safe_any; exact SB|intros; exact I]|].
  apply TensorSafe.safe_bind_any; [exact M|]. intros [] EM.
  { destruct (kind_map _ _ OK S EM) as (ff & l & ->). destruct (map_info_ok _ _ _ _ OK S) as [-> H1]. cbn [bind].
    unfold item_small in OK. apply item_in_map in OK. destruct OK as [_ OK].
    cbn [enc] in S, F. set (h := map_hdr _ _) in *. clearbody h. rewrite zloop_nloop. replace (Z.to_nat (zlen l)) with (List.length l) by (unfold zlen; lia).
    pose proof (entries_safe fl f IH w (zlen l) pad W l h 0 (txt "map {" ++ nl) OK S) as L.
    match type of L with ?P -> _ => assert (HP : P) end.
    { intros kx Hx. pose proof (flat_len (fun kx => enc (fst kx) ++ enc (snd kx)) l kx Hx) as Q. cbn beta in Q. rewrite zlen_app in Q, F. pose proof (zlen_nonneg (enc (fst kx))). lia. }
    specialize (L HP). destruct (nloop _ _ _) as [r|[]| |]; cbn [bind safe] in *; auto. destruct L as ([[i o] out] & ->). exact I. }
  apply TensorSafe.safe_bind_any; [exact A|]. intros [] EA; [|exact I].
  destruct (kind_array _ _ OK S EA) as (ff & l & ->). destruct (arr_info_ok _ _ _ _ OK S) as [-> H1]. cbn [bind].
  unfold item_small in OK. apply item_in_arr in OK. destruct OK as [_ OK].
  cbn [enc] in S, F. set (h := arr_hdr _ _) in *. clearbody h. rewrite zloop_nloop. replace (Z.to_nat (zlen l)) with (List.length l) by (unfold zlen; lia).
  pose proof (elems_safe fl f IH w (zlen l) pad W l h 0 (txt "arr [" ++ nl) OK S) as L.
  match type of L with ?P -> _ => assert (HP : P) end.
  { intros x Hx. pose proof (flat_len enc l x Hx) as Q. rewrite zlen_app in F. lia. }
  specialize (L HP). destruct (nloop _ _ _) as [r|[]| |]; cbn [bind safe] in *; auto. destruct L as ([[i o] out] & ->). exact I.
Qed.

(** Every view of a message that skip() accepts. *)
Theorem mp_text_safe fl fuel b s : bytes_ok b -> no_huge b -> skip (mp_open b) = Ok s -> s <= zlen b -> zlen b < Z.of_nat fuel ->
  forall w, reach mp_reader (mp_open b) w -> safe any (mp_to_string fl fuel w).
Proof.
  intros B NH E L F w R. destruct (skip_sound _ b NH (mp_open b) s (wfs_open b B) eq_refl E) as [_ X].
  destruct (X L) as (it & OK & S & _). destruct (item_reach _ _ (wfs_open _ B) OK S w R) as (W & Eb & it' & OK' & S').
  unfold mp_to_string. apply (dump_safe fl fuel it'); auto. pose proof (starts_len _ _ S') as Q. destruct W. rewrite Eb in *. cbn [mp_open ms_buf] in *. lia.
Qed.
