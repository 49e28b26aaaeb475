(** DepthFacts.v -- how deep the recursions go. *)

From Coq Require Import ZArith List Bool Lia ZifyBool ZifyNat.
From Verif Require Import Base BaseFacts Spec SpecFacts MsgModel MsgSpec MsgFacts.
Import ListNotations.
Open Scope Z_scope.

(** How many containers the innermost object is in. *)
Fixpoint mdepth (it : item) : nat :=
  match it with
  | MArr _ l => list_max (map (fun x => Datatypes.S (mdepth x)) l)
  | MMap _ l => list_max (map (fun kx => Datatypes.S (Nat.max (mdepth (fst kx)) (mdepth (snd kx)))) l)
  | _ => O
  end.
Definition verdict (ok : bool) (n : Z) : res Z := if ok then Ok n else NoFuel.
Lemma forallb_max {A} (d : A -> nat) (p : A -> bool) f l : (forall x, p x = (d x <? f)%nat) ->
  forallb p l = (list_max (map (fun x => Datatypes.S (d x)) l) <? Datatypes.S f)%nat.
Proof.
  intros P. induction l as [|x l IH]; [reflexivity|]. cbn [forallb map list_max fold_right]. fold (list_max (map (fun x => Datatypes.S (d x)) l)). rewrite IH, P. lia.
Qed.

Lemma seq_verdict skipf P v : forall l (pre : bytes),
  starts v (pre ++ flat_map enc l) -> 1 <= zlen pre ->
  (forall x w, In x l -> starts w (enc x) -> skipf w = verdict (P x) (zlen (enc x))) ->
  skip_seq skipf v (zlen l) (zlen pre) = verdict (forallb P l) (zlen pre + zlen (flat_map enc l)).
Proof.
  intros l pre S Ho Hs. unfold skip_seq. rewrite zloop_nloop. unfold zlen at 1. rewrite Nat2Z.id.
  assert (G : nloop (R := unit) (length l) (fun off => w <- subspan v off ;; s <- skipf w ;; Ok (inl (off + s))) (zlen pre)
            = if forallb P l then Ok (inl (zlen pre + zlen (flat_map enc l))) else NoFuel); [|rewrite G; destruct (forallb P l); reflexivity].
  revert pre S Ho. induction l as [|x l IH]; intros pre S Ho.
  - cbn [length nloop flat_map forallb]. do 2 f_equal. cbn. lia.
  - cbn [length nloop flat_map forallb] in *.
    assert (S' := S). apply starts_sub in S'. destruct S' as (w & -> & Sw & Lw).
    cbn [bind]. rewrite (Hs x w); [|now left|now apply starts_app_l in Sw].
    destruct (P x); cbn [verdict bind andb]; [|reflexivity]. rewrite <- zlen_app. rewrite IH.
    + rewrite !zlen_app. destruct (forallb P l); [|reflexivity]. do 2 f_equal. lia.
    + intros y w' Hy. apply Hs. now right.
    + rewrite <- app_assoc. exact S.
    + rewrite zlen_app. pose proof (zlen_nonneg (enc x)). lia.
Qed.
Lemma pairs_verdict skipf P v : forall l (pre : bytes),
  starts v (pre ++ flat_map (fun kx => enc (fst kx) ++ enc (snd kx)) l) -> 1 <= zlen pre ->
  (forall kx w, In kx l -> starts w (enc (fst kx)) -> skipf w = verdict (P (fst kx)) (zlen (enc (fst kx)))) ->
  (forall kx w, In kx l -> starts w (enc (snd kx)) -> skipf w = verdict (P (snd kx)) (zlen (enc (snd kx)))) ->
  skip_pairs skipf v (zlen l) (zlen pre) = verdict (forallb (fun kx => P (fst kx) && P (snd kx)) l) (zlen pre + zlen (flat_map (fun kx => enc (fst kx) ++ enc (snd kx)) l)).
Proof.
  intros l pre S Ho Hk Hv. unfold skip_pairs. rewrite zloop_nloop. unfold zlen at 1. rewrite Nat2Z.id.
  match goal with |- (x <- nloop _ ?F _ ;; _) = _ => set (body := F) end.
  assert (G : nloop (R := unit) (length l) body (zlen pre)
            = if forallb (fun kx => P (fst kx) && P (snd kx)) l then Ok (inl (zlen pre + zlen (flat_map (fun kx => enc (fst kx) ++ enc (snd kx)) l))) else NoFuel);
    [|rewrite G; destruct (forallb _ l); reflexivity].
  revert pre S Ho. induction l as [|[k x] l IH]; intros pre S Ho.
  - cbn [length nloop flat_map forallb]. do 2 f_equal. cbn. lia.
  - cbn [length nloop flat_map fst snd forallb] in *. rewrite <- app_assoc in S.
    unfold body at 1. assert (S' := S). apply starts_sub in S'. destruct S' as (w & -> & Sw & Lw).
    cbn [bind]. rewrite (Hk (k, x) w); [|now left|now apply starts_app_l in Sw]. cbn [fst snd].
    destruct (P k); cbn [verdict bind andb]; [|reflexivity]. rewrite <- zlen_app.
    assert (S2 := S). rewrite app_assoc in S2. assert (S3 := S2). apply starts_sub in S2. destruct S2 as (w2 & -> & Sw2 & Lw2).
    cbn [bind]. rewrite (Hv (k, x) w2); [|now left|now apply starts_app_l in Sw2]. cbn [fst snd].
    destruct (P x); cbn [verdict bind andb]; [|reflexivity]. rewrite <- zlen_app. rewrite IH.
    + rewrite !zlen_app. destruct (forallb _ l); [|reflexivity]. do 2 f_equal. lia.
    + intros y w' Hy. apply Hk. now right.
    + intros y w' Hy. apply Hv. now right.
    + rewrite <- app_assoc. exact S3.
    + rewrite !zlen_app. pose proof (zlen_nonneg (enc x)). pose proof (zlen_nonneg (enc k)). lia.
Qed.
Theorem skip_depth : forall it, item_in (2^32 - 5) it -> forall fuel v, starts v (enc it) -> mp_skip fuel v = verdict (mdepth it <? fuel)%nat (zlen (enc it)).
Proof.
  induction it as [it Hl|f l IH|f l IH] using item_ind'; intros OK fuel v S.
  - assert (D : mdepth it = O) by (destruct it; try contradiction; reflexivity). rewrite D. destruct fuel as [|fuel]; [reflexivity|]. change (verdict (0 <? Datatypes.S fuel)%nat ?n) with (Ok n). clear D.
    destruct it; try contradiction; cbn [item_in enc] in OK, S |- *; cbn [mp_skip].
    + rewrite (starts_nonempty _ _ _ S), (starts_at0 _ _ _ S). reflexivity.
    + rewrite (starts_nonempty _ _ _ S), (starts_at0 _ _ _ S). now destruct b.
    + rewrite (starts_nonempty _ _ _ S), (starts_at0 _ _ _ S). cbn [negb require bind].
      now replace ((z mod 256 <=? 127) || (224 <=? z mod 256) || (z mod 256 =? 192) || (z mod 256 =? 194) || (z mod 256 =? 195)) with true by lia.
    + rewrite (starts_nonempty _ _ _ S), (starts_at0 _ _ _ S). now destruct w.
    + rewrite (starts_nonempty _ _ _ S), (starts_at0 _ _ _ S). now destruct w.
    + rewrite (starts_nonempty _ _ _ S), (starts_at0 _ _ _ S). reflexivity.
    + rewrite (starts_nonempty _ _ _ S), (starts_at0 _ _ _ S). reflexivity.
    + destruct OK as [B L]. pose proof (zlen_nonneg s) as L0. destruct f; cbn [str_hdr str_cap app] in S, L |- *.
      * rewrite (starts_nonempty _ _ _ S), (starts_at0 _ _ _ S). cbn [negb require bind].
        rewrite land224 by (unfold is_byte; lia).
        do 2 bool_if. rewrite land31 by lia. now rewrite zlen_cons.
      * rewrite be1 in S |- * by lia. cbn [app] in S |- *.
        rewrite (starts_nonempty _ _ _ S), (starts_at0 _ _ _ S), (starts_at1 _ _ _ _ S).
        pose proof (starts_len _ _ S) as SL. rewrite !zlen_cons in SL. cbn -[zlen Z.ltb Z.add]. unfold require.
        bool_if. cbn [bind]. f_equal. rewrite !zlen_cons. lia.
      * rewrite (starts_nonempty _ _ _ S), (starts_at0 _ _ _ S), (read_be16_be _ _ _ (starts_tail _ _ _ _ S)) by lia.
        pose proof (starts_len _ _ S) as SL. rewrite zlen_cons, zlen_app, zlen_be in SL. cbn -[zlen Z.ltb Z.add be]. unfold require.
        bool_if. cbn [bind]. f_equal. rewrite !zlen_cons, zlen_app, zlen_be. lia.
      * rewrite (starts_nonempty _ _ _ S), (starts_at0 _ _ _ S), (read_be32_be _ _ _ (starts_tail _ _ _ _ S)) by lia.
        pose proof (starts_len _ _ S) as SL. rewrite zlen_cons, zlen_app, zlen_be in SL. cbn -[zlen Z.ltb Z.add be wrap32]. unfold require.
        bool_if. cbn [bind]. f_equal. rewrite !zlen_cons, zlen_app, zlen_be. rewrite wrap32_small by lia. lia.
    + destruct OK as [B L]. pose proof (zlen_nonneg b) as L0. destruct f; cbn [bin_hdr bin_cap app] in S, L |- *.
      * lia.
      * rewrite be1 in S |- * by lia. cbn [app] in S |- *.
        rewrite (starts_nonempty _ _ _ S), (starts_at0 _ _ _ S), (starts_at1 _ _ _ _ S).
        pose proof (starts_len _ _ S) as SL. rewrite !zlen_cons in SL. cbn -[zlen Z.ltb Z.add]. unfold require.
        bool_if. cbn [bind]. f_equal. rewrite !zlen_cons. lia.
      * rewrite (starts_nonempty _ _ _ S), (starts_at0 _ _ _ S), (read_be16_be _ _ _ (starts_tail _ _ _ _ S)) by lia.
        pose proof (starts_len _ _ S) as SL. rewrite zlen_cons, zlen_app, zlen_be in SL. cbn -[zlen Z.ltb Z.add be]. unfold require.
        bool_if. cbn [bind]. f_equal. rewrite !zlen_cons, zlen_app, zlen_be. lia.
      * rewrite (starts_nonempty _ _ _ S), (starts_at0 _ _ _ S), (read_be32_be _ _ _ (starts_tail _ _ _ _ S)) by lia.
        pose proof (starts_len _ _ S) as SL. rewrite zlen_cons, zlen_app, zlen_be in SL. cbn -[zlen Z.ltb Z.add be wrap32]. unfold require.
        bool_if. cbn [bind]. f_equal. rewrite !zlen_cons, zlen_app, zlen_be. rewrite wrap32_small by lia. lia.
  - destruct fuel as [|fuel]; [reflexivity|].
    apply item_in_arr in OK. destruct OK as [L OK]. rewrite Forall_forall in IH, OK. pose proof (zlen_nonneg l) as L0.
    assert (HS : forall x w, In x l -> starts w (enc x) -> mp_skip fuel w = verdict (mdepth x <? fuel)%nat (zlen (enc x))).
    { intros x w Hx Sx. apply IH; auto. }
    cbn [enc] in S |- *. rewrite zlen_app. pose proof (seq_verdict (mp_skip fuel) (fun x => (mdepth x <? fuel)%nat) v l _ S) as LOOP.
    assert (D : forallb (fun x => (mdepth x <? fuel)%nat) l = (mdepth (MArr f l) <? Datatypes.S fuel)%nat).
    { now apply forallb_max. }
    rewrite D in LOOP. clear D.
    destruct f; cbn [arr_hdr seq_cap app] in S, L, LOOP |- *; cbn [mp_skip].
    + rewrite (starts_nonempty _ _ _ S), (starts_at0 _ _ _ S). cbn [negb require bind].
      rewrite land224, land240a by (unfold is_byte; lia).
      do 3 bool_if. rewrite land15a by lia. apply LOOP; [discriminate|exact HS].
    + lia.
    + rewrite (starts_nonempty _ _ _ S), (starts_at0 _ _ _ S), (read_be16_be _ _ _ (starts_tail _ _ _ _ S)) by lia.
      pose proof (starts_len _ _ S) as SL. rewrite zlen_cons, zlen_app, zlen_be in SL. pose proof (zlen_nonneg (flat_map enc l)).
      cbn -[zlen Z.ltb Z.add be skip_seq]. unfold require. bool_if. cbn [bind]. apply LOOP; [discriminate|exact HS].
    + rewrite (starts_nonempty _ _ _ S), (starts_at0 _ _ _ S), (read_be32_be _ _ _ (starts_tail _ _ _ _ S)) by lia.
      pose proof (starts_len _ _ S) as SL. rewrite zlen_cons, zlen_app, zlen_be in SL. pose proof (zlen_nonneg (flat_map enc l)).
      cbn -[zlen Z.ltb Z.add be skip_seq]. unfold require. bool_if. cbn [bind]. apply LOOP; [discriminate|exact HS].
  - destruct fuel as [|fuel]; [reflexivity|].
    apply item_in_map in OK. destruct OK as [L OK]. rewrite Forall_forall in IH, OK. pose proof (zlen_nonneg l) as L0.
    assert (HK : forall kx w, In kx l -> starts w (enc (fst kx)) -> mp_skip fuel w = verdict (mdepth (fst kx) <? fuel)%nat (zlen (enc (fst kx)))).
    { intros x w Hx Sx. apply IH; auto. now apply OK. }
    assert (HV : forall kx w, In kx l -> starts w (enc (snd kx)) -> mp_skip fuel w = verdict (mdepth (snd kx) <? fuel)%nat (zlen (enc (snd kx)))).
    { intros x w Hx Sx. apply IH; auto. now apply OK. }
    cbn [enc] in S |- *. rewrite zlen_app. pose proof (pairs_verdict (mp_skip fuel) (fun x => (mdepth x <? fuel)%nat) v l _ S) as LOOP.
    set (P := flat_map (fun kx => enc (fst kx) ++ enc (snd kx)) l) in *. pose proof (zlen_nonneg P).
    assert (D : forallb (fun kx => (mdepth (fst kx) <? fuel)%nat && (mdepth (snd kx) <? fuel)%nat) l = (mdepth (MMap f l) <? Datatypes.S fuel)%nat).
    { apply (forallb_max (fun kx => Nat.max (mdepth (fst kx)) (mdepth (snd kx)))). intros kx. lia. }
    cbv beta in LOOP. rewrite D in LOOP. clear D.
    destruct f; cbn [map_hdr seq_cap app] in S, L, LOOP |- *; cbn [mp_skip].
    + rewrite (starts_nonempty _ _ _ S), (starts_at0 _ _ _ S). cbn [negb require bind].
      rewrite land224, land240a, land240m by (unfold is_byte; lia).
      do 4 bool_if. rewrite land15m by lia. apply LOOP; [discriminate|exact HK|exact HV].
    + lia.
    + rewrite (starts_nonempty _ _ _ S), (starts_at0 _ _ _ S), (read_be16_be _ _ _ (starts_tail _ _ _ _ S)) by lia.
      pose proof (starts_len _ _ S) as SL. rewrite zlen_cons, zlen_app, zlen_be in SL.
      cbn -[zlen Z.ltb Z.add be skip_pairs]. unfold require. bool_if. cbn [bind]. apply LOOP; [discriminate|exact HK|exact HV].
    + rewrite (starts_nonempty _ _ _ S), (starts_at0 _ _ _ S), (read_be32_be _ _ _ (starts_tail _ _ _ _ S)) by lia.
      pose proof (starts_len _ _ S) as SL. rewrite zlen_cons, zlen_app, zlen_be in SL.
      cbn -[zlen Z.ltb Z.add be skip_pairs]. unfold require. bool_if. cbn [bind]. apply LOOP; [discriminate|exact HK|exact HV].
Qed.
