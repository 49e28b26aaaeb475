(** ZeraSafe.v -- the ZERA reader on arbitrary bytes. *)

From Coq Require Import ZArith List Bool Lia ZifyBool ZifyNat.
From Verif Require Import Base BaseFacts Spec SpecFacts ZeraModel ZeraFacts.
Import ListNotations.
Open Scope Z_scope.
Ltac Zify.zify_post_hook ::= Z.div_mod_to_equations.

Lemma safe_bind {A B} (P : A -> Prop) (Q : B -> Prop) (m : res A) (f : A -> res B) :
  safe P m -> (forall a, P a -> safe Q (f a)) -> safe Q (bind m f).
Proof. destruct m as [a|[]| |]; cbn; intros; try contradiction; auto. Qed.
Lemma safe_require (c : bool) : safe (fun _ : unit => c = true) (require c EDeser).
Proof. destruct c; cbn; auto. Qed.
Lemma safe_weaken {A} (P Q : A -> Prop) (m : res A) : safe P m -> (forall a, P a -> Q a) -> safe Q m.
Proof. destruct m as [a|[]| |]; cbn; auto. Qed.
Lemma safe_rd b p : bytes_ok b -> 0 <= p < zlen b -> safe is_byte (rd b p).
Proof. intros H1 H2. destruct (rd_in b p H2) as [x E]. rewrite E. cbn. eapply rd_byte; eauto. Qed.
Lemma safe_u16 b p : bytes_ok b -> 0 <= p -> p + 2 <= zlen b -> safe (fun x => 0 <= x < 2^16) (read_u16_le b p).
Proof. intros. destruct (read_u16_le_in b p) as (x & E & R); auto. rewrite E. exact R. Qed.
Lemma safe_u32 b p : bytes_ok b -> 0 <= p -> p + 4 <= zlen b -> safe (fun x => 0 <= x < 2^32) (read_u32_le b p).
Proof. intros. destruct (read_u32_le_in b p) as (x & E & R); auto. rewrite E. exact R. Qed.
Lemma safe_rd_view b w : view_in b w -> safe any (rd_view b w).
Proof.
  destruct w as [o n]. unfold view_in, rd_view. cbn [fst snd]. intros H.
  replace ((0 <=? o) && (0 <=? n) && (o + n <=? zlen b)) with true by lia. exact I.
Qed.

(** A view whose envelope and arena lie inside the buffer. *)
Record wfv (v : zview) : Prop := {
  wf_bytes : bytes_ok (zv_buf v);
  wf_env0 : 0 <= zv_env_size v < 2^32;
  wf_env : HeaderSize + zv_env_size v <= zlen (zv_buf v) \/ zv_vr v = None;
  wf_arena0 : 0 <= zv_arena v;
  wf_alen0 : 0 <= zv_arena_len v;
  wf_arena : zv_arena v + zv_arena_len v <= zlen (zv_buf v)
}.

Lemma wfv_default : wfv zera_default.
Proof. split; cbn; try lia; auto. constructor. Qed.

Ltac cs := cbn [safe h_root_ofs h_env_size h_arena_ofs zv_buf zv_env_size zv_arena zv_arena_len zv_vr
                zv_child ki_cur ki_i ki_n fst snd].

Ltac blia := cbv beta in *; lia.

Lemma parse_header_safe b : bytes_ok b -> safe (fun h =>
  HeaderSize <= zlen b /\ 0 <= h_root_ofs h < 2^32 /\ 0 <= h_env_size h < 2^32 /\ 0 <= h_arena_ofs h < 2^32) (parse_header b).
Proof.
  intros H. unfold parse_header. eapply safe_bind; [apply safe_require|]. intros [] L. unfold HeaderSize in *.
  eapply safe_bind; [apply safe_u32; auto; blia|]. intros m Hm.
  eapply safe_bind; [apply safe_u16; auto; blia|]. intros ve Hve.
  eapply safe_bind; [apply safe_u16; auto; blia|]. intros fl Hfl.
  eapply safe_bind; [apply safe_u32; auto; blia|]. intros ro Hro.
  eapply safe_bind; [apply safe_u32; auto; blia|]. intros es Hes.
  eapply safe_bind; [apply safe_u32; auto; blia|]. intros ao Hao.
  cs. blia.
Qed.

(** Opening any buffer shorter than 4 GiB - 20. *)
Lemma zera_open_safe b : bytes_ok b -> zlen b < 2^32 - 20 -> safe wfv (zera_open b).
Proof.
  intros H L. unfold zera_open. eapply safe_bind; [now apply parse_header_safe|].
  intros h (P0 & P1 & P2 & P3).
  do 10 (eapply safe_bind; [apply safe_require|]; let x := fresh in intros [] x).
  cs. rewrite wrap32_small in * by (unfold HeaderSize in *; blia).
  split; cs; auto; unfold HeaderSize in *; try blia.
Qed.

Section Safe.
  Variable v : zview.
  Hypothesis W : wfv v.

  Lemma safe_vr : safe (fun p => HeaderSize <= p /\ p + 16 <= zlen (zv_buf v)) (require_vr v).
  Proof.
    unfold require_vr. destruct (zv_vr v) as [p|] eqn:E; [|exact I].
    eapply safe_bind; [apply safe_require|]. intros [] H. cbn.
    destruct W as [W1 W2 [W3|W3] _ _ _]; [blia|congruence].
  Qed.
  Lemma safe_tag : safe is_byte (zv_tag v).
  Proof. eapply safe_bind; [apply safe_vr|]. intros p H. apply safe_rd; [apply W|unfold HeaderSize in *; blia]. Qed.
  Lemma safe_flags : safe is_byte (zv_flags v).
  Proof. eapply safe_bind; [apply safe_vr|]. intros p H. apply safe_rd; [apply W|unfold HeaderSize in *; blia]. Qed.
  Lemma safe_aux : safe (fun x => 0 <= x < 2^16) (zv_aux v).
  Proof. eapply safe_bind; [apply safe_vr|]. intros p H. apply safe_u16; [apply W| |]; unfold HeaderSize in *; blia. Qed.
  Lemma safe_a : safe (fun x => 0 <= x < 2^32) (zv_a v).
  Proof. eapply safe_bind; [apply safe_vr|]. intros p H. apply safe_u32; [apply W| |]; unfold HeaderSize in *; blia. Qed.
  Lemma safe_b : safe (fun x => 0 <= x < 2^32) (zv_b v).
  Proof. eapply safe_bind; [apply safe_vr|]. intros p H. apply safe_u32; [apply W| |]; unfold HeaderSize in *; blia. Qed.
  Lemma safe_c : safe (fun x => 0 <= x < 2^32) (zv_c v).
  Proof. eapply safe_bind; [apply safe_vr|]. intros p H. apply safe_u32; [apply W| |]; unfold HeaderSize in *; blia. Qed.

  Lemma safe_env_ptr o n : 0 <= o -> 0 <= n -> zv_vr v <> None ->
    safe (fun p => p = HeaderSize + o /\ o + n <= zv_env_size v /\ p + n <= zlen (zv_buf v)) (env_ptr_at v o n).
  Proof.
    intros Ho Hn NV. unfold env_ptr_at.
    do 3 (eapply safe_bind; [apply safe_require|]; let x := fresh in intros [] x).
    cs. destruct W as [_ _ [W3|W3] _ _ _]; [blia|congruence].
  Qed.
  Lemma safe_arena o n : 0 <= o -> 0 <= n -> safe (view_in (zv_buf v)) (arena_view v o n).
  Proof.
    intros Ho Hn. unfold arena_view.
    do 3 (eapply safe_bind; [apply safe_require|]; let x := fresh in intros [] x).
    cs. destruct W as [_ _ _ W4 W5 W6]. unfold view_in. cbn [fst snd]. blia.
  Qed.
  Lemma safe_flags_ok : safe any (require_flags_ok v).
  Proof.
    eapply safe_bind; [apply safe_tag|]. intros t Ht. eapply safe_bind; [apply safe_flags|]. intros f Hf.
    destruct (t =? TString); (eapply safe_weaken; [apply safe_require|]); intros; exact I.
  Qed.

  Lemma safe_is t : safe any (zv_is t v).
  Proof. eapply safe_bind; [apply safe_tag|]. intros; exact I. Qed.
  Lemma safe_isBlob : safe any (zv_isBlob v).
  Proof.
    eapply safe_bind; [apply safe_tag|]. intros t Ht. destruct (t =? TTyped); [|exact I].
    eapply safe_bind; [apply safe_aux|]. intros; exact I.
  Qed.
  Lemma safe_asBool : safe any (zv_asBool v).
  Proof.
    eapply safe_bind; [apply safe_tag|]. intros t Ht. eapply safe_bind; [apply safe_require|]. intros [] H1.
    eapply safe_bind; [apply safe_flags_ok|]. intros [] _.
    eapply safe_bind; [apply safe_aux|]. intros x Hx. eapply safe_bind; [apply safe_require|]. intros; exact I.
  Qed.
  Lemma safe_bits : safe is_u64 (zv_bits v).
  Proof.
    eapply safe_bind; [apply safe_a|]. intros a Ha. eapply safe_bind; [apply safe_b|]. intros b Hb.
    cs. rewrite lor_shiftl by blia. unfold is_u64, u64_max. blia.
  Qed.
  (** The tag, once it has been read. *)
  Lemma vr_some {A} (f : Z -> res A) P : (zv_vr v <> None -> safe P (bind (zv_tag v) f)) -> safe P (bind (zv_tag v) f).
  Proof.
    intros H. destruct (zv_vr v) eqn:E; [apply H; congruence|].
    unfold zv_tag, require_vr. rewrite E. exact I.
  Qed.

  Lemma safe_asInt64 : safe is_i64 (zv_asInt64 v).
  Proof.
    eapply safe_bind; [apply safe_tag|]. intros t Ht. eapply safe_bind; [apply safe_require|]. intros [] H1.
    eapply safe_bind; [apply safe_flags_ok|]. intros [] _.
    eapply safe_bind; [apply safe_bits|]. intros x Hx.
    assert (is_i64 (to_signed 64 x)).
    { unfold to_signed, is_i64, i64_min, i64_max. pose proof (Z.mod_pos_bound x (2^64) eq_refl).
      change (2 ^ (64 - 1)) with 9223372036854775808. change (2^64) with 18446744073709551616 in *.
      destruct (x mod 18446744073709551616 <? 9223372036854775808) eqn:E; blia. }
    destruct (t =? TU64); [|exact H].
    eapply safe_bind; [apply safe_require|]. intros [] H2. exact H.
  Qed.
  Lemma safe_asUInt64 : safe is_u64 (zv_asUInt64 v).
  Proof.
    eapply safe_bind; [apply safe_tag|]. intros t Ht. eapply safe_bind; [apply safe_require|]. intros [] H1.
    eapply safe_bind; [apply safe_flags_ok|]. intros [] _.
    eapply safe_bind; [apply safe_bits|]. intros x Hx.
    destruct (t =? TI64); [|exact Hx].
    eapply safe_bind; [apply safe_require|]. intros [] H2. cs. unfold is_u64, u64_max.
    pose proof (wrap64_range (to_signed 64 x)). blia.
  Qed.
  Lemma safe_asInt w : safe (fun z => smin w <= z <= smax w) (zv_asInt w v).
  Proof.
    eapply safe_bind; [apply safe_asInt64|]. intros x Hx. unfold is_i64, i64_min, i64_max in Hx.
    destruct w; cbn -[Z.mul Z.opp]; try (unfold smin, smax, ibits; blia);
    (eapply safe_bind; [apply safe_require|]; intros [] H; cbn [safe]; unfold smin, smax, ibits in *;
     rewrite to_signed_id; cbn in *; blia).
  Qed.
  Lemma safe_asUInt w : safe (fun z => 0 <= z <= umax w) (zv_asUInt w v).
  Proof.
    eapply safe_bind; [apply safe_asUInt64|]. intros x Hx. unfold is_u64, u64_max in Hx.
    destruct w; cbn -[Z.mul Z.opp]; try (unfold umax, ibits; blia);
    (eapply safe_bind; [apply safe_require|]; intros [] H; cbn [safe]; unfold umax, ibits in *; cbn in *; blia).
  Qed.
  Lemma safe_asDouble : safe is_u64 (zv_asDouble v).
  Proof.
    eapply safe_bind; [apply safe_tag|]. intros t Ht. eapply safe_bind; [apply safe_require|]. intros [] H1.
    eapply safe_bind; [apply safe_flags_ok|]. intros [] _. apply safe_bits.
  Qed.
  Lemma safe_asStringView : safe (view_in (zv_buf v)) (zv_asStringView v).
  Proof.
    eapply safe_bind; [apply safe_tag|]. intros t Ht. eapply safe_bind; [apply safe_require|]. intros [] H1.
    eapply safe_bind; [apply safe_flags_ok|]. intros [] _.
    eapply safe_bind; [apply safe_flags|]. intros f Hf.
    destruct (negb (Z.land f 1 =? 0)).
    - eapply safe_bind; [apply safe_aux|]. intros n Hn. eapply safe_bind; [apply safe_require|]. intros [] H2.
      unfold inline_bytes_view. eapply safe_bind; [apply safe_require|]. intros [] H3.
      eapply safe_bind; [apply safe_vr|]. intros p Hp. cs. unfold view_in, InlineMax, HeaderSize in *. cbn [fst snd]. blia.
    - eapply safe_bind; [apply safe_a|]. intros a Ha. eapply safe_bind; [apply safe_b|]. intros b Hb.
      apply safe_arena; blia.
  Qed.
  Lemma safe_asString : safe any (zv_asString v).
  Proof. eapply safe_bind; [apply safe_asStringView|]. intros w Hw. now apply safe_rd_view. Qed.
  Lemma safe_asBlob : safe (view_in (zv_buf v)) (zv_asBlob v).
  Proof.
    destruct (zv_vr v) eqn:EV.
    2:{ unfold zv_asBlob, zv_isBlob, zv_tag, require_vr. rewrite EV. exact I. }
    assert (NV : zv_vr v <> None) by congruence.
    eapply safe_bind; [apply safe_isBlob|]. intros ib _. eapply safe_bind; [apply safe_require|]. intros [] _.
    eapply safe_bind; [apply safe_flags_ok|]. intros [] _.
    eapply safe_bind; [apply safe_c|]. intros so Hso.
    eapply safe_bind; [apply safe_env_ptr; auto; blia|]. intros sp (E & L1 & L2).
    eapply safe_bind; [apply safe_u32; [apply W| |]; unfold HeaderSize in *; blia|]. intros rank Hr.
    eapply safe_bind; [apply safe_require|]. intros [] R1.
    eapply safe_bind; [apply safe_require|]. intros [] R2.
    eapply safe_bind; [apply safe_env_ptr; auto; blia|]. intros sp2 (E2 & L3 & L4).
    eapply safe_bind.
    { unfold read_u64_le. eapply safe_bind; [apply safe_u32; [apply W| |]; unfold HeaderSize in *; blia|]. intros lo Hlo.
      eapply safe_bind; [apply safe_u32; [apply W| |]; unfold HeaderSize in *; blia|]. intros hi Hhi.
      instantiate (1 := any). exact I. }
    intros d _. eapply safe_bind; [apply safe_b|]. intros b Hb.
    eapply safe_bind; [apply safe_require|]. intros [] _.
    eapply safe_bind; [apply safe_a|]. intros a Ha. apply safe_arena; blia.
  Qed.
  Lemma safe_arraySize : safe (fun n => 0 <= n < 2^32) (zv_arraySize v).
  Proof.
    apply vr_some. intros NV.
    eapply safe_bind; [apply safe_tag|]. intros t Ht. eapply safe_bind; [apply safe_require|]. intros [] H1.
    eapply safe_bind; [apply safe_flags_ok|]. intros [] _.
    eapply safe_bind; [apply safe_a|]. intros ao Ha.
    eapply safe_bind; [apply safe_env_ptr; auto; blia|]. intros p (E & L1 & L2).
    eapply safe_bind; [apply safe_u32; [apply W| |]; unfold HeaderSize in *; blia|]. intros c Hc.
    eapply safe_bind; [apply safe_env_ptr; auto; blia|]. intros p2 _. exact Hc.
  Qed.

  Lemma wfv_child p : zv_vr v <> None -> wfv (zv_child v p).
  Proof.
    intros NV. destruct W as [W1 W2 W3 W4 W5 W6]. split; cs; auto. left. destruct W3; congruence.
  Qed.
  Definition child_of (w : zview) : Prop := wfv w /\ zv_vr v <> None /\ exists p, w = zv_child v p.

  Lemma safe_idx i : 0 <= i -> safe child_of (zv_idx v i).
  Proof.
    intros Hi. apply vr_some. intros NV.
    eapply safe_bind; [apply safe_tag|]. intros t Ht. eapply safe_bind; [apply safe_require|]. intros [] H1.
    eapply safe_bind; [apply safe_flags_ok|]. intros [] _.
    eapply safe_bind; [apply safe_a|]. intros ao Ha.
    eapply safe_bind; [apply safe_env_ptr; auto; blia|]. intros p (E & L1 & L2).
    eapply safe_bind; [apply safe_u32; [apply W| |]; unfold HeaderSize in *; blia|]. intros c Hc.
    eapply safe_bind; [apply safe_require|]. intros [] _.
    eapply safe_bind; [apply safe_env_ptr; auto; try blia; apply wrap32_range|]. intros p2 _.
    cs. split; [now apply wfv_child|eauto].
  Qed.

  (** One step of the entry scans. *)
  Lemma safe_key_matches p n key : 0 <= p -> 0 <= n -> p + n <= zlen (zv_buf v) ->
    safe any (key_matches (zv_buf v) p n key).
  Proof.
    intros. unfold key_matches. destruct (n =? zlen key); [|exact I].
    eapply safe_bind; [apply safe_rd_view; unfold view_in; cbn [fst snd]; blia|]. intros; exact I.
  Qed.

  Lemma safe_loop {S R} (f : S -> res (S + R)) (Inv : S -> Prop) (P : R -> Prop) n s :
    (forall s, Inv s -> safe (fun x => match x with inl s' => Inv s' | inr r => P r end) (f s)) ->
    Inv s -> safe (fun x => match x with inl s' => Inv s' | inr r => P r end) (zloop n f s).
  Proof.
    intros Hf Hs. apply (zloop_inv f Inv (safe (fun x => match x with inl s' => Inv s' | inr r => P r end))); auto.
  Qed.

  Lemma safe_contains key : safe any (zv_contains v key).
  Proof.
    destruct (zv_vr v) eqn:EV.
    2:{ unfold zv_contains, zv_is, zv_tag, require_vr. rewrite EV. exact I. }
    assert (NV : zv_vr v <> None) by congruence.
    eapply safe_bind; [apply safe_is|]. intros m _. destruct (negb m); [exact I|].
    eapply safe_bind; [apply safe_flags_ok|]. intros [] _.
    eapply safe_bind; [apply safe_a|]. intros ao Ha.
    eapply safe_bind; [apply safe_env_ptr; auto; blia|]. intros p (E & L1 & L2).
    eapply safe_bind; [apply safe_u32; [apply W| |]; unfold HeaderSize in *; blia|]. intros c Hc.
    eapply safe_bind.
    { apply (safe_loop _ (fun o => 0 <= o) any); [|apply wrap32_range].
      intros o Ho.
      eapply safe_bind; [apply safe_env_ptr; auto; try blia; apply wrap32_range|]. intros e (E1 & L3 & L4).
      pose proof (wrap32_range o).
      eapply safe_bind; [apply safe_u16; [apply W| |]; unfold HeaderSize in *; blia|]. intros kl Hkl.
      eapply safe_bind; [apply safe_u16; [apply W| |]; unfold HeaderSize in *; blia|]. intros _ _.
      eapply safe_bind; [apply safe_env_ptr; auto; try blia; apply wrap32_range|]. intros kb (E2 & L5 & L6).
      pose proof (wrap32_range (o + 4)).
      eapply safe_bind; [apply safe_key_matches; unfold HeaderSize in *; blia|]. intros eq _.
      destruct eq; [exact I|].
      eapply safe_bind; [apply safe_env_ptr; auto; try blia; apply wrap32_range|]. intros q _. cs. blia. }
    intros [o|r] _; exact I.
  Qed.

  Lemma safe_key key : safe child_of (zv_key v key).
  Proof.
    apply vr_some. intros NV.
    eapply safe_bind; [apply safe_tag|]. intros t Ht. eapply safe_bind; [apply safe_require|]. intros [] H1.
    eapply safe_bind; [apply safe_flags_ok|]. intros [] _.
    eapply safe_bind; [apply safe_a|]. intros ao Ha.
    eapply safe_bind; [apply safe_env_ptr; auto; blia|]. intros p (E & L1 & L2).
    eapply safe_bind; [apply safe_u32; [apply W| |]; unfold HeaderSize in *; blia|]. intros c Hc.
    eapply safe_bind.
    { apply (safe_loop _ (fun o => 0 <= o) child_of); [|apply wrap32_range].
      intros o Ho.
      eapply safe_bind; [apply safe_env_ptr; auto; try blia; apply wrap32_range|]. intros e (E1 & L3 & L4).
      pose proof (wrap32_range o).
      eapply safe_bind; [apply safe_u16; [apply W| |]; unfold HeaderSize in *; blia|]. intros kl Hkl.
      eapply safe_bind; [apply safe_u16; [apply W| |]; unfold HeaderSize in *; blia|]. intros _ _.
      eapply safe_bind; [apply safe_env_ptr; auto; try blia; apply wrap32_range|]. intros kb (E2 & L5 & L6).
      pose proof (wrap32_range (o + 4)).
      eapply safe_bind; [apply safe_env_ptr; auto; try blia; apply wrap32_range|]. intros vr _.
      eapply safe_bind; [apply safe_key_matches; unfold HeaderSize in *; blia|]. intros eq _.
      destruct eq; [cbn; split; [now apply wfv_child|eauto]|].
      eapply safe_bind; [apply safe_env_ptr; auto; try blia; apply wrap32_range|]. intros q _. cs. blia. }
    intros [o|r] H; [exact I|exact H].
  Qed.

  (** Key iteration reads the two length bytes before checking that the entry lies in the
      envelope, so it needs two bytes of slack after the envelope. *)
  Definition slack : Prop := HeaderSize + zv_env_size v + 2 <= zlen (zv_buf v).

  Lemma safe_keys : slack -> safe (Forall (view_in (zv_buf v))) (zv_keys v).
  Proof.
    intros SL. unfold slack in SL. destruct (zv_vr v) eqn:EV.
    2:{ unfold zv_keys, zv_mapKeys, zv_tag, require_vr. rewrite EV. exact I. }
    assert (NV : zv_vr v <> None) by congruence. clear EV.
    assert (SM : safe (fun it => HeaderSize <= ki_cur it <= HeaderSize + zv_env_size v) (zv_mapKeys v)).
    { eapply safe_bind; [apply safe_tag|]. intros t Ht. eapply safe_bind; [apply safe_require|]. intros [] H1.
      eapply safe_bind; [apply safe_flags_ok|]. intros [] _.
      eapply safe_bind; [apply safe_a|]. intros ao Ha.
      eapply safe_bind; [apply safe_env_ptr; auto; blia|]. intros p (E & L1 & L2).
      eapply safe_bind; [apply safe_u32; [apply W| |]; unfold HeaderSize in *; blia|]. intros c Hc.
      eapply safe_bind; [apply safe_env_ptr; auto; try blia; apply wrap32_range|]. intros e (E2 & L3 & L4).
      cs. pose proof (wrap32_range (ao + 4)). blia. }
    eapply safe_bind; [exact SM|]. intros it0 H0.
    eapply safe_bind.
    { apply (safe_loop _ (fun s : zkit * list view => HeaderSize <= ki_cur (fst s) <= HeaderSize + zv_env_size v /\
                                   Forall (view_in (zv_buf v)) (snd s)) any);
        [|split; [exact H0|constructor]].
      intros [it acc] [Hc Ha]. cbn [fst snd] in Hc, Ha.
      destruct W as [W1 W2 _ _ _ _].
      eapply safe_bind.
      { instantiate (1 := view_in (zv_buf v)). unfold zk_deref.
        eapply safe_bind; [apply safe_require|]. intros [] _.
        eapply safe_bind; [apply safe_u16; [apply W| |]; unfold HeaderSize in *; blia|]. intros kl Hkl.
        rewrite wrap32_small by (unfold HeaderSize in *; blia).
        eapply safe_bind; [apply safe_env_ptr; auto; unfold HeaderSize in *; blia|]. intros q (E & L1 & L2).
        cs. unfold view_in. cbn [fst snd]. unfold HeaderSize in *. blia. }
      intros k Hk. eapply safe_bind.
      { instantiate (1 := fun it' => HeaderSize <= ki_cur it' <= HeaderSize + zv_env_size v). unfold zk_incr.
        destruct (ki_n it <=? ki_i it); [exact Hc|].
        eapply safe_bind; [apply safe_u16; [apply W| |]; unfold HeaderSize in *; blia|]. intros kl Hkl.
        eapply safe_bind; [apply safe_env_ptr; auto; try blia; apply wrap32_range|]. intros q (E & L1 & L2).
        cs. match type of E with _ = _ + wrap32 ?x => pose proof (wrap32_range x) end. blia. }
      intros it' Hit. cs. split; [exact Hit|]. constructor; auto. }
    intros [[it acc]|[]] H; cbn in *.
    - apply Forall_rev. apply H.
    - constructor.
  Qed.
  Lemma safe_mapKeys : slack -> safe any (r_mapKeys zera_reader v).
  Proof.
    intros SL. cbn [r_mapKeys zera_reader]. eapply safe_bind; [now apply safe_keys|].
    intros ks H. induction H as [|k ks Hk Hks IH]; cbn [rd_views]; [exact I|].
    eapply safe_bind; [now apply safe_rd_view|]. intros s _. eapply safe_bind; [exact IH|]. intros; exact I.
  Qed.
End Safe.

(** Every reachable view is well formed and over the same buffer. *)
Lemma reach_wfv v w : wfv v -> reach zera_reader v w ->
  wfv w /\ zv_buf w = zv_buf v /\ zv_env_size w = zv_env_size v.
Proof.
  intros W. induction 1 as [|w1 i w2 H IH Hi E|w1 k w2 H IH Hk E]; auto;
    destruct IH as (W1 & B1 & S1); cbn [r_idx r_key zera_reader] in E.
  - pose proof (safe_idx w1 W1 i (proj1 Hi)) as S. rewrite E in S. destruct S as (W2 & _ & p & ->). auto.
  - pose proof (safe_key w1 W1 k) as S. rewrite E in S. destruct S as (W2 & _ & p & ->). auto.
Qed.
