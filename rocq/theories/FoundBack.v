(** FoundBack.v -- and what is in a MessagePack message below 4 GiB where a view begins is returned. *)

From Coq Require Import ZArith List Bool Lia ZifyBool ZifyNat.
From Verif Require Import Base BaseFacts Spec SpecFacts SaysSpec FloatModel MsgModel MsgSpec MsgFacts MsgSafe MeanFacts MeanMsg FoundSpec FoundMsg FoundIn.
Import ListNotations.
Open Scope Z_scope.
Ltac Zify.zify_post_hook ::= idtac.

Definition leaf (it : item) : Prop := match it with MArr _ _ | MMap _ _ => False | _ => True end.

Lemma stands_has b p e : stands_at b p e -> has b p e.
Proof.
  intros (pre & suf & -> & <-). pose proof (zlen_nonneg pre). pose proof (zlen_nonneg suf). pose proof (zlen_nonneg e). split; [lia|]. rewrite !zlen_app. split; [lia|].
  rewrite slice_app_r by lia. rewrite Z.sub_diag, slice_app_l by lia. apply slice_full.
Qed.

Lemma leaf_skip x it s : wfs x -> item_small it -> leaf it -> has (ms_buf x) (ms_off x) (enc it) -> skip x = Ok s -> s = zlen (enc it).
Proof.
  intros W OK LF H E. pose proof (wide_len x W) as WL.
  assert (S : starts (widened x) (enc it)) by (split; [exact H|]; destruct H as (_ & H & _); cbn [widened ms_len]; lia).
  pose proof (skip_ok it (widened x) OK S) as SO. destruct (observes_item (widened x) it (2^32 - 5) ltac:(lia) OK S) as (_ & _ & _ & _ & _ & _ & _ & OM & OA & _).
  assert (AM : mp_is k_array (widened x) = Ok false) by (destruct it; try contradiction; exact OA).
  assert (MM : mp_is k_map (widened x) = Ok false) by (destruct it; try contradiction; exact OM). clear OM OA.
  enough (Q : skip (widened x) = Ok s) by congruence. clear SO S LF OK H. unfold skip in *. cbn [mp_skip] in *. unfold sp_empty in *. destruct W.
  destruct (ms_len x =? 0) eqn:Z0; [discriminate E|]. unfold mp_is, sp_empty in AM, MM. replace (ms_len (widened x) =? 0) with false in * by lia. cbn [negb require bind] in *.
  apply found_bind in E. destruct E as (m & EM & E). assert (W : wfs x) by (constructor; assumption). rewrite (wide_at x W _ _ EM) in *. cbn [bind] in *. unfold k_array in AM. unfold k_map in MM.
  assert (A1 : Z.land m 240 =? 144 = false) by (injection AM as AM; lia). assert (A2 : m =? 220 = false) by (injection AM as AM; lia). assert (A3 : m =? 221 = false) by (injection AM as AM; lia).
  assert (M1 : Z.land m 240 =? 128 = false) by (injection MM as MM; lia). assert (M2 : m =? 222 = false) by (injection MM as MM; lia). assert (M3 : m =? 223 = false) by (injection MM as MM; lia).
  rewrite A1, A2, A3, M1, M2, M3 in *. clear - E W WL.
  repeat match type of E with
    | (if ?c then _ else _) = Ok _ => destruct c
    | bind (require (negb (ms_len x <? ?k)) EDeser) _ = Ok _ => let L := fresh "L" in destruct (ms_len x <? k) eqn:L; [discriminate E|]; cbn [negb require bind] in E; replace (ms_len (widened x) <? k) with false by lia; cbn [negb require bind]
    | bind (sp_at x ?i) _ = Ok _ => let y := fresh "y" in let A := fresh "A" in apply found_bind in E; destruct E as (y & A & E); rewrite (wide_at x W i y A); cbn [bind]
    end; try exact E; try discriminate E.
Qed.

(** A view reached holds the whole of the object it begins with. *)
Lemma reached_starts b w it : bytes_ok b -> leads mp_reader (mp_open b) w -> item_small it -> leaf it -> stands_at b (ms_off w) (enc it) -> starts w (enc it).
Proof.
  intros B L OK LF ST. apply stands_has in ST. destruct (reached_wfs b w B L) as [W EB]. split; [rewrite EB; exact ST|]. destruct L as [|w1 i w2 L E|w1 k w2 L E].
  - destruct ST as (_ & ST & _). cbn [mp_open ms_off ms_len] in *. lia.
  - destruct (reached_wfs b w1 B L) as [W1 E1]. destruct (idx_child w1 i w2 W1 E) as (w & o & Ww & O & SU & SK & LE & EB2 & EO & LN). destruct (wfs_sub w1 o w W1 O SU) as (_ & EW & _).
    rewrite (leaf_skip w it _ Ww OK LF ltac:(rewrite <- EO, EW, E1; exact ST) SK). lia.
  - destruct (reached_wfs b w1 B L) as [W1 E1]. destruct (key_child w1 k w2 W1 E) as (w & o & Ww & O & SU & SK & LE & EB2 & EO & LN). destruct (wfs_sub w1 o w W1 O SU) as (_ & EW & _).
    rewrite (leaf_skip w it _ Ww OK LF ltac:(rewrite <- EO, EW, E1; exact ST) SK). lia.
Qed.
Lemma fits_small b p it : zlen b < 2^32 - 5 -> item_ok it -> leaf it -> stands_at b p (enc it) -> item_small it.
Proof.
  intros Z OK LF ST. apply stands_has in ST. destruct ST as (P & ST & _). unfold item_ok, item_small in *. destruct it as [| | | | | | |f s|f s| |]; try contradiction; try exact OK;
    cbn [item_in enc] in *; rewrite zlen_app in ST; destruct OK as [B C]; (split; [exact B|]); destruct f; cbn [str_cap bin_cap str_hdr bin_hdr] in *; try exact C; match type of ST with context [zlen (?a :: ?l)] => pose proof (zlen_nonneg (a :: l)) end; lia.
Qed.
Section Back.
  Context (b : bytes) (w : mspan).
  Hypothesis B : bytes_ok b.
  Hypothesis Z4 : zlen b < 2^32 - 5.
  Hypothesis L : leads mp_reader (mp_open b) w.
  Lemma back it : item_ok it -> leaf it -> stands_at b (ms_off w) (enc it) -> observes mp_reader w (item_table it).
  Proof. intros OK LF ST. exact (observes_item w it (2^32) ltac:(lia) OK (reached_starts b w it B L (fits_small b _ it Z4 OK LF ST) LF ST)). Qed.
  Lemma back_string f s : item_ok (MStr f s) -> stands_at b (ms_off w) (enc (MStr f s)) -> r_asString mp_reader w = Ok s /\ r_asStringView mp_reader w = Ok s.
  Proof. intros OK ST. destruct (back _ OK I ST) as (_ & _ & _ & _ & _ & _ & _ & _ & _ & _ & _ & _ & _ & O1 & O2 & _). split; [exact O1|exact O2]. Qed.
  Lemma back_blob f s : item_ok (MBin f s) -> stands_at b (ms_off w) (enc (MBin f s)) -> r_asBlob mp_reader w = Ok s.
  Proof. intros OK ST. now destruct (back _ OK I ST) as (_ & _ & _ & _ & _ & _ & _ & _ & _ & _ & _ & _ & _ & _ & _ & O). Qed.
  Lemma back_bool x : stands_at b (ms_off w) (enc (MBool x)) -> r_asBool mp_reader w = Ok x.
  Proof. intros ST. now destruct (back (MBool x) I I ST) as (_ & _ & _ & _ & _ & _ & _ & _ & _ & O & _). Qed.
  Lemma back_null : stands_at b (ms_off w) (enc MNil) -> r_isNull mp_reader w = Ok true.
  Proof. intros ST. now destruct (back MNil I I ST) as (O & _). Qed.
  Lemma back_double it z : item_ok it -> stands_at b (ms_off w) (enc it) -> ((exists x, it = MF32 x /\ z = f32_to_f64 x) \/ it = MF64 z) -> r_asDouble mp_reader w = Ok z.
  Proof. intros OK ST [(x & -> & ->)| ->]; now destruct (back _ OK I ST) as (_ & _ & _ & _ & _ & _ & _ & _ & _ & _ & _ & _ & O & _). Qed.
  Lemma number_leaf it n : number_of it = Some n -> leaf it.
  Proof. destruct it; try discriminate; intros _; exact I. Qed.
  Lemma back_int iw it n : item_ok it -> stands_at b (ms_off w) (enc it) -> number_of it = Some n -> smin iw <= to_signed 64 n <= smax iw -> r_asInt mp_reader iw w = Ok (to_signed 64 n).
  Proof.
    intros OK ST N R. destruct (back _ OK (number_leaf it n N) ST) as (_ & _ & _ & _ & _ & _ & _ & _ & _ & _ & O & _). destruct (number_table it n N) as (s & u & T). rewrite T in O. rewrite (O iw).
    change (or_throw (fits_s iw (to_signed 64 n)) = Ok (to_signed 64 n)). apply or_throw_ok, fits_s_iff. auto.
  Qed.
  Lemma back_uint iw it n : item_ok it -> stands_at b (ms_off w) (enc it) -> number_of it = Some n -> n mod 2^64 <= umax iw -> r_asUInt mp_reader iw w = Ok (n mod 2^64).
  Proof.
    intros OK ST N R. destruct (back _ OK (number_leaf it n N) ST) as (_ & _ & _ & _ & _ & _ & _ & _ & _ & _ & _ & O & _). destruct (number_table it n N) as (s & u & T). rewrite T in O. rewrite (O iw).
    change (or_throw (fits_u iw (n mod 2^64)) = Ok (n mod 2^64)). apply or_throw_ok, fits_u_iff; [apply Z.mod_pos_bound; lia|auto].
  Qed.
End Back.
