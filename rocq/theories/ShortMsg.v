(** ShortMsg.v -- no MessagePack object standing for a value is shorter than the one the writer produces. *)

From Coq Require Import ZArith List Bool Lia ZifyBool ZifyNat.
From Verif Require Import Base BaseFacts Spec SpecFacts FloatModel TransSpec TransMain MsgModel MsgSpec MsgFacts MsgMain MeanSpec MeanFacts MeanMsg ShortSpec.
Import ListNotations.
Open Scope Z_scope.
Ltac Zify.zify_post_hook ::= idtac.

(** Entries, one by one, when the keys are distinct. *)
Lemma entries_each ks : forall ms xs, length ks = length ms -> NoDup (map fst xs) -> all_entries (firsts (combine ks ms)) = Some xs ->
  ks = map fst xs /\ Forall2 (fun m kx => m = Some (snd kx)) ms xs.
Proof.
  intros ms xs L N E. assert (K : forall l (ys : list (bytes * val)), all_entries l = Some ys -> map fst l = map fst ys /\ Forall2 (fun m kx => m = Some (snd kx)) (map snd l) ys).
  { induction l as [|[k [y|]] l IH]; intros ys H; cbn [all_entries] in H; [injection H as <-; split; [reflexivity|constructor]| |discriminate].
    destruct (all_entries l) as [r|]; [|discriminate]. injection H as <-. destruct (IH r eq_refl) as [A B]. cbn [map fst snd]. split; [now rewrite A|]. constructor; [reflexivity|exact B]. }
  assert (F : map fst (firsts (combine ks ms)) = ks) by (unfold firsts; rewrite map_map; cbn [fst]; exact (combine_fst ks ms L)).
  assert (D : NoDup (map fst (combine ks ms))) by (rewrite (combine_fst ks ms L), <- F, (proj1 (K _ _ E)); exact N).
  rewrite (firsts_distinct _ D) in E. destruct (K _ _ E) as [A B]. rewrite (combine_fst ks ms L) in A. split; [exact A|].
  assert (S : map snd (combine ks ms) = ms) by (clear - L; revert ms L; induction ks as [|k ks IH]; intros [|m ms] L; try discriminate L; [reflexivity|]; cbn [combine map snd]; f_equal; apply IH; now injection L).
  now rewrite S in B.
Qed.
Lemma all_some_each {A} l : forall xs : list A, all_some l = Some xs -> Forall2 (fun m x => m = Some x) l xs.
Proof.
  induction l as [|o l IH]; intros xs H; [injection H as <-; constructor|]. apply all_some_cons in H. destruct H as (x & xs' & -> & -> & H). constructor; [reflexivity|exact (IH _ H)].
Qed.
(** Values of the same shape. *)
Lemma same_arr l x : same_value (VArr l) x -> exists xs, x = VArr xs /\ Forall2 same_value l xs.
Proof.
  unfold same_value. cbn [unsign]. destruct x; cbn [unsign same_num]; intros E; try discriminate E. injection E as E. exists l0. split; [reflexivity|].
  revert l0 E. induction l as [|y l IH]; intros [|z zs] E; try discriminate E; [constructor|]. cbn [map] in E. injection E as E1 E2. constructor; [exact E1|exact (IH _ E2)].
Qed.
Lemma same_map l x : same_value (VMap l) x -> exists xs, x = VMap xs /\ Forall2 (fun a b => fst a = fst b /\ same_value (snd a) (snd b)) l xs.
Proof.
  unfold same_value. cbn [unsign]. destruct x; cbn [unsign same_num]; intros E; try discriminate E. injection E as E. exists l0. split; [reflexivity|].
  revert l0 E. induction l as [|y l IH]; intros [|z zs] E; try discriminate E; [constructor|]. cbn [map] in E. injection E as E1 E2 E3. constructor; [auto|exact (IH _ E3)].
Qed.
Lemma Forall2_len {A B} (R : A -> B -> Prop) l l' : Forall2 R l l' -> length l = length l'.
Proof. induction 1; cbn; congruence. Qed.
Lemma Forall2_map_l {A B C} (R : B -> C -> Prop) (g : A -> B) l l' : Forall2 R (map g l) l' -> Forall2 (fun a c => R (g a) c) l l'.
Proof. revert l'. induction l as [|a l IH]; intros l' H; inversion H; subst; constructor; auto. Qed.

(** Sizes of headers *)
Definition slen (f : fmt) : Z := match f with FFix => 1 | F8 => 2 | F16 => 3 | F32 => 5 end.
Lemma len_str f n : zlen (str_hdr f n) = slen f.
Proof. destruct f; reflexivity. Qed.
Lemma len_bin f n lim : 0 <= n < bin_cap lim f -> zlen (bin_hdr f n) = slen f.
Proof. destruct f; cbn [bin_cap]; intros; try reflexivity; lia. Qed.
Lemma len_arr f n : 0 <= n < seq_cap f -> zlen (arr_hdr f n) = slen f.
Proof. destruct f; cbn [seq_cap]; intros; try reflexivity; lia. Qed.
Lemma len_map f n : 0 <= n < seq_cap f -> zlen (map_hdr f n) = slen f.
Proof. destruct f; cbn [seq_cap]; intros; try reflexivity; lia. Qed.
Lemma fit_str n lim : 0 <= n < lim -> 65536 <= lim -> n < str_cap lim (str_fmt n).
Proof. intros. unfold str_fmt. destruct (n <? 32) eqn:E1; [cbn; lia|]. destruct (n <? 256) eqn:E2; [cbn; lia|]. destruct (n <? 65536) eqn:E3; cbn; lia. Qed.
Lemma least_str n f : n < str_cap (2^32) f -> slen (str_fmt n) <= slen f.
Proof. intros. unfold str_fmt. destruct (n <? 32) eqn:E1; [destruct f; cbn; lia|]. destruct (n <? 256) eqn:E2; [destruct f; cbn in *; lia|]. destruct (n <? 65536) eqn:E3; destruct f; cbn in *; lia. Qed.
Lemma least_bin n f : 0 <= n < bin_cap (2^32) f -> 0 <= n < bin_cap (2^32) (bin_fmt n) /\ slen (bin_fmt n) <= slen f.
Proof. intros. unfold bin_fmt. destruct (n <? 256) eqn:E2; [destruct f; cbn in *; lia|]. destruct (n <? 65536) eqn:E3; destruct f; cbn in *; lia. Qed.
Lemma least_seq n f : 0 <= n < seq_cap f -> 0 <= n < seq_cap (seq_fmt n) /\ slen (seq_fmt n) <= slen f.
Proof. intros. unfold seq_fmt. destruct (n <? 16) eqn:E2; [destruct f; cbn in *; lia|]. destruct (n <? 65536) eqn:E3; destruct f; cbn in *; lia. Qed.
Definition iw (w : iwidth) : Z := match w with I8 => 1 | I16 => 2 | I32 => 4 | I64 => 8 end.
Lemma len_int w z : zlen (be (ibytes w) z) = iw w.
Proof. destruct w; reflexivity. Qed.

(** ** Integers *)
Definition as_int (it : item) : option Z := match it with MFixInt z | MUInt _ z | MSInt _ z => Some z | _ => None end.
Ltac bits := repeat (match goal with |- context [?a <? ?b] => destruct (Z.ltb_spec a b) end; try (exfalso; lia)); cbn [enc]; rewrite ?zlen_cons, ?len_int, ?zlen_nil; cbn [iw]; lia.
Lemma least_uint it z : item_ok it -> as_int it = Some z -> 0 <= z -> zlen (enc (uint_item z)) <= zlen (enc it).
Proof.
  intros OK E P. destruct it; cbn [as_int] in E; try discriminate E; injection E as ->; unfold item_ok in OK; cbn [item_in] in OK; unfold uint_item.
  - destruct (z <? 2^7) eqn:E1; [cbn [enc]; reflexivity|lia].
  - destruct w; unfold umax in OK; cbn [ibits] in OK; bits.
  - destruct w; unfold smin, smax in OK; cbn [ibits] in OK; bits.
Qed.
Lemma least_int it z : item_ok it -> as_int it = Some z -> zlen (enc (int_item z)) <= zlen (enc it).
Proof.
  intros OK E. unfold int_item. destruct (Z.ltb_spec z 0) as [N|N]; [|rewrite !(proj2 (Z.ltb_ge z _)) by lia; apply least_uint; auto].
  destruct it; cbn [as_int] in E; try discriminate E; injection E as ->; unfold item_ok in OK; cbn [item_in] in OK.
  - rewrite !(proj2 (Z.ltb_ge z _)) by lia. reflexivity.
  - lia.
  - destruct w; unfold smin, smax in OK; cbn [ibits] in OK; bits.
Qed.
Lemma least_str_item f s : zlen s < str_cap (2^32) f -> zlen (enc (str_item s)) <= zlen (enc (MStr f s)).
Proof. intros H. unfold str_item. cbn [enc]. rewrite !zlen_app, !len_str. pose proof (least_str _ _ H). lia. Qed.

Lemma least_leaf v it x : is_leaf v -> val_ok v -> no_f32 v -> item_ok it -> mp_meaning it = Some x -> same_value v x -> zlen (enc (item_of v)) <= zlen (enc it).
Proof.
  intros L VO NF OK M S. unfold same_value in S. unfold item_ok in OK.
  destruct it; cbn [mp_meaning] in M.
  10: { destruct (all_some _); [injection M as <-|discriminate M]. destruct v; try contradiction L; discriminate S. }
  10: { destruct (keys_of _); [|discriminate M]. destruct (all_entries _); [injection M as <-|discriminate M]. destruct v; try contradiction L; discriminate S. }
  all: injection M as <-; destruct v; try contradiction L; try discriminate S; cbn [unsign same_num] in S; try injection S as ->; cbn [item_of].
  all: try (cbn [enc]; reflexivity); try (apply least_int; [exact OK|reflexivity]); try (apply least_uint; [exact OK|reflexivity|exact (proj1 VO)]).
  - exfalso. cbn [item_in] in OK. exact (proj1 NF _ OK eq_refl).
  - apply least_str_item, OK.
  - cbn [item_in] in OK. destruct OK as [_ OK]. pose proof (zlen_nonneg b) as NN. cbn [enc]. rewrite !zlen_app.
    destruct (least_bin _ _ (conj NN OK)) as [A B]. rewrite (len_bin _ _ _ (conj NN OK)), (len_bin _ _ _ A). lia.
Qed.

(** ** The writer's object is the shortest *)
Lemma leaf_lengths v it x : is_leaf v -> item_ok it -> mp_meaning it = Some x -> same_value v x -> lengths_below (2^32) v.
Proof.
  intros L OK M S. unfold same_value in S. unfold item_ok in OK. destruct v; try contradiction L; try exact I; destruct x; try discriminate S; cbn [unsign same_num] in S; injection S as <-.
  all: destruct it; cbn [mp_meaning] in M; try discriminate M; try (destruct (all_some _); discriminate M); try (destruct (keys_of _); [|discriminate M]; destruct (all_entries _); discriminate M).
  all: injection M as <-; cbn [item_in lengths_below] in *; destruct f; cbn [str_cap bin_cap] in OK; lia.
Qed.
Lemma least_flat (l : list val) : forall (its : list item), Forall2 (fun v it => lengths_below (2^32) v /\ zlen (enc (item_of v)) <= zlen (enc it)) l its -> zlen (flat_map enc (map item_of l)) <= zlen (flat_map enc its).
Proof. intros its F. induction F as [|v it l its H F IH]; [reflexivity|]. cbn [map flat_map]. rewrite !zlen_app. lia. Qed.
Theorem msgpack_least : forall v it x, val_ok v -> no_f32 v -> distinct_keys v -> item_ok it -> mp_meaning it = Some x -> same_value v x -> lengths_below (2^32) v /\ zlen (enc (item_of v)) <= zlen (enc it).
Proof.
  induction v as [| | | | | | |l IH|l IH] using val_ind'; intros it x VO NF D OK M S; try (split; [eapply leaf_lengths|eapply least_leaf]; eauto; exact I).
  - destruct (same_arr l x S) as (xs & -> & SS). assert (exists f its, it = MArr f its /\ all_some (map mp_meaning its) = Some xs) as (f & its & -> & MM).
    { destruct it; cbn [mp_meaning] in M; try discriminate M; [|destruct (keys_of _); [|discriminate M]; destruct (all_entries _); discriminate M]. exists f, l0. split; [reflexivity|]. destruct (all_some _); [now injection M as ->|discriminate M]. }
    apply every_arr in NF. apply every_arr in D. apply val_ok_arr in VO. apply item_in_arr in OK. destruct OK as [C OK]. apply proj2 in NF. apply proj2 in D.
    apply all_some_each, Forall2_map_l in MM.
    assert (LL : zlen l = zlen its) by (unfold zlen; now rewrite (Forall2_len _ _ _ SS), <- (Forall2_len _ _ _ MM)).
    assert (F : Forall2 (fun v it => lengths_below (2^32) v /\ zlen (enc (item_of v)) <= zlen (enc it)) l its).
    { clear M S LL C. revert its OK MM. induction SS as [|v y l xs H SS IHS]; intros its OK MM; inversion MM; subst; [constructor|].
      apply Forall_cons_iff in IH, VO, NF, D, OK. constructor; [apply (proj1 IH _ y); tauto|]. apply IHS; tauto. }
    split.
    { apply lengths_arr. split; [rewrite LL; destruct f; cbn [seq_cap] in C; lia|]. clear - F. induction F; constructor; tauto. }
    cbn [item_of enc]. rewrite !zlen_app. apply least_flat in F. rewrite zlen_map, LL. pose proof (zlen_nonneg its) as NN. destruct (least_seq _ _ (conj NN C)) as [A B]. rewrite !len_arr by auto. lia.
  - destruct (same_map l x S) as (xs & -> & SS). assert (exists f its ks, it = MMap f its /\ keys_of its = Some ks /\ all_entries (firsts (combine ks (map (fun kx => mp_meaning (snd kx)) its))) = Some xs) as (f & its & ks & -> & KO & MM).
    { destruct it; cbn [mp_meaning] in M; try discriminate M; [destruct (all_some _); discriminate M|]. destruct (keys_of l0) as [ks|] eqn:KO; [|discriminate M]. exists f, l0, ks. split; [reflexivity|]. split; [exact KO|]. destruct (all_entries _); [now injection M as ->|discriminate M]. }
    apply every_map in NF. apply every_map in D. apply val_ok_map in VO. apply item_in_map in OK. destruct OK as [C OK]. apply proj2 in NF. destruct D as [ND D].
    assert (KX : map fst xs = map fst l) by (clear - SS; induction SS as [|a b l xs H SS IHS]; [reflexivity|]; cbn [map]; f_equal; [symmetry; apply H|exact IHS]).
    apply entries_each in MM; [|rewrite map_length; exact (keys_length _ _ KO)|rewrite KX; exact ND]. destruct MM as [KE MM]. apply Forall2_map_l in MM.
    assert (LL : zlen l = zlen its) by (unfold zlen; now rewrite (Forall2_len _ _ _ SS), <- (Forall2_len _ _ _ MM)).
    assert (F : Forall (fun kx => zlen (fst kx) < 2^32 /\ lengths_below (2^32) (snd kx)) l /\ zlen (flat_map (fun kx => enc (fst kx) ++ enc (snd kx)) (map (fun kx => (str_item (fst kx), item_of (snd kx))) l)) <= zlen (flat_map (fun kx => enc (fst kx) ++ enc (snd kx)) its)).
    { clear M S LL C ND KX. subst ks. revert its OK MM KO. induction SS as [|[k v] [k' y] l xs H SS IHS]; intros its OK MM KO; inversion MM as [|[ki xi] ? its' ? M1 M2]; subst; [split; [constructor|reflexivity]|].
      apply Forall_cons_iff in IH, VO, NF, D, OK. cbn [fst snd] in *. cbn [keys_of] in KO. destruct (key_of (ki, xi)) as [k2|] eqn:K2; [|discriminate KO]. destruct (keys_of its') as [r|] eqn:KR; [|discriminate KO].
      cbn [map fst] in KO. injection KO as -> ->. unfold key_of in K2. cbn [fst] in K2. destruct ki; try discriminate K2. injection K2 as ->. destruct H as [-> H].
      cbn [map flat_map fst snd]. rewrite !zlen_app. assert (A1 : zlen (enc (str_item k')) <= zlen (enc (MStr f0 k'))) by (apply least_str_item; cbn [item_in] in OK; apply OK).
      assert (A2 : lengths_below (2^32) v /\ zlen (enc (item_of v)) <= zlen (enc xi)) by (apply (proj1 IH _ y); tauto). assert (A3 := IHS (proj2 IH) (proj2 VO) (proj2 NF) (proj2 D) its' (proj2 OK) M2 KR).
      split; [constructor; [|tauto]; cbn [fst snd]; split; [|tauto]; destruct OK as [[OK _] _]; destruct OK as [_ OK]; destruct f0; cbn [str_cap] in OK; lia|lia]. }
    split; [apply lengths_map; split; [rewrite LL; destruct f; cbn [seq_cap] in C; lia|tauto]|]. apply proj2 in F. cbn [item_of enc]. rewrite !zlen_app, zlen_map.
    pose proof (zlen_nonneg its) as NN. rewrite LL. destruct (least_seq _ _ (conj NN C)) as [A B]. rewrite !len_map by auto. lia.
Qed.

Theorem msgpack_shortest v b it x : val_ok v -> no_f32 v -> distinct_keys v -> serialize mp_writer v = Ok b -> item_ok it -> mp_meaning it = Some x -> same_value v x -> zlen b <= zlen (enc it).
Proof.
  intros VO NF D S OK M SV. destruct (msgpack_least v it x VO NF D OK M SV) as [LB L]. unfold serialize in S. rewrite mp_run in S. cbn [mp_writer w_finish w_init snd app] in S.
  rewrite emit_events in S by auto. injection S as <-. exact L.
Qed.
