(** ShortCbor.v -- no CBOR data item standing for a value is shorter than the one the writer produces. *)

From Coq Require Import ZArith List Bool Lia ZifyBool ZifyNat.
From Verif Require Import Base BaseFacts Spec SpecFacts FloatModel FloatSpec FloatFacts TransSpec TransMain CborModel CborSpec CborFacts CborMain MeanSpec MeanFacts MeanCSpec MeanCbor ShortSpec.
From Verif Require ShortMsg TextCbor.
Import ListNotations.
Open Scope Z_scope.
Ltac Zify.zify_post_hook ::= idtac.

(** ** Every binary32 number but NaN is recognised *)
Lemma widen_narrow y : 0 <= y < 2^32 -> f64_value (f32_to_f64 y) <> Fnan -> f64_to_f32 (f32_to_f64 y) <> None.
Proof.
  intros Hy. rewrite f32_exact. destruct (f32_ranges y) as (Hs & He & Hm). rewrite f32_value_fields. unfold f32_to_f64. cbv zeta.
  set (s := f32_sign y) in *. set (e := f32_exp y) in *. set (m := f32_man y) in *. clearbody s e m. clear Hy y.
  assert (K : forall E M, 0 <= E < 2^11 -> 0 <= M < 2^52 -> f64_to_f32 (mk64 s E M) =
    if E =? 2047 then (if M =? 0 then Some (mk32 s 255 0) else None)
    else if E =? 0 then (if M =? 0 then Some (mk32 s 0 0) else None)
    else if (897 <=? E) && (E <=? 1150) then (if M mod 2^29 =? 0 then Some (mk32 s (E - 896) (M / 2^29)) else None)
    else if (874 <=? E) && (E <=? 896) then (if (2^52 + M) mod 2^(926 - E) =? 0 then Some (mk32 s 0 ((2^52 + M) / 2^(926 - E))) else None)
    else None).
  { intros E M HE HM. destruct (mk64_fields s E M Hs HE HM) as (A & B & C). unfold f64_to_f32. rewrite A, B, C. reflexivity. }
  destruct (e =? 255) eqn:E1.
  { destruct (m =? 0) eqn:E2; [|congruence]. intros _. rewrite K by lia. discriminate. }
  intros _. destruct (e =? 0) eqn:E2.
  - destruct (m =? 0) eqn:E3; [rewrite K by lia; discriminate|].
    assert (L : 0 <= Z.log2 m <= 22) by (split; [apply Z.log2_nonneg|]; assert (Z.log2 m < 23) by (apply Z.log2_lt_pow2; lia); lia).
    pose proof (Z.log2_spec m ltac:(lia)) as [P1 P2]. rewrite Z.pow_succ_r in P2 by lia. set (k := Z.log2 m) in *. clearbody k.
    assert (P : 2^52 = 2^k * 2^(52-k)) by (rewrite <- Z.pow_add_r by lia; f_equal; lia).
    assert (0 < 2^(52-k)) by (apply Z.pow_pos_nonneg; lia).
    rewrite K; [|lia|split; [apply Z.mul_nonneg_nonneg; lia|rewrite P; apply Z.mul_lt_mono_pos_r; lia]].
    replace (k - 149 + 1023) with (k + 874) by lia.
    destruct (k + 874 =? 2047) eqn:F1; [lia|]. destruct (k + 874 =? 0) eqn:F2; [lia|].
    replace ((897 <=? k + 874) && (k + 874 <=? 1150)) with false by lia. replace ((874 <=? k + 874) && (k + 874 <=? 896)) with true by lia.
    replace (926 - (k + 874)) with (52 - k) by lia. replace (2^52 + (m - 2^k) * 2^(52-k)) with (m * 2^(52-k)) by (rewrite P; ring).
    rewrite Z.mod_mul by lia. discriminate.
  - rewrite K by lia. destruct (e + 896 =? 2047) eqn:F1; [lia|]. destruct (e + 896 =? 0) eqn:F2; [lia|].
    replace ((897 <=? e + 896) && (e + 896 <=? 1150)) with true by lia. rewrite Z.mod_mul by lia. discriminate.
Qed.

(** The mantissa of a binary16 number has 10 bits. *)
Lemma half_mantissa y : f64_man (f16_to_f64 y) mod 2^42 = 0.
Proof.
  unfold f16_to_f64. set (s := y / 2^15 mod 2). set (e := y / 2^10 mod 2^5). set (m := y mod 2^10).
  assert (Hs : 0 <= s < 2) by (apply Z.mod_pos_bound; lia). assert (He : 0 <= e < 2^5) by (apply Z.mod_pos_bound; lia). assert (Hm : 0 <= m < 2^10) by (apply Z.mod_pos_bound; lia).
  clearbody s e m. cbv zeta. assert (K : forall s E M, 0 <= s < 2 -> 0 <= E < 2^11 -> 0 <= M < 2^52 -> f64_man (mk64 s E M) = M) by (intros; now apply mk64_fields).
  destruct (e =? 31) eqn:E1; [destruct (m =? 0) eqn:E2; rewrite K by lia; reflexivity|]. destruct (e =? 0) eqn:E2.
  - destruct (m =? 0) eqn:E3; [rewrite K by lia; reflexivity|].
    assert (L : 0 <= Z.log2 m <= 9) by (split; [apply Z.log2_nonneg|]; assert (Z.log2 m < 10) by (apply Z.log2_lt_pow2; lia); lia).
    pose proof (Z.log2_spec m ltac:(lia)) as [P1 P2]. rewrite Z.pow_succ_r in P2 by lia. set (k := Z.log2 m) in *. clearbody k.
    assert (P : 2^52 = 2^k * 2^(52-k)) by (rewrite <- Z.pow_add_r by lia; f_equal; lia). assert (Q : 2^(52-k) = 2^(10-k) * 2^42) by (rewrite <- Z.pow_add_r by lia; f_equal; lia).
    assert (0 < 2^(52-k)) by (apply Z.pow_pos_nonneg; lia).
    rewrite K; [|lia|lia|split; [apply Z.mul_nonneg_nonneg; lia|rewrite P; apply Z.mul_lt_mono_pos_r; lia]].
    rewrite Q, Z.mul_assoc. apply Z.mod_mul. lia.
  - rewrite K by lia. apply Z.mod_mul. lia.
Qed.

(** ** Sizes of headers *)
Lemma least_arg n f : n < arg_cap f -> hlen (arg_of n) <= hlen f.
Proof.
  intros H. unfold arg_of. destruct (n <=? 23) eqn:E1; [destruct f; cbn; lia|]. destruct (n <=? 255) eqn:E2; [destruct f; cbn in *; lia|].
  destruct (n <=? 65535) eqn:E3; [destruct f; cbn in *; lia|]. destruct (n <=? 4294967295) eqn:E4; destruct f; cbn in *; lia.
Qed.
Lemma small_arg n : n < 256 -> hlen (arg_of n) <= 2.
Proof. intros H. unfold arg_of. destruct (n <=? 23) eqn:E1; [cbn; lia|]. destruct (n <=? 255) eqn:E2; [cbn; lia|lia]. Qed.

(** Chunks: all headers together are no longer than one header, less the two bytes that enclose the chunks. *)
Fixpoint heads (l : list (arg * bytes)) : Z := match l with [] => 0 | c :: l' => hlen (fst c) + heads l' end.
Lemma chunks_len m l : zlen (flat_map (chunk m) l) = heads l + zlen (flat_map snd l).
Proof. induction l as [|c l IH]; [reflexivity|]. cbn [flat_map heads]. rewrite !zlen_app, IH. unfold chunk. rewrite zlen_app, zlen_hdr. lia. Qed.
Lemma heads_pos l : 0 <= heads l.
Proof. induction l as [|c l IH]; [reflexivity|]. cbn [heads]. pose proof (hlen_pos (fst c)). lia. Qed.
Lemma few_heads l : chunks_ok l -> heads l <= 2 -> zlen (flat_map snd l) <= 255 * heads l.
Proof.
  induction l as [|c l IH]; intros OK H; [reflexivity|]. apply Forall_cons_iff in OK. destruct OK as [[_ A] OK]. cbn [flat_map heads] in *. rewrite zlen_app.
  pose proof (hlen_pos (fst c)). pose proof (heads_pos l). specialize (IH OK ltac:(lia)). destruct (fst c); cbn [arg_cap hlen] in *; lia.
Qed.
Lemma least_chunks l : chunks_ok l -> zlen (flat_map snd l) < 2^32 -> hlen (arg_of (zlen (flat_map snd l))) <= 2 + heads l.
Proof.
  intros OK H. pose proof (heads_pos l) as P. pose proof (few_heads l OK) as F. set (n := zlen (flat_map snd l)) in *. clearbody n. assert (T : 2 < heads l \/ n <= 255 * heads l) by (destruct (Z.le_gt_cases (heads l) 2); [right; auto|left; lia]). clear F.
  unfold arg_of. destruct (n <=? 23) eqn:E1; [cbn [hlen]; lia|]. destruct (n <=? 255) eqn:E2; [cbn [hlen]; lia|]. destruct (n <=? 65535) eqn:E3; [cbn [hlen]; lia|]. destruct (n <=? 4294967295) eqn:E4; [cbn [hlen]; lia|lia].
Qed.

Lemma definite_arr f l : definite (CArr f l) <-> Forall definite l.
Proof. cbn [definite]. induction l as [|x l IH]; [split; constructor|]. split; [intros [A B]; constructor; tauto|inversion 1; subst; tauto]. Qed.
Lemma definite_map f l : definite (CMap f l) <-> Forall (fun kx => definite (fst kx) /\ definite (snd kx)) l.
Proof. cbn [definite]. induction l as [|[k x] l IH]; [split; constructor|]. split; [intros (A & B & C); constructor; tauto|inversion 1; subst; cbn in *; tauto]. Qed.

(** ** Leaves *)
Lemma least_uint it z : item_ok it -> match it with CUInt _ n => n = z | _ => False end -> zlen (enc (CUInt (arg_of z) z)) <= zlen (enc it).
Proof. intros OK E. destruct it; try contradiction. subst. cbn [enc]. rewrite !zlen_hdr. apply least_arg, OK. Qed.
Lemma least_text it s : item_ok it -> text_of it = Some s -> definite it \/ zlen s < 2^32 -> zlen (enc (str_item s)) <= zlen (enc it).
Proof.
  intros OK E D. unfold item_ok in OK. destruct it; try discriminate E; injection E as <-; unfold str_item; cbn [enc item_in] in *; rewrite !zlen_app, zlen_hdr.
  - rewrite zlen_hdr. destruct OK as [_ OK]. pose proof (least_arg _ _ OK). lia.
  - rewrite chunks_len. destruct D as [[]|D]. pose proof (least_chunks _ OK D). change (zlen [127]) with 1. change (zlen [255]) with 1. lia.
Qed.
Lemma least_leaf v it x : is_leaf v -> val_ok v -> no_f16 v -> definite it \/ compact v -> item_ok it -> cb_meaning it = Some x -> same_value v x -> zlen (enc (item_of v)) <= zlen (enc it).
Proof.
  intros L VO NF D OK M S. unfold same_value in S. unfold item_ok in OK.
  assert (NA : forall y, x = VArr y -> False) by (intros y ->; destruct v; try contradiction L; discriminate S).
  assert (NM : forall y, x = VMap y -> False) by (intros y ->; destruct v; try contradiction L; discriminate S).
  assert (SC : forall s, v = VStr s \/ v = VBlob s -> definite it \/ zlen s < 2^32) by (intros s [-> | ->]; (destruct D as [D|D]; [now left|right; exact (proj1 D)])).
  destruct it; cbn [cb_meaning] in M;
    try (destruct (all_some _); [injection M as <-; now destruct (NA _ eq_refl)|discriminate M]);
    try (destruct (keys_of _); [|discriminate M]; destruct (all_entries _); [injection M as <-; now destruct (NM _ eq_refl)|discriminate M]);
    try discriminate M.
  - assert (E : v = VInt n \/ v = VUInt n) by (destruct (n <? 2^63); injection M as <-; destruct v; try contradiction L; try discriminate S; cbn [unsign same_num] in S; injection S as ->; auto).
    cbn [item_in] in OK. destruct E as [-> | ->]; cbn [item_of]; unfold int_item; [destruct (0 <=? n) eqn:P; [|lia]|]; (apply least_uint; [exact OK|reflexivity]).
  - cbn [item_in] in OK. destruct (n <? 2^63); [|discriminate M]. assert (x = VInt (-1 - n)) as -> by congruence. assert (E : v = VInt (-1 - n)).
    { destruct v; try contradiction L; try discriminate S; cbn [unsign same_num] in S; [exact S|]. assert (z = -1 - n) as -> by congruence. cbn [val_ok] in VO; unfold is_u64 in VO. lia. }
    subst v. cbn [item_of]. unfold int_item. destruct (0 <=? -1 - n) eqn:P; [lia|]. replace (-1 - (-1 - n)) with n by lia. cbn [enc]. rewrite !zlen_hdr. apply least_arg, OK.
  - injection M as <-. assert (v = VBlob b) as -> by (destruct v; try contradiction L; try discriminate S; exact S). cbn [item_of enc item_in] in *. rewrite !zlen_app, !zlen_hdr. destruct OK as [_ OK]. pose proof (least_arg _ _ OK). lia.
  - injection M as <-. assert (v = VBlob (flat_map snd chunks)) as -> by (destruct v; try contradiction L; try discriminate S; exact S). cbn [item_of enc item_in] in *. rewrite !zlen_app, !zlen_hdr, chunks_len.
    destruct (SC _ (or_intror eq_refl)) as [[]|SC']. pose proof (least_chunks _ OK SC'). change (zlen [95]) with 1. change (zlen [255]) with 1. lia.
  - injection M as <-. assert (v = VStr s) as -> by (destruct v; try contradiction L; try discriminate S; exact S). exact (least_text _ s OK eq_refl (SC _ (or_introl eq_refl))).
  - injection M as <-. assert (v = VStr (flat_map snd chunks)) as -> by (destruct v; try contradiction L; try discriminate S; exact S). exact (least_text _ _ OK eq_refl (SC _ (or_introl eq_refl))).
  - assert (E : zlen (enc (item_of v)) = 1); [|rewrite E; reflexivity].
    repeat match type of M with (if ?c then _ else _) = _ => destruct c end; try discriminate M; injection M as <-; destruct v; try contradiction L; try discriminate S; cbn [unsign same_num] in S; reflexivity.
  - exfalso. injection M as <-. assert (v = VDbl (f16_to_f64 x0)) as -> by (destruct v; try contradiction L; try discriminate S; exact S). exact (proj1 (proj1 NF) _ OK eq_refl).
  - injection M as <-. assert (v = VDbl (f32_to_f64 x0)) as -> by (destruct v; try contradiction L; try discriminate S; exact S). cbn [item_of]. unfold dbl_item.
    destruct (f64_to_f32 (f32_to_f64 x0)) eqn:E; [reflexivity|]. exfalso. destruct (f64_value (f32_to_f64 x0)) eqn:V.
    + exact (proj2 (proj1 NF) V _ OK eq_refl).
    + apply (widen_narrow _ OK); [rewrite V; discriminate|exact E].
    + apply (widen_narrow _ OK); [rewrite V; discriminate|exact E].
  - injection M as <-. assert (v = VDbl x0) as -> by (destruct v; try contradiction L; try discriminate S; exact S). cbn [item_of]. unfold dbl_item. destruct (f64_to_f32 x0); cbn [enc]; rewrite !zlen_cons, !zlen_be; lia.
Qed.

(** ** The writer's item is the shortest *)
Lemma least_flat (l : list val) : forall (its : list item), Forall2 (fun v it => zlen (enc (item_of v)) <= zlen (enc it)) l its -> zlen (flat_map enc (map item_of l)) <= zlen (flat_map enc its).
Proof. intros its F. induction F as [|v it l its H F IH]; [reflexivity|]. cbn [map flat_map]. rewrite !zlen_app. lia. Qed.
Theorem cbor_least : forall v it x, val_ok v -> no_f16 v -> distinct_keys v -> definite it \/ compact v -> item_ok it -> cb_meaning it = Some x -> same_value v x -> zlen (enc (item_of v)) <= zlen (enc it).
Proof.
  induction v as [| | | | | | |l IH|l IH] using val_ind'; intros it x VO NF D DC OK M S; try (eapply least_leaf; eauto; exact I).
  - destruct (ShortMsg.same_arr l x S) as (xs & -> & SS). apply every_arr in NF. apply every_arr in D. apply val_ok_arr in VO. apply proj2 in NF. apply proj2 in D. unfold item_ok in OK.
    assert (exists its h t, (it = CArrI its /\ zlen l < 256 /\ zlen h + zlen t = 2 \/ exists f, it = CArr f its /\ zlen its < arg_cap f /\ zlen h + zlen t = hlen f) /\ enc it = h ++ flat_map enc its ++ t /\ Forall (item_in true) its /\
      all_some (map cb_meaning its) = Some xs /\ (Forall definite its \/ Forall compact l)) as (its & h & t & HT & EI & FI & MM & DD).
    { assert (CC : definite it \/ zlen l < 256 /\ Forall compact l) by (destruct DC as [DC|DC]; [now left|right; now apply every_arr in DC]).
      destruct it; cbn [cb_meaning] in M; try discriminate M;
        try (destruct (keys_of _); [|discriminate M]; destruct (all_entries _); discriminate M);
        try (repeat match type of M with context [if ?c then _ else _] => destruct c end; discriminate M).
      - exists l0, (hdr 4 f (zlen l0)), []. apply item_in_arr in OK. destruct OK as [C OK]. split; [right; exists f; rewrite zlen_hdr, zlen_nil; repeat split; auto; lia|]. split; [cbn [enc]; now rewrite app_nil_r|]. split; [exact OK|].
        split; [destruct (all_some _); [now injection M as ->|discriminate M]|]. destruct CC as [CC|CC]; [left; now apply definite_arr in CC|right; tauto].
      - exists l0, [159], [255]. apply item_in_arrI in OK. destruct CC as [[]|[C1 C2]]. split; [left; auto|]. split; [reflexivity|]. split; [exact OK|].
        split; [destruct (all_some _); [now injection M as ->|discriminate M]|]. now right. }
    apply ShortMsg.all_some_each, ShortMsg.Forall2_map_l in MM.
    assert (LL : zlen l = zlen its) by (unfold zlen; now rewrite (ShortMsg.Forall2_len _ _ _ SS), <- (ShortMsg.Forall2_len _ _ _ MM)).
    assert (F : Forall2 (fun v it => zlen (enc (item_of v)) <= zlen (enc it)) l its).
    { clear M S LL HT EI DC OK. revert its FI MM DD. induction SS as [|v y l xs H SS IHS]; intros its OK MM DD; inversion MM; subst; [constructor|].
      rewrite !Forall_cons_iff in DD. apply Forall_cons_iff in IH, VO, NF, D, OK. constructor; [apply (proj1 IH _ y); tauto|]. apply IHS; tauto. }
    apply least_flat in F. rewrite EI. cbn [item_of enc]. rewrite !zlen_app, zlen_map, zlen_hdr, LL. destruct HT as [(_ & C & T)|(f & _ & C & T)].
    + rewrite LL in C. pose proof (small_arg _ C). lia.
    + pose proof (least_arg _ _ C). lia.
  - destruct (ShortMsg.same_map l x S) as (xs & -> & SS). apply every_map in NF. apply every_map in D. apply val_ok_map in VO. apply proj2 in NF. destruct D as [ND D]. unfold item_ok in OK.
    assert (exists its h t ks, (it = CMapI its /\ zlen l < 256 /\ zlen h + zlen t = 2 \/ exists f, it = CMap f its /\ zlen its < arg_cap f /\ zlen h + zlen t = hlen f) /\
      enc it = h ++ flat_map (fun kx => enc (fst kx) ++ enc (snd kx)) its ++ t /\ Forall (fun kx => item_in true (fst kx) /\ item_in true (snd kx)) its /\
      keys_of its = Some ks /\ all_entries (firsts (combine ks (map (fun kx => cb_meaning (snd kx)) its))) = Some xs /\
      (Forall (fun kx => definite (fst kx) /\ definite (snd kx)) its \/ Forall (fun kx => zlen (fst kx) < 2^32) l /\ Forall (fun kx => compact (snd kx)) l)) as (its & h & t & ks & HT & EI & FI & KO & MM & DD).
    { assert (CC : definite it \/ (zlen l < 256 /\ Forall (fun kx => zlen (fst kx) < 2^32) l) /\ Forall (fun kx => compact (snd kx)) l) by (destruct DC as [DC|DC]; [now left|right; now apply every_map in DC]).
      destruct it; cbn [cb_meaning] in M; try discriminate M; try (destruct (all_some _); discriminate M); try (repeat match type of M with context [if ?c then _ else _] => destruct c end; discriminate M);
        (destruct (keys_of l0) as [ks|] eqn:KO; [|discriminate M]).
      - exists l0, (hdr 5 f (zlen l0)), [], ks. apply item_in_map in OK. destruct OK as [C OK]. split; [right; exists f; rewrite zlen_hdr, zlen_nil; repeat split; auto; lia|]. split; [cbn [enc]; now rewrite app_nil_r|]. split; [exact OK|].
        split; [exact KO|]. split; [destruct (all_entries _); [now injection M as ->|discriminate M]|]. destruct CC as [CC|CC]; [left; now apply definite_map in CC|right; tauto].
      - exists l0, [191], [255], ks. apply item_in_mapI in OK. destruct CC as [[]|[[C1 C2] C3]]. split; [left; auto|]. split; [reflexivity|]. split; [exact OK|].
        split; [exact KO|]. split; [destruct (all_entries _); [now injection M as ->|discriminate M]|]. now right. }
    assert (KX : map fst xs = map fst l) by (clear - SS; induction SS as [|a b l xs H SS IHS]; [reflexivity|]; cbn [map]; f_equal; [symmetry; apply H|exact IHS]).
    apply ShortMsg.entries_each in MM; [|rewrite map_length; exact (keys_length _ _ KO)|rewrite KX; exact ND]. destruct MM as [KE MM]. apply ShortMsg.Forall2_map_l in MM.
    assert (LL : zlen l = zlen its) by (unfold zlen; now rewrite (ShortMsg.Forall2_len _ _ _ SS), <- (ShortMsg.Forall2_len _ _ _ MM)).
    assert (F : zlen (flat_map (fun kx => enc (fst kx) ++ enc (snd kx)) (map (fun kx => (str_item (fst kx), item_of (snd kx))) l)) <= zlen (flat_map (fun kx => enc (fst kx) ++ enc (snd kx)) its)).
    { clear M S LL HT EI DC OK ND KX. subst ks. revert its FI MM KO DD. induction SS as [|[k v] [k' y] l xs H SS IHS]; intros its OK MM KO DD; inversion MM as [|[ki xi] ? its' ? M1 M2]; subst; [reflexivity|].
      rewrite !Forall_cons_iff in DD. apply Forall_cons_iff in IH, VO, NF, D, OK. cbn [fst snd] in *. cbn [keys_of fst] in KO. destruct (text_of ki) as [k2|] eqn:K2; [|discriminate KO]. destruct (keys_of its') as [r|] eqn:KR; [|discriminate KO].
      cbn [map fst] in KO. injection KO as -> ->. destruct H as [-> H].
      cbn [map flat_map fst snd]. rewrite !zlen_app. assert (A1 : zlen (enc (str_item k')) <= zlen (enc ki)) by (apply least_text; [apply OK|exact K2|tauto]).
      assert (A2 : zlen (enc (item_of v)) <= zlen (enc xi)) by (apply (proj1 IH _ y); tauto). assert (A3 := IHS (proj2 IH) (proj2 VO) (proj2 NF) (proj2 D) its' (proj2 OK) M2 KR ltac:(tauto)). lia. }
    rewrite EI. cbn [item_of enc]. rewrite !zlen_app, zlen_map, zlen_hdr, LL. destruct HT as [(_ & C & T)|(f & _ & C & T)].
    + rewrite LL in C. pose proof (small_arg _ C). lia.
    + pose proof (least_arg _ _ C). lia.
Qed.
Theorem cbor_shortest v b it x : val_ok v -> no_f16 v -> distinct_keys v -> serialize cbor_writer v = Ok b -> definite it \/ compact v -> item_ok it -> cb_meaning it = Some x -> same_value v x -> zlen b <= zlen (enc it).
Proof.
  intros VO NF D S DC OK M SV. rewrite (TextCbor.serialize_enc v b VO S). exact (cbor_least v it x VO NF D DC OK M SV).
Qed.
