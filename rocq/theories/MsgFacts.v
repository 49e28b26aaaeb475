(** MsgFacts.v -- the MessagePack reader on well-formed objects. *)

From Coq Require Import ZArith List Bool Lia ZifyBool ZifyNat.
From Verif Require Import Base BaseFacts Spec SpecFacts FloatModel MsgModel MsgSpec.
Import ListNotations.
Open Scope Z_scope.
Ltac Zify.zify_post_hook ::= Z.div_mod_to_equations.

Section ItemInd.
  Variable P : item -> Prop.
  Hypothesis Hleaf : forall it, match it with MArr _ _ | MMap _ _ => False | _ => True end -> P it.
  Hypothesis Harr : forall f l, Forall P l -> P (MArr f l).
  Hypothesis Hmap : forall f l, Forall (fun kx => P (fst kx) /\ P (snd kx)) l -> P (MMap f l).
  Fixpoint item_ind' (it : item) : P it :=
    match it with
    | MArr f l => Harr f l ((fix go l : Forall P l :=
                     match l with [] => Forall_nil _ | x :: l' => Forall_cons x (item_ind' x) (go l') end) l)
    | MMap f l => Hmap f l ((fix go l : Forall (fun kx => P (fst kx) /\ P (snd kx)) l :=
                     match l with
                     | [] => Forall_nil _
                     | kx :: l' => Forall_cons kx (conj (item_ind' (fst kx)) (item_ind' (snd kx))) (go l')
                     end) l)
    | MNil => Hleaf MNil I | MBool b => Hleaf (MBool b) I | MFixInt z => Hleaf (MFixInt z) I
    | MUInt w z => Hleaf (MUInt w z) I | MSInt w z => Hleaf (MSInt w z) I
    | MF32 x => Hleaf (MF32 x) I | MF64 x => Hleaf (MF64 x) I
    | MStr f s => Hleaf (MStr f s) I | MBin f b => Hleaf (MBin f b) I
    end.
End ItemInd.

Lemma item_in_arr lim f l : item_in lim (MArr f l) <-> zlen l < seq_cap f /\ Forall (item_in lim) l.
Proof.
  cbn [item_in]. apply and_iff_compat_l. induction l as [|x l IH]; [split; constructor|].
  split; [intros [A B]; constructor; tauto|inversion 1; subst; tauto].
Qed.
Lemma item_in_map lim f l : item_in lim (MMap f l) <->
  zlen l < seq_cap f /\ Forall (fun kx => item_in lim (fst kx) /\ item_in lim (snd kx)) l.
Proof.
  cbn [item_in]. apply and_iff_compat_l. induction l as [|[k x] l IH]; [split; constructor|].
  split; [intros (A & B & C); constructor; tauto|inversion 1; subst; cbn in *; tauto].
Qed.

(** ** Markers *)
Ltac bytecase P m := apply (forall_upto P 256); [vm_compute; reflexivity|unfold is_byte in *; lia].
Lemma land224 m : is_byte m -> (Z.land m 224 =? 160) = ((160 <=? m) && (m <=? 191)).
Proof.
  intros H. apply eqb_prop.
  bytecase (fun m => eqb (Z.land m 224 =? 160) ((160 <=? m) && (m <=? 191))) m.
Qed.
Lemma land240a m : is_byte m -> (Z.land m 240 =? 144) = ((144 <=? m) && (m <=? 159)).
Proof.
  intros H. apply eqb_prop.
  bytecase (fun m => eqb (Z.land m 240 =? 144) ((144 <=? m) && (m <=? 159))) m.
Qed.
Lemma land240m m : is_byte m -> (Z.land m 240 =? 128) = ((128 <=? m) && (m <=? 143)).
Proof.
  intros H. apply eqb_prop.
  bytecase (fun m => eqb (Z.land m 240 =? 128) ((128 <=? m) && (m <=? 143))) m.
Qed.
Lemma land31 n : 0 <= n < 32 -> Z.land (160 + n) 31 = n.
Proof.
  intros H. apply Z.eqb_eq. apply (forall_upto (fun n => Z.land (160 + n) 31 =? n) 32); [vm_compute; reflexivity|lia].
Qed.
Lemma land15a n : 0 <= n < 16 -> Z.land (144 + n) 15 = n.
Proof.
  intros H. apply Z.eqb_eq. apply (forall_upto (fun n => Z.land (144 + n) 15 =? n) 16); [vm_compute; reflexivity|lia].
Qed.
Lemma land15m n : 0 <= n < 16 -> Z.land (128 + n) 15 = n.
Proof.
  intros H. apply Z.eqb_eq. apply (forall_upto (fun n => Z.land (128 + n) 15 =? n) 16); [vm_compute; reflexivity|lia].
Qed.

(** ** Big-endian numbers *)
Lemma zlen_be n v : zlen (be n v) = Z.of_nat n.
Proof. induction n as [|n IH]; [reflexivity|]. cbn [be]. rewrite zlen_cons, IH. lia. Qed.
Lemma be_byte v k : is_byte ((v / 256 ^ k) mod 256).
Proof. unfold is_byte. apply Z.mod_pos_bound. lia. Qed.
Lemma bytes_ok_be n v : bytes_ok (be n v).
Proof. induction n as [|n IH]; [constructor|]. cbn [be]. apply bytes_ok_cons. split; [apply be_byte|exact IH]. Qed.

Definition horner (l : bytes) : Z := fold_left (fun a b => a * 256 + b) l 0.
Lemma horner_acc l a : fold_left (fun a b => a * 256 + b) l a = a * 256 ^ zlen l + horner l.
Proof.
  unfold horner. revert a. induction l as [|b l IH]; intros a; [cbn; lia|].
  cbn [fold_left]. rewrite IH, (IH (0 * 256 + b)). rewrite zlen_cons, Z.pow_add_r; [|lia|apply zlen_nonneg]. lia.
Qed.
Lemma horner_cons b l : horner (b :: l) = b * 256 ^ zlen l + horner l.
Proof. unfold horner. cbn [fold_left]. rewrite horner_acc. unfold horner. lia. Qed.
Lemma horner_be n v : horner (be n v) = v mod 256 ^ Z.of_nat n.
Proof.
  induction n as [|n IH]; [cbn; now rewrite Z.mod_1_r|].
  cbn [be]. rewrite horner_cons, zlen_be, IH.
  rewrite Nat2Z.inj_succ, Z.pow_succ_r by lia.
  rewrite (Z.mul_comm 256). rewrite Z.rem_mul_r by (try (apply Z.pow_nonzero); lia). lia.
Qed.
Lemma horner_be_id n v : 0 <= v < 256 ^ Z.of_nat n -> horner (be n v) = v.
Proof. intros H. rewrite horner_be. now apply Z.mod_small. Qed.

Lemma lor_hi a n m y : 0 <= m <= n -> 0 <= y < 2^(n-m) ->
  Z.lor (Z.shiftl a n) (Z.shiftl y m) = Z.shiftl (a * 2^(n-m) + y) m.
Proof.
  intros H Hy. replace (Z.shiftl a n) with (Z.shiftl (Z.shiftl a (n-m)) m) by (rewrite Z.shiftl_shiftl by lia; f_equal; lia).
  rewrite <- Z.shiftl_lor. f_equal. rewrite Z.lor_comm, lor_shiftl by lia. lia.
Qed.
Lemma lor_hi0 a n y : 0 <= n -> 0 <= y < 2^n -> Z.lor (Z.shiftl a n) y = a * 2^n + y.
Proof. intros Hn Hy. rewrite Z.lor_comm, lor_shiftl by lia. lia. Qed.

Lemma read_be16_raw l p b0 b1 : has l p [b0; b1] -> is_byte b1 -> mp_read_be16 l p = Ok (horner [b0; b1]).
Proof.
  unfold is_byte. intros H H1. apply has_cons in H. destruct H as [A0 H].
  unfold mp_read_be16. rewrite (has_rd _ _ _ _ A0), (has_rd _ _ _ _ H). cbn [bind].
  rewrite lor_hi0 by lia. f_equal.
Qed.
Lemma read_be32_raw l p b0 b1 b2 b3 : has l p [b0; b1; b2; b3] -> bytes_ok [b1; b2; b3] ->
  mp_read_be32 l p = Ok (horner [b0; b1; b2; b3]).
Proof.
  unfold bytes_ok. intros H HB. inversion HB as [|? ? H1 HB1]; subst. inversion HB1 as [|? ? H2 HB2]; subst.
  inversion HB2 as [|? ? H3 _]; subst. clear HB HB1 HB2. unfold is_byte in *.
  apply has_cons in H. destruct H as [A0 H]. apply has_cons in H. destruct H as [A1 H].
  apply has_cons in H. destruct H as [A2 H].
  unfold mp_read_be32. rewrite (has_rd _ _ _ _ A0), (has_rd _ _ _ _ A1).
  replace (p + 2) with (p + 1 + 1) by lia. rewrite (has_rd _ _ _ _ A2).
  replace (p + 3) with (p + 1 + 1 + 1) by lia. rewrite (has_rd _ _ _ _ H). cbn [bind].
  rewrite !lor_hi by lia. rewrite lor_hi0 by lia. reflexivity.
Qed.
Lemma read_be64_raw l p b0 b1 b2 b3 b4 b5 b6 b7 : has l p [b0; b1; b2; b3; b4; b5; b6; b7] ->
  bytes_ok [b1; b2; b3; b4; b5; b6; b7] ->
  mp_read_be64 l p = Ok (horner [b0; b1; b2; b3; b4; b5; b6; b7]).
Proof.
  intros H HB. rewrite !bytes_ok_cons in HB. unfold is_byte in HB.
  destruct HB as (H1 & H2 & H3 & H4 & H5 & H6 & H7 & _).
  do 7 (apply has_cons in H; let A := fresh "A" in destruct H as [A H]).
  unfold mp_read_be64. rewrite (has_rd _ _ _ _ A), (has_rd _ _ _ _ A0).
  replace (p + 2) with (p + 1 + 1) by lia. rewrite (has_rd _ _ _ _ A1).
  replace (p + 3) with (p + 1 + 1 + 1) by lia. rewrite (has_rd _ _ _ _ A2).
  replace (p + 4) with (p + 1 + 1 + 1 + 1) by lia. rewrite (has_rd _ _ _ _ A3).
  replace (p + 5) with (p + 1 + 1 + 1 + 1 + 1) by lia. rewrite (has_rd _ _ _ _ A4).
  replace (p + 6) with (p + 1 + 1 + 1 + 1 + 1 + 1) by lia. rewrite (has_rd _ _ _ _ A5).
  replace (p + 7) with (p + 1 + 1 + 1 + 1 + 1 + 1 + 1) by lia. rewrite (has_rd _ _ _ _ H). cbn [bind].
  rewrite !lor_hi by (clear - H1 H2 H3 H4 H5 H6 H7; lia). rewrite lor_hi0 by (clear - H7; lia). reflexivity.
Qed.
Lemma read_be16_be l p v : has l p (be 2 v) -> 0 <= v < 65536 -> mp_read_be16 l p = Ok v.
Proof.
  intros H Hv. rewrite <- (horner_be_id 2 v) by (clear - Hv; cbn; lia).
  cbn [be]. apply read_be16_raw; [exact H|apply be_byte].
Qed.
Lemma read_be32_be l p v : has l p (be 4 v) -> 0 <= v < 2^32 -> mp_read_be32 l p = Ok v.
Proof.
  intros H Hv. rewrite <- (horner_be_id 4 v) by (clear - Hv; cbn; lia).
  pose proof (bytes_ok_be 3 v) as B. cbn [be] in *. apply read_be32_raw; [exact H|exact B].
Qed.
Lemma read_be64_be l p v : has l p (be 8 v) -> 0 <= v < 2^64 -> mp_read_be64 l p = Ok v.
Proof.
  intros H Hv. rewrite <- (horner_be_id 8 v) by (clear - Hv; cbn; lia).
  pose proof (bytes_ok_be 7 v) as B. cbn [be] in *. apply read_be64_raw; [exact H|exact B].
Qed.

(** ** Spans over encodings *)
Definition starts (v : mspan) (l : bytes) : Prop := has (ms_buf v) (ms_off v) l /\ zlen l <= ms_len v.

Lemma starts_at0 v x l : starts v (x :: l) -> sp_at v 0 = Ok x.
Proof.
  intros [H L]. rewrite zlen_cons in L. pose proof (zlen_nonneg l). unfold sp_at.
  replace ((0 <=? 0) && (0 <? ms_len v)) with true by lia. rewrite Z.add_0_r. apply (has_rd _ _ _ _ H).
Qed.
Lemma starts_at1 v x y l : starts v (x :: y :: l) -> sp_at v 1 = Ok y.
Proof.
  intros [H L]. rewrite !zlen_cons in L. pose proof (zlen_nonneg l). unfold sp_at.
  replace ((0 <=? 1) && (1 <? ms_len v)) with true by lia. apply has_cons in H. destruct H as [_ H].
  apply (has_rd _ _ _ _ H).
Qed.
Lemma starts_nonempty v x l : starts v (x :: l) -> sp_empty v = false.
Proof. intros [_ L]. rewrite zlen_cons in L. pose proof (zlen_nonneg l). unfold sp_empty. lia. Qed.
Lemma starts_len v l : starts v l -> zlen l <= ms_len v. Proof. now intros [_ L]. Qed.
Lemma starts_tail v x a l : starts v (x :: a ++ l) -> has (ms_buf v) (sp_ptr v 1) a.
Proof. intros [H _]. apply has_cons in H. destruct H as [_ H]. apply has_app in H. apply H. Qed.
Lemma starts_app_l v a b : starts v (a ++ b) -> starts v a.
Proof. intros [H L]. apply has_app in H. rewrite zlen_app in L. pose proof (zlen_nonneg b). split; [apply H|lia]. Qed.
Lemma starts_sub v a b : starts v (a ++ b) ->
  exists w, subspan v (zlen a) = Ok w /\ starts w b /\ ms_len w = ms_len v - zlen a.
Proof.
  intros [H L]. apply has_app in H. rewrite zlen_app in L. pose proof (zlen_nonneg b).
  unfold subspan. replace (zlen a <=? ms_len v) with true by lia. eexists. split; [reflexivity|].
  split; [|reflexivity]. split; cbn [ms_buf ms_off ms_len]; [apply H|lia].
Qed.
Lemma be1 v : 0 <= v < 256 -> be 1 v = [v].
Proof. intros H. cbn [be]. change (256 ^ Z.of_nat 0) with 1. rewrite Z.div_1_r. now rewrite Z.mod_small by lia. Qed.

(** ** Skipping *)
Ltac bool_if :=
  match goal with
  | |- context [if ?b then _ else _] =>
      match b with
      | context [if _ then _ else _] => fail 1
      | _ => first [replace b with true by (clear; reflexivity) | replace b with false by (clear; reflexivity)
                   | replace b with true by lia | replace b with false by lia]
      end
  end; cbv iota.

Lemma seq_loop skipf v : forall l (pre : bytes),
  starts v (pre ++ flat_map enc l) -> 1 <= zlen pre ->
  (forall x w, In x l -> starts w (enc x) -> ms_len w < ms_len v -> skipf w = Ok (zlen (enc x))) ->
  skip_seq skipf v (zlen l) (zlen pre) = Ok (zlen pre + zlen (flat_map enc l)).
Proof.
  intros l pre S Ho Hs. unfold skip_seq. rewrite zloop_nloop. unfold zlen at 1. rewrite Nat2Z.id.
  assert (G : nloop (R := unit) (length l) (fun off => w <- subspan v off ;; s <- skipf w ;; Ok (inl (off + s))) (zlen pre)
            = Ok (inl (zlen pre + zlen (flat_map enc l)))); [|rewrite G; reflexivity].
  revert pre S Ho. induction l as [|x l IH]; intros pre S Ho.
  - cbn [length nloop flat_map]. do 2 f_equal. cbn. lia.
  - cbn [length nloop flat_map] in *.
    assert (S' := S). apply starts_sub in S'. destruct S' as (w & -> & Sw & Lw).
    cbn [bind]. rewrite (Hs x w); [|now left|now apply starts_app_l in Sw|lia].
    cbn [bind]. rewrite <- zlen_app. rewrite IH.
    + rewrite !zlen_app. do 2 f_equal. lia.
    + intros y w' Hy. apply Hs. now right.
    + rewrite <- app_assoc. exact S.
    + rewrite zlen_app. pose proof (zlen_nonneg (enc x)). lia.
Qed.
Lemma pairs_loop skipf v : forall l (pre : bytes),
  starts v (pre ++ flat_map (fun kx => enc (fst kx) ++ enc (snd kx)) l) -> 1 <= zlen pre ->
  (forall kx w, In kx l -> starts w (enc (fst kx)) -> ms_len w < ms_len v -> skipf w = Ok (zlen (enc (fst kx)))) ->
  (forall kx w, In kx l -> starts w (enc (snd kx)) -> ms_len w < ms_len v -> skipf w = Ok (zlen (enc (snd kx)))) ->
  skip_pairs skipf v (zlen l) (zlen pre) = Ok (zlen pre + zlen (flat_map (fun kx => enc (fst kx) ++ enc (snd kx)) l)).
Proof.
  intros l pre S Ho Hk Hv. unfold skip_pairs. rewrite zloop_nloop. unfold zlen at 1. rewrite Nat2Z.id.
  match goal with |- (x <- nloop _ ?F _ ;; _) = _ => set (body := F) end.
  assert (G : nloop (R := unit) (length l) body (zlen pre)
            = Ok (inl (zlen pre + zlen (flat_map (fun kx => enc (fst kx) ++ enc (snd kx)) l)))); [|rewrite G; reflexivity].
  revert pre S Ho. induction l as [|[k x] l IH]; intros pre S Ho.
  - cbn [length nloop flat_map]. do 2 f_equal. cbn. lia.
  - cbn [length nloop flat_map fst snd] in *. rewrite <- app_assoc in S.
    unfold body at 1. assert (S' := S). apply starts_sub in S'. destruct S' as (w & -> & Sw & Lw).
    cbn [bind]. rewrite (Hk (k, x) w); [|now left|now apply starts_app_l in Sw|lia]. cbn [fst snd].
    cbn [bind]. rewrite <- zlen_app.
    assert (S2 := S). rewrite app_assoc in S2. assert (S3 := S2). apply starts_sub in S2. destruct S2 as (w2 & -> & Sw2 & Lw2).
    cbn [bind]. rewrite (Hv (k, x) w2); [|now left|now apply starts_app_l in Sw2|rewrite zlen_app in Lw2; pose proof (zlen_nonneg (enc k)); lia]. cbn [fst snd].
    cbn [bind]. rewrite <- zlen_app. rewrite IH.
    + rewrite !zlen_app. do 2 f_equal. lia.
    + intros y w' Hy. apply Hk. now right.
    + intros y w' Hy. apply Hv. now right.
    + rewrite <- app_assoc. exact S3.
    + rewrite !zlen_app. pose proof (zlen_nonneg (enc x)). pose proof (zlen_nonneg (enc k)). lia.
Qed.

Lemma ifs_const (b c : bool) {A} (x y : A) : b = c -> (if b then x else y) = (if c then x else y).
Proof. now intros ->. Qed.

Theorem skip_enc : forall it, item_in (2^32 - 5) it -> forall fuel v,
  starts v (enc it) -> ms_len v < Z.of_nat fuel -> mp_skip fuel v = Ok (zlen (enc it)).
Proof.
  induction it as [it Hl|f l IH|f l IH] using item_ind'; intros OK fuel v S F.
  - destruct fuel as [|fuel]; [pose proof (starts_len _ _ S); pose proof (zlen_nonneg (enc it)); lia|]. clear F.
    destruct it; try contradiction; cbn [item_in enc] in OK, S |- *; cbn [mp_skip].
    + rewrite (starts_nonempty _ _ _ S), (starts_at0 _ _ _ S). reflexivity.
    + rewrite (starts_nonempty _ _ _ S), (starts_at0 _ _ _ S). now destruct b.
    + rewrite (starts_nonempty _ _ _ S), (starts_at0 _ _ _ S). cbn [negb require bind].
      now replace ((z mod 256 <=? 127) || (224 <=? z mod 256) || (z mod 256 =? 192) || (z mod 256 =? 194) || (z mod 256 =? 195)) with true by lia.
    + rewrite (starts_nonempty _ _ _ S), (starts_at0 _ _ _ S). now destruct w.
    + rewrite (starts_nonempty _ _ _ S), (starts_at0 _ _ _ S). now destruct w.
    + rewrite (starts_nonempty _ _ _ S), (starts_at0 _ _ _ S). reflexivity.
    + rewrite (starts_nonempty _ _ _ S), (starts_at0 _ _ _ S). reflexivity.
    + destruct OK as [B L]. pose proof (zlen_nonneg s) as L0. destruct f; cbn [str_hdr str_cap app] in S, L |- *.
      * rewrite (starts_nonempty _ _ _ S), (starts_at0 _ _ _ S). cbn [negb require bind].
        rewrite land224 by (unfold is_byte; lia).
        do 2 bool_if. rewrite land31 by lia. now rewrite zlen_cons.
      * rewrite be1 in S |- * by lia. cbn [app] in S |- *.
        rewrite (starts_nonempty _ _ _ S), (starts_at0 _ _ _ S), (starts_at1 _ _ _ _ S).
        pose proof (starts_len _ _ S) as SL. rewrite !zlen_cons in SL. cbn -[zlen Z.ltb Z.add]. unfold require.
        bool_if. cbn [bind]. f_equal. rewrite !zlen_cons. lia.
      * rewrite (starts_nonempty _ _ _ S), (starts_at0 _ _ _ S), (read_be16_be _ _ _ (starts_tail _ _ _ _ S)) by lia.
        pose proof (starts_len _ _ S) as SL. rewrite zlen_cons, zlen_app, zlen_be in SL. cbn -[zlen Z.ltb Z.add be]. unfold require.
        bool_if. cbn [bind]. f_equal. rewrite !zlen_cons, zlen_app, zlen_be. lia.
      * rewrite (starts_nonempty _ _ _ S), (starts_at0 _ _ _ S), (read_be32_be _ _ _ (starts_tail _ _ _ _ S)) by lia.
        pose proof (starts_len _ _ S) as SL. rewrite zlen_cons, zlen_app, zlen_be in SL. cbn -[zlen Z.ltb Z.add be wrap32]. unfold require.
        bool_if. cbn [bind]. f_equal. rewrite !zlen_cons, zlen_app, zlen_be. rewrite wrap32_small by lia. lia.
    + destruct OK as [B L]. pose proof (zlen_nonneg b) as L0. destruct f; cbn [bin_hdr bin_cap app] in S, L |- *.
      * lia.
      * rewrite be1 in S |- * by lia. cbn [app] in S |- *.
        rewrite (starts_nonempty _ _ _ S), (starts_at0 _ _ _ S), (starts_at1 _ _ _ _ S).
        pose proof (starts_len _ _ S) as SL. rewrite !zlen_cons in SL. cbn -[zlen Z.ltb Z.add]. unfold require.
        bool_if. cbn [bind]. f_equal. rewrite !zlen_cons. lia.
      * rewrite (starts_nonempty _ _ _ S), (starts_at0 _ _ _ S), (read_be16_be _ _ _ (starts_tail _ _ _ _ S)) by lia.
        pose proof (starts_len _ _ S) as SL. rewrite zlen_cons, zlen_app, zlen_be in SL. cbn -[zlen Z.ltb Z.add be]. unfold require.
        bool_if. cbn [bind]. f_equal. rewrite !zlen_cons, zlen_app, zlen_be. lia.
      * rewrite (starts_nonempty _ _ _ S), (starts_at0 _ _ _ S), (read_be32_be _ _ _ (starts_tail _ _ _ _ S)) by lia.
        pose proof (starts_len _ _ S) as SL. rewrite zlen_cons, zlen_app, zlen_be in SL. cbn -[zlen Z.ltb Z.add be wrap32]. unfold require.
        bool_if. cbn [bind]. f_equal. rewrite !zlen_cons, zlen_app, zlen_be. rewrite wrap32_small by lia. lia.
  - destruct fuel as [|fuel]; [pose proof (starts_len _ _ S); pose proof (zlen_nonneg (enc (MArr f l))); lia|].
    apply item_in_arr in OK. destruct OK as [L OK]. rewrite Forall_forall in IH, OK. pose proof (zlen_nonneg l) as L0.
    assert (HS : forall x w, In x l -> starts w (enc x) -> ms_len w < ms_len v -> mp_skip fuel w = Ok (zlen (enc x))).
    { intros x w Hx Sx Lx. apply IH; auto. lia. }
    cbn [enc] in S |- *. rewrite zlen_app. pose proof (seq_loop (mp_skip fuel) v l _ S) as LOOP.
    destruct f; cbn [arr_hdr seq_cap app] in S, L, LOOP |- *; cbn [mp_skip].
    + rewrite (starts_nonempty _ _ _ S), (starts_at0 _ _ _ S). cbn [negb require bind].
      rewrite land224, land240a by (unfold is_byte; lia).
      do 3 bool_if. rewrite land15a by lia. apply LOOP; [discriminate|exact HS].
    + lia.
    + rewrite (starts_nonempty _ _ _ S), (starts_at0 _ _ _ S), (read_be16_be _ _ _ (starts_tail _ _ _ _ S)) by lia.
      pose proof (starts_len _ _ S) as SL. rewrite zlen_cons, zlen_app, zlen_be in SL. pose proof (zlen_nonneg (flat_map enc l)).
      cbn -[zlen Z.ltb Z.add be skip_seq]. unfold require. bool_if. cbn [bind]. apply LOOP; [discriminate|exact HS].
    + rewrite (starts_nonempty _ _ _ S), (starts_at0 _ _ _ S), (read_be32_be _ _ _ (starts_tail _ _ _ _ S)) by lia.
      pose proof (starts_len _ _ S) as SL. rewrite zlen_cons, zlen_app, zlen_be in SL. pose proof (zlen_nonneg (flat_map enc l)).
      cbn -[zlen Z.ltb Z.add be skip_seq]. unfold require. bool_if. cbn [bind]. apply LOOP; [discriminate|exact HS].
  - destruct fuel as [|fuel]; [pose proof (starts_len _ _ S); pose proof (zlen_nonneg (enc (MMap f l))); lia|].
    apply item_in_map in OK. destruct OK as [L OK]. rewrite Forall_forall in IH, OK. pose proof (zlen_nonneg l) as L0.
    assert (HK : forall kx w, In kx l -> starts w (enc (fst kx)) -> ms_len w < ms_len v -> mp_skip fuel w = Ok (zlen (enc (fst kx)))).
    { intros x w Hx Sx Lx. apply IH; auto. now apply OK. lia. }
    assert (HV : forall kx w, In kx l -> starts w (enc (snd kx)) -> ms_len w < ms_len v -> mp_skip fuel w = Ok (zlen (enc (snd kx)))).
    { intros x w Hx Sx Lx. apply IH; auto. now apply OK. lia. }
    cbn [enc] in S |- *. rewrite zlen_app. pose proof (pairs_loop (mp_skip fuel) v l _ S) as LOOP.
    set (P := flat_map (fun kx => enc (fst kx) ++ enc (snd kx)) l) in *. pose proof (zlen_nonneg P).
    destruct f; cbn [map_hdr seq_cap app] in S, L, LOOP |- *; cbn [mp_skip].
    + rewrite (starts_nonempty _ _ _ S), (starts_at0 _ _ _ S). cbn [negb require bind].
      rewrite land224, land240a, land240m by (unfold is_byte; lia).
      do 4 bool_if. rewrite land15m by lia. apply LOOP; [discriminate|exact HK|exact HV].
    + lia.
    + rewrite (starts_nonempty _ _ _ S), (starts_at0 _ _ _ S), (read_be16_be _ _ _ (starts_tail _ _ _ _ S)) by lia.
      pose proof (starts_len _ _ S) as SL. rewrite zlen_cons, zlen_app, zlen_be in SL.
      cbn -[zlen Z.ltb Z.add be skip_pairs]. unfold require. bool_if. cbn [bind]. apply LOOP; [discriminate|exact HK|exact HV].
    + rewrite (starts_nonempty _ _ _ S), (starts_at0 _ _ _ S), (read_be32_be _ _ _ (starts_tail _ _ _ _ S)) by lia.
      pose proof (starts_len _ _ S) as SL. rewrite zlen_cons, zlen_app, zlen_be in SL.
      cbn -[zlen Z.ltb Z.add be skip_pairs]. unfold require. bool_if. cbn [bind]. apply LOOP; [discriminate|exact HK|exact HV].
Qed.

(** ** Leaf observations *)
Definition spans (w : mspan) (it : item) : Prop :=
  has (ms_buf w) (ms_off w) (enc it) /\ ms_len w = zlen (enc it).
Lemma spans_starts w it : spans w it -> starts w (enc it).
Proof. intros [H L]. split; [exact H|lia]. Qed.

Definition kinds (m : Z) : list bool :=
  [k_null m; k_bool m; k_int m; k_uint m; k_float m; k_string m; k_blob m; k_map m; k_array m].
Definition kinds_eqb (a b : list bool) : bool := if list_eq_dec bool_dec a b then true else false.
Lemma kinds_eqb_eq a b : kinds_eqb a b = true -> a = b.
Proof. unfold kinds_eqb. destruct (list_eq_dec bool_dec a b); auto; discriminate. Qed.
Definition tkinds (t : table) : list bool :=
  [t_null t; t_bool t; t_int t; t_uint t; t_float t; t_string t; t_blob t; t_map t; t_array t].

Lemma mp_is_at p w m l : starts w (m :: l) -> mp_is p w = Ok (p m).
Proof. intros S. unfold mp_is. rewrite (starts_nonempty _ _ _ S), (starts_at0 _ _ _ S). reflexivity. Qed.

Section Neg.
  Context (w : mspan) (m : Z) (l : bytes) (S : starts w (m :: l)).
  Let A0 := starts_at0 _ _ _ S.
  Let NE := starts_nonempty _ _ _ S.
  Lemma no_bool : k_bool m = false -> mp_asBool w = Throw EDeser.
  Proof. intros K. unfold mp_asBool. rewrite (mp_is_at _ _ _ _ S), K. reflexivity. Qed.
  Lemma no_double : k_float m = false -> mp_asDouble w = Throw EDeser.
  Proof. intros K. unfold mp_asDouble. rewrite (mp_is_at _ _ _ _ S), K. reflexivity. Qed.
  Lemma no_str : k_string m = false -> mp_asStringView w = Throw EDeser.
  Proof.
    unfold k_string. intros K. unfold mp_asStringView, str_info. rewrite A0. cbn [bind].
    destruct (Z.land m 224 =? 160); [discriminate|]. destruct (m =? 217); [discriminate|].
    destruct (m =? 218); [discriminate|]. destruct (m =? 219); [discriminate|]. reflexivity.
  Qed.
  Lemma no_blob : k_blob m = false -> mp_asBlob w = Throw EDeser.
  Proof.
    unfold k_blob. intros K. unfold mp_asBlob, bin_info. rewrite A0. cbn [bind].
    destruct (m =? 196); [discriminate|].
    destruct (m =? 197); [discriminate|]. destruct (m =? 198); [discriminate|]. reflexivity.
  Qed.
  Lemma no_arr : k_array m = false -> arr_info w = Throw EDeser.
  Proof.
    unfold k_array. intros K. unfold arr_info. rewrite A0. cbn [bind].
    destruct (Z.land m 240 =? 144); [discriminate|].
    destruct (m =? 220); [discriminate|]. destruct (m =? 221); [discriminate|]. reflexivity.
  Qed.
  Lemma no_int64 : k_int m = false -> k_uint m = false -> mp_asInt64 w = Throw EDeser.
  Proof.
    unfold k_int, k_uint. intros K1 K2. unfold mp_asInt64. rewrite A0, NE. cbn [negb require bind].
    destruct (m <=? 127); [discriminate|]. destruct (224 <=? m); [discriminate|].
    destruct (m =? 208); [discriminate|]. destruct (m =? 209); [discriminate|].
    destruct (m =? 210); [discriminate|]. destruct (m =? 211); [discriminate|].
    destruct (m =? 204); [discriminate|]. destruct (m =? 205); [discriminate|].
    destruct (m =? 206); [discriminate|]. destruct (m =? 207); [discriminate|]. reflexivity.
  Qed.
  Lemma no_uint64 : k_int m = false -> k_uint m = false -> mp_asUInt64 w = Throw EDeser.
  Proof.
    intros K1 K2. pose proof (no_int64 K1 K2) as N. unfold k_int, k_uint in *. unfold mp_asUInt64. rewrite A0, NE, N. cbn [negb require bind].
    destruct (m <=? 127); [discriminate|].
    destruct (m =? 204); [discriminate|]. destruct (m =? 205); [discriminate|].
    destruct (m =? 206); [discriminate|]. destruct (m =? 207); [discriminate|]. reflexivity.
  Qed.
  Lemma no_int iw : k_int m = false -> k_uint m = false -> mp_asInt iw w = Throw EDeser.
  Proof. intros. unfold mp_asInt. now rewrite no_int64. Qed.
  Lemma no_uint iw : k_int m = false -> k_uint m = false -> mp_asUInt iw w = Throw EDeser.
  Proof. intros. unfold mp_asUInt. now rewrite no_uint64. Qed.
  (** container operations *)
  Lemma no_size : k_array m = false -> mp_arraySize w = Throw EDeser.
  Proof. intros. unfold mp_arraySize. now rewrite no_arr. Qed.
  Lemma no_idx i : k_array m = false -> mp_idx w i = Throw EDeser.
  Proof. intros. unfold mp_idx. now rewrite no_arr. Qed.
  Lemma no_key k : k_map m = false -> mp_key w k = Throw EDeser.
  Proof. intros K. unfold mp_key. rewrite (mp_is_at _ _ _ _ S), K. reflexivity. Qed.
  Lemma no_contains k : k_map m = false -> mp_contains w k = Ok false.
  Proof. intros K. unfold mp_contains. rewrite (mp_is_at _ _ _ _ S), K. reflexivity. Qed.
  Lemma no_keys : k_map m = false -> mp_keys w = Throw EDeser.
  Proof. intros K. unfold mp_keys. rewrite (mp_is_at _ _ _ _ S), K. reflexivity. Qed.
End Neg.

Lemma int_acc w z : mp_asInt64 w = Ok (to_signed 64 z) -> mp_asUInt64 w = Ok (z mod 2^64) ->
  (forall iw, mp_asInt iw w = or_throw (fits_s iw (to_signed 64 z))) /\
  (forall iw, mp_asUInt iw w = or_throw (fits_u iw (z mod 2^64))).
Proof.
  intros HS HU. split; intros iw.
  - unfold mp_asInt. rewrite HS. unfold require. rewrite fits_s_spec; [reflexivity|].
    unfold is_i64, i64_min, i64_max, to_signed. clear. change (2^(64-1)) with (2^63).
    destruct (z mod 2^64 <? 2^63) eqn:E; lia.
  - unfold mp_asUInt. rewrite HU. unfold require. rewrite fits_u_spec; [reflexivity|].
    unfold is_u64, u64_max. clear. lia.
Qed.

Lemma observes_int w m l a b z : starts w (m :: l) ->
  kinds m = tkinds (int_tbl a b z) -> a || b = true ->
  mp_asInt64 w = Ok (to_signed 64 z) -> mp_asUInt64 w = Ok (z mod 2^64) ->
  observes mp_reader w (int_tbl a b z).
Proof.
  intros S K AB HS HU. destruct (int_acc w z HS HU) as [GS GU]. unfold kinds, tkinds in K.
  injection K as K1 K2 K3 K4 K5 K6 K7 K8 K9.
  repeat apply conj; cbn [mp_reader r_isNull r_isBool r_isInt r_isUInt r_isFloat r_isString r_isBlob r_isMap r_isArray r_asBool r_asInt r_asUInt r_asDouble r_asString r_asStringView r_asBlob];
    try (rewrite (mp_is_at _ _ _ _ S); now f_equal).
  - apply (no_bool _ _ _ S K2).
  - exact GS.
  - exact GU.
  - apply (no_double _ _ _ S K5).
  - now rewrite (no_str _ _ _ S K6).
  - now rewrite (no_str _ _ _ S K6).
  - now rewrite (no_blob _ _ _ S K7).
Qed.

Lemma observes_other w m l t : starts w (m :: l) ->
  kinds m = tkinds t -> t_int t = false -> t_uint t = false ->
  (forall iw, t_asInt t iw = None) -> (forall iw, t_asUInt t iw = None) ->
  (if t_bool t then mp_asBool w = or_throw (t_asBool t) else t_asBool t = None) ->
  (if t_float t then mp_asDouble w = or_throw (t_asDouble t) else t_asDouble t = None) ->
  (if t_string t then (x <- mp_asStringView w ;; rd_view (ms_buf w) x) = or_throw (t_asString t) else t_asString t = None) ->
  (if t_blob t then (x <- mp_asBlob w ;; rd_view (ms_buf w) x) = or_throw (t_asBlob t) else t_asBlob t = None) ->
  observes mp_reader w t.
Proof.
  intros S K NI NU TI TU HB HF HS HL. unfold kinds, tkinds in K.
  injection K as K1 K2 K3 K4 K5 K6 K7 K8 K9.
  repeat apply conj; cbn [mp_reader r_isNull r_isBool r_isInt r_isUInt r_isFloat r_isString r_isBlob r_isMap r_isArray r_asBool r_asInt r_asUInt r_asDouble r_asString r_asStringView r_asBlob];
    try (rewrite (mp_is_at _ _ _ _ S); now f_equal).
  - destruct (t_bool t); [exact HB|]. rewrite HB. apply (no_bool _ _ _ S K2).
  - intros iw. rewrite TI. apply (no_int _ _ _ S); congruence.
  - intros iw. rewrite TU. apply (no_uint _ _ _ S); congruence.
  - destruct (t_float t); [exact HF|]. rewrite HF. apply (no_double _ _ _ S K5).
  - destruct (t_string t); [exact HS|]. rewrite HS. now rewrite (no_str _ _ _ S K6).
  - destruct (t_string t); [exact HS|]. rewrite HS. now rewrite (no_str _ _ _ S K6).
  - destruct (t_blob t); [exact HL|]. rewrite HL. now rewrite (no_blob _ _ _ S K7).
Qed.

Lemma be_starts w m n v : starts w (m :: be n v) -> has (ms_buf w) (sp_ptr w 1) (be n v).
Proof. intros S. rewrite <- (app_nil_r (be n v)) in S. now apply starts_tail in S. Qed.

Lemma kinds_fix z : -32 <= z < 128 -> kinds (z mod 256) = tkinds (int_tbl true (0 <=? z) z).
Proof.
  intros H. apply kinds_eqb_eq. replace z with ((z + 32) - 32) by lia.
  apply (forall_upto (fun n => kinds_eqb (kinds ((n - 32) mod 256)) (tkinds (int_tbl true (0 <=? n - 32) (n - 32)))) 160);
    [vm_compute; reflexivity|lia].
Qed.
Lemma kinds_str n : 0 <= n < 32 -> kinds (160 + n) = tkinds (ideal (VStr [])).
Proof.
  intros H. apply kinds_eqb_eq.
  apply (forall_upto (fun n => kinds_eqb (kinds (160 + n)) (tkinds (ideal (VStr [])))) 32); [vm_compute; reflexivity|lia].
Qed.
Lemma kinds_arr n : 0 <= n < 16 -> kinds (144 + n) = tkinds (ideal (VArr [])).
Proof.
  intros H. apply kinds_eqb_eq.
  apply (forall_upto (fun n => kinds_eqb (kinds (144 + n)) (tkinds (ideal (VArr [])))) 16); [vm_compute; reflexivity|lia].
Qed.
Lemma kinds_map n : 0 <= n < 16 -> kinds (128 + n) = tkinds (ideal (VMap [])).
Proof.
  intros H. apply kinds_eqb_eq.
  apply (forall_upto (fun n => kinds_eqb (kinds (128 + n)) (tkinds (ideal (VMap [])))) 16); [vm_compute; reflexivity|lia].
Qed.

Lemma to_signed64_id z : -2^63 <= z < 2^63 -> to_signed 64 z = z.
Proof. intros H. apply to_signed_id; [lia|exact H]. Qed.

Lemma observes_fix w z : -32 <= z < 128 -> starts w [z mod 256] -> observes mp_reader w (int_tbl true (0 <=? z) z).
Proof.
  intros H S. apply (observes_int w _ _ _ _ _ S (kinds_fix z H)); [reflexivity| |].
  - unfold mp_asInt64. rewrite (starts_nonempty _ _ _ S), (starts_at0 _ _ _ S). cbn [negb require bind].
    rewrite to_signed64_id by (clear - H; lia). destruct (z mod 256 <=? 127) eqn:E; [f_equal; clear - H E; lia|].
    replace (224 <=? z mod 256) with true by (clear - H E; lia).
    f_equal. change 256 with (2^8). apply to_signed_wrap; clear - H; lia.
  - unfold mp_asUInt64. rewrite (starts_nonempty _ _ _ S), (starts_at0 _ _ _ S). cbn [negb require bind].
    destruct (z mod 256 <=? 127) eqn:E; [f_equal; clear - H E; lia|].
    do 4 (replace (z mod 256 =? _) with false by (clear - H E; lia)).
    unfold mp_asInt64. rewrite (starts_nonempty _ _ _ S), (starts_at0 _ _ _ S). cbn [negb require bind]. rewrite E.
    replace (224 <=? z mod 256) with true by (clear - H E; lia). cbn [bind]. unfold wrap64.
    do 2 f_equal. change 256 with (2^8). apply to_signed_wrap; clear - H; lia.
Qed.

Ltac len_ok S := let SL := fresh "SL" in pose proof (starts_len _ _ S) as SL; rewrite ?zlen_cons, ?zlen_be in SL; cbn [ibytes Z.of_nat Pos.of_succ_nat Pos.succ] in SL;
  rewrite ?zlen_nil in SL.
Lemma observes_uint w iw z : 0 <= z <= umax iw -> starts w (wsel iw 204 :: be (ibytes iw) z) ->
  observes mp_reader w (int_tbl false true z).
Proof.
  intros H S. assert (HZ : 0 <= z < 2^64) by (clear - H; destruct iw; cbn in H; lia).
  assert (U : mp_asUInt64 w = Ok (z mod 2^64)).
  { rewrite (Z.mod_small _ _ HZ). unfold mp_asUInt64.
    rewrite (starts_nonempty _ _ _ S), (starts_at0 _ _ _ S). cbn [negb require bind].
    assert (H2 : 0 <= z < 2^ibits iw) by (clear - H; unfold umax in H; lia). clear H. rename H2 into H.
    destruct iw; cbn [wsel ibytes ibits] in *.
    - rewrite be1 in S by (clear - H; lia). len_ok S. cbn -[zlen Z.ltb]. unfold require. bool_if. cbn [bind].
      apply (starts_at1 _ _ _ _ S).
    - len_ok S. cbn -[zlen Z.ltb]. unfold require. bool_if. cbn [bind].
      apply (read_be16_be _ _ _ (be_starts _ _ _ _ S)). clear - H; lia.
    - len_ok S. cbn -[zlen Z.ltb]. unfold require. bool_if. cbn [bind].
      apply (read_be32_be _ _ _ (be_starts _ _ _ _ S)). clear - H; lia.
    - len_ok S. cbn -[zlen Z.ltb]. unfold require. bool_if. cbn [bind].
      apply (read_be64_be _ _ _ (be_starts _ _ _ _ S)). clear - H; lia. }
  apply (observes_int w _ _ _ _ _ S); [now destruct iw|reflexivity| |exact U].
  unfold mp_asInt64, mp_asUInt64 in *. rewrite (starts_nonempty _ _ _ S), (starts_at0 _ _ _ S) in *. cbn [negb require bind] in *.
  rewrite (Z.mod_small _ _ HZ) in U.
  destruct iw; cbn [wsel] in *; cbn -[zlen Z.ltb mp_read_be16 mp_read_be32 mp_read_be64 sp_at to_signed] in U |- *.
  1-3: rewrite to_signed64_id by (clear - H; cbn in H; lia); exact U.
  destruct (require _ _); cbn [bind] in U |- *; try discriminate. rewrite U. reflexivity.
Qed.
Lemma observes_sint w iw z : smin iw <= z <= smax iw -> starts w (wsel iw 208 :: be (ibytes iw) (z mod 2 ^ ibits iw)) ->
  observes mp_reader w (int_tbl true false z).
Proof.
  intros H S. assert (HZ : -2^63 <= z < 2^63) by (clear - H; destruct iw; cbn in H; lia).
  assert (HB : -2^(ibits iw - 1) <= z < 2^(ibits iw - 1)) by (clear - H; unfold smin, smax in H; lia).
  assert (I : mp_asInt64 w = Ok z).
  { unfold mp_asInt64.
    rewrite (starts_nonempty _ _ _ S), (starts_at0 _ _ _ S). cbn [negb require bind].
    rewrite <- (to_signed_wrap (ibits iw) z ltac:(clear; destruct iw; cbn; lia) HB).
    pose proof (Z.mod_pos_bound z (2^ibits iw) ltac:(clear; destruct iw; reflexivity)) as HM.
    set (y := z mod 2^ibits iw) in *.
    destruct iw; cbn [wsel ibytes ibits] in *.
    - rewrite be1 in S by (clear - HM; lia). len_ok S. cbn -[zlen Z.ltb to_signed]. unfold require. bool_if. cbn [bind].
      rewrite (starts_at1 _ _ _ _ S). reflexivity.
    - len_ok S. cbn -[zlen Z.ltb to_signed]. unfold require. bool_if. cbn [bind].
      rewrite (read_be16_be _ _ _ (be_starts _ _ _ _ S)) by (clear - HM; lia). reflexivity.
    - len_ok S. cbn -[zlen Z.ltb to_signed]. unfold require. bool_if. cbn [bind].
      rewrite (read_be32_be _ _ _ (be_starts _ _ _ _ S)) by (clear - HM; lia). reflexivity.
    - len_ok S. cbn -[zlen Z.ltb to_signed]. unfold require. bool_if. cbn [bind].
      rewrite (read_be64_be _ _ _ (be_starts _ _ _ _ S)) by (clear - HM; lia). reflexivity. }
  apply (observes_int w _ _ _ _ _ S); [now destruct iw|reflexivity| |].
  - now rewrite to_signed64_id.
  - unfold mp_asUInt64. rewrite (starts_nonempty _ _ _ S), (starts_at0 _ _ _ S). cbn [negb require bind].
    rewrite I. now destruct iw.
Qed.

Lemma view_rd w a s : has (ms_buf w) (ms_off w) (a ++ s) -> rd_view (ms_buf w) (sp_ptr w (zlen a), zlen s) = Ok s.
Proof. intros H. apply has_app in H. apply has_rd_view, H. Qed.

Lemma str_read w f s lim : lim <= 2^32 -> zlen s < str_cap lim f -> starts w (str_hdr f (zlen s) ++ s) ->
  mp_asStringView w = Ok (sp_ptr w (zlen (str_hdr f (zlen s))), zlen s).
Proof.
  intros HL L S. pose proof (zlen_nonneg s) as L0. unfold mp_asStringView, str_info.
  destruct f; cbn [str_hdr str_cap app] in S, L |- *.
  - rewrite (starts_at0 _ _ _ S). cbn [bind]. rewrite land224 by (unfold is_byte; lia).
    bool_if. now rewrite land31 by lia.
  - rewrite be1 in S |- * by lia. cbn [app] in S. rewrite (starts_at0 _ _ _ S), (starts_at1 _ _ _ _ S). reflexivity.
  - rewrite (starts_at0 _ _ _ S), (read_be16_be _ _ _ (starts_tail _ _ _ _ S)) by lia. reflexivity.
  - rewrite (starts_at0 _ _ _ S), (read_be32_be _ _ _ (starts_tail _ _ _ _ S)) by lia. reflexivity.
Qed.
Lemma bin_read w f s lim : lim <= 2^32 -> zlen s < bin_cap lim f -> starts w (bin_hdr f (zlen s) ++ s) ->
  mp_asBlob w = Ok (sp_ptr w (zlen (bin_hdr f (zlen s))), zlen s).
Proof.
  intros HL L S. pose proof (zlen_nonneg s) as L0. unfold mp_asBlob, bin_info.
  destruct f; cbn [bin_hdr bin_cap app] in S, L |- *.
  - lia.
  - rewrite be1 in S |- * by lia. cbn [app] in S. rewrite (starts_at0 _ _ _ S), (starts_at1 _ _ _ _ S). reflexivity.
  - rewrite (starts_at0 _ _ _ S), (read_be16_be _ _ _ (starts_tail _ _ _ _ S)) by lia. reflexivity.
  - rewrite (starts_at0 _ _ _ S), (read_be32_be _ _ _ (starts_tail _ _ _ _ S)) by lia. reflexivity.
Qed.

(** The marker of an object. *)
Lemma enc_marker lim it : item_in lim it -> exists m l, enc it = m :: l /\ kinds m = tkinds (item_table it).
Proof.
  intros OK. destruct it; cbn [enc item_in] in *; try (eexists; eexists; split; reflexivity).
  - eexists; eexists; split; [reflexivity|]. now destruct b.
  - eexists; eexists; split; [reflexivity|]. now apply kinds_fix.
  - eexists; eexists; split; [reflexivity|]. now destruct w.
  - eexists; eexists; split; [reflexivity|]. now destruct w.
  - destruct OK as [_ L]. pose proof (zlen_nonneg s).
    destruct f; cbn [str_hdr str_cap app] in *; eexists; eexists; (split; [reflexivity|]); try reflexivity. apply kinds_str. lia.
  - destruct OK as [_ L]. pose proof (zlen_nonneg b).
    destruct f; cbn [bin_hdr bin_cap app] in *; [lia|..]; eexists; eexists; (split; [reflexivity|]); reflexivity.
  - destruct OK as [L _]. pose proof (zlen_nonneg l).
    destruct f; cbn [arr_hdr seq_cap app] in *; [|lia|..]; eexists; eexists; (split; [reflexivity|]); try reflexivity. apply kinds_arr. lia.
  - destruct OK as [L _]. pose proof (zlen_nonneg l).
    destruct f; cbn [map_hdr seq_cap app] in *; [|lia|..]; eexists; eexists; (split; [reflexivity|]); try reflexivity. apply kinds_map. lia.
Qed.

Theorem observes_item w it lim : lim <= 2^32 -> item_in lim it -> starts w (enc it) -> observes mp_reader w (item_table it).
Proof.
  intros HL OK S. destruct (enc_marker lim it OK) as (m & l & E & K).
  destruct it; cbn [item_in item_table] in *.
  - rewrite E in S. apply (observes_other w m l _ S K); cbn; auto.
  - rewrite E in S. apply (observes_other w m l _ S K); cbn [ideal t_int t_uint t_asInt t_asUInt t_bool t_float t_string t_blob t_asBool t_asDouble t_asString t_asBlob]; auto.
    unfold mp_asBool. rewrite (mp_is_at _ _ _ _ S), (starts_at0 _ _ _ S). injection E as <- <-. now destruct b.
  - now apply observes_fix.
  - now apply (observes_uint w w0).
  - now apply (observes_sint w w0).
  - cbn [enc] in E, S. injection E as <- <-.
    apply (observes_other w _ _ _ S K); cbn [ideal t_int t_uint t_asInt t_asUInt t_bool t_float t_string t_blob t_asBool t_asDouble t_asString t_asBlob]; auto.
    unfold mp_asDouble. rewrite (mp_is_at _ _ _ _ S), (starts_at0 _ _ _ S), (read_be32_be _ _ _ (be_starts _ _ _ _ S)) by exact OK.
    len_ok S. cbn -[zlen Z.ltb f32_to_f64]. unfold require. bool_if. reflexivity.
  - cbn [enc] in E, S. injection E as <- <-.
    apply (observes_other w _ _ _ S K); cbn [ideal t_int t_uint t_asInt t_asUInt t_bool t_float t_string t_blob t_asBool t_asDouble t_asString t_asBlob]; auto.
    unfold mp_asDouble. rewrite (mp_is_at _ _ _ _ S), (starts_at0 _ _ _ S), (read_be64_be _ _ _ (be_starts _ _ _ _ S)) by exact OK.
    len_ok S. cbn -[zlen Z.ltb]. unfold require. bool_if. reflexivity.
  - assert (S' := S). rewrite E in S'. destruct OK as [B L].
    apply (observes_other w m l _ S' K); cbn [ideal t_int t_uint t_asInt t_asUInt t_bool t_float t_string t_blob t_asBool t_asDouble t_asString t_asBlob]; auto.
    cbn [enc] in S. rewrite (str_read w f s lim HL L S). cbn [bind]. apply view_rd. apply S.
  - assert (S' := S). rewrite E in S'. destruct OK as [B L].
    apply (observes_other w m l _ S' K); cbn [ideal t_int t_uint t_asInt t_asUInt t_bool t_float t_string t_blob t_asBool t_asDouble t_asString t_asBlob]; auto.
    cbn [enc] in S. rewrite (bin_read w f b lim HL L S). cbn [bind]. apply view_rd. apply S.
  - rewrite E in S. apply (observes_other w m _ _ S K); cbn; auto.
  - rewrite E in S. apply (observes_other w m _ _ S K); cbn; auto.
Qed.

(** ** Containers *)
Lemma skip_ok it w : item_small it -> starts w (enc it) -> skip w = Ok (zlen (enc it)).
Proof. intros OK S. apply skip_enc; auto. pose proof (starts_len _ _ S). pose proof (zlen_nonneg (enc it)). lia. Qed.
Lemma first_spans it w : starts w (enc it) -> exists c, first w (zlen (enc it)) = Ok c /\ spans c it.
Proof.
  intros [H L]. unfold first. replace (zlen (enc it) <=? ms_len w) with true by lia.
  eexists. split; [reflexivity|]. split; [exact H|reflexivity].
Qed.

Lemma arr_info_ok lim w f l : item_in lim (MArr f l) -> starts w (enc (MArr f l)) ->
  arr_info w = Ok (zlen l, zlen (arr_hdr f (zlen l))) /\ 1 <= zlen (arr_hdr f (zlen l)).
Proof.
  intros OK S. apply item_in_arr in OK. destruct OK as [L _]. pose proof (zlen_nonneg l) as L0.
  cbn [enc] in S. unfold arr_info. destruct f; cbn [arr_hdr seq_cap app] in *.
  - rewrite (starts_at0 _ _ _ S). cbn [bind]. rewrite land240a by (unfold is_byte; lia). bool_if. rewrite land15a by lia.
    split; [reflexivity|discriminate].
  - lia.
  - rewrite (starts_at0 _ _ _ S), (read_be16_be _ _ _ (starts_tail _ _ _ _ S)) by lia. split; [reflexivity|discriminate].
  - rewrite (starts_at0 _ _ _ S), (read_be32_be _ _ _ (starts_tail _ _ _ _ S)) by lia. split; [reflexivity|discriminate].
Qed.
Lemma map_info_ok lim w f l : item_in lim (MMap f l) -> starts w (enc (MMap f l)) ->
  map_info w = Ok (zlen l, zlen (map_hdr f (zlen l))) /\ 1 <= zlen (map_hdr f (zlen l)).
Proof.
  intros OK S. apply item_in_map in OK. destruct OK as [L _]. pose proof (zlen_nonneg l) as L0.
  cbn [enc] in S. unfold map_info. destruct f; cbn [map_hdr seq_cap app] in *.
  - rewrite (starts_at0 _ _ _ S). cbn [bind]. rewrite land240m by (unfold is_byte; lia). bool_if. rewrite land15m by lia.
    split; [reflexivity|discriminate].
  - lia.
  - rewrite (starts_at0 _ _ _ S), (read_be16_be _ _ _ (starts_tail _ _ _ _ S)) by lia. split; [reflexivity|discriminate].
  - rewrite (starts_at0 _ _ _ S), (read_be32_be _ _ _ (starts_tail _ _ _ _ S)) by lia. split; [reflexivity|discriminate].
Qed.

Theorem size_item w f l lim : item_in lim (MArr f l) -> starts w (enc (MArr f l)) -> mp_arraySize w = Ok (zlen l).
Proof. intros OK S. unfold mp_arraySize. destruct (arr_info_ok _ _ _ _ OK S) as [-> _]. reflexivity. Qed.
Theorem idx_out w f l lim i : item_in lim (MArr f l) -> starts w (enc (MArr f l)) -> zlen l <= i ->
  mp_idx w i = Throw EDeser.
Proof.
  intros OK S H. unfold mp_idx. destruct (arr_info_ok _ _ _ _ OK S) as [-> _]. cbn [bind].
  replace (zlen l <=? i) with true by lia. reflexivity.
Qed.
Theorem idx_item w f l1 x l2 : item_small (MArr f (l1 ++ x :: l2)) -> starts w (enc (MArr f (l1 ++ x :: l2))) ->
  exists w', mp_idx w (zlen l1) = Ok w' /\ spans w' x.
Proof.
  intros OK S. unfold mp_idx. destruct (arr_info_ok _ _ _ _ OK S) as [-> H1]. cbn [bind].
  assert (IL : zlen (l1 ++ x :: l2) <=? zlen l1 = false).
  { rewrite zlen_app, zlen_cons. pose proof (zlen_nonneg l2). lia. }
  rewrite IL. cbn [negb require bind].
  unfold item_small in OK. apply item_in_arr in OK. destruct OK as [_ OK]. rewrite Forall_forall in OK.
  cbn [enc] in S. set (h := arr_hdr f _) in *. clearbody h. rewrite flat_map_app in S. cbn [flat_map] in S.
  assert (S1 : starts w (h ++ flat_map enc l1)) by (rewrite app_assoc in S; now apply starts_app_l in S).
  rewrite (seq_loop skip w l1 h S1 H1).
  2:{ intros y w' Hy Sy _. apply skip_ok; auto. apply OK. apply in_or_app. now left. }
  cbn [bind]. rewrite <- zlen_app. rewrite app_assoc in S. assert (S' := S). apply starts_sub in S'.
  destruct S' as (w' & -> & Sw & Lw). cbn [bind]. apply starts_app_l in Sw.
  rewrite (skip_ok x); [|apply OK, in_or_app; right; now left|exact Sw]. cbn [bind].
  unfold subspan2. pose proof (starts_len _ _ Sw) as L1. pose proof (zlen_nonneg (enc x)).
  bool_if. eexists. split; [reflexivity|].
  destruct S as [S _]. apply has_app in S. destruct S as [_ S].
  split; [|reflexivity]. cbn [ms_buf ms_off]. apply has_app in S. apply S.
Qed.

Lemma spans_kind lim w it p : item_in lim it -> spans w it ->
  (forall m, p m = k_string m) -> mp_is p w = Ok (t_string (item_table it)).
Proof.
  intros OK S Hp. destruct (enc_marker lim it OK) as (m & l & E & K). apply spans_starts in S. rewrite E in S.
  rewrite (mp_is_at _ _ _ _ S), Hp. unfold kinds, tkinds in K. injection K as _ _ _ _ _ K _ _ _. now rewrite K.
Qed.
Lemma key_is_ok kd kit x k : item_small kit -> spans kd kit -> mp_key_is kd k = Ok (key_is k (kit, x)).
Proof.
  intros OK S. unfold mp_key_is. rewrite (spans_kind _ kd kit _ OK S) by reflexivity. cbn [bind].
  unfold key_is, key_of. cbn [fst]. destruct kit; try reflexivity. cbn [item_table ideal t_string].
  destruct OK as [B L]. apply spans_starts in S. cbn [enc] in S.
  rewrite (str_read kd f s (2^32-5) ltac:(lia) L S). cbn [bind snd].
  destruct (zlen s =? zlen k) eqn:E.
  - rewrite (view_rd _ _ _ (proj1 S)). reflexivity.
  - f_equal. symmetry. apply beq_neq. intros ->. rewrite Z.eqb_refl in E. discriminate.
Qed.

Notation encp := (flat_map (fun kx => enc (fst kx) ++ enc (snd kx))).

(** One entry of a map: the key span and the value span. *)
Lemma entry_spans v pre k x l : item_small k -> item_small x -> starts v (pre ++ encp ((k, x) :: l)) ->
  exists ks kd vs vd,
    subspan v (zlen pre) = Ok ks /\ skip ks = Ok (zlen (enc k)) /\ first ks (zlen (enc k)) = Ok kd /\ spans kd k /\
    subspan v (zlen pre + zlen (enc k)) = Ok vs /\ skip vs = Ok (zlen (enc x)) /\
    first vs (zlen (enc x)) = Ok vd /\ spans vd x /\
    starts v ((pre ++ enc k ++ enc x) ++ encp l) /\
    zlen pre + zlen (enc k) + zlen (enc x) = zlen (pre ++ enc k ++ enc x).
Proof.
  intros Ok1 Ok2 S. cbn [flat_map fst snd] in S. rewrite <- app_assoc in S.
  assert (S1 := S). apply starts_sub in S1. destruct S1 as (ks & E1 & Sk & _). apply starts_app_l in Sk.
  destruct (first_spans _ _ Sk) as (kd & E2 & Skd).
  assert (S2 := S). rewrite app_assoc in S2. apply starts_sub in S2. destruct S2 as (vs & E3 & Sv & _). apply starts_app_l in Sv.
  destruct (first_spans _ _ Sv) as (vd & E4 & Svd).
  rewrite zlen_app in E3. exists ks, kd, vs, vd.
  rewrite <- !app_assoc, !zlen_app. repeat split; auto using skip_ok; try (apply Skd || apply Svd || apply S); lia.
Qed.

Lemma contains_loop v k : forall l pre, Forall (fun kx => item_small (fst kx) /\ item_small (snd kx)) l ->
  starts v (pre ++ encp l) ->
  exists o, nloop (length l)
         (fun off =>
            kspan <- subspan v off ;;
            ksz <- skip kspan ;;
            kd <- first kspan ksz ;;
            vspan <- subspan v (off + ksz) ;;
            vsz <- skip vspan ;;
            eq <- mp_key_is kd k ;;
            if eq then Ok (inr true) else Ok (inl (off + ksz + vsz))) (zlen pre) =
  Ok (if existsb (key_is k) l then inr true else inl o).
Proof.
  induction l as [|[kk x] l IH]; intros pre OK S.
  - exists (zlen pre). reflexivity.
  - inversion OK as [|? ? [O1 O2] OKl]; subst. cbn [fst snd] in O1, O2.
    destruct (entry_spans v pre kk x l O1 O2 S) as (ks & kd & vs & vd & E1 & E2 & E3 & Sk & E4 & E5 & E6 & Sv & S' & EL).
    cbn [length nloop]. rewrite E1. cbn [bind]. rewrite E2. cbn [bind]. rewrite E3. cbn [bind]. rewrite E4. cbn [bind].
    rewrite E5. cbn [bind]. rewrite (key_is_ok kd kk x k O1 Sk). cbn [bind existsb].
    destruct (key_is k (kk, x)); cbn [orb bind]; [exists 0; reflexivity|].
    rewrite EL. apply IH; auto.
Qed.
Lemma key_loop v k : forall l pre, Forall (fun kx => item_small (fst kx) /\ item_small (snd kx)) l ->
  starts v (pre ++ encp l) ->
  exists r, nloop (length l)
         (fun off =>
            kspan <- subspan v off ;;
            ksz <- skip kspan ;;
            kd <- first kspan ksz ;;
            vspan <- subspan v (off + ksz) ;;
            vsz <- skip vspan ;;
            eq <- mp_key_is kd k ;;
            if eq then c <- first vspan vsz ;; Ok (inr c) else Ok (inl (off + ksz + vsz))) (zlen pre) = Ok r /\
  match find (key_is k) l with
  | Some kx => exists c, r = inr c /\ spans c (snd kx)
  | None => exists o, r = inl o
  end.
Proof.
  induction l as [|[kk x] l IH]; intros pre OK S.
  - exists (inl (zlen pre)). split; [reflexivity|]. cbn. eauto.
  - inversion OK as [|? ? [O1 O2] OKl]; subst. cbn [fst snd] in O1, O2.
    destruct (entry_spans v pre kk x l O1 O2 S) as (ks & kd & vs & vd & E1 & E2 & E3 & Sk & E4 & E5 & E6 & Sv & S' & EL).
    cbn [length nloop]. rewrite E1. cbn [bind]. rewrite E2. cbn [bind]. rewrite E3. cbn [bind]. rewrite E4. cbn [bind].
    rewrite E5. cbn [bind]. rewrite (key_is_ok kd kk x k O1 Sk). cbn [bind find].
    destruct (key_is k (kk, x)); cbn [bind].
    + rewrite E6. cbn [bind]. exists (inr vd). split; [reflexivity|]. cbn [snd]. eauto.
    + rewrite EL. apply IH; auto.
Qed.
Lemma nloop_S {S R} (f : S -> res (S + R)) n s :
  nloop (Datatypes.S n) f s = (x <- f s ;; match x with inl s' => nloop n f s' | inr r => Ok (inr r) end).
Proof. reflexivity. Qed.
Lemma keys_loop v n end_off : forall l pre i acc, Forall (fun kx => item_small (fst kx) /\ item_small (snd kx)) l ->
  starts v (pre ++ encp l) -> i + zlen l = n -> zlen pre + zlen (encp l) = end_off ->
  let r := nloop (S (length l))
         (fun s => let '(i, off, acc) := s in
            if (i =? n) && (off =? end_off) then Ok (inr (rev acc)) else
            w <- mk_deref v off ;;
            off' <- mk_incr v off ;;
            Ok (inl (i + 1, off', w :: acc))) (i, zlen pre, acc) in
  match keys_of l with
  | Some ks => exists vs, r = Ok (inr (rev acc ++ vs)) /\ mp_rd_views (ms_buf v) vs = Ok ks
  | None => r = Throw EDeser
  end.
Proof.
  induction l as [|[kk x] l IH]; intros pre i acc OK S Hi He.
  - cbv zeta. rewrite nloop_S. cbn [keys_of length]. change (zlen (@nil (item * item))) with 0 in Hi. change (zlen (encp [])) with 0 in He.
    replace ((i =? n) && (zlen pre =? end_off)) with true by lia. cbn [bind].
    exists []. rewrite app_nil_r. split; reflexivity.
  - inversion OK as [|? ? [O1 O2] OKl]; subst. cbn [fst snd] in O1, O2.
    destruct (entry_spans v pre kk x l O1 O2 S) as (ks & kd & vs & vd & E1 & E2 & E3 & Sk & E4 & E5 & E6 & Sv & S' & EL).
    assert (HI : (i =? i + zlen ((kk, x) :: l)) = false) by (rewrite zlen_cons; pose proof (zlen_nonneg l); lia).
    cbn [length]. cbv zeta. match goal with |- context [nloop _ ?F _] => set (body := F) in * end.
    rewrite !nloop_S.
    assert (STEP : body (i, zlen pre, acc) =
      (y <- mp_asStringView kd ;; Ok (inl (i + 1, zlen (pre ++ enc kk ++ enc x), y :: acc)))).
    { unfold body. rewrite HI. cbn [andb]. unfold mk_deref. rewrite E1. cbn [bind]. rewrite E2. cbn [bind]. rewrite E3. cbn [bind].
      destruct (mp_asStringView kd); cbn [bind]; try reflexivity.
      unfold mk_incr. rewrite E1. cbn [bind]. rewrite E2. cbn [bind]. rewrite E4. cbn [bind]. rewrite E5. cbn [bind].
      now rewrite Z.add_assoc, EL. }
    rewrite STEP. clear STEP.
    cbn [keys_of]. unfold key_of. cbn [fst].
    assert (NS : t_string (item_table kk) = false -> mp_asStringView kd = Throw EDeser).
    { intros T. destruct (enc_marker _ kk O1) as (m & t & E & K). apply spans_starts in Sk. rewrite E in Sk.
      apply (no_str _ _ _ Sk). unfold kinds, tkinds in K. injection K as _ _ _ _ _ K _ _ _. congruence. }
    destruct kk; try (rewrite NS by reflexivity; reflexivity). clear NS.
    destruct O1 as [B L]. assert (Sk' := Sk). apply spans_starts in Sk'. cbn [enc] in Sk'.
    rewrite (str_read kd f s (2^32-5) ltac:(lia) L Sk'). cbn [bind].
    specialize (IH (pre ++ enc (MStr f s) ++ enc x) (i + 1) ((sp_ptr kd (zlen (str_hdr f (zlen s))), zlen s) :: acc) OKl S').
    assert (H1 : i + 1 + zlen l = i + zlen ((MStr f s, x) :: l)) by (rewrite zlen_cons; lia).
    assert (H2 : zlen (pre ++ enc (MStr f s) ++ enc x) + zlen (encp l) = zlen pre + zlen (encp ((MStr f s, x) :: l))).
    { cbn [flat_map fst snd]. rewrite !zlen_app. lia. }
    specialize (IH H1 H2). cbv zeta in IH. fold body in IH.
    destruct (keys_of l) as [r|]; [|exact IH].
    destruct IH as (vs' & -> & R). exists ((sp_ptr kd (zlen (str_hdr f (zlen s))), zlen s) :: vs').
    split; [cbn [rev]; now rewrite <- app_assoc|]. cbn [mp_rd_views].
    assert (EB : ms_buf kd = ms_buf v).
    { unfold first in E3. destruct (_ <=? _); [|discriminate]. injection E3 as <-. cbn [ms_buf].
      unfold subspan in E1. destruct (_ <=? _); [|discriminate]. injection E1 as <-. reflexivity. }
    rewrite <- EB at 1. rewrite (view_rd _ _ _ (proj1 Sk')). cbn [bind]. rewrite R. reflexivity.
Qed.

Section MapOps.
  Context (w : mspan) (f : fmt) (l : list (item * item)).
  Hypothesis (OK : item_small (MMap f l)) (S : starts w (enc (MMap f l))).
  Lemma map_ismap : mp_is k_map w = Ok true.
  Proof.
    destruct (enc_marker _ _ OK) as (m & t & E & K). rewrite E in S. rewrite (mp_is_at _ _ _ _ S).
    unfold kinds, tkinds in K. injection K as _ _ _ _ _ _ _ K _. now rewrite K.
  Qed.
  Theorem contains_item k : mp_contains w k = Ok (existsb (key_is k) l).
  Proof.
    unfold mp_contains. rewrite map_ismap. cbn [bind negb]. destruct (map_info_ok _ _ _ _ OK S) as [-> H1]. cbn [bind].
    assert (OK' := OK). unfold item_small in OK'. apply item_in_map in OK'. destruct OK' as [_ OK'].
    rewrite zloop_nloop. replace (Z.to_nat (zlen l)) with (length l) by (unfold zlen; lia).
    destruct (contains_loop w k l _ OK' S) as [o ->]. cbn [bind]. now destruct (existsb _ _).
  Qed.
  Theorem key_item k : match find (key_is k) l with
    | Some kx => exists c, mp_key w k = Ok c /\ spans c (snd kx)
    | None => mp_key w k = Throw EDeser
    end.
  Proof.
    unfold mp_key. rewrite map_ismap. cbn [bind require]. destruct (map_info_ok _ _ _ _ OK S) as [-> H1]. cbn [bind].
    assert (OK' := OK). unfold item_small in OK'. apply item_in_map in OK'. destruct OK' as [_ OK'].
    rewrite zloop_nloop. replace (Z.to_nat (zlen l)) with (length l) by (unfold zlen; lia).
    destruct (key_loop w k l _ OK' S) as (r & E & F). rewrite E. cbn [bind].
    destruct (find (key_is k) l).
    - destruct F as (c & -> & F). eauto.
    - destruct F as (o & ->). reflexivity.
  Qed.
  Theorem keys_item : r_mapKeys mp_reader w = or_throw (keys_of l).
  Proof.
    cbn [mp_reader r_mapKeys]. unfold mp_keys. rewrite map_ismap. cbn [bind require].
    destruct (map_info_ok _ _ _ _ OK S) as [-> H1]. cbn [bind].
    assert (OK' := OK). unfold item_small in OK'. apply item_in_map in OK'. destruct OK' as [_ OK'].
    assert (OKF := OK'). rewrite Forall_forall in OKF.
    rewrite (pairs_loop skip w l _ S H1);
      [|intros kx w' Hx Sx _; apply skip_ok; auto; now apply OKF ..]. cbn [bind].
    rewrite zloop_nloop. replace (Z.to_nat (zlen l + 1)) with (Datatypes.S (length l)) by (unfold zlen; lia).
    pose proof (keys_loop w (zlen l) _ l _ 0 [] OK' S eq_refl eq_refl) as KL. cbv zeta in KL.
    destruct (keys_of l) as [ks|].
    - destruct KL as (vs & E & R). rewrite E. cbn [bind rev app]. exact R.
    - rewrite KL. reflexivity.
  Qed.
End MapOps.
