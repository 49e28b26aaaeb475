(** CborFacts.v -- the CBOR reader on well-formed items: headers and skipping. *)

From Coq Require Import ZArith List Bool Lia ZifyBool ZifyNat.
From Verif Require Import Base BaseFacts Spec SpecFacts FloatModel HalfModel CborModel CborSpec.
Import ListNotations.
Open Scope Z_scope.

Section ItemInd.
  Variable P : item -> Prop.
  Hypothesis Hleaf : forall it, match it with CArr _ _ | CArrI _ | CMap _ _ | CMapI _ | CTag _ _ _ => False | _ => True end -> P it.
  Hypothesis Harr : forall f l, Forall P l -> P (CArr f l).
  Hypothesis HarrI : forall l, Forall P l -> P (CArrI l).
  Hypothesis Hmap : forall f l, Forall (fun kx => P (fst kx) /\ P (snd kx)) l -> P (CMap f l).
  Hypothesis HmapI : forall l, Forall (fun kx => P (fst kx) /\ P (snd kx)) l -> P (CMapI l).
  Hypothesis Htag : forall f n x, P x -> P (CTag f n x).
  Fixpoint item_ind' (it : item) : P it :=
    let go := fix go l : Forall P l :=
                match l with [] => Forall_nil _ | x :: l' => Forall_cons x (item_ind' x) (go l') end in
    let go2 := fix go l : Forall (fun kx => P (fst kx) /\ P (snd kx)) l :=
                match l with
                | [] => Forall_nil _
                | kx :: l' => Forall_cons kx (conj (item_ind' (fst kx)) (item_ind' (snd kx))) (go l')
                end in
    match it with
    | CArr f l => Harr f l (go l)
    | CArrI l => HarrI l (go l)
    | CMap f l => Hmap f l (go2 l)
    | CMapI l => HmapI l (go2 l)
    | CTag f n x => Htag f n x (item_ind' x)
    | CUInt f n => Hleaf (CUInt f n) I | CNeg f n => Hleaf (CNeg f n) I
    | CBytes f b => Hleaf (CBytes f b) I | CBytesI l => Hleaf (CBytesI l) I
    | CText f b => Hleaf (CText f b) I | CTextI l => Hleaf (CTextI l) I
    | CSimple n => Hleaf (CSimple n) I | CSimple8 n => Hleaf (CSimple8 n) I
    | CF16 x => Hleaf (CF16 x) I | CF32 x => Hleaf (CF32 x) I | CF64 x => Hleaf (CF64 x) I
    end.
End ItemInd.

Lemma go_Forall s8 l :
  (fix go l := match l with [] => True | x :: l' => item_in s8 x /\ go l' end) l <-> Forall (item_in s8) l.
Proof.
  induction l as [|x l IH]; [split; constructor|].
  split; [intros [A B]; constructor; tauto|inversion 1; subst; tauto].
Qed.
Lemma go2_Forall s8 l :
  (fix go l := match l with
                   | [] => True
                   | (k, x) :: l' => item_in s8 k /\ item_in s8 x /\ go l'
                   end) l <-> Forall (fun kx => item_in s8 (fst kx) /\ item_in s8 (snd kx)) l.
Proof.
  induction l as [|[k x] l IH]; [split; constructor|].
  split; [intros (A & B & C); constructor; tauto|inversion 1; subst; cbn in *; tauto].
Qed.
Lemma item_in_arr s8 f l : item_in s8 (CArr f l) <-> zlen l < arg_cap f /\ Forall (item_in s8) l.
Proof. cbn [item_in]. now rewrite go_Forall. Qed.
Lemma item_in_arrI s8 l : item_in s8 (CArrI l) <-> Forall (item_in s8) l.
Proof. cbn [item_in]. now rewrite go_Forall. Qed.
Lemma item_in_map s8 f l : item_in s8 (CMap f l) <->
  zlen l < arg_cap f /\ Forall (fun kx => item_in s8 (fst kx) /\ item_in s8 (snd kx)) l.
Proof. cbn [item_in]. now rewrite go2_Forall. Qed.
Lemma item_in_mapI s8 l : item_in s8 (CMapI l) <->
  Forall (fun kx => item_in s8 (fst kx) /\ item_in s8 (snd kx)) l.
Proof. cbn [item_in]. now rewrite go2_Forall. Qed.

Lemma item_in_mono : forall it s8, item_in s8 it -> item_in true it.
Proof.
  induction it as [it Hl|f l IH|l IH|f l IH|l IH|f n x IH] using item_ind'; intros s8.
  - destruct it; try contradiction; cbn; tauto.
  - rewrite !item_in_arr. intros [A B]. split; [exact A|]. rewrite Forall_forall in *. eauto.
  - rewrite !item_in_arrI. intros B. rewrite Forall_forall in *. eauto.
  - rewrite !item_in_map. intros [A B]. split; [exact A|]. rewrite Forall_forall in *.
    intros kx H. destruct (B kx H), (IH kx H). split; eauto.
  - rewrite !item_in_mapI. intros B. rewrite Forall_forall in *.
    intros kx H. destruct (B kx H), (IH kx H). split; eauto.
  - cbn [item_in]. intros [A B]. eauto.
Qed.

(** ** Big-endian numbers *)
Lemma zlen_be n v : zlen (be n v) = Z.of_nat n.
Proof. induction n as [|n IH]; [reflexivity|]. cbn [be]. rewrite zlen_cons, IH. lia. Qed.
Lemma length_be n v : length (be n v) = n.
Proof. pose proof (zlen_be n v). unfold zlen in *. lia. Qed.
Lemma be_byte v k : is_byte ((v / 256 ^ k) mod 256).
Proof. unfold is_byte. apply Z.mod_pos_bound. lia. Qed.
Lemma bytes_ok_be n v : bytes_ok (be n v).
Proof. induction n as [|n IH]; [constructor|]. cbn [be]. apply bytes_ok_cons. split; [apply be_byte|exact IH]. Qed.
Definition horner (l : bytes) : Z := fold_left (fun a b => a * 256 + b) l 0.
Lemma horner_acc l a : fold_left (fun a b => a * 256 + b) l a = a * 256 ^ zlen l + horner l.
Proof.
  unfold horner. revert a. induction l as [|b l IH]; intros a; [cbn; lia|].
  cbn [fold_left]. rewrite IH, (IH (0 * 256 + b)). rewrite zlen_cons, Z.pow_add_r; [|lia|apply zlen_nonneg]. lia.
Qed.
Lemma horner_cons b l : horner (b :: l) = b * 256 ^ zlen l + horner l.
Proof. unfold horner. cbn [fold_left]. rewrite horner_acc. unfold horner. lia. Qed.
Lemma horner_range l : bytes_ok l -> 0 <= horner l < 256 ^ zlen l.
Proof.
  induction l as [|b l IH]; intros H; [cbn; lia|]. apply bytes_ok_cons in H. destruct H as [Hb H].
  specialize (IH H). rewrite horner_cons, zlen_cons, Z.pow_add_r by (try apply zlen_nonneg; lia).
  unfold is_byte in Hb. assert (0 < 256 ^ zlen l) by (apply Z.pow_pos_nonneg; [lia|apply zlen_nonneg]). nia.
Qed.
Lemma horner_be n v : horner (be n v) = v mod 256 ^ Z.of_nat n.
Proof.
  induction n as [|n IH]; [cbn; now rewrite Z.mod_1_r|].
  cbn [be]. rewrite horner_cons, zlen_be, IH.
  rewrite Nat2Z.inj_succ, Z.pow_succ_r by lia.
  rewrite (Z.mul_comm 256). rewrite Z.rem_mul_r by (try (apply Z.pow_nonzero); lia). lia.
Qed.
Lemma horner_be_id n v : 0 <= v < 256 ^ Z.of_nat n -> horner (be n v) = v.
Proof. intros H. rewrite horner_be. now apply Z.mod_small. Qed.

Lemma get_be_acc b : forall l p a, has b p l -> bytes_ok l -> zlen l <= 8 -> 0 <= a < 256 ^ (8 - zlen l) ->
  get_be b p (length l) a = Ok (a * 256 ^ zlen l + horner l).
Proof.
  induction l as [|x l IH]; intros p a H OK L A.
  - cbn [length get_be]. f_equal. rewrite zlen_nil. cbn. lia.
  - cbn [length get_be]. rewrite (has_rd _ _ _ _ H). cbn [bind]. apply has_cons in H. destruct H as [_ H].
    apply bytes_ok_cons in OK. destruct OK as [OX OK]. unfold is_byte in OX.
    rewrite zlen_cons in *. pose proof (zlen_nonneg l) as L0.
    assert (E : 256 ^ (8 - zlen l) = 256 * 256 ^ (8 - (1 + zlen l))).
    { rewrite <- Z.pow_succ_r by lia. f_equal. lia. }
    assert (M : 256 ^ (8 - zlen l) <= 256 ^ 8) by (apply Z.pow_le_mono_r; lia). change (256 ^ 8) with (2^64) in M.
    assert (S : Z.shiftl a 8 = a * 256) by (rewrite Z.shiftl_mul_pow2 by lia; reflexivity).
    rewrite S, wrap64_small by lia.
    assert (LO : Z.lor (a * 256) x = a * 256 + x).
    { rewrite <- S, Z.lor_comm, lor_shiftl by lia. change (2^8) with 256. lia. }
    rewrite LO, IH; auto; [|lia|lia]. f_equal. rewrite horner_cons, Z.pow_add_r by lia. change (256 ^ 1) with 256. ring.
Qed.
Lemma get_be_has b p l : has b p l -> bytes_ok l -> zlen l <= 8 -> get_be b p (length l) 0 = Ok (horner l).
Proof.
  intros H OK L. rewrite (get_be_acc b l p 0 H OK L).
  - f_equal. 
  - pose proof (zlen_nonneg l). split; [lia|]. apply Z.pow_pos_nonneg; lia.
Qed.
Lemma get_be_be b p n v : has b p (be n v) -> (n <= 8)%nat -> 0 <= v < 256 ^ Z.of_nat n -> get_be b p n 0 = Ok v.
Proof.
  intros H L V. rewrite <- (length_be n v) at 1. rewrite get_be_has; auto using bytes_ok_be.
  - now rewrite horner_be_id.
  - rewrite zlen_be. lia.
Qed.

(** ** Headers *)
Definition addl (f : arg) (n : Z) : Z := match f with A0 => n | A1 => 24 | A2 => 25 | A4 => 26 | A8 => 27 end.
Definition hlen (f : arg) : Z := match f with A0 => 1 | A1 => 2 | A2 => 3 | A4 => 5 | A8 => 9 end.
Lemma zlen_hdr m f n : zlen (hdr m f n) = hlen f.
Proof. destruct f; cbn [hdr]; rewrite zlen_cons, ?zlen_be; reflexivity. Qed.
Lemma hlen_pos f : 1 <= hlen f <= 9. Proof. destruct f; cbn; lia. Qed.

Lemma byte_split m a : 0 <= m < 8 -> 0 <= a < 32 -> Z.shiftr (32 * m + a) 5 = m /\ Z.land (32 * m + a) 31 = a.
Proof.
  intros Hm Ha. split.
  - rewrite Z.shiftr_div_pow2 by lia. change (2^5) with 32. symmetry. apply Z.div_unique with a; lia.
  - change 31 with (Z.ones 5). rewrite Z.land_ones by lia. change (2^5) with 32. symmetry. apply Z.mod_unique with m; lia.
Qed.

Ltac bool_if :=
  match goal with
  | |- context [if ?b then _ else _] =>
      match b with
      | context [if _ then _ else _] => fail 1
      | _ => first [replace b with true by (clear; reflexivity) | replace b with false by (clear; reflexivity)
                   | replace b with true by lia | replace b with false by lia]
      end
  end; cbv iota.

Lemma head_hdr b p m f n : has b p (hdr m f n) -> 0 <= m < 7 -> 0 <= n < arg_cap f ->
  read_head b p = Ok (mkHead m (addl f n) n (hlen f) false) /\
  k_read_head b p = Ok (mkHead m (addl f n) n (hlen f) false).
Proof.
  intros H Hm Hn. pose proof (has_bound _ _ _ H) as [B0 B1]. rewrite zlen_hdr in B1.
  unfold read_head, k_read_head.
  destruct f; cbn [hdr hlen addl arg_cap] in *;
    rewrite (has_rd _ _ _ _ H);
    match goal with |- context [Ok (32 * m + ?a)] => destruct (byte_split m a) as [E1 E2]; [lia|lia|] end;
    cbn [bind]; rewrite E1, E2; unfold require;
    (replace (p <? zlen b) with true by lia); cbn [bind].
  - repeat bool_if. auto.
  - cbn [be] in H. apply has_cons in H. destruct H as [_ H]. rewrite (has_rd _ _ _ _ H).
    change (256 ^ Z.of_nat 0) with 1. rewrite Z.div_1_r, Z.mod_small by lia.
    replace (p + 2 <=? zlen b) with true by lia. repeat bool_if. cbn [bind]. auto.
  - apply has_cons in H. destruct H as [_ H]. rewrite (get_be_be _ _ _ _ H) by (cbn; lia).
    replace (p + 3 <=? zlen b) with true by lia. repeat bool_if. cbn [bind]. auto.
  - apply has_cons in H. destruct H as [_ H]. rewrite (get_be_be _ _ _ _ H) by (cbn; lia).
    replace (p + 5 <=? zlen b) with true by lia. repeat bool_if. cbn [bind]. auto.
  - apply has_cons in H. destruct H as [_ H]. rewrite (get_be_be _ _ _ _ H) by (cbn; lia).
    replace (p + 9 <=? zlen b) with true by lia. repeat bool_if. cbn [bind]. auto.
Qed.

(** The header of an item. *)
Definition hd_of (it : item) : chead :=
  match it with
  | CUInt f n => mkHead 0 (addl f n) n (hlen f) false
  | CNeg f n => mkHead 1 (addl f n) n (hlen f) false
  | CBytes f b => mkHead 2 (addl f (zlen b)) (zlen b) (hlen f) false
  | CBytesI _ => mkHead 2 31 0 1 true
  | CText f b => mkHead 3 (addl f (zlen b)) (zlen b) (hlen f) false
  | CTextI _ => mkHead 3 31 0 1 true
  | CArr f l => mkHead 4 (addl f (zlen l)) (zlen l) (hlen f) false
  | CArrI _ => mkHead 4 31 0 1 true
  | CMap f l => mkHead 5 (addl f (zlen l)) (zlen l) (hlen f) false
  | CMapI _ => mkHead 5 31 0 1 true
  | CTag f n _ => mkHead 6 (addl f n) n (hlen f) false
  | CSimple n => mkHead 7 n 0 1 false
  | CSimple8 _ => mkHead 7 24 0 2 false
  | CF16 _ => mkHead 7 25 2 1 false
  | CF32 _ => mkHead 7 26 4 1 false
  | CF64 _ => mkHead 7 27 8 1 false
  end.


(** Initial bytes whose header is decided by the byte alone. *)
Definition simple_head (x : Z) : option chead :=
  let m := Z.shiftr x 5 in let a := Z.land x 31 in
  if m =? 7 then
    if a =? 25 then Some (mkHead m a 2 1 false)
    else if a =? 26 then Some (mkHead m a 4 1 false)
    else if a =? 27 then Some (mkHead m a 8 1 false)
    else if a =? 24 then None
    else if a =? 31 then Some (mkHead m a 0 1 true)
    else Some (mkHead m a 0 1 false)
  else if a =? 31 then Some (mkHead m a 0 1 true) else None.
Lemma head_simple b p x l h : has b p (x :: l) -> simple_head x = Some h ->
  read_head b p = Ok h /\ k_read_head b p = Ok h.
Proof.
  intros H E. pose proof (has_bound _ _ _ H) as [B0 B1]. rewrite zlen_cons in B1. pose proof (zlen_nonneg l).
  unfold read_head, k_read_head. rewrite (has_rd _ _ _ _ H). unfold require.
  replace (p <? zlen b) with true by lia. cbn [bind]. unfold simple_head in E.
  destruct (Z.shiftr x 5 =? 7).
  - destruct (Z.land x 31 =? 25); [injection E as <-; auto|].
    destruct (Z.land x 31 =? 26); [injection E as <-; auto|].
    destruct (Z.land x 31 =? 27); [injection E as <-; auto|].
    destruct (Z.land x 31 =? 24); [discriminate|].
    destruct (Z.land x 31 =? 31); injection E as <-; auto.
  - destruct (Z.land x 31 =? 31) eqn:EA; [|discriminate]. apply Z.eqb_eq in EA. rewrite EA in *. injection E as <-.
    repeat bool_if. auto.
Qed.

Lemma item_head it b p : item_ok it -> has b p (enc it) ->
  read_head b p = Ok (hd_of it) /\ k_read_head b p = Ok (hd_of it).
Proof.
  unfold item_ok. intros OK H. destruct it; cbn [item_in enc hd_of] in *.
  - apply head_hdr; auto; lia.
  - apply head_hdr; auto; lia.
  - apply has_app in H. pose proof (zlen_nonneg b0). apply head_hdr; [apply H|lia|lia].
  - eapply head_simple; [exact H|reflexivity].
  - apply has_app in H. pose proof (zlen_nonneg s). apply head_hdr; [apply H|lia|lia].
  - eapply head_simple; [exact H|reflexivity].
  - apply has_app in H. pose proof (zlen_nonneg l). apply head_hdr; [apply H|lia|lia].
  - eapply head_simple; [exact H|reflexivity].
  - apply has_app in H. pose proof (zlen_nonneg l). apply head_hdr; [apply H|lia|lia].
  - eapply head_simple; [exact H|reflexivity].
  - apply has_app in H. apply head_hdr; [apply H|lia|lia].
  - eapply head_simple; [exact H|]. change (224 + n) with (32 * 7 + n). unfold simple_head.
    destruct (byte_split 7 n) as [-> ->]; [lia|lia|]. repeat bool_if. reflexivity.
  - pose proof (has_bound _ _ _ H) as [B0 B1]. change (zlen [248; n]) with 2 in B1.
    unfold read_head, k_read_head. rewrite (has_rd _ _ _ _ H). unfold require.
    replace (p <? zlen b) with true by lia. replace (p + 2 <=? zlen b) with true by lia. auto.
  - eapply head_simple; [exact H|reflexivity].
  - eapply head_simple; [exact H|reflexivity].
  - eapply head_simple; [exact H|reflexivity].
Qed.

(** The first byte of an item or chunk is not the break byte. *)
Lemma hdr_first m f n : 0 <= m < 7 -> 0 <= n < arg_cap f -> exists x l, hdr m f n = x :: l /\ 0 <= x < 255.
Proof. intros Hm Hn. destruct f; cbn [hdr arg_cap] in *; eexists; eexists; (split; [reflexivity|]); lia. Qed.
Lemma enc_first it : item_ok it -> exists x l, enc it = x :: l /\ 0 <= x < 255.
Proof.
  unfold item_ok. intros OK.
  assert (K : forall m f n l, 0 <= m < 7 -> 0 <= n < arg_cap f -> exists x r, hdr m f n ++ l = x :: r /\ 0 <= x < 255).
  { intros m f n l Hm Hn. destruct (hdr_first m f n Hm Hn) as (x & r & -> & Hx). cbn [app]. eauto. }
  destruct it; cbn [item_in enc] in *;
    try (eexists; eexists; split; [reflexivity|lia]).
  - apply hdr_first; lia.
  - apply hdr_first; lia.
  - pose proof (zlen_nonneg b). apply K; lia.
  - pose proof (zlen_nonneg s). apply K; lia.
  - pose proof (zlen_nonneg l). apply K; lia.
  - pose proof (zlen_nonneg l). apply K; lia.
  - apply K; lia.
Qed.
Lemma enc_pos it : item_ok it -> 1 <= zlen (enc it).
Proof. intros OK. destruct (enc_first it OK) as (x & l & -> & _). rewrite zlen_cons. pose proof (zlen_nonneg l). lia. Qed.

(** ** Loops over consecutive encodings *)
Lemma floop_S {S R} (f : S -> res (S + R)) n s :
  floop (Datatypes.S n) f s = (x <- f s ;; match x with inl s' => floop n f s' | inr r => Ok r end).
Proof. reflexivity. Qed.
Lemma floop_list {A} (e : A -> bytes) F b : forall l q fuel,
  has b q (flat_map e l ++ [255]) ->
  (forall x q', In x l -> has b q' (e x) -> q <= q' -> F q' = Ok (inl (q' + zlen (e x)))) ->
  (forall q', has b q' [255] -> F q' = Ok (inr (q' + 1))) ->
  (length l < fuel)%nat ->
  floop fuel F q = Ok (q + zlen (flat_map e l) + 1).
Proof.
  induction l as [|x l IH]; intros q fuel H HF HE L; (destruct fuel as [|fuel]; [lia|]); rewrite floop_S.
  - cbn [flat_map app] in *. rewrite HE by exact H. cbn [bind]. rewrite zlen_nil. do 2 f_equal. lia.
  - cbn [flat_map length] in *. rewrite <- app_assoc in H. apply has_app in H. destruct H as [H1 H2].
    rewrite (HF x q (or_introl eq_refl) H1) by lia. cbn [bind]. pose proof (zlen_nonneg (e x)).
    rewrite (IH (q + zlen (e x)) fuel H2); [|intros y q' Hy Hh Hq; apply HF; [now right|exact Hh|lia]|exact HE|lia].
    rewrite zlen_app. f_equal. lia.
Qed.
Lemma times_list {A} (e : A -> bytes) step b : forall l q,
  has b q (flat_map e l) ->
  (forall x q', In x l -> has b q' (e x) -> q <= q' -> step q' = Ok (q' + zlen (e x))) ->
  times (zlen l) step q = Ok (q + zlen (flat_map e l)).
Proof.
  intros l q H HF. unfold times. rewrite zloop_nloop. replace (Z.to_nat (zlen l)) with (length l) by (unfold zlen; lia).
  assert (E : nloop (R := unit) (length l) (fun q => q' <- step q ;; Ok (inl q')) q = Ok (inl (q + zlen (flat_map e l)))).
  { revert q H HF. induction l as [|x l IH]; intros q H HF.
    - cbn [length nloop flat_map]. do 2 f_equal. rewrite zlen_nil. lia.
    - cbn [length flat_map] in *. apply has_app in H. destruct H as [H1 H2].
      cbn [nloop]. rewrite (HF x q (or_introl eq_refl) H1) by lia. cbn [bind]. pose proof (zlen_nonneg (e x)).
      rewrite IH; [|exact H2|intros y q' Hy Hh Hq; apply HF; [now right|exact Hh|lia]].
      rewrite zlen_app. do 2 f_equal. lia. }
  rewrite E. reflexivity.
Qed.
Lemma flat_len {A} (e : A -> bytes) l : (forall x, In x l -> 1 <= zlen (e x)) -> zlen l <= zlen (flat_map e l).
Proof.
  induction l as [|x l IH]; intros H; [cbn; lia|]. cbn [flat_map]. rewrite zlen_cons, zlen_app.
  specialize (H x (or_introl eq_refl)) as H1. assert (zlen l <= zlen (flat_map e l)); [|lia].
  apply IH. intros y Hy. apply H. now right.
Qed.

(** Chunks of indefinite-length strings *)
Lemma chunk_facts m f s b q : 0 <= m < 7 -> bytes_ok s -> zlen s < arg_cap f -> has b q (chunk m (f, s)) ->
  exists x t, chunk m (f, s) = x :: t /\ 0 <= x < 255 /\
  rd b q = Ok x /\
  read_head b q = Ok (mkHead m (addl f (zlen s)) (zlen s) (hlen f) false) /\
  k_read_head b q = Ok (mkHead m (addl f (zlen s)) (zlen s) (hlen f) false) /\
  has b (q + hlen f) s /\ zlen (chunk m (f, s)) = hlen f + zlen s.
Proof.
  intros Hm B L H. pose proof (zlen_nonneg s). unfold chunk in *. cbn [fst snd] in *.
  destruct (hdr_first m f (zlen s) Hm ltac:(lia)) as (x & t & E & Hx).
  exists x, (t ++ s). rewrite E. split; [reflexivity|]. split; [exact Hx|].
  assert (H' := H). rewrite E in H'. cbn [app] in H'. rewrite (has_rd _ _ _ _ H'). split; [reflexivity|].
  apply has_app in H. destruct H as [H1 H2]. rewrite zlen_hdr in H2.
  destruct (head_hdr b q m f (zlen s) H1 ltac:(lia) ltac:(lia)) as [-> ->].
  rewrite <- E, zlen_app, zlen_hdr. auto.
Qed.
Lemma chunk_pos m c : 1 <= zlen (chunk m c).
Proof. unfold chunk. rewrite zlen_app, zlen_hdr. pose proof (hlen_pos (fst c)). pose proof (zlen_nonneg (snd c)). lia. Qed.

Lemma skip_chunk_step b m f s q : zlen b < 2^63 -> 0 <= m < 7 -> bytes_ok s -> zlen s < arg_cap f -> has b q (chunk m (f, s)) ->
  skip_chunk b m q = Ok (inl (q + zlen (chunk m (f, s)))) /\
  k_chunk b q = Ok (inl (q + zlen (chunk m (f, s)))).
Proof.
  intros HB Hm B L H. destruct (chunk_facts m f s b q Hm B L H) as (x & t & E & Hx & R & H1 & H2 & H3 & LC).
  pose proof (has_bound _ _ _ H) as [B0 B1]. rewrite LC in *. pose proof (hlen_pos f). pose proof (zlen_nonneg s).
  unfold skip_chunk, k_chunk. rewrite R, H1, H2. unfold require.
  replace (q <? zlen b) with true by lia. cbn [bind]. replace (x =? 255) with false by lia. cbn [bind h_major h_indef h_len h_val negb].
  rewrite Z.eqb_refl. rewrite (wrap64_small (hlen f + zlen s)) by lia. rewrite wrap64_small by lia. split; reflexivity.
Qed.
Lemma break_step b q m step : has b q [255] ->
  skip_chunk b m q = Ok (inr (q + 1)) /\ k_chunk b q = Ok (inr (q + 1)) /\
  skip_until b step q = Ok (inr (q + 1)) /\ k_until b step q = Ok (inr (q + 1)).
Proof.
  intros H. pose proof (has_bound _ _ _ H) as [B0 B1]. change (zlen [255]) with 1 in B1.
  unfold skip_chunk, k_chunk, skip_until, k_until. rewrite (has_rd _ _ _ _ H). unfold require.
  replace (q <? zlen b) with true by lia. auto.
Qed.
Lemma until_step b q x t step r : has b q (x :: t) -> x <> 255 -> step q = Ok r ->
  skip_until b step q = Ok (inl r) /\ k_until b step q = Ok (inl r).
Proof.
  intros H N S. pose proof (has_bound _ _ _ H) as [B0 B1]. rewrite zlen_cons in B1. pose proof (zlen_nonneg t).
  unfold skip_until, k_until. rewrite (has_rd _ _ _ _ H), S. unfold require.
  replace (q <? zlen b) with true by lia. cbn [bind]. replace (x =? 255) with false by lia. auto.
Qed.

Lemma skip_S f b p : skip (S f) b p =
      (h <- read_head b p ;;
      let q := p + h_len h in
      let m := h_major h in
      if (m =? 0) || (m =? 1) then Ok q
      else if (m =? 2) || (m =? 3) then
        if negb (h_indef h) then
          require (wrap64 (q + h_val h) <=? zlen b) EDeser ;;; Ok (wrap64 (q + h_val h))
        else floop f (skip_chunk b m) q
      else if m =? 4 then
        if negb (h_indef h) then times (h_val h) (skip f b) q
        else floop f (skip_until b (skip f b)) q
      else if m =? 5 then
        if negb (h_indef h) then times (h_val h) (fun q => q1 <- skip f b q ;; skip f b q1) q
        else floop f (skip_until b (fun q => q1 <- skip f b q ;; skip f b q1)) q
      else if m =? 6 then skip f b q
      else
        let a := h_addl h in
        if a =? 25 then require (q + 2 <=? zlen b) EDeser ;;; Ok (q + 2)
        else if a =? 26 then require (q + 4 <=? zlen b) EDeser ;;; Ok (q + 4)
        else if a =? 27 then require (q + 8 <=? zlen b) EDeser ;;; Ok (q + 8)
        else if a =? 24 then require (q + 1 <=? zlen b) EDeser ;;; Ok (q + 1)
        else Ok q).
Proof. reflexivity. Qed.
Lemma k_skip_S f b p : k_skip (S f) b p =
      (h <- k_read_head b p ;;
      let q := p + h_len h in
      let m := h_major h in
      if (m =? 0) || (m =? 1) then Ok q
      else if (m =? 2) || (m =? 3) then
        if negb (h_indef h) then Ok (wrap64 (q + h_val h))
        else floop f (k_chunk b) q
      else if m =? 4 then
        if negb (h_indef h) then times (h_val h) (k_skip f b) q
        else floop f (k_until b (k_skip f b)) q
      else if m =? 5 then
        if negb (h_indef h) then times (h_val h) (fun q => q1 <- k_skip f b q ;; k_skip f b q1) q
        else floop f (k_until b (fun q => q1 <- k_skip f b q ;; k_skip f b q1)) q
      else if m =? 6 then k_skip f b q
      else
        let a := h_addl h in
        if a =? 25 then Ok (q + 2) else if a =? 26 then Ok (q + 4) else if a =? 27 then Ok (q + 8)
        else Ok q).
Proof. reflexivity. Qed.

Notation encp := (fun kx => enc (fst kx) ++ enc (snd kx)).

(** Both skips at once: [K s8] is the member function on items without 0xf8 values ([s8 = false]) and
    the iterator's on all items ([s8 = true]). *)
Definition skipper (s8 : bool) : nat -> bytes -> Z -> res Z := if s8 then k_skip else skip.

Lemma chunk_loop (s8 : bool) b m f : zlen b < 2^63 -> 0 <= m < 7 -> forall l q, chunks_ok l -> has b q (flat_map (chunk m) l ++ [255]) ->
  zlen b - q < Z.of_nat f ->
  floop f (if s8 then k_chunk b else skip_chunk b m) q = Ok (q + zlen (flat_map (chunk m) l) + 1).
Proof.
  intros HB Hm l q OK H L. pose proof (has_bound _ _ _ H) as [B0 B1]. rewrite zlen_app in B1. change (zlen [255]) with 1 in B1.
  pose proof (flat_len (chunk m) l (fun x _ => chunk_pos m x)) as FL.
  apply floop_list with (b := b); auto.
  - intros [g s] q' Hx Hh _. unfold chunks_ok in OK. rewrite Forall_forall in OK. destruct (OK _ Hx) as [O1 O2]. cbn [fst snd] in *.
    destruct (skip_chunk_step b m g s q' HB Hm O1 O2 Hh). now destruct s8.
  - intros q' Hh. destruct (break_step b q' m (fun _ => UB) Hh) as (E1 & E2 & _). now destruct s8.
  - unfold zlen in *. lia.
Qed.
Lemma until_loop {A} (s8 : bool) (e : A -> bytes) b f step : forall l q,
  (forall x, In x l -> exists c t, e x = c :: t /\ 0 <= c < 255) ->
  (forall x q', In x l -> has b q' (e x) -> q <= q' -> step q' = Ok (q' + zlen (e x))) ->
  has b q (flat_map e l ++ [255]) -> zlen b - q < Z.of_nat f ->
  floop f (if s8 then k_until b step else skip_until b step) q = Ok (q + zlen (flat_map e l) + 1).
Proof.
  intros l q HP HS H L. pose proof (has_bound _ _ _ H) as [B0 B1]. rewrite zlen_app in B1. change (zlen [255]) with 1 in B1.
  assert (FL : zlen l <= zlen (flat_map e l)).
  { apply flat_len. intros x Hx. destruct (HP x Hx) as (c & t & -> & _). rewrite zlen_cons. pose proof (zlen_nonneg t). lia. }
  apply floop_list with (b := b); auto.
  - intros x q' Hx Hh Hq. specialize (HS x q' Hx Hh Hq). destruct (HP x Hx) as (c & t & E & Hc).
    rewrite E in Hh. destruct (until_step b q' c t step _ Hh ltac:(lia) HS). now destruct s8.
  - intros q' Hh. destruct (break_step b q' 0 step Hh) as (_ & _ & E1 & E2). now destruct s8.
  - unfold zlen in *. lia.
Qed.

Lemma two_steps (step : Z -> res Z) (b a c : bytes) q :
  has b q (a ++ c) -> step q = Ok (q + zlen a) -> step (q + zlen a) = Ok (q + zlen a + zlen c) ->
  (q1 <- step q ;; step q1) = Ok (q + zlen (a ++ c)).
Proof. intros _ -> E. cbn [bind]. rewrite E, zlen_app. f_equal. lia. Qed.

Theorem skipper_enc s8 b : zlen b < 2^63 -> forall it, item_in s8 it -> forall fuel p, has b p (enc it) ->
  zlen b - p < Z.of_nat fuel -> skipper s8 fuel b p = Ok (p + zlen (enc it)).
Proof.
  intros HB.
  induction it as [it Hl|f l IH|l IH|f l IH|l IH|f n x IH] using item_ind'; intros OK fuel p H L;
    (destruct fuel as [|fuel]; [pose proof (has_bound _ _ _ H) as [B0 B1]; exfalso;
      pose proof (zlen_nonneg b); match type of B1 with _ + zlen ?e <= _ => pose proof (zlen_nonneg e) end; lia|]);
    assert (OK1 := item_in_mono _ _ OK); fold item_ok in OK1;
    destruct (item_head _ b p OK1 H) as [HD1 HD2];
    pose proof (has_bound _ _ _ H) as [B0 B1].
  - (* leaves *)
    destruct it; try contradiction; cbn [hd_of enc] in *.
    + rewrite zlen_hdr in *. destruct s8; cbn [skipper]; rewrite ?k_skip_S, ?skip_S, ?HD1, ?HD2; reflexivity.
    + rewrite zlen_hdr in *. destruct s8; cbn [skipper]; rewrite ?k_skip_S, ?skip_S, ?HD1, ?HD2; reflexivity.
    + rewrite zlen_app, zlen_hdr in *. pose proof (zlen_nonneg b0). pose proof (hlen_pos f).
      assert (W : wrap64 (p + hlen f + zlen b0) = p + hlen f + zlen b0) by (apply wrap64_small; lia).
      destruct s8; cbn [skipper]; rewrite ?k_skip_S, ?skip_S, ?HD1, ?HD2; cbn [bind h_len h_major h_val h_indef]; cbv zeta;
        repeat bool_if; rewrite W; unfold require; repeat bool_if; cbn [bind]; f_equal; lia.
    + cbn [app] in H. apply has_cons in H. destruct H as [_ H].
      assert (LL := chunk_loop s8 b 2 fuel HB ltac:(lia) chunks (p + 1) OK H ltac:(lia)).
      cbn [app]. rewrite zlen_cons, zlen_app. change (zlen [255]) with 1.
      destruct s8; cbn [skipper]; rewrite ?k_skip_S, ?skip_S, ?HD1, ?HD2; cbn [bind h_len h_major h_val h_indef]; cbv zeta;
        repeat bool_if; rewrite LL; f_equal; lia.
    + rewrite zlen_app, zlen_hdr in *. pose proof (zlen_nonneg s). pose proof (hlen_pos f).
      assert (W : wrap64 (p + hlen f + zlen s) = p + hlen f + zlen s) by (apply wrap64_small; lia).
      destruct s8; cbn [skipper]; rewrite ?k_skip_S, ?skip_S, ?HD1, ?HD2; cbn [bind h_len h_major h_val h_indef]; cbv zeta;
        repeat bool_if; rewrite W; unfold require; repeat bool_if; cbn [bind]; f_equal; lia.
    + cbn [app] in H. apply has_cons in H. destruct H as [_ H].
      assert (LL := chunk_loop s8 b 3 fuel HB ltac:(lia) chunks (p + 1) OK H ltac:(lia)).
      cbn [app]. rewrite zlen_cons, zlen_app. change (zlen [255]) with 1.
      destruct s8; cbn [skipper]; rewrite ?k_skip_S, ?skip_S, ?HD1, ?HD2; cbn [bind h_len h_major h_val h_indef]; cbv zeta;
        repeat bool_if; rewrite LL; f_equal; lia.
    + cbn [item_in] in OK. change (zlen [224 + n]) with 1 in *.
      destruct s8; cbn [skipper]; rewrite ?k_skip_S, ?skip_S, ?HD1, ?HD2; cbn [bind h_len h_major h_val h_indef h_addl]; cbv zeta;
        repeat bool_if; reflexivity.
    + destruct s8; [|now destruct OK]. cbn [skipper]. rewrite k_skip_S, HD2. reflexivity.
    + rewrite zlen_cons, zlen_be in *. cbn [Z.of_nat Pos.of_succ_nat Pos.succ] in *.
      destruct s8; cbn [skipper]; rewrite ?k_skip_S, ?skip_S, ?HD1, ?HD2; cbn [bind h_len h_major h_val h_indef h_addl]; cbv zeta;
        repeat bool_if; unfold require; repeat bool_if; cbn [bind]; f_equal; lia.
    + rewrite zlen_cons, zlen_be in *. cbn [Z.of_nat Pos.of_succ_nat Pos.succ] in *.
      destruct s8; cbn [skipper]; rewrite ?k_skip_S, ?skip_S, ?HD1, ?HD2; cbn [bind h_len h_major h_val h_indef h_addl]; cbv zeta;
        repeat bool_if; unfold require; repeat bool_if; cbn [bind]; f_equal; lia.
    + rewrite zlen_cons, zlen_be in *. cbn [Z.of_nat Pos.of_succ_nat Pos.succ] in *.
      destruct s8; cbn [skipper]; rewrite ?k_skip_S, ?skip_S, ?HD1, ?HD2; cbn [bind h_len h_major h_val h_indef h_addl]; cbv zeta;
        repeat bool_if; unfold require; repeat bool_if; cbn [bind]; f_equal; lia.
  - apply item_in_arr in OK. destruct OK as [_ OK]. rewrite Forall_forall in OK, IH.
    cbn [enc hd_of] in *. apply has_app in H. destruct H as [_ H]. rewrite zlen_app, zlen_hdr in *. pose proof (hlen_pos f).
    assert (LL := times_list enc (skipper s8 fuel b) b l (p + hlen f) H).
    assert (SS : forall x q', In x l -> has b q' (enc x) -> p + hlen f <= q' -> skipper s8 fuel b q' = Ok (q' + zlen (enc x)))
      by (intros x q' Hx Hh Hq; apply IH; auto; lia).
    specialize (LL SS).
    destruct s8; cbn [skipper] in *; rewrite ?k_skip_S, ?skip_S, ?HD1, ?HD2; cbn [bind h_len h_major h_val h_indef]; cbv zeta;
      repeat bool_if; rewrite LL; f_equal; lia.
  - assert (OK' := OK1). unfold item_ok in OK'. apply item_in_arrI in OK'. apply item_in_arrI in OK. rewrite Forall_forall in OK, OK', IH.
    cbn [enc hd_of app] in *. apply has_cons in H. destruct H as [_ H]. rewrite zlen_cons, zlen_app in *. change (zlen [255]) with 1 in *.
    assert (LL := until_loop s8 enc b fuel (skipper s8 fuel b) l (p + 1) (fun x Hx => enc_first x (OK' x Hx))).
    assert (SS : forall x q', In x l -> has b q' (enc x) -> p + 1 <= q' -> skipper s8 fuel b q' = Ok (q' + zlen (enc x)))
      by (intros x q' Hx Hh Hq; apply IH; auto; lia).
    specialize (LL SS H ltac:(lia)).
    destruct s8; cbn [skipper] in *; rewrite ?k_skip_S, ?skip_S, ?HD1, ?HD2; cbn [bind h_len h_major h_val h_indef]; cbv zeta;
      repeat bool_if; rewrite LL; f_equal; lia.
  - apply item_in_map in OK. destruct OK as [_ OK]. rewrite Forall_forall in OK, IH.
    cbn [enc hd_of] in *. apply has_app in H. destruct H as [_ H]. rewrite zlen_app, zlen_hdr in *. pose proof (hlen_pos f).
    assert (LL := times_list encp (fun q => q1 <- skipper s8 fuel b q ;; skipper s8 fuel b q1) b l (p + hlen f) H).
    assert (SS : forall x q', In x l -> has b q' (encp x) -> p + hlen f <= q' ->
       (q1 <- skipper s8 fuel b q' ;; skipper s8 fuel b q1) = Ok (q' + zlen (encp x))).
    { intros x q' Hx Hh Hq. destruct (OK x Hx) as [O1 O2]. destruct (IH x Hx) as [I1 I2]. assert (Hh' := Hh). apply has_app in Hh. destruct Hh as [Hh1 Hh2].
      pose proof (zlen_nonneg (enc (fst x))).
      apply two_steps with (b := b); [exact Hh'|apply I1; auto; lia|apply I2; auto; lia]. }
    specialize (LL SS). cbv beta in LL.
    destruct s8; cbn [skipper] in *; rewrite ?k_skip_S, ?skip_S, ?HD1, ?HD2; cbn [bind h_len h_major h_val h_indef]; cbv zeta;
      repeat bool_if; rewrite LL; f_equal; lia.
  - assert (OK' := OK1). unfold item_ok in OK'. apply item_in_mapI in OK'. apply item_in_mapI in OK. rewrite Forall_forall in OK, OK', IH.
    cbn [enc hd_of app] in *. apply has_cons in H. destruct H as [_ H]. rewrite zlen_cons, zlen_app in *. change (zlen [255]) with 1 in *.
    assert (FF : forall x, In x l -> exists c t, encp x = c :: t /\ 0 <= c < 255).
    { intros x Hx. destruct (enc_first (fst x) (proj1 (OK' x Hx))) as (c & t & -> & Hc). cbn [app]. eauto. }
    assert (LL := until_loop s8 encp b fuel (fun q => q1 <- skipper s8 fuel b q ;; skipper s8 fuel b q1) l (p + 1) FF).
    assert (SS : forall x q', In x l -> has b q' (encp x) -> p + 1 <= q' ->
       (q1 <- skipper s8 fuel b q' ;; skipper s8 fuel b q1) = Ok (q' + zlen (encp x))).
    { intros x q' Hx Hh Hq. destruct (OK x Hx) as [O1 O2]. destruct (IH x Hx) as [I1 I2]. assert (Hh' := Hh). apply has_app in Hh. destruct Hh as [Hh1 Hh2].
      pose proof (zlen_nonneg (enc (fst x))).
      apply two_steps with (b := b); [exact Hh'|apply I1; auto; lia|apply I2; auto; lia]. }
    specialize (LL SS H ltac:(lia)). cbv beta in LL.
    destruct s8; cbn [skipper] in *; rewrite ?k_skip_S, ?skip_S, ?HD1, ?HD2; cbn [bind h_len h_major h_val h_indef]; cbv zeta;
      repeat bool_if; rewrite LL; f_equal; lia.
  - cbn [item_in] in OK. destruct OK as [OKn OK]. cbn [enc hd_of] in *. apply has_app in H. destruct H as [_ H].
    rewrite zlen_app, zlen_hdr in *. pose proof (hlen_pos f).
    assert (LL := IH OK fuel (p + hlen f) H ltac:(lia)).
    destruct s8; cbn [skipper] in *; rewrite ?k_skip_S, ?skip_S, ?HD1, ?HD2; cbn [bind h_len h_major h_val h_indef]; cbv zeta;
      repeat bool_if; rewrite LL; f_equal; lia.
Qed.
