(** CborSound.v -- what the CBOR reader's successful answers say about the bytes. *)

From Coq Require Import ZArith List Bool Lia ZifyBool ZifyNat.
From Verif Require Import Base BaseFacts Spec SpecFacts FloatModel HalfModel FloatSpec FloatFacts CborModel CborSpec CborFacts CborRead CborSafe SoundSpec.
Import ListNotations.
Open Scope Z_scope.
Ltac Zify.zify_post_hook ::= idtac.

Lemma bind_ok {A B} (m : res A) (k : A -> res B) r : bind m k = Ok r -> exists a, m = Ok a /\ k a = Ok r.
Proof. destruct m as [a|e| |]; cbn; try discriminate. eauto. Qed.
Lemma req_ok {A} c e (k : res A) r : (require c e ;;; k) = Ok r -> c = true /\ k = Ok r.
Proof. destruct c; cbn; [auto|discriminate]. Qed.
Lemma rd_view_ok b q n s : rd_view b (q, n) = Ok s -> has b q s /\ zlen s = n.
Proof.
  unfold rd_view. cbn [fst snd]. destruct ((0 <=? q) && (0 <=? n) && (q + n <=? zlen b)) eqn:E; [|discriminate].
  intros [= <-]. apply has_at; lia.
Qed.
Lemma mk_string_ok b q n s : mk_string b q n = Ok s -> has b q s /\ zlen s = n.
Proof. unfold mk_string. destruct (i64_max <? n); [discriminate|]. apply rd_view_ok. Qed.
Lemma addr_ok hard b q a : addr hard b q = Ok a -> a = q /\ (hard = false \/ q < zlen b).
Proof.
  unfold addr. destruct (q <? zlen b) eqn:E; [intros [= <-]; split; [reflexivity|right; lia]|].
  destruct hard; cbn [negb andb]; [intros H|intros H; split; [|now left]].
  - destruct (q =? zlen b); discriminate H.
  - destruct (q =? zlen b); [now injection H|discriminate H].
Qed.
Lemma get_be_ok b : bytes_ok b -> forall n p w v, get_be b p n w = Ok v -> 0 <= p -> (n = 0%nat \/ p + Z.of_nat n <= zlen b).
Proof.
  intros B. induction n as [|n IH]; intros p w v H P; [now left|right]. cbn [get_be] in H.
  apply bind_ok in H. destruct H as (x & E & H). pose proof (rd_inv _ _ _ E). destruct (IH _ _ _ H ltac:(lia)) as [-> |L]; lia.
Qed.
Lemma get_be_sound b p n v : bytes_ok b -> (n <= 8)%nat -> 0 <= p <= zlen b -> get_be b p n 0 = Ok v -> has b p (be n v) /\ 0 <= v < 256 ^ Z.of_nat n.
Proof.
  intros B N P H. assert (L : p + Z.of_nat n <= zlen b) by (destruct (get_be_ok b B n p 0 v H ltac:(lia)); lia).
  destruct (get_be_at b p n B N ltac:(lia) L) as (v' & E & Hv). assert (v = v') by congruence. now subst.
Qed.

(** ** Heads *)
Inductive headed (b : bytes) (p : Z) (h : chead) : Prop :=
| headed_def f : 0 <= h_major h < 7 -> h_indef h = false -> has b p (hdr (h_major h) f (h_val h)) -> 0 <= h_val h < arg_cap f -> h_len h = hlen f -> headed b p h
| headed_indef : 0 <= h_major h < 7 -> h_indef h = true -> has b p [32 * h_major h + 31] -> h_len h = 1 -> headed b p h
| headed_simple : h_major h = 7 -> 0 <= h_addl h < 32 -> has b p [224 + h_addl h] -> (h_addl h <> 24 -> h_len h = 1) -> headed b p h.
Lemma read_head_sound b p h : bytes_ok b -> 0 <= p -> read_head b p = Ok h -> headed b p h.
Proof.
  intros B P H. unfold read_head in H. apply req_ok in H. destruct H as [L H]. apply bind_ok in H. destruct H as (x & Ex & H).
  assert (Bx := rd_byte _ _ _ B Ex). destruct (byte_head x Bx) as (M & A & SP). cbv zeta in H.
  set (m := Z.shiftr x 5) in *. set (a := Z.land x 31) in *. assert (HX := rd_has _ _ _ Ex).
  assert (HB : forall n, has b (p + 1) n -> has b p (x :: n)) by (intros n Hn; apply has_cons; auto).
  destruct (m =? 7) eqn:E7.
  - assert (m = 7) by lia. assert (X : x = 224 + a) by lia. rewrite X in HX.
    assert (K : forall v n i, (a <> 24 -> n = 1) -> headed b p (mkHead m a v n i)) by (intros; apply headed_simple; cbn; auto; lia).
    destruct (a =? 25); [injection H as <-; apply K; lia|]. destruct (a =? 26); [injection H as <-; apply K; lia|]. destruct (a =? 27); [injection H as <-; apply K; lia|].
    destruct (a =? 24) eqn:E24; [apply req_ok in H; destruct H as [_ H]; injection H as <-; apply K; lia|]. destruct (a =? 31); injection H as <-; apply K; lia.
  - destruct (a <? 24) eqn:E1.
    { injection H as <-. apply (headed_def b p _ A0); cbn [h_major h_indef h_val h_len hdr arg_cap hlen]; auto; try lia. now rewrite <- SP. }
    destruct (a =? 24) eqn:E2.
    { apply req_ok in H. destruct H as [L2 H]. apply bind_ok in H. destruct H as (y & Ey & H). injection H as <-. assert (By := rd_byte _ _ _ B Ey). unfold is_byte in By.
      apply (headed_def b p _ A1); cbn [h_major h_indef h_val h_len hdr arg_cap hlen]; auto; try lia.
      replace (32 * m + 24) with x by lia. apply HB. cbn [be]. change (256 ^ Z.of_nat 0) with 1. rewrite Z.div_1_r, Z.mod_small by lia. now apply rd_has. }
    destruct (a =? 25) eqn:E3.
    { apply req_ok in H. destruct H as [L2 H]. apply bind_ok in H. destruct H as (v & Ev & H). injection H as <-.
      destruct (get_be_sound b (p + 1) 2 v B ltac:(lia) ltac:(lia) Ev) as [Hv V]. cbn in V.
      apply (headed_def b p _ A2); cbn [h_major h_indef h_val h_len hdr hlen]; auto; try lia; try (cbn; lia). replace (32 * m + 25) with x by lia. now apply HB. }
    destruct (a =? 26) eqn:E4.
    { apply req_ok in H. destruct H as [L2 H]. apply bind_ok in H. destruct H as (v & Ev & H). injection H as <-.
      destruct (get_be_sound b (p + 1) 4 v B ltac:(lia) ltac:(lia) Ev) as [Hv V]. cbn in V.
      apply (headed_def b p _ A4); cbn [h_major h_indef h_val h_len hdr hlen]; auto; try lia; try (cbn; lia). replace (32 * m + 26) with x by lia. now apply HB. }
    destruct (a =? 27) eqn:E5.
    { apply req_ok in H. destruct H as [L2 H]. apply bind_ok in H. destruct H as (v & Ev & H). injection H as <-.
      destruct (get_be_sound b (p + 1) 8 v B ltac:(lia) ltac:(lia) Ev) as [Hv V]. cbn in V.
      apply (headed_def b p _ A8); cbn [h_major h_indef h_val h_len hdr hlen]; auto; try lia; try (cbn; lia). replace (32 * m + 27) with x by lia. now apply HB. }
    destruct (a =? 31) eqn:E6; [|discriminate H]. injection H as <-. apply headed_indef; cbn [h_major h_indef h_len]; auto; try lia.
    replace (32 * m + 31) with x by lia. exact HX.
Qed.

(** ** Strings *)
Section Strings.
  Variables (hard : bool) (b : bytes).
  Hypothesis HB : zlen b < 2^63.
  Hypothesis B : bytes_ok b.

  Lemma def_sound p h s : headed b p h -> h_major h < 7 -> h_indef h = false -> has b (p + h_len h) s -> zlen s = h_val h ->
    exists f, has b p (hdr (h_major h) f (zlen s) ++ s) /\ bytes_ok s /\ zlen s < arg_cap f /\ p + h_len h + h_val h = p + zlen (hdr (h_major h) f (zlen s) ++ s).
  Proof.
    intros HD M I H L. destruct HD as [f M' I' HH V LN| |]; [|congruence|lia]. exists f. rewrite L. pose proof (zlen_hdr (h_major h) f (h_val h)) as ZH. split; [|split; [|split]].
    - apply has_app. rewrite ZH, <- LN. auto.
    - eapply has_bytes; eauto.
    - lia.
    - rewrite zlen_app, ZH, L, LN. lia.
  Qed.
  (** One chunk loop, whichever way it makes its string of the chunk. *)
  Section Chunks.
    Variables (m : Z) (mk : Z -> Z -> res bytes).
    Hypothesis MM : 0 <= m < 7.
    Hypothesis MK : forall q n s, mk q n = Ok s -> has b q s /\ zlen s = n.
    Definition any_chunk (s : Z * bytes) : res ((Z * bytes) + bytes) :=
      let '(q, out) := s in
      require (q <? zlen b) EDeser ;;;
      x <- rd b q ;;
      if x =? 255 then Ok (inr out) else
      ch <- read_head b q ;;
      require ((h_major ch =? m) && negb (h_indef ch)) EDeser ;;;
      let q1 := q + h_len ch in
      require (wrap64 (q1 + h_val ch) <=? zlen b) EDeser ;;;
      a <- addr hard b q1 ;;
      t <- mk a (h_val ch) ;;
      Ok (inl (wrap64 (q1 + h_val ch), out ++ t)).
    Lemma chunks_sound : forall fuel q out r, 0 <= q -> floop fuel any_chunk (q, out) = Ok r ->
      exists l, chunks_ok l /\ has b q (flat_map (chunk m) l ++ [255]) /\ r = out ++ flat_map snd l.
    Proof.
      induction fuel as [|fuel IH]; intros q out r Q H; [discriminate|]. rewrite floop_S in H. apply bind_ok in H. destruct H as (z & E & H).
      unfold any_chunk in E. apply req_ok in E. destruct E as [L E]. apply bind_ok in E. destruct E as (x & Ex & E).
      destruct (x =? 255) eqn:X.
      - injection E as <-. injection H as <-. exists []. cbn [flat_map app]. rewrite app_nil_r. split; [constructor|]. split; [|reflexivity].
        replace 255 with x by lia. now apply rd_has.
      - apply bind_ok in E. destruct E as (ch & Ech & E). apply req_ok in E. destruct E as [C E]. cbv zeta in E. apply req_ok in E. destruct E as [W E].
        apply bind_ok in E. destruct E as (a & Ea & E). apply bind_ok in E. destruct E as (t & Et & E). injection E as <-.
        apply addr_ok in Ea. destruct Ea as [-> _]. apply MK in Et. destruct Et as [Ht Lt]. pose proof (has_bound _ _ _ Ht) as [B0 B1]. pose proof (zlen_nonneg t).
        rewrite wrap64_small in H by lia.
        destruct (def_sound q ch t (read_head_sound b q ch B Q Ech) ltac:(lia) ltac:(destruct (h_indef ch); [lia|reflexivity]) Ht Lt) as (f & HH & OK & LC & POS).
        replace (h_major ch) with m in * by lia. apply IH in H; [|lia]. destruct H as (l & OL & HL & ->).
        exists ((f, t) :: l). cbn [flat_map snd]. split; [constructor; auto|]. split; [|now rewrite app_assoc].
        rewrite <- app_assoc. apply has_app. split; [exact HH|]. rewrite POS in HL. exact HL.
    Qed.
  End Chunks.

  (** [after b p it]: with hardened spans the item is not a string without bytes at the very end. *)
  Lemma sits_def m f s p (it : item) : enc it = hdr m f (zlen s) ++ s -> ends_empty it = (match s with [] => true | _ => false end) ->
    has b p (hdr m f (zlen s) ++ s) -> hard = false \/ p + hlen f < zlen b -> sits hard b p it.
  Proof.
    intros E EE H A. unfold sits. rewrite E, EE. destruct H as (H0 & H1 & H2). split; [exact H0|]. split; [exact H2|]. split; [exact H1|].
    destruct A as [A|A]; [now left|right]. destruct s as [|c s]; [right|now left]. rewrite zlen_app, zlen_hdr, zlen_nil. lia.
  Qed.
  Lemma sits_ind (it : item) p : has b p (enc it) -> ends_empty it = false -> sits hard b p it.
  Proof. intros (H0 & H1 & H2) E. unfold sits. repeat split; auto. Qed.

  Theorem asString_sound fuel p s : 0 <= p -> c_asString hard fuel (mkCView b p) = Ok s ->
    exists it, item_plain it /\ text_of it = Some s /\ sits hard b p it.
  Proof.
    intros P H. unfold c_asString, chd in H. cbn [cv_buf cv_pos] in H. apply bind_ok in H. destruct H as (h & Eh & H). apply req_ok in H. destruct H as [M H]. cbv zeta in H.
    assert (HD := read_head_sound b p h B P Eh). assert (M3 : h_major h = 3) by lia. destruct (h_indef h) eqn:I; cbn [negb] in H.
    - destruct HD as [f M' I' HH V LN|M' I' HH LN|]; [congruence| |lia]. rewrite LN in H. rewrite M3 in HH. change (str_chunk hard b) with (any_chunk 3 (mk_string b)) in H.
      apply chunks_sound in H; [|lia|intros; now apply mk_string_ok|lia]. destruct H as (l & OL & HL & ->). exists (CTextI l). split; [exact OL|]. split; [reflexivity|].
      apply sits_ind; [|reflexivity]. cbn [enc app]. apply has_cons. auto.
    - apply req_ok in H. destruct H as [W H]. apply bind_ok in H. destruct H as (a & Ea & H). apply addr_ok in Ea. destruct Ea as [-> A]. apply mk_string_ok in H. destruct H as [Hs Ls].
      destruct (def_sound p h s HD ltac:(lia) I Hs Ls) as (f & HH & OK & LC & POS). rewrite M3 in HH, POS. exists (CText f s). split; [split; assumption|]. split; [reflexivity|].
      apply sits_def with (m := 3) (f := f) (s := s); auto. rewrite zlen_app, zlen_hdr in POS. destruct A as [A|A]; [now left|right; lia].
  Qed.
  Theorem asBlobVec_sound fuel p s : 0 <= p -> c_asBlobVec hard fuel (mkCView b p) = Ok s ->
    exists it, item_plain it /\ blob_of it = Some s /\ sits hard b p it.
  Proof.
    intros P H. unfold c_asBlobVec, chd in H. cbn [cv_buf cv_pos] in H. apply bind_ok in H. destruct H as (h & Eh & H). apply req_ok in H. destruct H as [M H]. cbv zeta in H.
    assert (HD := read_head_sound b p h B P Eh). assert (M3 : h_major h = 2) by lia. destruct (h_indef h) eqn:I; cbn [negb] in H.
    - destruct HD as [f M' I' HH V LN|M' I' HH LN|]; [congruence| |lia]. rewrite LN in H. rewrite M3 in HH. change (blob_chunk hard b) with (any_chunk 2 (fun q n => rd_view b (q, n))) in H.
      apply chunks_sound in H; [|lia|intros; now apply rd_view_ok|lia]. destruct H as (l & OL & HL & ->). exists (CBytesI l). split; [exact OL|]. split; [reflexivity|].
      apply sits_ind; [|reflexivity]. cbn [enc app]. apply has_cons. auto.
    - apply req_ok in H. destruct H as [W H]. apply bind_ok in H. destruct H as (a & Ea & H). apply addr_ok in Ea. destruct Ea as [-> A]. apply rd_view_ok in H. destruct H as [Hs Ls].
      destruct (def_sound p h s HD ltac:(lia) I Hs Ls) as (f & HH & OK & LC & POS). rewrite M3 in HH, POS. exists (CBytes f s). split; [split; assumption|]. split; [reflexivity|].
      apply sits_def with (m := 2) (f := f) (s := s); auto. rewrite zlen_app, zlen_hdr in POS. destruct A as [A|A]; [now left|right; lia].
  Qed.
  Theorem view_sound m p s : m = 2 \/ m = 3 -> 0 <= p -> (w <- c_view hard m (mkCView b p) ;; rd_view b w) = Ok s ->
    exists f, bytes_ok s /\ zlen s < arg_cap f /\ has b p (hdr m f (zlen s) ++ s) /\ (hard = false \/ p + hlen f < zlen b).
  Proof.
    intros MM P H. apply bind_ok in H. destruct H as (w & Ew & H). unfold c_view, chd in Ew. cbn [cv_buf cv_pos] in Ew. apply bind_ok in Ew. destruct Ew as (h & Eh & Ew).
    apply req_ok in Ew. destruct Ew as [M Ew]. apply req_ok in Ew. destruct Ew as [I Ew]. cbv zeta in Ew. apply req_ok in Ew. destruct Ew as [W Ew].
    apply bind_ok in Ew. destruct Ew as (a & Ea & Ew). injection Ew as <-. apply addr_ok in Ea. destruct Ea as [-> A]. apply rd_view_ok in H. destruct H as [Hs Ls].
    assert (h_major h = m) by lia. destruct (def_sound p h s (read_head_sound b p h B P Eh) ltac:(lia) ltac:(destruct (h_indef h); [discriminate|reflexivity]) Hs Ls) as (f & HH & OK & LC & POS).
    rewrite H in *. exists f. split; [exact OK|]. split; [exact LC|]. split; [exact HH|]. rewrite zlen_app, zlen_hdr in POS. destruct A as [A|A]; [now left|right; lia].
  Qed.
End Strings.

(** ** Strings that are there are returned *)
Section Complete.
  Variables (hard : bool) (b : bytes).
  Hypothesis HB : zlen b < 2^63.

  Lemma chunks_complete m mk : 0 <= m < 7 -> (forall q s, has b q s -> mk q (zlen s) = Ok s) ->
    forall l q fuel out, chunks_ok l -> has b q (flat_map (chunk m) l ++ [255]) -> (length l < fuel)%nat -> floop fuel (any_chunk hard b m mk) (q, out) = Ok (out ++ flat_map snd l).
  Proof.
    intros MM MK. induction l as [|[f s] l IH]; intros q fuel out OK H L; (destruct fuel as [|fuel]; [lia|]); rewrite floop_S.
    - cbn [flat_map app] in *. pose proof (has_bound _ _ _ H) as [B0 B1]. change (zlen [255]) with 1 in B1.
      unfold any_chunk at 1. unfold require. replace (q <? zlen b) with true by lia. rewrite (has_rd _ _ _ _ H). cbn. now rewrite app_nil_r.
    - cbn [flat_map length snd] in *. rewrite <- app_assoc in H. apply has_app in H. destruct H as [H1 H2].
      inversion OK as [|? ? [O1 O2] OK']; subst. cbn [fst snd] in *.
      destruct (chunk_facts m f s b q MM O1 O2 H1) as (x & t & E & Hx & R & RH & _ & HS & LC).
      pose proof (has_bound _ _ _ HS) as [B0 B1]. pose proof (has_bound _ _ _ H2) as [B2 B3]. rewrite zlen_app in B3. change (zlen [255]) with 1 in B3.
      pose proof (zlen_nonneg (flat_map (chunk m) l)). pose proof (zlen_nonneg s). pose proof (hlen_pos f). rewrite LC in *.
      assert (W : wrap64 (q + hlen f + zlen s) = q + hlen f + zlen s) by (apply wrap64_small; lia).
      assert (STEP : any_chunk hard b m mk (q, out) = Ok (inl (q + hlen f + zlen s, out ++ s))).
      { pose proof (has_bound _ _ _ H1) as [B4 B5]. rewrite LC in B5.
        unfold any_chunk, require. replace (q <? zlen b) with true by lia. cbn [bind]. rewrite R. cbn [bind].
        replace (x =? 255) with false by lia. rewrite RH. cbn [bind h_major h_indef h_len h_val negb]. rewrite Z.eqb_refl. cbn [andb]. rewrite W.
        replace (_ <=? _) with true by lia. cbn [bind]. rewrite addr_room by lia. cbn [bind].
        rewrite MK by assumption. reflexivity. }
      rewrite STEP. cbn [bind]. replace (q + (hlen f + zlen s)) with (q + hlen f + zlen s) in H2 by lia.
      rewrite IH; [|exact OK'|exact H2|lia]. now rewrite <- app_assoc.
  Qed.
  Lemma empty_room f s p (it : item) m : enc it = hdr m f (zlen s) ++ s -> ends_empty it = (match s with [] => true | _ => false end) ->
    sits hard b p it -> hard = false \/ p + hlen f < zlen b.
  Proof.
    intros E EE (_ & _ & L & R). rewrite E in *. rewrite EE in R. rewrite zlen_app, zlen_hdr in *. destruct R as [R|R]; [now left|right].
    destruct s as [|c s]; [destruct R as [R|R]; [discriminate|rewrite zlen_nil in R; lia]|]. rewrite zlen_cons in *. pose proof (zlen_nonneg s). lia.
  Qed.

  Theorem asBlobVec_complete fuel p it s : zlen b < Z.of_nat fuel -> item_plain it -> blob_of it = Some s -> sits hard b p it -> c_asBlobVec hard fuel (mkCView b p) = Ok s.
  Proof.
    intros HF OK E ST. assert (H := sits_has _ _ _ _ ST). destruct it; try discriminate E; cbn [blob_of] in E; injection E as <-.
    - destruct OK as [O1 O2]. pose proof (empty_room f b0 p (CBytes f b0) 2 eq_refl eq_refl ST) as RM. destruct (read_definite hard fuel b p 2 f b0 HB ltac:(lia) O2 H RM) as (V & RV & _).
      unfold c_view in V. unfold c_asBlobVec. apply bind_ok in V. destruct V as (h & Eh & V). cbn [cv_buf cv_pos] in *. rewrite Eh. cbn [bind].
      apply req_ok in V. destruct V as [V1 V]. apply req_ok in V. destruct V as [V2 V]. cbv zeta in V. apply req_ok in V. destruct V as [V3 V].
      apply bind_ok in V. destruct V as (a & Ea & V). unfold require. rewrite V1, V2. cbn [bind]. rewrite V3. cbn [bind]. rewrite Ea. cbn [bind]. injection V as -> ->. exact RV.
    - destruct (item_head (CBytesI chunks) b p OK H) as [HD _].
      unfold c_asBlobVec, chd. cbn [cv_buf cv_pos]. rewrite HD. cbn [hd_of bind require h_major h_indef h_len h_val negb Z.eqb Pos.eqb].
      cbn [enc app] in H. apply has_cons in H. destruct H as [_ H]. pose proof (has_bound _ _ _ H) as [B0 B1].
      rewrite zlen_app in B1. pose proof (flat_len (chunk 2) chunks (fun x _ => chunk_pos 2 x)).
      change (zlen [255]) with 1 in B1. change (blob_chunk hard b) with (any_chunk hard b 2 (fun q n => rd_view b (q, n))).
      rewrite (chunks_complete 2 (fun q n => rd_view b (q, n)) ltac:(lia) (fun q s Hs => has_rd_view b q s Hs) chunks (p + 1) fuel [] OK H) by (unfold zlen in *; lia). reflexivity.
  Qed.
  Theorem asString_complete fuel p it s : zlen b < Z.of_nat fuel -> item_plain it -> text_of it = Some s -> sits hard b p it -> c_asString hard fuel (mkCView b p) = Ok s.
  Proof.
    intros HF OK E ST. assert (H := sits_has _ _ _ _ ST). destruct it; try discriminate E; cbn [text_of] in E; injection E as <-.
    - destruct OK as [O1 O2]. pose proof (empty_room f s0 p (CText f s0) 3 eq_refl eq_refl ST) as RM. now apply (read_definite hard fuel b p 3 f s0 HB ltac:(lia) O2 H RM).
    - now apply asString_chunked.
  Qed.
  Theorem view_complete m p f s (it : item) : m = 2 \/ m = 3 -> enc it = hdr m f (zlen s) ++ s -> ends_empty it = (match s with [] => true | _ => false end) ->
    zlen s < arg_cap f -> sits hard b p it -> (w <- c_view hard m (mkCView b p) ;; rd_view b w) = Ok s.
  Proof.
    intros MM E EE L ST. assert (H := sits_has _ _ _ _ ST). rewrite E in H. pose proof (empty_room f s p it m E EE ST) as RM.
    destruct (read_definite hard 0 b p m f s HB ltac:(lia) L H RM) as (V & RV & _). rewrite V. exact RV.
  Qed.
End Complete.

(** ** Numbers and simple values *)
Section Numbers.
  Variables (b : bytes).
  Hypothesis B : bytes_ok b.

  Lemma head_uint p f n : 0 <= n < arg_cap f -> has b p (hdr 0 f n) -> read_head b p = Ok (mkHead 0 (addl f n) n (hlen f) false).
  Proof. intros N H. apply (head_hdr b p 0 f n H); lia. Qed.
  Lemma head_neg p f n : 0 <= n < arg_cap f -> has b p (hdr 1 f n) -> read_head b p = Ok (mkHead 1 (addl f n) n (hlen f) false).
  Proof. intros N H. apply (head_hdr b p 1 f n H); lia. Qed.
  Lemma head_odd p m : m = 0 \/ m = 1 -> has b p [32 * m + 31] -> read_head b p = Ok (mkHead m 31 0 1 true).
  Proof.
    intros M H. pose proof (has_bound _ _ _ H) as [B0 B1]. change (zlen [32 * m + 31]) with 1 in B1. unfold read_head, require. replace (p <? zlen b) with true by lia.
    cbn [bind]. rewrite (has_rd _ _ _ _ H). destruct M as [-> | ->]; reflexivity.
  Qed.
  Lemma asUInt_iff p n : 0 <= p -> c_asUInt64 (mkCView b p) = Ok n <-> (exists f, item_plain (CUInt f n) /\ has b p (enc (CUInt f n))) \/ (has b p [31] /\ n = 0).
  Proof.
    intros P. unfold c_asUInt64, chd. cbn [cv_buf cv_pos]. split.
    - intros H. apply bind_ok in H. destruct H as (h & Eh & H). apply req_ok in H. destruct H as [M H]. injection H as <-.
      assert (M0 : h_major h = 0) by lia.
      destruct (read_head_sound b p h B P Eh) as [f M' I' HH V LN|M' I' HH LN|]; [left|right|lia]; rewrite M0 in *.
      + exists f. split; [exact V|exact HH].
      + split; [exact HH|]. rewrite (head_odd p 0 ltac:(now left) HH) in Eh. now injection Eh as <-.
    - intros [(f & OK & H)|[H ->]].
      + rewrite (head_uint p f n OK H). reflexivity.
      + rewrite (head_odd p 0 ltac:(now left) H). reflexivity.
  Qed.
  Lemma asInt_iff p z : 0 <= p -> c_asInt64 (mkCView b p) = Ok z <->
    (exists f n, item_plain (CUInt f n) /\ has b p (enc (CUInt f n)) /\ z = to_signed 64 n) \/ (exists f n, item_plain (CNeg f n) /\ has b p (enc (CNeg f n)) /\ n < 2^63 /\ z = -1 - n) \/
    (has b p [31] /\ z = 0) \/ (has b p [63] /\ z = -1).
  Proof.
    intros P. unfold c_asInt64, chd, p_int. cbn [cv_buf cv_pos]. split.
    - intros H. apply bind_ok in H. destruct H as (h & Eh & H). apply req_ok in H. destruct H as [M H].
      assert (M0 : h_major h = 0 \/ h_major h = 1) by lia.
      destruct (read_head_sound b p h B P Eh) as [f M' I' HH V LN|M' I' HH LN|]; [| |lia]; destruct M0 as [M0|M0]; rewrite M0 in *; cbn [Z.eqb Pos.eqb] in H.
      + left. exists f, (h_val h). split; [exact V|]. split; [exact HH|congruence].
      + right. left. destruct (i64_max <? h_val h) eqn:E; [discriminate|]. unfold i64_max in E. exists f, (h_val h). split; [exact V|]. split; [exact HH|]. split; [lia|congruence].
      + right. right. left. split; [exact HH|]. rewrite (head_odd p 0 ltac:(now left) HH) in Eh. injection Eh as <-. cbn [h_val] in H. now injection H as <-.
      + right. right. right. split; [exact HH|]. rewrite (head_odd p 1 ltac:(now right) HH) in Eh. injection Eh as <-. cbn [h_val] in H. now injection H as <-.
    - intros [(f & n & OK & H & ->)|[(f & n & OK & H & L & ->)|[[H ->]|[H ->]]]].
      + rewrite (head_uint p f n OK H). reflexivity.
      + rewrite (head_neg p f n OK H). cbn [bind require h_major h_val Z.eqb Pos.eqb orb]. replace (i64_max <? n) with false by (unfold i64_max; lia). reflexivity.
      + rewrite (head_odd p 0 ltac:(now left) H). reflexivity.
      + rewrite (head_odd p 1 ltac:(now right) H). reflexivity.
  Qed.
  Lemma head_simple p h : 0 <= p -> read_head b p = Ok h -> h_major h = 7 -> h_addl h <> 24 -> has b p [224 + h_addl h] /\ h_len h = 1.
  Proof. intros P Eh M A. destruct (read_head_sound b p h B P Eh) as [f M' I' HH V LN|M' I' HH LN|M' A' HH LN]; [lia|lia|]. auto. Qed.
  Lemma head_of_simple p n : 0 <= n < 24 -> has b p [224 + n] -> read_head b p = Ok (mkHead 7 n 0 1 false).
  Proof. intros N H. assert (OK : item_ok (CSimple n)) by exact N. destruct (item_head (CSimple n) b p OK H) as [HD _]. exact HD. Qed.
  Lemma isNull_iff p : 0 <= p -> c_is p_null (mkCView b p) = Ok true <-> has b p (enc (CSimple 22)).
  Proof.
    intros P. unfold c_is, chd, p_null. cbn [cv_buf cv_pos]. split.
    - intros H. apply bind_ok in H. destruct H as (h & Eh & H). injection H as H. assert (A : h_addl h = 22) by lia.
      destruct (head_simple p h P Eh ltac:(lia) ltac:(lia)) as [HH _]. rewrite A in HH. exact HH.
    - intros H. rewrite (head_of_simple p 22 ltac:(lia) H). reflexivity.
  Qed.
  Lemma asBool_iff p v : 0 <= p -> c_asBool (mkCView b p) = Ok v <-> has b p (enc (CSimple (if v then 21 else 20))).
  Proof.
    intros P. unfold c_asBool, chd, p_bool. cbn [cv_buf cv_pos]. split.
    - intros H. apply bind_ok in H. destruct H as (h & Eh & H). apply req_ok in H. destruct H as [M H]. injection H as <-.
      destruct (head_simple p h P Eh ltac:(lia) ltac:(lia)) as [HH _]. cbn [enc].
      destruct (h_addl h =? 21) eqn:E; [replace (h_addl h) with 21 in HH by lia|replace (h_addl h) with 20 in HH by lia]; exact HH.
    - intros H. rewrite (head_of_simple p (if v then 21 else 20) ltac:(destruct v; lia) H). destruct v; reflexivity.
  Qed.
  Lemma two_bytes p x y : rd b p = Ok x -> rd b (p + 1) = Ok y -> has b p (be 2 (wrap16 (Z.lor (Z.shiftl x 8) y))) /\ 0 <= wrap16 (Z.lor (Z.shiftl x 8) y) < 2^16.
  Proof.
    intros Ex Ey. pose proof (rd_inv _ _ _ Ex). pose proof (rd_inv _ _ _ Ey). assert (Bx := rd_byte _ _ _ B Ex). assert (By := rd_byte _ _ _ B Ey).
    assert (G : get_be b p 2 0 = Ok (Z.lor (wrap64 (Z.shiftl (Z.lor (wrap64 (Z.shiftl 0 8)) x) 8)) y)) by (cbn [get_be]; rewrite Ex; cbn [bind]; rewrite Ey; reflexivity).
    rewrite Z.shiftl_0_l in G. change (wrap64 0) with 0 in G. rewrite Z.lor_0_l in G. unfold is_byte in *.
    rewrite (wrap64_small (Z.shiftl x 8)) in G by (rewrite Z.shiftl_mul_pow2 by lia; lia).
    destruct (get_be_sound b p 2 _ B ltac:(lia) ltac:(lia) G) as [HH V]. change (256 ^ Z.of_nat 2) with 65536 in V.
    unfold wrap16. change (2^16) with 65536. rewrite Z.mod_small by lia. auto.
  Qed.
  (** [f16_to_f64], [f32_to_f64]: widening. *)
  Lemma asDouble_sound p d : 0 <= p -> c_asDouble (mkCView b p) = Ok d ->
    exists it, item_plain it /\ has b p (enc it) /\ ((exists x, it = CF16 x /\ d = f16_to_f64 x) \/ (exists x, it = CF32 x /\ d = f32_to_f64 x) \/ it = CF64 d).
  Proof.
    intros P H. unfold c_asDouble, chd, p_float in H. cbn [cv_buf cv_pos] in H. apply bind_ok in H. destruct H as (h & Eh & H). apply req_ok in H. destruct H as [M H]. cbv zeta in H.
    destruct (head_simple p h P Eh ltac:(lia) ltac:(lia)) as [HH LN]. rewrite LN in H. pose proof (has_bound _ _ _ HH) as [B0 B1]. change (zlen [224 + h_addl h]) with 1 in B1.
    destruct (h_addl h =? 25) eqn:E1; [|destruct (h_addl h =? 26) eqn:E2].
    - apply bind_ok in H. destruct H as (x & Ex & H). apply bind_ok in H. destruct H as (y & Ey & H). injection H as <-.
      destruct (two_bytes _ _ _ Ex Ey) as [H2 V]. set (n := wrap16 (Z.lor (Z.shiftl x 8) y)) in *. exists (CF16 n). split; [exact V|]. split.
      + cbn [enc]. apply has_cons. replace 249 with (224 + h_addl h) by lia. auto.
      + left. exists n. split; [reflexivity|]. apply decode_f16_spec. lia.
    - apply bind_ok in H. destruct H as (x & Ex & H). destruct (get_be_sound b (p + 1) 4 x B ltac:(lia) ltac:(lia) Ex) as [H2 V]. change (256 ^ Z.of_nat 4) with (2^32) in V.
      exists (CF32 x). split; [exact V|]. split.
      + cbn [enc]. apply has_cons. replace 250 with (224 + h_addl h) by lia. auto.
      + right. left. exists x. split; [reflexivity|]. unfold wrap32 in H. rewrite Z.mod_small in H by lia. congruence.
    - destruct (get_be_sound b (p + 1) 8 d B ltac:(lia) ltac:(lia) H) as [H2 V]. change (256 ^ Z.of_nat 8) with (2^64) in V.
      exists (CF64 d). split; [exact V|]. split; [|auto]. cbn [enc]. apply has_cons. replace 251 with (224 + h_addl h) by lia. auto.
  Qed.
  Lemma asDouble_complete p it d : item_plain it -> has b p (enc it) -> ((exists x, it = CF16 x /\ d = f16_to_f64 x) \/ (exists x, it = CF32 x /\ d = f32_to_f64 x) \/ it = CF64 d) ->
    zlen b < 2^63 -> c_asDouble (mkCView b p) = Ok d.
  Proof.
    intros OK H E HB. assert (IO : item_ok it) by (now apply item_in_mono in OK).
    assert (ST : sits true b p it) by (apply has_sits; [exact H|right; left; destruct E as [(x & -> & _)|[(x & -> & _)| ->]]; reflexivity]).
    assert (C : is_chunked_text it = false) by (destruct E as [(x & -> & _)|[(x & -> & _)| ->]]; reflexivity).
    pose proof (observes_item true 0 b p it HB IO C ST) as O. destruct O as (_ & _ & _ & _ & _ & _ & _ & _ & _ & _ & _ & _ & O & _). cbn [cbor_reader r_asDouble] in O.
    rewrite O. destruct E as [(x & -> & ->)|[(x & -> & ->)| ->]]; reflexivity.
  Qed.
End Numbers.
