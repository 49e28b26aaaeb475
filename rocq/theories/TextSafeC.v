(** TextSafeC.v -- CBOR's to_string on well-formed messages it did not write itself.

    dump_rec prints every array with the element count of the root, so it runs past the end of nested arrays.
    On a message that is one well-formed item it only ever meets whole items and break bytes there. *)

From Coq Require Import ZArith List Bool String Lia ZifyBool ZifyNat.
From Verif Require Import Base BaseFacts Spec SpecFacts TextSpec CborModel CborSpec CborFacts CborRead CborSafe TextModel.
Import ListNotations.
Open Scope Z_scope.

Inductive tok : Type := T (x : item) | Brk.
Definition enct (t : tok) : bytes := match t with T x => enc x | Brk => [255] end.
Definition tok_ok (t : tok) : Prop := match t with T x => item_plain x | Brk => True end.
Definition ents (l : list (item * item)) : list tok := flat_map (fun kx => [T (fst kx); T (snd kx)]) l.
(** From [p] on, [b] consists of the tokens [l]. *)
Definition toks (b : bytes) (p : Z) (l : list tok) : Prop :=
  has b p (flat_map enct l) /\ p + zlen (flat_map enct l) = zlen b /\ Forall tok_ok l.
Definition pos (b : bytes) (p : Z) : Prop := exists l, toks b p l.

Lemma enc_elems xs l : flat_map enct (map T xs ++ l) = flat_map enc xs ++ flat_map enct l.
Proof. induction xs as [|x xs IH]; [reflexivity|]. cbn [map app flat_map enct]. now rewrite IH, app_assoc. Qed.
Lemma enc_ents es l : flat_map enct (ents es ++ l) = flat_map (fun kx => enc (fst kx) ++ enc (snd kx)) es ++ flat_map enct l.
Proof. unfold ents. induction es as [|[k x] es IH]; [reflexivity|]. cbn [flat_map app enct fst snd]. now rewrite IH, !app_assoc. Qed.
Lemma ok_elems xs l : Forall item_plain xs -> Forall tok_ok l -> Forall tok_ok (map T xs ++ l).
Proof. intros A B. induction A; cbn; auto. Qed.
Lemma ok_ents es l : Forall (fun kx => item_plain (fst kx) /\ item_plain (snd kx)) es -> Forall tok_ok l -> Forall tok_ok (ents es ++ l).
Proof. intros A B. unfold ents. induction A as [|kx es [H1 H2] A IH]; cbn; auto. Qed.

Lemma toks_bound {b} p l : toks b p l -> 0 <= p <= zlen b.
Proof. intros (H & E & _). pose proof (has_bound _ _ _ H). pose proof (zlen_nonneg (flat_map enct l)). lia. Qed.
Lemma toks_next {b} p t l : toks b p (t :: l) -> has b p (enct t) /\ tok_ok t /\ 1 <= zlen (enct t) /\ toks b (p + zlen (enct t)) l.
Proof.
  intros (H & E & F). inversion F; subst. cbn [flat_map] in *. rewrite zlen_app in E. apply has_app in H. destruct H as [H H'].
  split; [exact H|]. split; [assumption|]. split.
  - destruct t; [cbn; apply enc_pos; now apply (item_in_mono _ false)|cbn; lia].
  - split; [exact H'|]. split; [lia|assumption].
Qed.
(** Behind a header [h] the contents [c] become visible. *)
Lemma toks_open {b} p x l (h : bytes) c : toks b p (T x :: l) -> flat_map enct (T x :: l) = h ++ flat_map enct c -> Forall tok_ok c -> toks b (p + zlen h) c.
Proof.
  intros (H & E & _) Q F. rewrite Q in *. rewrite zlen_app in E. apply has_app in H. split; [apply H|]. split; [lia|exact F].
Qed.

Section Safe.
  Context (fl : Z -> bytes) (fuel : nat) (b : bytes).
  Hypothesis B : bytes_ok b.
  Hypothesis HB : zlen b < 2^63.
  Hypothesis HF : zlen b < Z.of_nat fuel.

  Lemma skip_toks p t l : toks b p (t :: l) -> skip fuel b p = Ok (p + zlen (enct t)).
  Proof.
    intros K. pose proof (toks_bound _ _ K). destruct (toks_next _ _ _ K) as (H' & OK & _). destruct t as [x|].
    - apply (skipper_enc false b HB x OK fuel p H'). lia.
    - destruct fuel as [|f]; [pose proof (zlen_nonneg b); lia|]. rewrite skip_S. cbn [enct] in *.
      destruct (head_simple b p 255 [] (mkHead 7 31 0 1 true) H' eq_refl) as [-> _]. reflexivity.
  Qed.
  Lemma head_end p : toks b p [] -> read_head b p = Throw EDeser.
  Proof. intros (_ & E & _). cbn [flat_map] in E. rewrite zlen_nil in E. unfold read_head. replace (p <? zlen b) with false by lia. reflexivity. Qed.
  Lemma skip_pos p : pos b p -> outcome true false (fun q => pos b q /\ p < q) (skip fuel b p).
  Proof.
    intros [[|t l] K].
    - destruct fuel as [|f]; [pose proof (zlen_nonneg b); lia|]. rewrite skip_S, (head_end p K). exact I.
    - rewrite (skip_toks _ _ _ K). destruct (toks_next _ _ _ K) as (_ & _ & L & K'). cbn. split; [now exists l|lia].
  Qed.

  Lemma string_item p x : item_plain x -> has b p (enc x) -> outcome true false any (c_asString false fuel (mkCView b p)).
  Proof.
    intros OK H. assert (OK1 := item_in_mono _ _ OK). fold item_ok in OK1. destruct (item_head x b p OK1 H) as [HD _].
    destruct x; try (rewrite (no_str false fuel b p _ HD eq_refl); exact I).
    - cbn [enc] in H. destruct OK as [_ L]. destruct (read_definite false fuel b p 3 f s HB ltac:(lia) L H (or_introl eq_refl)) as (_ & _ & E).
      rewrite (E eq_refl). exact I.
    - rewrite (asString_chunked false fuel b p chunks HB HF OK H). exact I.
  Qed.
  Lemma string_pos p : pos b p -> outcome true false any (c_asString false fuel (mkCView b p)).
  Proof.
    intros [[|[x|] l] K].
    - unfold c_asString, chd. cbn [cv_buf cv_pos]. rewrite (head_end p K). exact I.
    - destruct (toks_next _ _ _ K) as (H & OK & _). exact (string_item p x OK H).
    - destruct (toks_next _ _ _ K) as (H & _). cbn [enct] in H.
      destruct (head_simple b p 255 [] (mkHead 7 31 0 1 true) H eq_refl) as [HD _]. rewrite (no_str false fuel b p _ HD eq_refl). exact I.
  Qed.

  Lemma float_item p : 0 <= p -> (forall x n, rd b p = Ok x -> float_size x = Some n -> p + n <= zlen b) ->
    outcome true false any (c_asDouble (mkCView b p)).
  Proof. intros P Q. pose proof (asDouble_safe b p B P Q) as S. destruct (c_asDouble (mkCView b p)) as [?|[]| |]; try exact I; cbn in S; (exact S || (exfalso; (congruence || tauto))). Qed.

  (** The bytes of a chunked byte string are counted, not read. *)
  Lemma chunk_sizes : forall l q n acc, chunks_ok l -> has b q (flat_map (chunk 2) l ++ [255]) -> (List.length l < n)%nat ->
    outcome true false any (floop n (c_size_step b) (q, acc)).
  Proof.
    induction l as [|[f s] l IH]; intros q n acc OK H L; (destruct n as [|n]; [lia|]); rewrite floop_S; unfold c_size_step at 1.
    - cbn [flat_map app] in H. rewrite (has_rd _ _ _ _ H). exact I.
    - inversion OK as [|? ? [Bs Ls] OK']; subst. cbn [fst snd] in *. cbn [flat_map] in H. rewrite <- app_assoc in H. apply has_app in H. destruct H as [H H'].
      pose proof (chunk_pos 2 (f, s)) as CP. pose proof (has_bound _ _ _ H) as [B0 B1]. pose proof (zlen_nonneg s).
      assert (HH := H). unfold chunk in HH. cbn [fst snd] in HH. apply has_app in HH. destruct HH as [HH _].
      destruct (head_hdr b q 2 f (zlen s) HH ltac:(lia) ltac:(lia)) as [HD _].
      destruct (hdr_first 2 f (zlen s) ltac:(lia) ltac:(lia)) as (x & t & Ex & Rx). rewrite Ex in HH. rewrite (has_rd _ _ _ _ HH). cbn [bind].
      replace (x =? 255) with false by lia. rewrite HD. cbn [bind h_len h_val].
      assert (ZL : zlen (chunk 2 (f, s)) = hlen f + zlen s) by (unfold chunk; cbn [fst snd]; now rewrite zlen_app, zlen_hdr).
      pose proof (hlen_pos f). rewrite (wrap64_small (hlen f + zlen s)) by lia. rewrite (wrap64_small (q + (hlen f + zlen s))) by lia.
      rewrite <- ZL. apply IH; auto. cbn [List.length] in L. lia.
  Qed.

  Context (root : item) (p0 : Z).
  Hypothesis ROOT : item_plain root.
  Hypothesis HR : has b p0 (enc root).
  Let rv := mkCView b p0.

  Lemma size_root : outcome true false any (c_arraySize fuel rv).
  Proof.
    assert (OK1 := item_in_mono _ _ ROOT). fold item_ok in OK1. destruct (item_head root b p0 OK1 HR) as [HD _]. unfold rv.
    clear rv. destruct root; try (rewrite (no_size fuel b p0 _ HD eq_refl); exact I).
    - rewrite (size_def fuel b p0 f l OK1 HR). exact I.
    - rewrite (size_ind fuel b HB HF p0 l ROOT HR). exact I.
  Qed.

  Lemma c_dump_safe : forall d p pad, pos b p -> zlen b - p < Z.of_nat d -> outcome true false any (c_dump fl false fuel rv d p pad).
  Proof.
    induction d as [|d IH]; intros p pad [l K] D; [pose proof (toks_bound _ _ K); lia|].
    cbn [c_dump]. change (cv_buf rv) with b. destruct l as [|[x|] l].
    { rewrite (head_end p K). exact I. }
    2:{ destruct (toks_next _ _ _ K) as (H & _). cbn [enct] in H.
        destruct (head_simple b p 255 [] (mkHead 7 31 0 1 true) H eq_refl) as [-> _]. exact I. }
    destruct (toks_next _ _ _ K) as (H & OK & _ & KN). cbn [enct tok_ok] in H, OK, KN.
    assert (TL : Forall tok_ok l) by apply KN.
    assert (OK1 := item_in_mono _ _ OK). fold item_ok in OK1. destruct (item_head x b p OK1 H) as [HD _]. rewrite HD. cbn [bind].
    pose proof (has_bound _ _ _ H) as [B0 B1].
    (* the loops *)
    assert (AL : forall n q t0, pos b q -> p < q -> outcome true false any
        (x <- zloop n (c_elem (c_dump fl false fuel rv d) fuel b n pad) (0, q, t0) ;;
         match x with inl (_, _, out) => Ok (out ++ spaces pad ++ txt "]") | inr _ => UB end)).
    { intros n q t0 PQ L. eapply out_bind.
      - apply (out_zloop true false _ (fun s => pos b (snd (fst s)) /\ p < snd (fst s)) (fun _ : unit => False)); [|now split].
        intros [[i e] out] [PE LE]. cbn [fst snd] in *. unfold c_elem.
        eapply out_bind; [apply IH; [exact PE|lia]|]. intros t _.
        eapply out_bind; [exact (skip_pos e PE)|]. intros e' [PE' LE']. cbn. split; [exact PE'|lia].
      - intros [[[i e] out]|u] X; [exact I|destruct X]. }
    assert (ML : forall n q t0, pos b q -> p < q -> outcome true false any
        (floop fuel (c_entry (c_dump fl false fuel rv d) false fuel b false n pad) (0, q, t0))).
    { intros n q t0 PQ L.
      apply (out_floop true false _ (fun s => pos b (snd (fst s)) /\ p < snd (fst s)) (fun s => Z.max 0 (zlen b - snd (fst s)))); [|intros; lia|now split|cbn [fst snd]; pose proof (zlen_nonneg b); lia].
      intros [[i q2] out] [PE LE]. cbn [fst snd] in *. unfold c_entry. cbn [bind].
      eapply out_bind; [exact (string_pos q2 PE)|]. intros k _.
      eapply out_bind; [exact (skip_pos q2 PE)|]. intros q3 [P3 L3].
      eapply out_bind; [apply IH; [exact P3|lia]|]. intros t _.
      eapply out_bind; [exact (skip_pos q3 P3)|]. intros q4 [P4 L4].
      cbn [negb andb]. destruct (n <=? i + 1); cbn; [exact I|]. cbn [fst snd].
      assert (q3 <= zlen b) by (destruct P3 as [? Q]; apply (toks_bound _ _ Q)). split; [split; [exact P4|lia]|]. intros _.
      assert (q4 <= zlen b) by (destruct P4 as [? Q]; apply (toks_bound _ _ Q)). lia. }
    assert (IL : forall n es r q t0, toks b q (ents es ++ Brk :: r) -> p < q -> outcome true false any
        (floop fuel (c_entry (c_dump fl false fuel rv d) false fuel b true n pad) (0, q, t0))).
    { intros n es r q t0 PQ L.
      apply (out_floop true false _ (fun s => (exists es, toks b (snd (fst s)) (ents es ++ Brk :: r)) /\ p < snd (fst s)) (fun s => Z.max 0 (zlen b - snd (fst s)))); [|intros; lia|split; [eauto|exact L]|cbn [fst snd]; pose proof (toks_bound _ _ PQ); lia].
      intros [[i q2] out] [[es' PE] LE]. cbn [fst snd] in *. unfold c_entry. destruct es' as [|[k y] es'].
      - cbn [ents flat_map app] in PE. destruct (toks_next _ _ _ PE) as (H0 & _). cbn [enct] in H0. rewrite (has_rd _ _ _ _ H0). exact I.
      - cbn [ents flat_map app fst snd] in PE. fold (ents es') in PE. destruct (toks_next _ _ _ PE) as (H0 & OK0 & L0 & P3). cbn [enct tok_ok] in H0, OK0.
        destruct (enc_first k (item_in_mono _ _ OK0)) as (c & t' & Ec & Rc). assert (H0' := H0). rewrite Ec in H0'. rewrite (has_rd _ _ _ _ H0'). cbn [bind].
        replace (c =? 255) with false by lia.
        eapply out_bind; [exact (string_item q2 k OK0 H0)|]. intros ks _. rewrite (skip_toks _ _ _ PE). cbn [bind].
        destruct (toks_next _ _ _ P3) as (_ & _ & L1 & P4).
        eapply out_bind; [apply IH; [now exists (T y :: ents es' ++ Brk :: r)|lia]|]. intros t _. rewrite (skip_toks _ _ _ P3). cbn [bind negb andb]. cbn. cbn [fst snd].
        cbn [enct] in L0, L1. split; [split; [now exists es'|lia]|]. intros _. pose proof (toks_bound _ _ P4). cbn [enct] in *. lia. }
    destruct x; cbn [hd_of h_major h_addl h_val h_len h_indef] in *;
      cbn [Z.eqb Pos.eqb andb orb negb]; try exact I.
    - (* bytes, chunked *) eapply out_bind; [|intros; exact I]. cbn [enc app] in H. apply has_cons in H. destruct H as [_ H].
      apply (chunk_sizes chunks); [exact OK|exact H|]. pose proof (has_bound _ _ _ H) as [_ B2]. rewrite zlen_app in B2. change (zlen [255]) with 1 in B2.
      pose proof (flat_len (chunk 2) chunks (fun c _ => chunk_pos 2 c)). unfold zlen in *. lia.
    - (* text *) cbn [enc] in H. apply has_app in H. destruct H as [_ H]. rewrite zlen_hdr in H. pose proof (has_bound _ _ _ H). pose proof (zlen_nonneg s).
      rewrite (addr_room false b (p + hlen f)) by (auto; lia). cbn [bind]. rewrite (mk_string_has b _ s HB H). exact I.
    - (* text, chunked *) eapply out_bind; [exact (string_item p _ OK H)|]. intros; exact I.
    - (* array *) unfold item_plain in OK. apply item_in_arr in OK. destruct OK as [_ OK]. eapply out_bind; [exact size_root|]. intros n _. apply AL; [|pose proof (hlen_pos f); lia].
      exists (map T l0 ++ l). rewrite <- (zlen_hdr 4 f (zlen l0)). eapply toks_open; [exact K| |now apply ok_elems]. cbn [flat_map enct enc]. now rewrite enc_elems, app_assoc.
    - unfold item_plain in OK. apply item_in_arrI in OK. eapply out_bind; [exact size_root|]. intros n _. apply AL; [|lia].
      exists (map T l0 ++ Brk :: l). change 1 with (zlen [159]). eapply toks_open; [exact K| |apply ok_elems; [exact OK|constructor; [exact Logic.I|exact TL]]]. cbn [flat_map enct enc]. rewrite enc_elems. cbn [flat_map enct]. now rewrite <- !app_assoc.
    - (* map *) unfold item_plain in OK. apply item_in_map in OK. destruct OK as [_ OK]. cbn [bind]. eapply out_bind; [|intros; exact I]. apply ML; [|pose proof (hlen_pos f); lia].
      exists (ents l0 ++ l). rewrite <- (zlen_hdr 5 f (zlen l0)). eapply toks_open; [exact K| |now apply ok_ents]. cbn [flat_map enct enc]. now rewrite enc_ents, app_assoc.
    - unfold item_plain in OK. apply item_in_mapI in OK. eapply out_bind; [exact size_root|]. intros n _. eapply out_bind; [|intros; exact I]. apply (IL n l0 l); [|lia].
      change 1 with (zlen [191]). eapply toks_open; [exact K| |apply ok_ents; [exact OK|constructor; [exact Logic.I|exact TL]]]. cbn [flat_map enct enc]. rewrite enc_ents. cbn [flat_map enct]. now rewrite <- !app_assoc.
    - (* simple *) cbn [item_plain item_in] in OK. unfold item_plain in OK. cbn [item_in] in OK.
      repeat match goal with |- context [if ?c then _ else _] => destruct c eqn:?; try exact I end; lia.
    - eapply out_bind; [apply float_item; [exact B0|]|intros; exact I]. intros y n Ey Fy. cbn [enc] in *. rewrite (has_rd _ _ _ _ H) in Ey. assert (y = 249) as -> by congruence. cbn in Fy. assert (n = 3) as -> by congruence. rewrite zlen_cons, zlen_be in B1. lia.
    - eapply out_bind; [apply float_item; [exact B0|]|intros; exact I]. intros y n Ey Fy. cbn [enc] in *. rewrite (has_rd _ _ _ _ H) in Ey. assert (y = 250) as -> by congruence. cbn in Fy. assert (n = 5) as -> by congruence. rewrite zlen_cons, zlen_be in B1. lia.
    - eapply out_bind; [apply float_item; [exact B0|]|intros; exact I]. intros y n Ey Fy. cbn [enc] in *. rewrite (has_rd _ _ _ _ H) in Ey. assert (y = 251) as -> by congruence. cbn in Fy. assert (n = 9) as -> by congruence. rewrite zlen_cons, zlen_be in B1. lia.
  Qed.
End Safe.

Section Reach.
  Context (fuel : nat) (b : bytes).
  Hypothesis HB : zlen b < 2^63.
  Hypothesis HF : zlen b < Z.of_nat fuel.
  Definition on_item (w : cview) : Prop := exists q x l, w = mkCView b q /\ toks b q (T x :: l).

  Lemma toks_app q k l : toks b q (k ++ l) -> toks b (q + zlen (flat_map enct k)) l.
  Proof.
    intros (H & E & F). rewrite flat_map_app in H, E. rewrite zlen_app in E. apply has_app in H. apply Forall_app in F.
    split; [apply H|]. split; [lia|apply F].
  Qed.
  Lemma toks_elem q xs x ys l : toks b q (map T (xs ++ x :: ys) ++ l) -> toks b (q + zlen (flat_map enc xs)) (T x :: map T ys ++ l).
  Proof.
    intros K. rewrite map_app, <- app_assoc in K. apply toks_app in K. pose proof (enc_elems xs []) as E. rewrite !app_nil_r in E.
    rewrite E in K. exact K.
  Qed.
  Lemma toks_lookup k x : forall es q l, toks b q (ents es ++ l) -> lookup k es = Some (Some x) -> exists y r, toks b (lookup_at k q es) (T y :: r).
  Proof.
    induction es as [|[kk y] es IH]; intros q l K L; [discriminate|]. cbn [lookup lookup_at fst snd] in *.
    cbn [ents flat_map app fst snd] in K. fold (ents es) in K. destruct (toks_next _ _ _ K) as (_ & _ & _ & K1). cbn [enct] in K1.
    destruct (text_of kk) as [s|]; [|discriminate]. destruct (beq s k).
    - eauto.
    - destruct (toks_next _ _ _ K1) as (_ & _ & _ & K2). cbn [enct] in K2.
      rewrite zlen_app. cbn [fst snd]. rewrite Z.add_assoc. exact (IH _ _ K2 L).
  Qed.
  Lemma at_split {A} (l : list A) i : 0 <= i < zlen l -> exists xs x ys, l = xs ++ x :: ys /\ zlen xs = i.
  Proof.
    intros L. destruct (nth_error l (Z.to_nat i)) as [x|] eqn:E; [|apply nth_error_None in E; unfold zlen in L; lia].
    apply nth_error_split in E. destruct E as (xs & ys & -> & E). exists xs, x, ys. unfold zlen. split; [reflexivity|lia].
  Qed.

  Lemma reach_on_item v w : on_item v -> reach (cbor_reader false fuel) v w -> on_item w.
  Proof.
    intros ON RE. induction RE as [|w1 i w2 _ IH I Q|w1 k w2 _ IH BK Q]; [exact ON| |]; cbn [cbor_reader r_idx r_key] in Q;
      destruct IH as (q & x & l & -> & K); destruct (toks_next _ _ _ K) as (H & OK & _ & KN); cbn [enct tok_ok] in H, OK, KN;
      assert (OK1 := item_in_mono _ _ OK); fold item_ok in OK1; destruct (item_head x b q OK1 H) as [HD _];
      assert (TL : Forall tok_ok l) by apply KN.
    - destruct x; try (rewrite (no_idx fuel b q _ HD i eq_refl) in Q; discriminate).
      + destruct (Z.lt_ge_cases i (zlen l0)) as [L|L]; [|rewrite (idx_def_out fuel b q f l0 i OK1 H L) in Q; discriminate].
        destruct (at_split l0 i ltac:(lia)) as (xs & y & ys & -> & <-). assert (OK2 := OK). apply item_in_arr in OK2. destruct OK2 as [_ OK2].
        assert (OX := OK2). apply Forall_app in OX.
        rewrite (idx_def fuel b HB HF q f xs y ys (proj1 OX) OK1 H) in Q. injection Q as <-.
        exists (q + hlen f + zlen (flat_map enc xs)), y, (map T ys ++ l). split; [reflexivity|]. apply toks_elem.
        rewrite <- (zlen_hdr 4 f (zlen (xs ++ y :: ys))). eapply toks_open; [exact K| |now apply ok_elems]. cbn [flat_map enct enc]. now rewrite enc_elems, app_assoc.
      + destruct (Z.lt_ge_cases i (zlen l0)) as [L|L]; [|rewrite (idx_ind_out fuel b HB HF q l0 i OK H L) in Q; discriminate].
        destruct (at_split l0 i ltac:(lia)) as (xs & y & ys & -> & <-). assert (OK2 := OK). apply item_in_arrI in OK2.
        assert (OX := OK2). apply Forall_app in OX.
        rewrite (idx_ind fuel b HB HF q xs y ys (proj1 OX) OK1 H) in Q. injection Q as <-.
        exists (q + 1 + zlen (flat_map enc xs)), y, (map T ys ++ Brk :: l). split; [reflexivity|]. apply toks_elem.
        change 1 with (zlen [159]). eapply toks_open; [exact K| |apply ok_elems; [exact OK2|constructor; [exact Logic.I|exact TL]]]. cbn [flat_map enct enc]. rewrite enc_elems. cbn [flat_map enct]. now rewrite <- !app_assoc.
    - destruct x; try (rewrite (no_key false fuel b q _ HD k eq_refl) in Q; discriminate).
      + rewrite (key_item_def false fuel b HB HF q f l0 k OK H) in Q. destruct (lookup k l0) as [[y|]|] eqn:E; try discriminate. injection Q as <-.
        apply item_in_map in OK. destruct OK as [_ OK].
        assert (K' : toks b (q + hlen f) (ents l0 ++ l)).
        { rewrite <- (zlen_hdr 5 f (zlen l0)). eapply toks_open; [exact K| |now apply ok_ents]. cbn [flat_map enct enc]. now rewrite enc_ents, app_assoc. }
        destruct (toks_lookup k y l0 _ _ K' E) as (z & r & K2). unfold on_item. eauto.
      + rewrite (key_item_ind false fuel b HB HF q l0 k OK H) in Q. destruct (lookup k l0) as [[y|]|] eqn:E; try discriminate. injection Q as <-.
        apply item_in_mapI in OK.
        assert (K' : toks b (q + 1) (ents l0 ++ Brk :: l)).
        { change 1 with (zlen [191]). eapply toks_open; [exact K| |apply ok_ents; [exact OK|constructor; [exact Logic.I|exact TL]]]. cbn [flat_map enct enc]. rewrite enc_ents. cbn [flat_map enct]. now rewrite <- !app_assoc. }
        destruct (toks_lookup k y l0 _ _ K' E) as (z & r & K2). unfold on_item. eauto.
  Qed.
End Reach.

(** Every view of a message that is one well-formed item *)
Theorem cbor_text_safe fl fuel it : item_plain it -> bytes_ok (enc it) -> zlen (enc it) < 2^63 -> zlen (enc it) < Z.of_nat fuel ->
  forall w, reach (cbor_reader false fuel) (cb_open (enc it)) w -> safe any (c_to_string fl false fuel w).
Proof.
  intros OK B HB HF w RE. apply (reach_on_item fuel (enc it) HB HF) in RE.
  2:{ exists 0, it, []. split; [reflexivity|]. unfold toks. cbn [flat_map enct]. rewrite app_nil_r.
      split; [apply has_self|]. split; [lia|]. constructor; [exact OK|constructor]. }
  destruct RE as (q & x & l & -> & K). apply out_safe. unfold c_to_string. cbn [cv_pos].
  destruct (toks_next _ _ _ K) as (H & OKx & _). cbn [enct tok_ok] in H, OKx. pose proof (toks_bound _ _ K).
  apply (c_dump_safe fl fuel (enc it) B HB HF x q OKx H); [now exists (T x :: l)|lia].
Qed.
