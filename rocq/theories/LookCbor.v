(** LookCbor.v -- CBOR map lookups against mapKeys, on arbitrary messages that skip() accepts. *)

From Coq Require Import ZArith List Bool Lia ZifyBool ZifyNat.
From Verif Require Import Base BaseFacts Spec CborModel CborSpec CborFacts CborRead CborSafe.
Import ListNotations.
Open Scope Z_scope.

(** ** Both skips agree where the checked one succeeds *)
Lemma head_agree b q h : read_head b q = Ok h -> k_read_head b q = Ok h.
Proof.
  unfold read_head, k_read_head. destruct (q <? zlen b); cbn [require bind]; [|discriminate]. destruct (rd b q) as [x| | |]; cbn [bind]; try discriminate.
  repeat match goal with |- context [if ?c then _ else _] => match c with context [zlen] => fail 1 | _ => destruct c end end; auto; try discriminate.
  all: destruct (_ <=? zlen b); cbn [require bind]; auto; discriminate.
Qed.
Lemma floop_map {S R} (f g : S -> res (S + R)) : (forall s x, f s = Ok x -> g s = Ok x) -> forall n m s r, (n <= m)%nat -> floop n f s = Ok r -> floop m g s = Ok r.
Proof.
  intros FG. induction n as [|n IH]; intros m s r L H; [discriminate|]. destruct m as [|m]; [lia|]. rewrite floop_S in *.
  destruct (f s) as [x| | |] eqn:E; cbn [bind] in H; try discriminate. rewrite (FG s x E). cbn [bind]. destruct x; [apply (IH m); [lia|exact H]|exact H].
Qed.
Lemma times_map (f g : Z -> res Z) : (forall q x, f q = Ok x -> g q = Ok x) -> forall n q r, times n f q = Ok r -> times n g q = Ok r.
Proof.
  intros FG n q r. unfold times. rewrite !zloop_nloop. revert q r. induction (Z.to_nat n) as [|k IH]; intros q r H; [exact H|]. cbn [nloop] in *.
  destruct (f q) as [x| | |] eqn:E; cbn [bind] in H; try discriminate. rewrite (FG q x E). cbn [bind]. exact (IH x r H).
Qed.
Lemma pair_map (f g : Z -> res Z) : (forall q x, f q = Ok x -> g q = Ok x) -> forall q x, (q1 <- f q ;; f q1) = Ok x -> (q1 <- g q ;; g q1) = Ok x.
Proof. intros FG q x. destruct (f q) as [y| | |] eqn:E; cbn [bind]; try discriminate. intros H. rewrite (FG _ _ E). cbn [bind]. auto. Qed.
Lemma until_map b (f g : Z -> res Z) : (forall q x, f q = Ok x -> g q = Ok x) -> forall q x, skip_until b f q = Ok x -> skip_until b g q = Ok x.
Proof.
  intros FG q x. unfold skip_until. destruct (q <? zlen b); cbn [require bind]; [|discriminate]. destruct (rd b q) as [y| | |]; cbn [bind]; try discriminate.
  destruct (y =? 255); [auto|]. destruct (f q) as [z| | |] eqn:E; cbn [bind]; try discriminate. rewrite (FG _ _ E). auto.
Qed.
Lemma until_kmap b (f g : Z -> res Z) : (forall q x, f q = Ok x -> g q = Ok x) -> forall q x, skip_until b f q = Ok x -> k_until b g q = Ok x.
Proof.
  intros FG q x. unfold skip_until, k_until. destruct (q <? zlen b); cbn [require bind]; [|discriminate]. destruct (rd b q) as [y| | |]; cbn [bind]; try discriminate.
  destruct (y =? 255); [auto|]. destruct (f q) as [z| | |] eqn:E; cbn [bind]; try discriminate. rewrite (FG _ _ E). auto.
Qed.
Lemma chunk_kmap b m q x : skip_chunk b m q = Ok x -> k_chunk b q = Ok x.
Proof.
  unfold skip_chunk, k_chunk. destruct (q <? zlen b); cbn [require bind]; [|discriminate]. destruct (rd b q) as [y| | |]; cbn [bind]; try discriminate.
  destruct (y =? 255); [auto|]. destruct (read_head b q) as [h| | |] eqn:E; cbn [bind]; try discriminate. rewrite (head_agree _ _ _ E). cbn [bind].
  destruct (h_major h =? m); cbn [require bind]; [|discriminate]. destruct (h_indef h); cbn [negb require bind]; [discriminate|auto].
Qed.
Lemma skip_mono b : forall f f' q e, (f <= f')%nat -> skip f b q = Ok e -> skip f' b q = Ok e.
Proof.
  induction f as [|f IH]; intros f' q e L H; [discriminate|]. destruct f' as [|f']; [lia|]. rewrite skip_S in *.
  destruct (read_head b q) as [h| | |]; cbn [bind] in *; try discriminate. cbv zeta in *.
  assert (I : forall q x, skip f b q = Ok x -> skip f' b q = Ok x) by (intros; apply IH; [lia|assumption]).
  destruct ((h_major h =? 0) || (h_major h =? 1)); [exact H|]. destruct ((h_major h =? 2) || (h_major h =? 3)).
  { destruct (negb (h_indef h)); [exact H|]. eapply floop_map; [|apply le_S_n; exact L|exact H]. auto. }
  destruct (h_major h =? 4). { destruct (negb (h_indef h)); [eapply times_map; eauto|]. eapply floop_map; [|apply le_S_n; exact L|exact H]. now apply until_map. }
  destruct (h_major h =? 5). { destruct (negb (h_indef h)); [eapply times_map; [|exact H]; now apply pair_map|]. eapply floop_map; [|apply le_S_n; exact L|exact H]. apply until_map. now apply pair_map. }
  destruct (h_major h =? 6); [now apply I|exact H].
Qed.

Lemma head_fields b q h : read_head b q = Ok h -> exists x, rd b q = Ok x /\ h_major h = Z.shiftr x 5 /\ h_addl h = Z.land x 31.
Proof.
  unfold read_head. destruct (q <? zlen b); cbn [require bind]; [|discriminate]. destruct (rd b q) as [x| | |]; cbn [bind]; try discriminate. intros H. exists x. split; [reflexivity|].
  repeat match type of H with context [if ?c then _ else _] => match c with context [zlen] => fail 1 | _ => destruct c end end; try discriminate;
    try (injection H as <-; split; reflexivity).
  all: destruct (_ <=? zlen b) in H; cbn [require bind] in H; try discriminate; try (injection H as <-; split; reflexivity).
  all: match type of H with bind ?m _ = _ => destruct m; cbn [bind] in H; try discriminate end; injection H as <-; split; reflexivity.
Qed.

Section Buf.
  Variable b : bytes.
  Hypothesis B : bytes_ok b.
  (** No simple value in two bytes: skip() takes them for three. *)
  Hypothesis N248 : forall q, rd b q <> Ok 248.

  Lemma skip_kskip : forall f q e, skip f b q = Ok e -> k_skip f b q = Ok e.
  Proof.
    induction f as [|f IH]; intros q e H; [discriminate|]. rewrite skip_S in H. rewrite k_skip_S.
    destruct (read_head b q) as [h| | |] eqn:RH; cbn [bind] in *; try discriminate. rewrite (head_agree _ _ _ RH). cbn [bind]. cbv zeta in *.
    destruct ((h_major h =? 0) || (h_major h =? 1)) eqn:M01; [exact H|]. destruct ((h_major h =? 2) || (h_major h =? 3)) eqn:M23.
    { destruct (negb (h_indef h)); [destruct (_ <=? _) in H; [exact H|discriminate]|]. eapply floop_map; [|apply le_n|exact H]. apply chunk_kmap. }
    destruct (h_major h =? 4) eqn:M4. { destruct (negb (h_indef h)); [eapply times_map; eauto|]. eapply floop_map; [|apply le_n|exact H]. now apply until_kmap. }
    destruct (h_major h =? 5) eqn:M5. { destruct (negb (h_indef h)); [eapply times_map; [|exact H]; now apply pair_map|]. eapply floop_map; [|apply le_n|exact H]. apply until_kmap. now apply pair_map. }
    destruct (h_major h =? 6) eqn:M6; [now apply IH|].
    destruct (h_addl h =? 25); [destruct (_ <=? _) in H; [exact H|discriminate]|]. destruct (h_addl h =? 26); [destruct (_ <=? _) in H; [exact H|discriminate]|].
    destruct (h_addl h =? 27); [destruct (_ <=? _) in H; [exact H|discriminate]|]. destruct (h_addl h =? 24) eqn:A; [|exact H]. exfalso.
    destruct (head_fields _ _ _ RH) as (x & RX & HM & HA). destruct (byte_head x (rd_byte _ _ _ B RX)) as (X1 & X2 & X3). apply (N248 q). rewrite RX. f_equal. lia.
  Qed.

  (** ** Entries *)
  (** [n] entries from [q] to [e], keys at the listed positions *)
  Inductive cents (f : nat) : nat -> Z -> Z -> list Z -> Prop :=
  | cents_0 q : cents f 0 q q []
  | cents_S n q m q' e ps : skip f b q = Ok m -> skip f b m = Ok q' -> cents f n q' e ps -> cents f (S n) q e (q :: ps).
  Lemma times_cents f : forall n q e, times n (fun q => q1 <- skip f b q ;; skip f b q1) q = Ok e -> exists ps, cents f (Z.to_nat n) q e ps.
  Proof.
    intros n q e. unfold times. rewrite zloop_nloop. revert q e. induction (Z.to_nat n) as [|k IH]; intros q e H; cbn [nloop] in H.
    - injection H as <-. exists []. constructor.
    - destruct (skip f b q) as [m| | |] eqn:E1; cbn [bind] in H; try discriminate. destruct (skip f b m) as [q'| | |] eqn:E2; cbn [bind] in H; try discriminate.
      destruct (IH q' e H) as (ps & C). exists (q :: ps). econstructor; eassumption.
  Qed.
  Lemma cents_mono f f' n q e ps : (f <= f')%nat -> cents f n q e ps -> cents f' n q e ps.
  Proof. intros L. induction 1; econstructor; eauto using skip_mono. Qed.
  Lemma until_cents f : forall g q e, floop g (skip_until b (fun q => q1 <- skip f b q ;; skip f b q1)) q = Ok e ->
    exists n q' ps, cents f n q q' ps /\ rd b q' = Ok 255 /\ e = q' + 1.
  Proof.
    induction g as [|g IH]; intros q e H; [discriminate|]. rewrite floop_S in H. unfold skip_until at 1 in H.
    destruct (q <? zlen b); cbn [require bind] in H; [|discriminate]. destruct (rd b q) as [x| | |] eqn:RX; cbn [bind] in H; try discriminate.
    destruct (x =? 255) eqn:X.
    - cbn [bind] in H. injection H as <-. apply Z.eqb_eq in X. subst x. exists 0%nat, q, []. repeat split; auto. constructor.
    - destruct (skip f b q) as [m| | |] eqn:E1; cbn [bind] in H; try discriminate. destruct (skip f b m) as [r| | |] eqn:E2; cbn [bind] in H; try discriminate.
      destruct (IH r e H) as (n & q' & ps & C & R & E). exists (S n), q', (q :: ps). repeat split; auto. econstructor; eassumption.
  Qed.

  Hypothesis HB : zlen b < 2^63.
  Hypothesis NH : no_huge b.
  Variable F : nat.
  Hypothesis HF : zlen b < Z.of_nat F.
  Lemma skip_on q e : 0 <= q -> skip F b q = Ok e -> q < e <= zlen b.
  Proof.
    clear N248. intros P E. pose proof (zlen_nonneg b). assert (O : outcome true true (lands true b q) (skip F b q)).
    { apply (out_skip true true b B HB); auto. intros _. unfold rest. lia. }
    rewrite E in O. destruct O as [O1 O2]. specialize (O2 eq_refl). lia.
  Qed.
  Lemma cents_on n q e ps : 0 <= q -> cents F n q e ps -> 0 <= e /\ match n with O => q = e | S _ => q < e end.
  Proof.
    intros Q C. revert Q. induction C as [q|n q m q' e ps E1 E2 _ IH]; intros Q; [lia|]. pose proof (skip_on q m Q E1). pose proof (skip_on m q' ltac:(lia) E2).
    specialize (IH ltac:(lia)). destruct n; lia.
  Qed.

  Variable hard : bool.
  Lemma break_deref q k : rd b q = Ok 255 -> k_deref hard F b q <> Ok k.
  Proof.
    intros R. unfold k_deref, k_read_head. rewrite R. cbn [bind]. change (Z.shiftr 255 5) with 7. change (Z.land 255 31) with 31. cbn [Z.eqb Pos.eqb bind h_major andb].
    unfold c_asString, chd. cbn [cv_buf cv_pos]. unfold read_head. rewrite R. destruct (q <? zlen b); cbn [require bind]; [|discriminate].
    change (Z.shiftr 255 5) with 7. change (Z.land 255 31) with 31. cbn [Z.eqb Pos.eqb bind h_major require]. discriminate.
  Qed.

  Lemma keys_def : forall n q e ps, cents F n q e ps -> 0 <= q -> forall g acc r, floop g (keys_step hard F b false e) (q, Z.of_nat n, acc) = Ok r ->
    exists ks, r = rev acc ++ ks /\ Forall2 (fun p k => k_deref hard F b p = Ok k) ps ks.
  Proof.
    induction 1 as [q|n q m q' e ps E1 E2 C IH]; intros Q g acc r H; (destruct g as [|g]; [discriminate|]); rewrite floop_S in H; unfold keys_step at 1 in H.
    - rewrite Z.eqb_refl in H. cbn [bind] in H. injection H as <-. exists []. rewrite app_nil_r. split; [reflexivity|constructor].
    - pose proof (skip_on q m Q E1). pose proof (skip_on m q' ltac:(lia) E2). pose proof (cents_on n q' e ps ltac:(lia) C) as (E0 & CE).
      replace (q =? e) with false in H by (destruct n; lia). destruct (k_deref hard F b q) as [k| | |] eqn:KD; cbn [bind] in H; try discriminate.
      unfold k_incr in H. replace (Z.of_nat (S n) =? 0) with false in H by lia. rewrite (skip_kskip _ _ _ E1) in H. cbn [bind] in H. rewrite (skip_kskip _ _ _ E2) in H. cbn [bind] in H.
      replace (Z.of_nat (S n) - 1) with (Z.of_nat n) in H by lia. destruct (IH ltac:(lia) g (k :: acc) r H) as (ks & -> & A).
      exists (k :: ks). cbn [rev]. rewrite <- app_assoc. split; [reflexivity|]. now constructor.
  Qed.
  Lemma keys_ind : forall n q q' ps, cents F n q q' ps -> 0 <= q -> rd b q' = Ok 255 -> forall g z acc r, floop g (keys_step hard F b true (q' + 1)) (q, z, acc) <> Ok r.
  Proof.
    induction 1 as [q|n q m q' e ps E1 E2 C IH]; intros Q R g z acc r H; (destruct g as [|g]; [discriminate|]); rewrite floop_S in H; unfold keys_step at 1 in H.
    - replace (q =? q + 1) with false in H by lia. destruct (k_deref hard F b q) as [k| | |] eqn:KD; cbn [bind] in H; try discriminate. exact (break_deref q k R KD).
    - pose proof (skip_on q m Q E1). pose proof (skip_on m q' ltac:(lia) E2). pose proof (cents_on n q' e ps ltac:(lia) C) as (E0 & CE).
      replace (q =? e + 1) with false in H by (destruct n; lia). destruct (k_deref hard F b q) as [k| | |] eqn:KD; cbn [bind] in H; try discriminate.
      unfold k_incr in H. destruct (rd b q) as [x| | |] eqn:RX; cbn [bind] in H; try discriminate. destruct (x =? 255) eqn:X; [apply Z.eqb_eq in X; subst x; exact (break_deref q k RX KD)|].
      rewrite (skip_kskip _ _ _ E1) in H. cbn [bind] in H. rewrite (skip_kskip _ _ _ E2) in H. cbn [bind] in H. exact (IH ltac:(lia) R g z _ r H).
  Qed.

  (** ** Lookups at one entry *)
  Lemma key_text q k h : 0 <= q -> read_head b q = Ok h -> k_deref hard F b q = Ok k -> c_asString hard F (mkCView b q) = Ok k.
  Proof.
    intros Q RH KD. unfold k_deref in KD. rewrite (head_agree _ _ _ RH) in KD. cbn [bind] in KD. destruct ((h_major h =? 3) && negb (h_indef h)) eqn:M; [|exact KD].
    apply andb_prop in M. destruct M as (M & I). unfold c_asString, chd. cbn [cv_buf cv_pos]. rewrite RH. cbn [bind]. rewrite M. cbn [require bind]. rewrite I.
    destruct (addr hard b (q + h_len h)) as [a| | |] eqn:AD; cbn [bind] in KD; try discriminate. assert (AE : a = q + h_len h).
    { unfold addr in AD. destruct (_ <? _) in AD; [congruence|]. destruct (_ && _) in AD; congruence. }
    pose proof (out_head true true b q B Q) as OH. rewrite RH in OH. destruct OH as (H1 & H2 & H3 & _).
    assert (RV := KD). unfold rd_view in KD. cbn [fst snd] in KD. destruct (_ && _) eqn:W in KD; [|discriminate]. rewrite wrap64_small by lia.
    replace (q + h_len h + h_val h <=? zlen b) with true by lia. cbn [require bind]. unfold mk_string. replace (i64_max <? h_val h) with false by (unfold i64_max; lia). exact RV.
  Qed.
  Lemma contains_entry key q m q' k : 0 <= q -> skip F b q = Ok m -> skip F b m = Ok q' -> k_deref hard F b q = Ok k ->
    contains_def hard F b key q = Ok (if beq k key then inr true else inl q').
  Proof.
    intros Q E1 E2 KD. assert (RH : exists h, read_head b q = Ok h).
    { destruct F as [|f]; [discriminate|]. rewrite skip_S in E1. destruct (read_head b q) as [h| | |]; cbn [bind] in E1; try discriminate. eauto. }
    destruct RH as (h & RH). unfold contains_def. rewrite RH. cbn [bind].
    assert (EQ : (if (h_major h =? 3) && negb (h_indef h) then a <- addr hard b (q + h_len h) ;; sv_is b (a, h_val h) key
       else t <- c_asString hard F (mkCView b q) ;; Ok (beq t key)) = Ok (beq k key)).
    { destruct ((h_major h =? 3) && negb (h_indef h)) eqn:M.
      - unfold k_deref in KD. rewrite (head_agree _ _ _ RH) in KD. cbn [bind] in KD. rewrite M in KD. destruct (addr hard b (q + h_len h)) as [a| | |]; cbn [bind] in *; try discriminate.
        unfold sv_is. cbn [snd]. rewrite KD. cbn [bind]. assert (L : zlen k = h_val h).
        { unfold rd_view in KD. cbn [fst snd] in KD. destruct (_ && _) eqn:W in KD; [|discriminate]. injection KD as <-. apply zlen_slice; lia. }
        destruct (h_val h =? zlen key) eqn:E; [reflexivity|]. f_equal. destruct (beq k key) eqn:BE; [|reflexivity]. apply beq_eq in BE. subst key. lia.
      - rewrite (key_text q k h Q RH KD). reflexivity. }
    rewrite EQ. cbn [bind]. destruct (beq k key); [reflexivity|]. rewrite E1. cbn [bind]. rewrite E2. reflexivity.
  Qed.
  Lemma key_entry key q m q' k : 0 <= q -> skip F b q = Ok m -> skip F b m = Ok q' -> k_deref hard F b q = Ok k ->
    key_def hard F b key q = Ok (if beq k key then inr (mkCView b m) else inl q').
  Proof.
    intros Q E1 E2 KD. assert (RH : exists h, read_head b q = Ok h).
    { destruct F as [|f]; [discriminate|]. rewrite skip_S in E1. destruct (read_head b q) as [h| | |]; cbn [bind] in E1; try discriminate. eauto. }
    destruct RH as (h & RH). unfold key_def. rewrite (key_text q k h Q RH KD). cbn [bind]. rewrite E1. cbn [bind]. destruct (beq k key); [reflexivity|]. rewrite E2. reflexivity.
  Qed.
  Lemma contains_cents key : forall n q e ps, cents F n q e ps -> 0 <= q -> forall ks, Forall2 (fun p k => k_deref hard F b p = Ok k) ps ks ->
    nloop n (contains_def hard F b key) q = Ok (if existsb (beq key) ks then inr true else inl e).
  Proof.
    induction 1 as [q|n q m q' e ps E1 E2 C IH]; intros Q ks D; inversion D as [|p k ps' ks' KD D']; subst; [reflexivity|].
    pose proof (skip_on q m Q E1). pose proof (skip_on m q' ltac:(lia) E2). cbn [nloop]. rewrite (contains_entry key q m q' k Q E1 E2 KD). cbn [bind existsb]. rewrite (beq_sym key k).
    destruct (beq k key); cbn [orb]; [reflexivity|]. apply IH; [lia|exact D'].
  Qed.
  Lemma key_cents key : forall n q e ps, cents F n q e ps -> 0 <= q -> forall ks, Forall2 (fun p k => k_deref hard F b p = Ok k) ps ks ->
    if existsb (beq key) ks then exists w, nloop n (key_def hard F b key) q = Ok (inr w) else nloop n (key_def hard F b key) q = Ok (inl e).
  Proof.
    induction 1 as [q|n q m q' e ps E1 E2 C IH]; intros Q ks D; inversion D as [|p k ps' ks' KD D']; subst; [reflexivity|].
    pose proof (skip_on q m Q E1). pose proof (skip_on m q' ltac:(lia) E2). cbn [nloop]. rewrite (key_entry key q m q' k Q E1 E2 KD). cbn [bind existsb]. rewrite (beq_sym key k).
    destruct (beq k key); cbn [orb]; [eauto|]. apply IH; [lia|exact D'].
  Qed.

  Theorem cbor_lookups p e ks key : 0 <= p -> skip F b p = Ok e -> r_mapKeys (cbor_reader hard F) (mkCView b p) = Ok ks ->
    r_contains (cbor_reader hard F) (mkCView b p) key = Ok (existsb (beq key) ks) /\
    if existsb (beq key) ks then exists w, r_key (cbor_reader hard F) (mkCView b p) key = Ok w else r_key (cbor_reader hard F) (mkCView b p) key = Throw EDeser.
  Proof.
    intros P SK H. cbn [cbor_reader r_mapKeys r_contains r_key] in *. unfold c_mapKeys, c_contains, c_key, chd in *. cbn [cv_buf cv_pos] in *.
    destruct (read_head b p) as [h| | |] eqn:RH; cbn [bind] in *; try discriminate. destruct (h_major h =? 5) eqn:M5; cbn [require bind negb] in *; [|discriminate].
    rewrite (head_agree _ _ _ RH) in H. cbn [bind] in H. unfold k_end in H. rewrite (head_agree _ _ _ RH) in H. cbn [bind] in H.
    pose proof (out_head true true b p B P) as OH. rewrite RH in OH. destruct OH as (H1 & H2 & H3 & _).
    assert (EX : exists f, F = S f) by (destruct F; [discriminate|eauto]). destruct EX as (f & EF). rewrite EF, skip_S, RH in SK. cbn [bind] in SK. cbv zeta in SK.
    apply Z.eqb_eq in M5. rewrite M5 in SK. cbn [Z.eqb Pos.eqb orb] in SK.
    assert (FS : (f <= F)%nat) by lia. destruct (h_indef h) eqn:ID; cbn [negb] in *.
    - exfalso. destruct (until_cents f f _ _ SK) as (n & q' & ps & C & R & ->). apply (cents_mono f F _ _ _ _ FS) in C.
      assert (KE : floop F (k_until b (fun q => q1 <- k_skip F b q ;; k_skip F b q1)) (p + h_len h) = Ok (q' + 1)).
      { eapply floop_map; [|exact FS|exact SK]. apply until_kmap. apply pair_map. intros q x E. apply skip_kskip. now apply (skip_mono b f F). }
      rewrite KE in H. cbn [bind] in H. exact (keys_ind n _ q' ps C ltac:(lia) R _ _ _ _ H).
    - destruct (times_cents f _ _ _ SK) as (ps & C). apply (cents_mono f F _ _ _ _ FS) in C.
      assert (KE : times (h_val h) (fun q => q1 <- k_skip F b q ;; k_skip F b q1) (p + h_len h) = Ok e).
      { eapply times_map; [|exact SK]. apply pair_map. intros q x E. apply skip_kskip. now apply (skip_mono b f F). }
      rewrite KE in H. cbn [bind] in H. replace (h_val h) with (Z.of_nat (Z.to_nat (h_val h))) in H at 1 by lia.
      destruct (keys_def _ _ _ _ C ltac:(lia) _ _ _ H) as (ks' & EK & D). cbn [rev app] in EK. subst ks'. rewrite !zloop_nloop.
      rewrite (contains_cents key _ _ _ _ C ltac:(lia) _ D). pose proof (key_cents key _ _ _ _ C ltac:(lia) _ D) as K.
      destruct (existsb (beq key) ks); cbn [bind]; [destruct K as (w & ->)|rewrite K]; cbn [bind]; eauto.
  Qed.
End Buf.
