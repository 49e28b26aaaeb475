(** SoundCbor.v -- what a CBOR view says is an item standing there. *)

From Coq Require Import ZArith List Bool Lia ZifyBool ZifyNat.
From Verif Require Import Base BaseFacts Spec SpecFacts FloatModel FloatSpec CborModel CborSpec CborFacts CborRead CborSafe CborSound TransSpec TransMain SaysSpec SaysFacts MeanSpec MeanFacts MeanCSpec MeanCbor SoundSpec.
Import ListNotations.
Open Scope Z_scope.
Ltac Zify.zify_post_hook ::= idtac.

Lemma times_S step n q e : 0 < n -> times n step q = Ok e -> exists q', step q = Ok q' /\ times (n - 1) step q' = Ok e.
Proof.
  intros N T. unfold times in *. replace n with (1 + (n - 1)) in T by lia. rewrite zloop_succ in T by lia.
  destruct (step q) as [q'| | |]; cbn [bind] in T; try discriminate T. exists q'. auto.
Qed.
Lemma times_0 step q e : times 0 step q = Ok e -> q = e.
Proof. cbn. congruence. Qed.
Lemma keys_snoc its k x ks s : keys_of its = Some ks -> text_of k = Some s -> keys_of (its ++ [(k, x)]) = Some (ks ++ [s]).
Proof.
  revert ks. induction its as [|kx its IH]; intros ks K T; cbn [keys_of app fst] in *.
  - injection K as <-. now rewrite T.
  - destruct (text_of (fst kx)); [|discriminate]. destruct (keys_of its) as [r|]; [|discriminate]. injection K as <-. now rewrite (IH r eq_refl T).
Qed.
Lemma keys_zlen its : forall ks, keys_of its = Some ks -> zlen ks = zlen its.
Proof. intros ks K. unfold zlen. now rewrite (keys_length its ks K). Qed.

Lemma F2_len {A C} (P : A -> C -> Prop) l m : Forall2 P l m -> length l = length m.
Proof. induction 1; cbn; congruence. Qed.

Section Buf.
  Variables (hard : bool) (fuel : nat) (b : bytes).
  Hypothesis HB : zlen b < 2^63.
  Hypothesis HF : zlen b < Z.of_nat fuel.
  Hypothesis B : bytes_ok b.
  Hypothesis NL : no_large b.
  Notation R := (cbor_reader hard fuel).
  Notation at_ := (mkCView b).

  (** ** The iterator moves forward *)
  Lemma large p m v : 0 <= m < 7 -> 0 <= v < 2^64 -> has b p ((32 * m + 27) :: be 8 v) -> v < 2^63.
  Proof. intros M V (P & L & E). apply (NL p m v P M V). exact E. Qed.
  Lemma k_head p h : k_read_head b p = Ok h -> 0 <= p < zlen b /\ 1 <= h_len h /\ 0 <= h_val h < 2^63 /\ (h_major h <> 7 -> p + h_len h <= zlen b) /\ (h_major h = 7 -> h_val h <= 8 /\ h_len h <= 2).
  Proof.
    intros H. unfold k_read_head in H. apply bind_ok in H. destruct H as (x & Ex & H). pose proof (rd_inv _ _ _ Ex) as P.
    assert (Bx := rd_byte _ _ _ B Ex). destruct (byte_head x Bx) as (M & A & SP). cbv zeta in H.
    set (m := Z.shiftr x 5) in *. set (a := Z.land x 31) in *. assert (HX := rd_has _ _ _ Ex).
    assert (K : forall v n i, 1 <= n -> 0 <= v < 2^63 -> (m <> 7 -> p + n <= zlen b) -> (m = 7 -> v <= 8 /\ n <= 2) ->
      0 <= p < zlen b /\ 1 <= h_len (mkHead m a v n i) /\ 0 <= h_val (mkHead m a v n i) < 2^63 /\ (h_major (mkHead m a v n i) <> 7 -> p + h_len (mkHead m a v n i) <= zlen b) /\
      (h_major (mkHead m a v n i) = 7 -> h_val (mkHead m a v n i) <= 8 /\ h_len (mkHead m a v n i) <= 2)) by (intros; cbn [h_len h_val h_major]; auto).
    destruct (m =? 7) eqn:E7.
    - destruct (a =? 25); [injection H as <-; apply K; lia|]. destruct (a =? 26); [injection H as <-; apply K; lia|]. destruct (a =? 27); [injection H as <-; apply K; lia|].
      destruct (a =? 24); [injection H as <-; apply K; lia|]. destruct (a =? 31); injection H as <-; apply K; lia.
    - destruct (a <? 24) eqn:E1; [injection H as <-; apply K; lia|]. destruct (a =? 24) eqn:E2.
      { apply bind_ok in H. destruct H as (y & Ey & H). injection H as <-. assert (By := rd_byte _ _ _ B Ey). pose proof (rd_inv _ _ _ Ey). unfold is_byte in By. apply K; lia. }
      destruct (a =? 25) eqn:E3.
      { apply bind_ok in H. destruct H as (v & Ev & H). injection H as <-. destruct (get_be_sound b (p + 1) 2 v B ltac:(lia) ltac:(lia) Ev) as [Hv V]. change (256 ^ Z.of_nat 2) with 65536 in V.
        pose proof (has_bound _ _ _ Hv) as [_ B1]. rewrite zlen_be in B1. apply K; lia. }
      destruct (a =? 26) eqn:E4.
      { apply bind_ok in H. destruct H as (v & Ev & H). injection H as <-. destruct (get_be_sound b (p + 1) 4 v B ltac:(lia) ltac:(lia) Ev) as [Hv V]. change (256 ^ Z.of_nat 4) with (2^32) in V.
        pose proof (has_bound _ _ _ Hv) as [_ B1]. rewrite zlen_be in B1. apply K; lia. }
      destruct (a =? 27) eqn:E5.
      { apply bind_ok in H. destruct H as (v & Ev & H). injection H as <-. destruct (get_be_sound b (p + 1) 8 v B ltac:(lia) ltac:(lia) Ev) as [Hv V]. change (256 ^ Z.of_nat 8) with (2^64) in V.
        pose proof (has_bound _ _ _ Hv) as [_ B1]. rewrite zlen_be in B1.
        assert (v < 2^63) by (apply (large p m v); [lia|exact V|]; apply has_cons; replace (32 * m + 27) with x by lia; auto). apply K; lia. }
      destruct (a =? 31); injection H as <-; apply K; lia.
  Qed.
  Definition up (step : Z -> res Z) : Prop := forall q q', step q = Ok q' -> q < q'.
  Lemma times_up step : up step -> forall n q e, times (Z.of_nat n) step q = Ok e -> q <= e /\ (n <> 0%nat -> q < e).
  Proof.
    intros U. induction n as [|n IH]; intros q e T; [apply times_0 in T; lia|].
    apply times_S in T; [|lia]. destruct T as (q' & S & T). replace (Z.of_nat (Datatypes.S n) - 1) with (Z.of_nat n) in T by lia. apply IH in T. apply U in S. lia.
  Qed.
  Lemma times_up' step n q e : up step -> 0 <= n -> times n step q = Ok e -> q <= e /\ (0 < n -> q < e).
  Proof. intros U N T. replace n with (Z.of_nat (Z.to_nat n)) in T by lia. apply (times_up step U) in T. lia. Qed.
  Lemma until_up step : up step -> forall n q e, floop n (k_until b step) q = Ok e -> q < e.
  Proof.
    intros U. induction n as [|n IH]; intros q e T; [discriminate|]. rewrite floop_S in T. apply bind_ok in T. destruct T as (z & E & T). unfold k_until in E.
    apply bind_ok in E. destruct E as (x & Ex & E). destruct (x =? 255); [injection E as <-; injection T as <-; lia|].
    apply bind_ok in E. destruct E as (q' & Eq & E). injection E as <-. apply IH in T. apply U in Eq. lia.
  Qed.
  Lemma chunk_up : forall n q e, 0 <= q -> floop n (k_chunk b) q = Ok e -> q < e.
  Proof.
    induction n as [|n IH]; intros q e Q T; [discriminate|]. rewrite floop_S in T. apply bind_ok in T. destruct T as (z & E & T). unfold k_chunk in E.
    apply bind_ok in E. destruct E as (x & Ex & E). destruct (x =? 255); [injection E as <-; injection T as <-; lia|].
    apply bind_ok in E. destruct E as (h & Eh & E). injection E as <-. destruct (k_head q h Eh) as (P & L1 & V & M1 & M2).
    assert (q + h_len h + h_val h < 2^64) by (destruct (Z.eq_dec (h_major h) 7) as [M|M]; [specialize (M2 M)|specialize (M1 M)]; lia).
    rewrite (wrap64_small (h_len h + h_val h)) in T by lia. rewrite wrap64_small in T by lia. apply IH in T; lia.
  Qed.
  Lemma k_skip_up : forall f, up (k_skip f b).
  Proof.
    induction f as [|f IH]; intros p e H; [discriminate|]. cbn [k_skip] in H. apply bind_ok in H. destruct H as (h & Eh & H). cbv zeta in H.
    destruct (k_head p h Eh) as (P & L1 & V & M1 & M2).
    assert (U2 : up (fun q => q1 <- k_skip f b q ;; k_skip f b q1)) by (intros q q' E; apply bind_ok in E; destruct E as (q1 & E1 & E2); apply IH in E1; apply IH in E2; lia).
    destruct ((h_major h =? 0) || (h_major h =? 1)); [injection H as <-; lia|]. destruct ((h_major h =? 2) || (h_major h =? 3)) eqn:E23.
    { destruct (negb (h_indef h)); [|apply chunk_up in H; lia]. injection H as <-. specialize (M1 ltac:(lia)). rewrite wrap64_small by lia. lia. }
    destruct (h_major h =? 4). { destruct (negb (h_indef h)); [apply (times_up' _ _ _ _ IH) in H; lia|apply (until_up _ IH) in H; lia]. }
    destruct (h_major h =? 5). { destruct (negb (h_indef h)); [apply (times_up' _ _ _ _ U2) in H; lia|apply (until_up _ U2) in H; lia]. }
    destruct (h_major h =? 6); [apply IH in H; lia|].
    destruct (h_addl h =? 25); [injection H as <-; lia|]. destruct (h_addl h =? 26); [injection H as <-; lia|]. destruct (h_addl h =? 27); injection H as <-; lia.
  Qed.
  Definition two (q : Z) : res Z := q1 <- k_skip fuel b q ;; k_skip fuel b q1.
  Lemma two_up : up two.
  Proof. intros q q' E. apply bind_ok in E. destruct E as (q1 & E1 & E2). apply k_skip_up in E1. apply k_skip_up in E2. lia. Qed.

  (** ** mapKeys of a map of indefinite length gives no list of keys *)
  Lemma break_deref q : 0 <= q -> rd b q = Ok 255 -> forall s, k_deref hard fuel b q = Ok s -> False.
  Proof.
    intros Q E s H. unfold k_deref in H. assert (K : k_read_head b q = Ok (mkHead 7 31 0 1 true)) by (unfold k_read_head; rewrite E; reflexivity). rewrite K in H. cbn in H.
    apply (asString_sound hard b HB B fuel q s Q) in H. destruct H as (it & OK & T & ST). apply sits_has in ST.
    destruct (enc_first it (plain_ok it OK)) as (x & t & E' & N). rewrite E' in ST. rewrite (has_rd _ _ _ _ ST) in E. injection E as ->. lia.
  Qed.
  Lemma keys_never e : forall n q r acc g ks, 0 <= q -> floop g (k_until b two) q = Ok e -> floop n (keys_step hard fuel b true e) (q, r, acc) = Ok ks -> False.
  Proof.
    induction n as [|n IH]; intros q r acc g ks Q U H; [discriminate|]. assert (L := until_up two two_up g q e U). destruct g as [|g]; [discriminate|].
    rewrite floop_S in U. rewrite floop_S in H. apply bind_ok in U. destruct U as (z & E & U). unfold k_until in E. apply bind_ok in E. destruct E as (x & Ex & E).
    apply bind_ok in H. destruct H as (z' & E' & H). unfold keys_step in E'. replace (q =? e) with false in E' by lia.
    apply bind_ok in E'. destruct E' as (k & Ek & E'). destruct (x =? 255) eqn:X; [apply (break_deref q Q) in Ek; [exact Ek|]; replace 255 with x by lia; exact Ex|].
    apply bind_ok in E. destruct E as (q2 & E2 & E). injection E as <-. apply bind_ok in E'. destruct E' as (qr & Er & E'). injection E' as <-.
    unfold k_incr in Er. rewrite Ex in Er. cbn [bind] in Er. rewrite X in Er. assert (T := two_up _ _ E2). unfold two in E2. apply bind_ok in E2. destruct E2 as (q1 & E1 & E2).
    rewrite E1 in Er. cbn [bind] in Er. rewrite E2 in Er. cbn [bind] in Er. injection Er as <-. exact (IH q2 r (k :: acc) g ks ltac:(lia) U H).
  Qed.

  (** ** Items *)
  (** The item [it] stands at [p] and is read as [x]. *)
  Definition stands (p : Z) (it : item) (x : val) : Prop := item_plain it /\ cb_common it /\ sits hard b p it /\ cb_meaning it = Some x.

  Lemma ends_arr f l x : ends_empty (CArr f (l ++ [x])) = ends_empty x.
  Proof. induction l as [|y l IH]; [reflexivity|]. cbn [ends_empty app] in *. destruct (l ++ [x]) eqn:E; [destruct l; discriminate|]. exact IH. Qed.
  Lemma ends_map f l k x : ends_empty (CMap f (l ++ [(k, x)])) = ends_empty x.
  Proof. induction l as [|[k0 y] l IH]; [reflexivity|]. cbn [ends_empty app] in *. destruct (l ++ [(k, x)]) eqn:E; [destruct l; discriminate|]. exact IH. Qed.
  Lemma all_some_F2 : forall its xs, Forall2 (fun it x => cb_meaning it = Some x) its xs -> all_some (map cb_meaning its) = Some xs.
  Proof. induction 1 as [|it x its xs E F IH]; [reflexivity|]. cbn [map]. apply all_some_cons. exists x, xs. auto. Qed.
  (** Items one after the other; the last one sits. *)
  Inductive row (q : Z) : list item -> Prop :=
  | row_nil : 0 <= q <= zlen b -> row q []
  | row_snoc its it : row q its -> has b q (flat_map enc its) -> item_plain it -> cb_common it -> sits hard b (q + zlen (flat_map enc its)) it -> row q (its ++ [it]).
  Lemma row_facts q its : row q its -> has b q (flat_map enc its) /\ Forall item_plain its /\ Forall cb_common its.
  Proof.
    induction 1 as [Q|its it RW IH H IP C ST]; [split; [now apply has_nil|split; constructor]|]. destruct IH as (_ & F1 & F2).
    split; [|split; apply Forall_app; auto]. rewrite flat_map_app. cbn [flat_map]. rewrite app_nil_r. apply has_app. split; [exact H|]. now apply sits_has in ST.
  Qed.

  Lemma elems_walk p h l : h_indef h = false -> read_head b p = Ok h -> h_major h = 4 -> zlen l = h_val h -> 0 <= p + h_len h <= zlen b ->
    (forall x q, In x l -> leads R (at_ p) (at_ q) -> says R (at_ q) x -> 0 <= q -> exists it, stands q it x) ->
    forall l2 l1 its, l = l1 ++ l2 -> row (p + h_len h) its -> Forall2 (fun it x => cb_meaning it = Some x) its l1 -> says_elems R (at_ p) (zlen l1) l2 ->
    exists its', row (p + h_len h) its' /\ Forall2 (fun it x => cb_meaning it = Some x) its' l.
  Proof.
    intros ID RH M N Q0 IH. induction l2 as [|x l2 IL]; intros l1 its E RW F2 SE; [rewrite app_nil_r in E; subst l1; eauto|].
    cbn [says_elems] in SE. destruct SE as ((w' & EC & SX) & SE). destruct (row_facts _ _ RW) as (H & F1 & _).
    assert (LL : zlen its = zlen l1) by (unfold zlen; now rewrite (F2_len _ _ _ F2)).
    assert (X : c_idx fuel (at_ p) (zlen l1) = Ok (at_ (p + h_len h + zlen (flat_map enc its)))).
    { unfold c_idx, chd. cbn [cv_buf cv_pos]. rewrite RH. cbn [bind]. rewrite M, ID. cbn [require bind negb Z.eqb Pos.eqb].
      assert (zlen l1 < h_val h) by (rewrite <- N, E, zlen_app, zlen_cons; pose proof (zlen_nonneg l2); lia). replace (h_val h <=? zlen l1) with false by lia. rewrite <- LL.
      rewrite Forall_forall in F1. rewrite (times_list enc _ b its _ H) by (intros y q' Hy Hh _; apply (sk fuel b HB HF); [now apply F1|exact Hh]). reflexivity. }
    cbn [r_idx cbor_reader] in EC. rewrite X in EC. injection EC as <-. pose proof (zlen_nonneg (flat_map enc its)).
    destruct (IH x _ ltac:(rewrite E; apply in_or_app; right; now left) (leads_idx R (at_ p) _ _ _ (leads_here _ _) X) SX ltac:(lia)) as (it & IP & C & ST & MN).
    apply (IL (l1 ++ [x]) (its ++ [it])).
    - rewrite E, <- app_assoc. reflexivity.
    - now constructor.
    - apply Forall2_app; [exact F2|now repeat constructor].
    - rewrite zlen_app, zlen_cons, zlen_nil. exact SE.
  Qed.
  Lemma idx_prefix idx : forall its q i n w, Forall item_plain its -> has b q (flat_map enc its) -> i + zlen its = idx -> floop n (idx_step fuel b idx) (q, i) = Ok (Some w) ->
    w = at_ (q + zlen (flat_map enc its)).
  Proof.
    induction its as [|y its IH]; intros q i n w F H I T; (destruct n as [|n]; [discriminate|]); rewrite floop_S in T; apply bind_ok in T; destruct T as (z & E & T); unfold idx_step in E;
      apply req_ok in E; destruct E as [L E]; apply bind_ok in E; destruct E as (x & Ex & E).
    - destruct (x =? 255); [injection E as <-; discriminate|]. rewrite zlen_nil in I. replace (i =? idx) with true in E by lia. injection E as <-. injection T as <-. cbn [flat_map]. rewrite zlen_nil, Z.add_0_r. reflexivity.
    - cbn [flat_map] in *. apply has_app in H. destruct H as [H1 H2]. inversion F as [|? ? O1 O2]; subst. destruct (first_byte fuel b y q (plain_ok _ O1) H1) as (_ & c0 & RD & N).
      rewrite Ex in RD. injection RD as <-. replace (x =? 255) with false in E by lia. rewrite zlen_cons in *. pose proof (zlen_nonneg its). replace (i =? i + (1 + zlen its)) with false in E by lia.
      rewrite (sk fuel b HB HF y q O1 H1) in E. cbn [bind] in E. injection E as <-. apply IH in T; [|exact O2|exact H2|lia]. rewrite T, zlen_app. f_equal. lia.
  Qed.
  Lemma size_ge : forall n q c r, floop n (size_step fuel b) (q, c) = Ok r -> c <= r.
  Proof.
    induction n as [|n IH]; intros q c r T; [discriminate|]. rewrite floop_S in T. apply bind_ok in T. destruct T as (z & E & T). unfold size_step in E.
    apply req_ok in E. destruct E as [L E]. apply bind_ok in E. destruct E as (x & Ex & E). destruct (x =? 255); [injection E as <-; injection T as <-; lia|].
    apply bind_ok in E. destruct E as (q1 & E1 & E). injection E as <-. apply IH in T. lia.
  Qed.
  Lemma size_prefix : forall its q c n, Forall item_plain its -> has b q (flat_map enc its) -> floop n (size_step fuel b) (q, c) = Ok (c + zlen its) -> has b (q + zlen (flat_map enc its)) [255].
  Proof.
    induction its as [|y its IH]; intros q c n F H T; (destruct n as [|n]; [discriminate|]); rewrite floop_S in T; apply bind_ok in T; destruct T as (z & E & T); unfold size_step in E;
      apply req_ok in E; destruct E as [L E]; apply bind_ok in E; destruct E as (x & Ex & E).
    - cbn [flat_map]. rewrite zlen_nil in *. rewrite Z.add_0_r in *. destruct (x =? 255) eqn:X; [replace 255 with x by lia; now apply rd_has|].
      apply bind_ok in E. destruct E as (q1 & E1 & E). injection E as <-. apply size_ge in T. lia.
    - cbn [flat_map] in *. apply has_app in H. destruct H as [H1 H2]. inversion F as [|? ? O1 O2]; subst. destruct (first_byte fuel b y q (plain_ok _ O1) H1) as (_ & c0 & RD & N).
      rewrite Ex in RD. injection RD as <-. replace (x =? 255) with false in E by lia. rewrite (sk fuel b HB HF y q O1 H1) in E. cbn [bind] in E. injection E as <-.
      rewrite zlen_cons in T. rewrite zlen_app, Z.add_assoc. apply (IH _ (c + 1) n O2 H2). rewrite T. f_equal. lia.
  Qed.
  Lemma elems_walkI p h l : h_indef h = true -> read_head b p = Ok h -> h_major h = 4 -> 0 <= p + h_len h <= zlen b ->
    (forall x q, In x l -> leads R (at_ p) (at_ q) -> says R (at_ q) x -> 0 <= q -> exists it, stands q it x) ->
    forall l2 l1 its, l = l1 ++ l2 -> row (p + h_len h) its -> Forall2 (fun it x => cb_meaning it = Some x) its l1 -> says_elems R (at_ p) (zlen l1) l2 ->
    exists its', row (p + h_len h) its' /\ Forall2 (fun it x => cb_meaning it = Some x) its' l.
  Proof.
    intros ID RH M Q0 IH. induction l2 as [|x l2 IL]; intros l1 its E RW F2 SE; [rewrite app_nil_r in E; subst l1; eauto|].
    cbn [says_elems] in SE. destruct SE as ((w' & EC & SX) & SE). destruct (row_facts _ _ RW) as (H & F1 & _).
    assert (LL : zlen its = zlen l1) by (unfold zlen; now rewrite (F2_len _ _ _ F2)).
    assert (X := EC). cbn [r_idx cbor_reader] in X. unfold c_idx, chd in X. cbn [cv_buf cv_pos] in X. rewrite RH in X. cbn [bind] in X. rewrite M, ID in X. cbn [require bind negb Z.eqb Pos.eqb] in X.
    apply bind_ok in X. destruct X as (o & Eo & X). destruct o as [w|]; [|discriminate X]. injection X as ->.
    apply (idx_prefix (zlen l1) its) in Eo; [|exact F1|exact H|lia]. subst w'. pose proof (zlen_nonneg (flat_map enc its)).
    destruct (IH x _ ltac:(rewrite E; apply in_or_app; right; now left) (leads_idx R (at_ p) _ _ _ (leads_here _ _) EC) SX ltac:(lia)) as (it & IP & C & ST & MN).
    apply (IL (l1 ++ [x]) (its ++ [it])).
    - rewrite E, <- app_assoc. reflexivity.
    - now constructor.
    - apply Forall2_app; [exact F2|now repeat constructor].
    - rewrite zlen_app, zlen_cons, zlen_nil. exact SE.
  Qed.

  (** ** Maps *)
  Notation encp := (fun kx : item * item => enc (fst kx) ++ enc (snd kx)).
  Inductive rowp (q : Z) : list (item * item) -> list (bytes * val) -> Prop :=
  | rowp_nil : 0 <= q <= zlen b -> rowp q [] []
  | rowp_snoc its l k x s y : rowp q its l -> has b q (flat_map encp its) -> item_plain k -> text_of k = Some s -> has b (q + zlen (flat_map encp its)) (enc k) ->
      item_plain x -> cb_common x -> sits hard b (q + zlen (flat_map encp its) + zlen (enc k)) x -> cb_meaning x = Some y -> rowp q (its ++ [(k, x)]) (l ++ [(s, y)]).
  Lemma rowp_facts q its l : rowp q its l -> has b q (flat_map encp its) /\ Forall (fun kx => item_plain (fst kx) /\ item_plain (snd kx)) its /\ Forall (fun kx => cb_common (snd kx)) its /\
    keys_of its = Some (map fst l) /\ map (fun kx => cb_meaning (snd kx)) its = map (fun e => Some (snd e)) l /\ zlen its = zlen l.
  Proof.
    induction 1 as [Q|its l k x s y RW IH H IK T HK IX C ST MN].
    - split; [now apply has_nil|]. split; [constructor|]. split; [constructor|]. auto.
    - destruct IH as (_ & F1 & F2 & K & MM & LL). split; [|split; [|split; [|split; [|split]]]].
      + rewrite flat_map_app. cbn [flat_map fst snd]. rewrite app_nil_r. apply has_app. split; [exact H|]. apply has_app. split; [exact HK|now apply sits_has in ST].
      + apply Forall_app. split; [exact F1|]. now repeat constructor.
      + apply Forall_app. split; [exact F2|]. now repeat constructor.
      + rewrite map_app. now apply keys_snoc.
      + rewrite !map_app. cbn [map snd]. now rewrite MM, MN.
      + rewrite !zlen_app, !zlen_cons, LL. reflexivity.
  Qed.
  Lemma key_prefix k : forall its q ks, Forall (fun kx => item_plain (fst kx) /\ item_plain (snd kx)) its -> has b q (flat_map encp its) -> keys_of its = Some ks -> ~ In k ks ->
    nloop (length its) (key_def hard fuel b k) q = Ok (inl (q + zlen (flat_map encp its))).
  Proof.
    induction its as [|[kk x] its IH]; intros q ks F H K NI; [cbn [length nloop flat_map]; now rewrite zlen_nil, Z.add_0_r|].
    inversion F as [|? ? [O1 O2] F']; subst. cbn [fst snd] in *. destruct (entry hard fuel b HB HF q kk x its O1 O2 H) as (H1 & H2 & H3 & A & S1 & S2).
    cbn [keys_of fst] in K. destruct (text_of kk) as [s|]; [|discriminate]. destruct (keys_of its) as [r|] eqn:KR; [|discriminate]. injection K as <-.
    cbn [length nloop]. unfold key_def at 1. rewrite A. cbn [or_throw bind]. rewrite S1. cbn [bind].
    assert (BE : beq s k = false) by (apply beq_neq; intros ->; apply NI; now left). rewrite BE, S2. cbn [bind].
    rewrite (IH _ r F' H3 eq_refl ltac:(intros X; apply NI; now right)). cbn [flat_map fst snd]. rewrite !zlen_app. do 2 f_equal. lia.
  Qed.
  Lemma keys_grow e : forall n q r acc ks, floop n (keys_step hard fuel b false e) (q, r, acc) = Ok ks -> exists t, ks = rev acc ++ t.
  Proof.
    induction n as [|n IH]; intros q r acc ks T; [discriminate|]. rewrite floop_S in T. apply bind_ok in T. destruct T as (z & E & T). unfold keys_step in E.
    destruct (q =? e); [injection E as <-; injection T as <-; exists []; now rewrite app_nil_r|].
    apply bind_ok in E. destruct E as (k & Ek & E). apply bind_ok in E. destruct E as ([q' r'] & Er & E). injection E as <-. apply IH in T. destruct T as (t & ->). cbn [rev]. rewrite <- app_assoc. eauto.
  Qed.
  Lemma entries_walk p h l e : h_indef h = false -> read_head b p = Ok h -> h_major h = 5 -> 0 <= p + h_len h <= zlen b -> 0 <= h_val h -> NoDup (map fst l) ->
    (forall k x q, In (k, x) l -> leads R (at_ p) (at_ q) -> says R (at_ q) x -> 0 <= q -> exists it, stands q it x) ->
    (forall k x, In (k, x) l -> exists w', c_key hard fuel (at_ p) k = Ok w' /\ says R w' x) ->
    forall l2 n l1 its q acc, l = l1 ++ l2 -> rowp (p + h_len h) its l1 -> q = p + h_len h + zlen (flat_map encp its) -> zlen l1 <= h_val h -> times (h_val h - zlen l1) two q = Ok e ->
    floop n (keys_step hard fuel b false e) (q, h_val h - zlen l1, acc) = Ok (rev acc ++ map fst l2) ->
    exists its', rowp (p + h_len h) its' l /\ zlen its' = h_val h.
  Proof.
    intros ID RH M Q0 VN ND IH KE. induction l2 as [|[k x] l2 IL]; intros n l1 its q acc E RW EQ LV TE T; (destruct n as [|n]; [discriminate|]);
      rewrite floop_S in T; apply bind_ok in T; destruct T as (z & EZ & T); unfold keys_step in EZ; destruct (rowp_facts _ _ _ RW) as (H & F1 & F2 & K & MM & LL).
    - rewrite app_nil_r in E. subst l1. destruct (q =? e) eqn:QE.
      + exists its. split; [exact RW|]. rewrite LL. destruct (times_up' two (h_val h - zlen l) q e two_up ltac:(lia) TE) as [T1 T2]. destruct (Z_lt_ge_dec 0 (h_val h - zlen l)) as [G|G]; [specialize (T2 G); lia|lia].
      + exfalso. apply bind_ok in EZ. destruct EZ as (k & Ek & EZ). apply bind_ok in EZ. destruct EZ as ([q' r'] & Er & EZ). injection EZ as <-. apply keys_grow in T. destruct T as (t & T).
        cbn [rev map] in T. apply (f_equal (@length bytes)) in T. rewrite !app_length in T. cbn [length] in T. lia.
    - destruct (q =? e) eqn:QE.
      { exfalso. injection EZ as <-. injection T as T. apply (f_equal (@length bytes)) in T. rewrite app_length in T. cbn [map length] in T. lia. }
      apply bind_ok in EZ. destruct EZ as (k0 & Ek & EZ). apply bind_ok in EZ. destruct EZ as ([q' r'] & Er & EZ). injection EZ as <-.
      assert (R0 : 0 < h_val h - zlen l1). { destruct (Z.eq_dec (h_val h - zlen l1) 0) as [Z0|Z0]; [|lia]. rewrite Z0 in TE. apply times_0 in TE. lia. }
      apply times_S in TE; [|exact R0]. destruct TE as (q2 & E2 & TE). unfold k_incr in Er. replace (h_val h - zlen l1 =? 0) with false in Er by lia.
      assert (E2' := E2). unfold two in E2'. apply bind_ok in E2'. destruct E2' as (q1 & E1 & E12). rewrite E1 in Er. cbn [bind] in Er. rewrite E12 in Er. cbn [bind] in Er. injection Er as <- <-.
      assert (K0 : k0 = k).
      { destruct (keys_grow _ _ _ _ _ _ T) as (t & KT). cbn [rev map] in KT. rewrite <- app_assoc in KT. apply app_inv_head in KT. cbn [app] in KT. now injection KT. }
      subst k0.
      (* look the key up *)
      assert (IN : In (k, x) l) by (rewrite E; apply in_or_app; right; now left). destruct (KE k x IN) as (w' & EC & SX). assert (X := EC).
      assert (NK : ~ In k (map fst l1)).
      { rewrite E, map_app in ND. cbn [map fst] in ND. apply NoDup_remove_2 in ND. intros I. apply ND. apply in_or_app. now left. }
      unfold c_key, chd in X. cbn [cv_buf cv_pos] in X. rewrite RH in X. cbn [bind] in X. rewrite M, ID in X. cbn [require bind negb Z.eqb Pos.eqb] in X.
      rewrite zloop_nloop in X. replace (Z.to_nat (h_val h)) with (length its + Datatypes.S (Z.to_nat (h_val h - zlen l1 - 1)))%nat in X by (unfold zlen in LL, R0 |- *; lia).
      rewrite nloop_add, (key_prefix k its _ _ F1 H K NK) in X. cbn [bind] in X. rewrite <- EQ in X. cbn [nloop] in X. apply bind_ok in X. destruct X as (o & Eo & X).
      apply bind_ok in Eo. destruct Eo as (oz & Eoz & Eo). unfold key_def in Eoz. apply bind_ok in Eoz. destruct Eoz as (s & Es & Eoz). pose proof (zlen_nonneg (flat_map encp its)).
      destruct (asString_sound hard b HB B fuel q s ltac:(lia) Es) as (ki & OK & TX & ST). assert (HK := sits_has _ _ _ _ ST).
      rewrite (ksk fuel b HB HF ki q (plain_ok _ OK) HK) in E1. injection E1 as <-.
      assert (P1 : q + zlen (enc ki) < zlen b). { destruct fuel as [|fu]; [discriminate|]. cbn [k_skip] in E12. apply bind_ok in E12. destruct E12 as (h1 & Eh1 & _). apply k_head in Eh1. lia. }
      rewrite (deref_text hard fuel b HB HF ki q (plain_ok _ OK) HK P1), TX in Ek. cbn [or_throw] in Ek. injection Ek as ->.
      rewrite (sk fuel b HB HF ki q OK HK) in Eoz. cbn [bind] in Eoz. rewrite beq_refl in Eoz. injection Eoz as <-. injection Eo as <-. injection X as <-.
      pose proof (zlen_nonneg (enc ki)). destruct (IH k x _ IN (leads_key R (at_ p) _ _ _ (leads_here _ _) EC) SX ltac:(lia)) as (it & IP & C & SI & MN).
      rewrite (ksk fuel b HB HF it _ (plain_ok _ IP) (sits_has _ _ _ _ SI)) in E12. injection E12 as <-.
      apply (IL n (l1 ++ [(k, x)]) (its ++ [(ki, it)]) (q + zlen (enc ki) + zlen (enc it)) (k :: acc)).
      + rewrite E, <- app_assoc. reflexivity.
      + rewrite EQ in HK, SI. econstructor; eauto.
      + rewrite flat_map_app, zlen_app. cbn [flat_map fst snd]. rewrite app_nil_r, zlen_app. lia.
      + rewrite zlen_app, zlen_cons, zlen_nil. lia.
      + rewrite zlen_app, zlen_cons, zlen_nil. replace (h_val h - (zlen l1 + (1 + 0))) with (h_val h - zlen l1 - 1) by lia. exact TE.
      + rewrite zlen_app, zlen_cons, zlen_nil. replace (h_val h - (zlen l1 + (1 + 0))) with (h_val h - zlen l1 - 1) by lia. cbn [rev map]. rewrite <- app_assoc. exact T.
  Qed.

  Lemma leads_trans (w w1 w2 : cview) : leads R w w1 -> leads R w1 w2 -> leads R w w2.
  Proof. intros H. induction 1; [exact H|eapply leads_idx; eauto|eapply leads_key; eauto]. Qed.
  Lemma yes_at w n q : first_yes R w n -> nth_error (questions R) n = Some q -> q w = Ok true.
  Proof. intros ((q' & E & Y) & _) E'. rewrite E in E'. now injection E' as <-. Qed.
  Lemma head_at p m : c_is (p_major m) (at_ p) = Ok true -> exists h, read_head b p = Ok h /\ h_major h = m.
  Proof. unfold c_is, chd, p_major. cbn [cv_buf cv_pos]. intros H. apply bind_ok in H. destruct H as (h & Eh & H). exists h. split; [exact Eh|]. injection H as H. lia. Qed.
  Lemma row_last q its f : row q its -> hard = false \/ ends_empty (CArr f its) = false \/ q + zlen (flat_map enc its) < zlen b.
  Proof.
    intros RW. destruct RW as [|its it RW H IP C (_ & _ & _ & ST)]; [right; left; reflexivity|]. rewrite ends_arr, flat_map_app, zlen_app. cbn [flat_map]. rewrite app_nil_r, Z.add_assoc. exact ST.
  Qed.
  Lemma rowp_last q its l f : rowp q its l -> hard = false \/ ends_empty (CMap f its) = false \/ q + zlen (flat_map encp its) < zlen b.
  Proof.
    intros RW. destruct RW as [|its l k x s y RW H IK T HK IX C (_ & _ & _ & ST) MN]; [right; left; reflexivity|]. rewrite ends_map, flat_map_app, zlen_app. cbn [flat_map fst snd]. rewrite app_nil_r, zlen_app, !Z.add_assoc. exact ST.
  Qed.
  Lemma plain_pairs l : Forall (fun kx => item_plain (fst kx) /\ item_plain (snd kx)) l -> (fix go (l : list (item * item)) := match l with [] => True | (k, x) :: l' => item_in false k /\ item_in false x /\ go l' end) l.
  Proof. induction 1 as [|[k x] l [H1 H2] F IH]; [exact I|]. split; [exact H1|]. split; [exact H2|exact IH]. Qed.
  Lemma entries_all : forall (l : list (bytes * val)), all_entries (combine (map fst l) (map (fun e => Some (snd e)) l)) = Some l.
  Proof. induction l as [|[k x] l IH]; [reflexivity|]. cbn [map combine all_entries fst snd]. now rewrite IH. Qed.
  Lemma says_entry w l : says_entries R w l -> forall k x, In (k, x) l -> exists w', r_key R w k = Ok w' /\ says R w' x.
  Proof. induction l as [|[k0 x0] l IH]; intros SE k x IN; [destruct IN|]. destruct SE as (S0 & SE). destruct IN as [[= <- <-]|IN]; [exact S0|now apply IH]. Qed.

  Theorem stands_sound : forall x p, 0 <= p -> distinct_keys x -> (forall q, leads R (at_ p) (at_ q) -> rd b q <> Ok 31 /\ rd b q <> Ok 63) -> says R (at_ p) x -> exists it, stands p it x.
  Proof.
    induction x as [|v|z|z|d|s|s|l IH|l IH] using val_ind'; intros p P D OD SY; assert (O := OD p (leads_here _ _)); destruct O as [O31 O63].
    - pose proof (yes_at _ _ _ SY eq_refl) as Y. cbn [cbor_reader r_isNull] in Y. apply (isNull_iff b B p P) in Y.
      exists (CSimple 22). split; [unfold item_plain; cbn; lia|]. split; [exact I|]. split; [apply has_sits; [exact Y|right; left; reflexivity]|reflexivity].
    - destruct SY as [_ A]. cbn [cbor_reader r_asBool] in A. apply (asBool_iff b B p v P) in A.
      exists (CSimple (if v then 21 else 20)). split; [unfold item_plain; cbn; destruct v; lia|]. split; [exact I|]. split; [apply has_sits; [exact A|right; left; reflexivity]|destruct v; reflexivity].
    - destruct SY as [_ A]. cbn [cbor_reader r_asInt c_asInt] in A. apply bind_ok in A. destruct A as (z' & A & E). injection E as ->. apply (asInt_iff b B p z P) in A.
      destruct A as [(f & n & OK & H & EZ)|[(f & n & OK & H & L & EZ)|[[H _]|[H _]]]].
      + assert (L : n < 2^63). { destruct f; unfold item_plain in OK; cbn [item_in arg_cap] in OK; try lia. apply (large p 0 n); [lia|lia|exact H]. }
        exists (CUInt f n). split; [exact OK|]. split; [exact L|]. split; [apply has_sits; [exact H|right; left; reflexivity]|]. cbn [cb_meaning]. replace (n <? 2^63) with true by lia. unfold item_plain in OK. cbn [item_in] in OK. rewrite signed_small in EZ by lia. now subst.
      + exists (CNeg f n). split; [exact OK|]. split; [exact I|]. split; [apply has_sits; [exact H|right; left; reflexivity]|]. cbn [cb_meaning]. replace (n <? 2^63) with true by lia. now subst.
      + apply has_rd in H. contradiction.
      + apply has_rd in H. contradiction.
    - exfalso. destruct SY as [Y _]. pose proof (yes_at _ _ _ Y eq_refl) as Y3. destruct Y as [_ N]. specialize (N 2%nat _ ltac:(lia) eq_refl). cbn [cbor_reader r_isUInt r_isInt] in *.
      unfold c_is, chd in *. cbn [cv_buf cv_pos] in *. destruct (read_head b p) as [h| | |]; try discriminate. cbn [bind] in *. unfold p_major, p_int in *. injection Y3 as Y3. injection N as N. lia.
    - destruct SY as [_ A]. cbn [cbor_reader r_asDouble] in A. apply (asDouble_sound b B p d P) in A. destruct A as (it & OK & H & C). exists it. split; [exact OK|].
      destruct C as [(x & -> & ->)|[(x & -> & ->)| ->]]; (split; [exact I|]); (split; [apply has_sits; [exact H|right; left; reflexivity]|reflexivity]).
    - destruct SY as [_ A]. cbn [cbor_reader r_asStringView cv_buf] in A. unfold c_asStringView in A. apply (view_sound hard b B 3 p s) in A; [|auto|exact P]. destruct A as (f & BO & LC & H & RM).
      exists (CText f s). split; [split; assumption|]. split; [exact I|]. split; [|reflexivity]. now apply (sits_def hard b 3 f s p (CText f s)).
    - destruct SY as [_ A]. cbn [cbor_reader r_asBlob cv_buf] in A. unfold c_asBlob in A. apply (view_sound hard b B 2 p s) in A; [|auto|exact P]. destruct A as (f & BO & LC & H & RM).
      exists (CBytes f s). split; [split; assumption|]. split; [exact I|]. split; [|reflexivity]. now apply (sits_def hard b 2 f s p (CBytes f s)).
    - apply says_arr in SY. destruct SY as (Y & SZ & SE). apply every_arr in D. destruct D as [_ D]. pose proof (yes_at _ _ _ Y eq_refl) as Y8. cbn [cbor_reader r_isArray r_arraySize] in Y8, SZ.
      destruct (head_at p 4 Y8) as (h & RH & M). assert (HD := read_head_sound b p h B P RH).
      assert (IH' : forall x q, In x l -> leads R (at_ p) (at_ q) -> says R (at_ q) x -> 0 <= q -> exists it, stands q it x).
      { intros x q IN LD SX Q. rewrite Forall_forall in IH, D. apply (IH x IN q Q (D x IN)); [|exact SX]. intros q' L'. apply OD. eapply leads_trans; eauto. }
      assert (Q0 : 0 <= p + h_len h <= zlen b).
      { destruct HD as [f M' I' HH V LN|M' I' HH LN|]; [| |lia]; pose proof (has_bound _ _ _ HH) as [_ B1]; [rewrite zlen_hdr in B1|change (zlen [32 * h_major h + 31]) with 1 in B1]; pose proof (zlen_nonneg b); [pose proof (hlen_pos f); lia|lia]. }
      unfold c_arraySize, chd in SZ. cbn [cv_buf cv_pos] in SZ. rewrite RH in SZ. cbn [bind] in SZ. rewrite M in SZ. cbn [require bind Z.eqb Pos.eqb] in SZ.
      destruct (h_indef h) eqn:ID; cbn [negb] in SZ.
      + destruct (elems_walkI p h l ID RH M Q0 IH' l [] [] eq_refl (row_nil _ Q0) (Forall2_nil _) SE) as (its & RW & F2). destruct (row_facts _ _ RW) as (H & F1 & FC).
        assert (LL : zlen its = zlen l) by (unfold zlen; now rewrite (F2_len _ _ _ F2)).
        pose proof (size_prefix its _ 0 fuel F1 H ltac:(rewrite LL; exact SZ)) as HE.
        destruct HD as [f M' I' HH V LN|M' I' HH LN|]; [congruence| |lia]. rewrite M in HH. rewrite LN in *.
        assert (HA : has b p (enc (CArrI its))) by (cbn [enc]; apply has_app; split; [exact HH|]; apply has_app; split; [exact H|exact HE]).
        exists (CArrI its). split; [unfold item_plain; apply item_in_arrI; exact F1|]. split; [now apply common_arrI|]. split; [apply has_sits; [exact HA|right; left; reflexivity]|].
        cbn [cb_meaning]. now rewrite (all_some_F2 its l F2).
      + assert (NV : zlen l = h_val h) by congruence.
        destruct (elems_walk p h l ID RH M NV Q0 IH' l [] [] eq_refl (row_nil _ Q0) (Forall2_nil _) SE) as (its & RW & F2). destruct (row_facts _ _ RW) as (H & F1 & FC).
        assert (LL : zlen its = zlen l) by (unfold zlen; now rewrite (F2_len _ _ _ F2)).
        destruct HD as [f M' I' HH V LN|M' I' HH LN|]; [|congruence|lia]. rewrite M in HH. rewrite LN in *.
        assert (HA : has b p (enc (CArr f its))) by (cbn [enc]; apply has_app; rewrite zlen_hdr; split; [rewrite LL, NV; exact HH|exact H]).
        exists (CArr f its). split; [unfold item_plain; apply item_in_arr; split; [lia|exact F1]|]. split; [now apply common_arr|]. split.
        * apply has_sits; [exact HA|]. pose proof (row_last _ _ f RW) as RL. cbn [enc]. rewrite zlen_app, zlen_hdr, Z.add_assoc. exact RL.
        * cbn [cb_meaning]. now rewrite (all_some_F2 its l F2).
    - apply says_map in SY. destruct SY as (Y & KS & SE). apply every_map in D. destruct D as [ND D]. pose proof (yes_at _ _ _ Y eq_refl) as Y7. cbn [cbor_reader r_isMap r_mapKeys] in Y7, KS.
      destruct (head_at p 5 Y7) as (h & RH & M). assert (HD := read_head_sound b p h B P RH).
      assert (IH' : forall k x q, In (k, x) l -> leads R (at_ p) (at_ q) -> says R (at_ q) x -> 0 <= q -> exists it, stands q it x).
      { intros k x q IN LD SX Q. rewrite Forall_forall in IH, D. apply (IH (k, x) IN q Q (D (k, x) IN)); [|exact SX]. intros q' L'. apply OD. eapply leads_trans; eauto. }
      assert (Q0 : 0 <= p + h_len h <= zlen b).
      { destruct HD as [f M' I' HH V LN|M' I' HH LN|]; [| |lia]; pose proof (has_bound _ _ _ HH) as [_ B1]; [rewrite zlen_hdr in B1|change (zlen [32 * h_major h + 31]) with 1 in B1]; pose proof (zlen_nonneg b); [pose proof (hlen_pos f); lia|lia]. }
      unfold c_mapKeys, chd in KS. cbn [cv_buf cv_pos] in KS. rewrite RH in KS. cbn [bind] in KS. rewrite M in KS. cbn [require bind Z.eqb Pos.eqb] in KS.
      apply bind_ok in KS. destruct KS as (bh & Ebh & KS). apply bind_ok in KS. destruct KS as (e & Ee & KS). unfold k_end in Ee. rewrite Ebh in Ee. cbn [bind] in Ee. cbv zeta in Ee.
      destruct HD as [f M' I' HH V LN|M' I' HH LN|]; [| |lia].
      + destruct (head_hdr b p (h_major h) f (h_val h) HH ltac:(lia) V) as [HD1 HD2]. rewrite HD2 in Ebh. injection Ebh as <-. cbn [h_indef h_len h_val negb] in Ee, KS. rewrite <- LN in Ee, KS.
        destruct (entries_walk p h l e I' RH M Q0 ltac:(lia) ND IH' (says_entry _ l SE) l fuel [] [] (p + h_len h) [] eq_refl (rowp_nil _ Q0)) as (its & RW & LN2).
        * cbn [flat_map]. rewrite zlen_nil. lia.
        * rewrite zlen_nil. lia.
        * rewrite zlen_nil, Z.sub_0_r. exact Ee.
        * rewrite zlen_nil, Z.sub_0_r. exact KS.
        * destruct (rowp_facts _ _ _ RW) as (H & F1 & F2 & K & MM & LL). rewrite M in HH. rewrite LN in *.
          assert (HA : has b p (enc (CMap f its))) by (cbn [enc]; apply has_app; rewrite zlen_hdr; split; [rewrite LN2; exact HH|exact H]).
          exists (CMap f its). split; [split; [lia|now apply plain_pairs]|]. split; [now apply common_map|]. split.
          -- apply has_sits; [exact HA|]. pose proof (rowp_last _ _ _ f RW) as RL. cbn [enc]. rewrite zlen_app, zlen_hdr, Z.add_assoc. exact RL.
          -- cbn [cb_meaning]. rewrite K, MM. rewrite firsts_distinct, entries_all; [reflexivity|]. rewrite combine_fst; [exact ND|]. now rewrite !map_length.
      + exfalso. assert (KH : k_read_head b p = Ok (mkHead 5 31 0 1 true)). { rewrite M in HH. unfold k_read_head. rewrite (has_rd _ _ _ _ HH). reflexivity. }
        rewrite KH in Ebh. injection Ebh as <-. cbn [h_indef h_len h_val negb] in Ee, KS. exact (keys_never e fuel (p + 1) 0 [] fuel (map fst l) ltac:(lia) Ee KS).
  Qed.
End Buf.

(** ** The conditions of soundness on a concrete message: no eight-byte argument begins with a byte from 0x80 on; the two bytes do not occur. *)
Fixpoint args_low (b : bytes) : bool :=
  match b with x :: (y :: _) as b' => negb ((x mod 32 =? 27) && (128 <=? y)) && args_low b' | _ => true end.
Lemma args_low_at : forall b p x y l, args_low b = true -> slice b p 9 = x :: y :: l -> x mod 32 = 27 -> y < 128.
Proof.
  intros b p x y l C E X. unfold slice in E. revert b C E. induction (Z.to_nat p) as [|n IH]; intros b C E.
  - cbn [skipn] in E. destruct b as [|x0 [|y0 b]]; [discriminate| |]; cbn in E; [destruct (Z.to_nat 8); discriminate|].
    injection E as -> -> _. cbn [args_low] in C. destruct (x mod 32 =? 27) eqn:EX; [|lia]. destruct (128 <=? y) eqn:EY; [discriminate|lia].
  - destruct b as [|x0 b]; [discriminate|]. cbn [skipn] in E. apply (IH b); [|exact E]. destruct b as [|y0 b]; [reflexivity|]. cbn [args_low] in C. apply andb_true_iff in C. apply C.
Qed.
Lemma args_low_ok b : args_low b = true -> no_large b.
Proof.
  intros C p m n P M N E. destruct (Z_lt_ge_dec n (2^63)) as [L|L]; [exact L|exfalso]. cbn [be] in E.
  apply (args_low_at b p _ _ _ C) in E; [|rewrite Z.add_comm, Z.mul_comm, Z.mod_add by lia; reflexivity].
  change (256 ^ Z.of_nat 7) with (2^56) in E. assert (H1 : 128 <= n / 2^56) by (apply Z.div_le_lower_bound; lia). assert (H2 : n / 2^56 < 256) by (apply Z.div_lt_upper_bound; lia).
  rewrite Z.mod_small in E by lia. lia.
Qed.
Lemma no_byte b x : ~ In x b -> forall p, rd b p <> Ok x.
Proof. intros N p E. apply N. unfold rd, get in E. destruct ((0 <=? p) && (p <? zlen b)); [|discriminate]. destruct (nth_error b (Z.to_nat p)) eqn:G; [|discriminate]. injection E as ->. now apply nth_error_In in G. Qed.
Lemma leads_buf hard fuel w w' : leads (cbor_reader hard fuel) w w' -> cv_buf w' = cv_buf w.
Proof.
  induction 1 as [|w1 i w2 L IH E|w1 k w2 L IH E]; [reflexivity| |]; rewrite <- IH; cbn [cbor_reader r_idx r_key] in E; [unfold c_idx in E|unfold c_key in E];
    apply bind_ok in E; destruct E as (h & _ & E); apply req_ok in E; destruct E as [_ E]; cbv zeta in E; destruct (negb (h_indef h)).
  - destruct (h_val h <=? i); [discriminate|]. apply bind_ok in E. destruct E as (q & _ & E). now injection E as <-.
  - apply bind_ok in E. destruct E as (o & F & E). destruct o as [r|]; [|discriminate]. injection E as <-. revert F. generalize (cv_pos w1 + h_len h, 0). generalize fuel at 1.
    intros n. induction n as [|n IHn]; intros s F; [discriminate|]. rewrite floop_S in F. apply bind_ok in F. destruct F as (z & S & F). destruct s as [q j]. unfold idx_step in S.
    apply req_ok in S. destruct S as [_ S]. apply bind_ok in S. destruct S as (x & _ & S). destruct (x =? 255); [injection S as <-; discriminate|].
    destruct (j =? i); [injection S as <-; now injection F as <-|]. apply bind_ok in S. destruct S as (q1 & _ & S). injection S as <-. now apply IHn in F.
  - apply bind_ok in E. destruct E as (o & F & E). destruct o as [q|r]; [discriminate|]. injection E as <-. revert F. rewrite zloop_nloop. generalize (cv_pos w1 + h_len h). generalize (Z.to_nat (h_val h)).
    intros n. induction n as [|n IHn]; intros s F; [discriminate|]. cbn [nloop] in F. apply bind_ok in F. destruct F as (z & S & F). unfold key_def in S.
    apply bind_ok in S. destruct S as (x & _ & S). apply bind_ok in S. destruct S as (q1 & _ & S). destruct (beq x k); [injection S as <-; now injection F as <-|].
    apply bind_ok in S. destruct S as (q2 & _ & S). injection S as <-. now apply IHn in F.
  - apply bind_ok in E. destruct E as (o & F & E). destruct o as [r|]; [|discriminate]. injection E as <-. revert F. generalize (cv_pos w1 + h_len h). generalize fuel at 1.
    intros n. induction n as [|n IHn]; intros s F; [discriminate|]. rewrite floop_S in F. apply bind_ok in F. destruct F as (z & S & F). unfold key_ind in S.
    apply req_ok in S. destruct S as [_ S]. apply bind_ok in S. destruct S as (x & _ & S). destruct (x =? 255); [injection S as <-; discriminate|].
    apply bind_ok in S. destruct S as (kk & _ & S). apply bind_ok in S. destruct S as (q1 & _ & S). destruct (beq kk k); [injection S as <-; now injection F as <-|].
    apply bind_ok in S. destruct S as (q2 & _ & S). injection S as <-. now apply IHn in F.
Qed.
