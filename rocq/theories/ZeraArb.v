(** ZeraArb.v -- agreement of the ZERA reader's operations on arbitrary buffers. *)

From Coq Require Import ZArith List Bool Lia ZifyBool ZifyNat.
From Verif Require Import Base BaseFacts Spec SpecFacts ZeraModel ZeraSpec ZeraFacts ZeraRep ZeraSafe.
Import ListNotations.
Open Scope Z_scope.
Ltac Zify.zify_post_hook ::= Z.div_mod_to_equations.

(** ** Array indexing *)
Lemma array_index v n : wfv v -> zv_arraySize v = Ok n ->
  exists base, HeaderSize <= base /\ base + 16 * n <= HeaderSize + zv_env_size v /\
    forall i, 0 <= i -> zv_idx v i = if i <? n then Ok (zv_child v (base + 16 * i)) else Throw EDeser.
Proof.
  intros W H. unfold zv_arraySize in H.
  destruct (zv_tag v) as [t|[]| |] eqn:Et; try discriminate. cbn [bind] in H.
  destruct (t =? TArray) eqn:E1; cbn [require bind] in H; [|discriminate].
  destruct (require_flags_ok v) as [[]|[]| |] eqn:E2; try discriminate. cbn [bind] in H.
  destruct (zv_a v) as [ao|[]| |] eqn:E3; try discriminate. cbn [bind] in H.
  destruct (env_ptr_at v ao 4) as [p|[]| |] eqn:E4; try discriminate. cbn [bind] in H.
  destruct (read_u32_le (zv_buf v) p) as [c|[]| |] eqn:E5; try discriminate. cbn [bind] in H.
  destruct (env_ptr_at v ao (4 + 16 * c)) as [q|[]| |] eqn:E6; try discriminate. cbn [bind] in H.
  inversion H; subst c. clear H.
  assert (A0 : 0 <= ao) by (pose proof (safe_a v W) as S; rewrite E3 in S; cbn in S; lia).
  unfold env_ptr_at, require in E6.
  destruct (ao <=? zv_env_size v) eqn:F1; cbn [bind] in E6; [|discriminate].
  destruct (4 + 16 * n <=? zv_env_size v) eqn:F2; cbn [bind] in E6; [|discriminate].
  destruct (ao + (4 + 16 * n) <=? zv_env_size v) eqn:F3; cbn [bind] in E6; [|discriminate].
  exists (HeaderSize + ao + 4). split; [unfold HeaderSize; lia|]. split; [unfold HeaderSize; lia|].
  intros i Hi. unfold zv_idx. rewrite Et. cbn [bind]. rewrite E1. cbn [require bind]. rewrite E2, E3. cbn [bind].
  rewrite E4. cbn [bind]. rewrite E5. cbn [bind]. unfold require.
  destruct (i <? n) eqn:L; cbn [bind]; [|reflexivity].
  pose proof (wf_env0 v W). rewrite wrap32_small by lia. rewrite env_ptr_ok by lia. cbn [bind].
  do 2 f_equal. lia.
Qed.

(** ** Integers *)
Lemma has_intro1 b p x : rd b p = Ok x -> has b p [x].
Proof.
  unfold rd, get. destruct ((0 <=? p) && (p <? zlen b)) eqn:E; [|discriminate].
  destruct (nth_error b (Z.to_nat p)) eqn:N; [|discriminate]. intros H. inversion H; subst.
  apply nth_error_split in N. destruct N as (l1 & l2 & -> & L).
  replace p with (zlen l1) by (unfold zlen; lia). apply (has_mid l1 [x] l2).
Qed.
Lemma has_slice {A} (b : list A) p l : has b p l -> slice b p (zlen l) = l.
Proof.
  intros (_ & _ & H). exact H.
Qed.
Lemma read_u32_has b p : bytes_ok b -> 0 <= p -> p + 4 <= zlen b ->
  exists x0 x1 x2 x3, has b p [x0; x1; x2; x3] /\ is_byte x0 /\ is_byte x1 /\ is_byte x2 /\ is_byte x3 /\
    read_u32_le b p = Ok (x0 + 256 * x1 + 65536 * x2 + 16777216 * x3).
Proof.
  intros Hb Hp Hl.
  destruct (rd_in b p ltac:(lia)) as [x0 E0]. destruct (rd_in b (p+1) ltac:(lia)) as [x1 E1].
  destruct (rd_in b (p+2) ltac:(lia)) as [x2 E2]. destruct (rd_in b (p+3) ltac:(lia)) as [x3 E3].
  pose proof (rd_byte _ _ _ Hb E0) as B0. pose proof (rd_byte _ _ _ Hb E1) as B1.
  pose proof (rd_byte _ _ _ Hb E2) as B2. pose proof (rd_byte _ _ _ Hb E3) as B3.
  exists x0, x1, x2, x3. split.
  - rewrite has_cons, (has_cons b (p + 1)), (has_cons b (p + 1 + 1)). replace (p + 1 + 1) with (p + 2) by lia.
    replace (p + 2 + 1) with (p + 3) by lia. auto using has_intro1.
  - repeat split; try apply B0; try apply B1; try apply B2; try apply B3.
    rewrite (read_u32_le_bytes _ _ _ _ _ _ E0 E1 E2 E3 B0 B1 B2 B3). f_equal. lia.
Qed.

Lemma zv_bits_val v p : wfv v -> require_vr v = Ok p ->
  zv_bits v = Ok (le_val (slice (zv_buf v) (p + 4) 8)) /\ 0 <= le_val (slice (zv_buf v) (p + 4) 8) < 2^64.
Proof.
  intros W R. pose proof (safe_vr v W) as S. rewrite R in S. cbn in S. unfold HeaderSize in S.
  unfold zv_bits, zv_a, zv_b. rewrite R. cbn [bind].
  destruct (read_u32_has (zv_buf v) (p + 4)) as (x0 & x1 & x2 & x3 & H1 & B0 & B1 & B2 & B3 & E1);
    [apply W|lia|lia|].
  destruct (read_u32_has (zv_buf v) (p + 8)) as (y0 & y1 & y2 & y3 & H2 & C0 & C1 & C2 & C3 & E2);
    [apply W|lia|lia|].
  rewrite E1, E2. cbn [bind].
  assert (has (zv_buf v) (p + 4) ([x0; x1; x2; x3] ++ [y0; y1; y2; y3])) as H.
  { rewrite has_app. split; [exact H1|]. replace (p + 4 + zlen [x0; x1; x2; x3]) with (p + 8); [exact H2|].
    change (zlen [x0; x1; x2; x3]) with 4. lia. }
  pose proof (has_slice _ _ _ H) as HS. change (zlen ([x0; x1; x2; x3] ++ [y0; y1; y2; y3])) with 8 in HS.
  rewrite HS. cbn [app le_val fold_right]. unfold is_byte in *.
  rewrite lor_shiftl by lia. split; [f_equal|]; lia.
Qed.

Lemma slice2 b p x y : bytes_ok b -> rd b p = Ok x -> rd b (p + 1) = Ok y -> slice b p 2 = [x; y].
Proof.
  intros Hb E0 E1. apply (has_slice b p [x; y]). rewrite has_cons. auto using has_intro1.
Qed.

Lemma to_signed64 u : 0 <= u < 2^64 -> to_signed 64 u = if u <? 2^63 then u else u - 2^64.
Proof. intros. unfold to_signed. rewrite Z.mod_small by lia. reflexivity. Qed.

Lemma int_accessors v p : wfv v -> require_vr v = Ok p ->
  (forall iw, zv_asInt iw v = match stored_int (zv_buf v) p with
                              | Some n => or_throw (fits_s iw n) | None => Throw EDeser end) /\
  (forall iw, zv_asUInt iw v = match stored_int (zv_buf v) p with
                               | Some n => or_throw (fits_u iw n) | None => Throw EDeser end).
Proof.
  intros W R. pose proof (safe_vr v W) as S. rewrite R in S. cbn in S. unfold HeaderSize in S.
  destruct (zv_bits_val v p W R) as [EB BR].
  destruct (rd_in (zv_buf v) p ltac:(lia)) as [t Et]. destruct (rd_in (zv_buf v) (p + 1) ltac:(lia)) as [fl Ef].
  assert (Tg : zv_tag v = Ok t) by (unfold zv_tag; rewrite R; exact Et).
  assert (Fl : zv_flags v = Ok fl) by (unfold zv_flags; rewrite R; exact Ef).
  unfold stored_int. rewrite (slice2 _ _ _ _ (wf_bytes v W) Et Ef).
  set (u := le_val (slice (zv_buf v) (p + 4) 8)) in *.
  unfold zv_asInt, zv_asUInt, zv_asInt64, zv_asUInt64, require_flags_ok. rewrite Tg, Fl. cbn [bind].
  destruct (t =? TI64) eqn:T1; [|destruct (t =? TU64) eqn:T2].
  - apply Z.eqb_eq in T1. subst t. change (TI64 =? TU64) with false. change (TI64 =? TString) with false.
    cbn [orb require bind]. unfold TI64.
    destruct (fl =? 0) eqn:Fz; cbn [require bind].
    2:{ destruct fl as [|[q|q|]|q]; try discriminate; split; intros; reflexivity. }
    apply Z.eqb_eq in Fz. subst fl. rewrite EB. cbn [bind]. rewrite to_signed64 by lia.
    set (n := if u <? 2^63 then u else u - 2^64).
    assert (N : is_i64 n) by (unfold n, is_i64, i64_min, i64_max; destruct (u <? 2^63) eqn:E; lia).
    split; intros iw; [apply (fits_s_spec iw n N)|].
    unfold require at 1. destruct (0 <=? n) eqn:P; cbn [bind].
    + rewrite wrap64_small by (unfold is_i64, i64_max in N; lia).
      apply (fits_u_spec iw n). unfold is_u64, u64_max, is_i64, i64_max in *. lia.
    + rewrite fits_u_none by lia. reflexivity.
  - apply Z.eqb_eq in T2. subst t. change (TU64 =? TString) with false.
    cbn [orb require bind]. unfold TU64.
    destruct (fl =? 0) eqn:Fz; cbn [require bind].
    2:{ destruct fl as [|[q|q|]|q]; try discriminate; split; intros; reflexivity. }
    apply Z.eqb_eq in Fz. subst fl. rewrite EB. cbn [bind].
    split; intros iw.
    + unfold require at 1. destruct (u <=? i64_max) eqn:P; cbn [bind].
      * rewrite to_signed64 by lia. unfold i64_max in P. replace (u <? 2^63) with true by lia.
        apply (fits_s_spec iw u). unfold is_i64, i64_min, i64_max. lia.
      * rewrite fits_s_none; [reflexivity|unfold is_u64, u64_max; lia|lia].
    + apply (fits_u_spec iw u). unfold is_u64, u64_max. lia.
  - cbn [orb require bind]. unfold TI64, TU64 in *.
    destruct t as [|[[[[q|q|]|[q|q|]|]|[[q|q|]|[q|q|]|]|]|[[[q|q|]|[q|q|]|]|[[q|q|]|[q|q|]|]|]|]|q]; try discriminate;
      split; intros; destruct fl; reflexivity.
Qed.

(** ** Map lookups *)
Section Lookup.
  Variable v : zview.
  Hypothesis W : wfv v.
  Hypothesis NV : zv_vr v <> None.
  Hypothesis NW : zv_env_size v + 16 < 2^32.

  Let inb : HeaderSize + zv_env_size v <= zlen (zv_buf v).
  Proof. destruct (wf_env v W); [assumption|contradiction]. Qed.

  Definition name (w : view) : bytes := slice (zv_buf v) (fst w) (snd w).

  Lemma key_matches_name p n key : 0 <= p -> 0 <= n -> p + n <= zlen (zv_buf v) ->
    key_matches (zv_buf v) p n key = Ok (beq key (name (p, n))).
  Proof.
    intros H1 H2 H3. unfold key_matches, name. cbn [fst snd].
    assert (L : zlen (slice (zv_buf v) p n) = n) by (rewrite zlen_slice by lia; lia).
    rewrite (rd_view_in (zv_buf v) (p, n)) by (unfold view_in; cbn [fst snd]; lia). cbn [bind fst snd].
    destruct (n =? zlen key) eqn:E; [f_equal; apply beq_sym|].
    f_equal. symmetry. apply beq_neq. intros ->. lia.
  Qed.

  Lemma env_ptr_throw o n : 0 <= o -> 0 <= n -> zv_env_size v < o + n -> env_ptr_at v o n = Throw EDeser.
  Proof.
    intros. unfold env_ptr_at, require. destruct (o <=? zv_env_size v); cbn [bind]; [|reflexivity].
    destruct (n <=? zv_env_size v); cbn [bind]; [|reflexivity].
    now replace (o + n <=? zv_env_size v) with false by lia.
  Qed.

  Definition good_entry (o kl : Z) : Prop :=
    0 <= kl < 2^16 /\ o + 20 + kl <= zv_env_size v /\
    (forall key, contains_body v key o =
       Ok (if beq key (name (HeaderSize + o + 4, kl)) then inr true else inl (o + (4 + kl + 16)))) /\
    (forall key, key_body v key o =
       Ok (if beq key (name (HeaderSize + o + 4, kl)) then inr (zv_child v (HeaderSize + (o + 4 + kl)))
           else inl (o + (4 + kl + 16)))) /\
    (forall i n acc, i < n -> keys_body v (mkZKit (HeaderSize + o) i n, acc) =
       Ok (inl (mkZKit (HeaderSize + (o + (4 + kl + 16))) (i + 1) n, (HeaderSize + o + 4, kl) :: acc))).
  Definition bad_entry (o : Z) : Prop :=
    (forall key, key_body v key o = Throw EDeser) /\
    (forall key, contains_body v key o = Throw EDeser \/ contains_body v key o = Ok (inr true)) /\
    (forall i n acc x, keys_body v (mkZKit (HeaderSize + o) i n, acc) <> Ok x).

  Lemma entry_step o : 0 <= o <= zv_env_size v -> (exists kl, good_entry o kl) \/ bad_entry o.
  Proof.
    intros Ho. pose proof (wf_env0 v W) as E0. pose proof (wf_bytes v W) as WB.
    assert (HS : HeaderSize = 20) by reflexivity.
    destruct (Z.le_gt_cases (o + 4) (zv_env_size v)) as [L4|L4].
    2:{ right. unfold bad_entry, key_body, contains_body. rewrite wrap32_small by lia.
        rewrite (env_ptr_throw o 4) by lia. split; [reflexivity|]. split; [now left|].
        intros i n acc x. unfold keys_body, zk_deref. cbn [ki_cur ki_n ki_i].
        unfold require. destruct (negb (n <=? i)); cbn [bind]; [|discriminate].
        destruct (read_u16_le (zv_buf v) (HeaderSize + o)) as [kl|e| |] eqn:ER; cbn [bind]; try discriminate.
        assert (0 <= kl < 2^16).
        { destruct (Z.le_gt_cases (HeaderSize + o + 2) (zlen (zv_buf v))) as [L|L].
          - destruct (read_u16_le_in (zv_buf v) (HeaderSize + o) WB ltac:(lia) L) as (y & E & R). congruence.
          - unfold read_u16_le in ER.
            destruct (rd (zv_buf v) (HeaderSize + o)) eqn:R1; cbn [bind] in ER; try discriminate.
            destruct (rd (zv_buf v) (HeaderSize + o + 1)) eqn:R2; cbn [bind] in ER; try discriminate.
            apply rd_inv in R2. lia. }
        rewrite wrap32_small by lia. rewrite env_ptr_throw by lia. discriminate. }
    destruct (read_u16_le_in (zv_buf v) (HeaderSize + o) WB ltac:(lia) ltac:(lia)) as (kl & EK & RK).
    destruct (read_u16_le_in (zv_buf v) (HeaderSize + o + 2) WB ltac:(lia) ltac:(lia)) as (rs & ERS & RR).
    destruct (Z.le_gt_cases (o + 20 + kl) (zv_env_size v)) as [L|L].
    - left. exists kl. unfold good_entry. split; [exact RK|]. split; [lia|]. split; [|split].
      + intros key. unfold contains_body. rewrite (wrap32_small o) by lia. rewrite env_ptr_ok by lia. cbn [bind].
        rewrite EK, ERS. cbn [bind]. rewrite (wrap32_small (o + 4)) by lia. rewrite env_ptr_ok by lia. cbn [bind].
        replace (HeaderSize + (o + 4)) with (HeaderSize + o + 4) by lia.
        rewrite key_matches_name by lia. cbn [bind].
        destruct (beq key (name (HeaderSize + o + 4, kl))); [reflexivity|].
        cbv zeta. rewrite wrap32_small by lia. rewrite env_ptr_ok by lia. reflexivity.
      + intros key. unfold key_body. rewrite (wrap32_small o) by lia. rewrite env_ptr_ok by lia. cbn [bind].
        rewrite EK, ERS. cbn [bind]. rewrite (wrap32_small (o + 4)) by lia. rewrite env_ptr_ok by lia. cbn [bind].
        rewrite (wrap32_small (o + 4 + kl)) by lia. rewrite env_ptr_ok by lia. cbn [bind].
        replace (HeaderSize + (o + 4)) with (HeaderSize + o + 4) by lia.
        rewrite key_matches_name by lia. cbn [bind].
        destruct (beq key (name (HeaderSize + o + 4, kl))); [reflexivity|].
        cbv zeta. rewrite wrap32_small by lia. rewrite env_ptr_ok by lia. reflexivity.
      + intros i n acc Hi. unfold keys_body, zk_deref, zk_incr. cbn [ki_cur ki_n ki_i].
        unfold require. replace (n <=? i) with false by lia. cbn [negb bind]. rewrite EK. cbn [bind].
        replace (HeaderSize + o - HeaderSize) with o by lia.
        rewrite (wrap32_small o) by lia. rewrite env_ptr_ok by lia. cbn [bind].
        rewrite wrap32_small by lia. rewrite env_ptr_ok by lia. reflexivity.
    - right. unfold bad_entry. split; [|split].
      + intros key. unfold key_body. rewrite (wrap32_small o) by lia. rewrite env_ptr_ok by lia. cbn [bind].
        rewrite EK, ERS. cbn [bind]. rewrite (wrap32_small (o + 4)) by lia.
        destruct (Z.le_gt_cases (o + 4 + kl) (zv_env_size v)) as [L2|L2].
        * rewrite env_ptr_ok by lia. cbn [bind]. rewrite wrap32_small by lia. now rewrite env_ptr_throw by lia.
        * now rewrite env_ptr_throw by lia.
      + intros key. unfold contains_body. rewrite (wrap32_small o) by lia. rewrite env_ptr_ok by lia. cbn [bind].
        rewrite EK, ERS. cbn [bind]. rewrite (wrap32_small (o + 4)) by lia.
        destruct (Z.le_gt_cases (o + 4 + kl) (zv_env_size v)) as [L2|L2].
        * rewrite env_ptr_ok by lia. cbn [bind].
          replace (HeaderSize + (o + 4)) with (HeaderSize + o + 4) by lia.
          rewrite key_matches_name by lia. cbn [bind].
          destruct (beq key (name (HeaderSize + o + 4, kl))); [now right|].
          cbv zeta. rewrite wrap32_small by lia. rewrite env_ptr_throw by lia. now left.
        * rewrite env_ptr_throw by lia. now left.
      + intros i n acc x. unfold keys_body, zk_deref. cbn [ki_cur ki_n ki_i].
        unfold require. destruct (negb (n <=? i)); cbn [bind]; [|discriminate].
        rewrite EK. cbn [bind]. replace (HeaderSize + o - HeaderSize) with o by lia.
        rewrite (wrap32_small o) by lia. rewrite env_ptr_throw by lia. discriminate.
  Qed.

  (** operator[] and contains in lockstep *)
  Lemma lookup_lockstep key n : forall o, 0 <= o <= zv_env_size v ->
    match nloop n (key_body v key) o with
    | Ok (inr _) => nloop n (contains_body v key) o = Ok (inr true)
    | Ok (inl o') => nloop n (contains_body v key) o = Ok (inl o')
    | Throw EDeser => nloop n (contains_body v key) o = Throw EDeser \/
                      nloop n (contains_body v key) o = Ok (inr true)
    | _ => False
    end.
  Proof.
    induction n as [|n IH]; intros o Ho; cbn [nloop]; [reflexivity|].
    destruct (entry_step o Ho) as [(kl & K1 & K2 & GC & GK & _)|(BK & BC & _)].
    - rewrite GC, GK. cbn [bind]. destruct (beq key (name (HeaderSize + o + 4, kl))); [reflexivity|].
      apply IH. lia.
    - rewrite BK. cbn [bind]. destruct (BC key) as [->| ->]; cbn [bind]; auto.
  Qed.

  (** Key iteration, contains and operator[] in lockstep *)
  Lemma keys_lockstep n : forall o i N acc x, 0 <= o <= zv_env_size v -> i + Z.of_nat n <= N ->
    nloop n (keys_body v) (mkZKit (HeaderSize + o) i N, acc) = Ok x ->
    exists ks it, x = inl (it, rev ks ++ acc) /\ Forall (view_in (zv_buf v)) ks /\
      forall key,
        match nloop n (contains_body v key) o, nloop n (key_body v key) o with
        | Ok (inr true), Ok (inr _) => existsb (beq key) (map name ks) = true
        | Ok (inl _), Ok (inl _) => existsb (beq key) (map name ks) = false
        | _, _ => False
        end.
  Proof.
    induction n as [|n IH]; intros o i N acc x Ho HN H; cbn [nloop] in H.
    - inversion H. exists [], (mkZKit (HeaderSize + o) i N). cbn. auto.
    - destruct (entry_step o Ho) as [(kl & K1 & K2 & GC & GK & GI)|(_ & _ & BI)].
      2:{ destruct (keys_body v (mkZKit (HeaderSize + o) i N, acc)) eqn:E; try discriminate.
          exfalso. eapply BI; eauto. }
      rewrite GI in H by lia. cbn [bind] in H.
      apply IH in H; [|lia|lia]. destruct H as (ks & it & -> & FV & LK).
      exists ((HeaderSize + o + 4, kl) :: ks), it.
      split; [cbn [rev]; now rewrite <- app_assoc|].
      split; [constructor; [unfold view_in; cbn [fst snd]; unfold HeaderSize in *; lia|exact FV]|].
      intros key. cbn [nloop]. rewrite GC, GK. cbn [bind map existsb].
      destruct (beq key (name (HeaderSize + o + 4, kl))); cbn [orb]; [reflexivity|]. apply LK.
  Qed.
End Lookup.


(** The common prefix of contains / operator[] / mapKeys on an object. *)
Definition obj_hdr (v : zview) : res (Z * Z) :=
  require_flags_ok v ;;;
  a <- zv_a v ;;
  p <- env_ptr_at v a 4 ;;
  c <- read_u32_le (zv_buf v) p ;;
  Ok (c, a + 4).

Lemma obj_hdr_safe v : wfv v -> zv_vr v <> None ->
  safe (fun h => 0 <= fst h < 2^32 /\ 0 <= snd h <= zv_env_size v) (obj_hdr v).
Proof.
  intros W NV. unfold obj_hdr. pose proof (wf_env0 v W).
  eapply safe_bind; [now apply safe_flags_ok|]. intros [] _.
  eapply safe_bind; [now apply safe_a|]. intros a Ha. cbv beta in Ha.
  unfold env_ptr_at, require.
  destruct (a <=? zv_env_size v); cbn [bind]; [|exact I].
  destruct (4 <=? zv_env_size v); cbn [bind]; [|exact I].
  destruct (a + 4 <=? zv_env_size v) eqn:E; cbn [bind]; [|exact I].
  eapply safe_bind; [apply safe_u32; [apply W|unfold HeaderSize; lia|destruct (wf_env v W); [unfold HeaderSize in *; lia|contradiction]]|].
  intros c Hc. cbv beta in Hc. cbn [safe fst snd]. lia.
Qed.

Lemma tag_vr v t : zv_tag v = Ok t -> zv_vr v <> None.
Proof. unfold zv_tag, require_vr. destruct (zv_vr v); [discriminate|]. discriminate. Qed.

Lemma obj_prefix {A} v (f : Z -> Z -> res A) : wfv v -> zv_vr v <> None ->
  (require_flags_ok v ;;; a <- zv_a v ;; p <- env_ptr_at v a 4 ;; c <- read_u32_le (zv_buf v) p ;; f c (wrap32 (a + 4)))
  = (h <- obj_hdr v ;; f (fst h) (snd h)).
Proof.
  intros W NV. pose proof (obj_hdr_safe v W NV) as S. unfold obj_hdr in *.
  pose proof (wf_env0 v W).
  destruct (require_flags_ok v) as [[]|e| |]; cbn [bind]; auto.
  pose proof (safe_a v W) as SA.
  destruct (zv_a v) as [a|e| |]; cbn [bind]; auto. cbn [safe] in SA.
  cbn [bind] in S.
  destruct (env_ptr_at v a 4) as [p|e| |]; cbn [bind]; auto.
  cbn [bind] in S.
  destruct (read_u32_le (zv_buf v) p) as [c|e| |]; cbn [bind fst snd]; auto.
  cbn [bind safe fst snd] in S. rewrite wrap32_small by lia. reflexivity.
Qed.

Lemma contains_eq v key : wfv v -> zv_contains v key =
  (t <- zv_tag v ;; if t =? TObject then
    h <- obj_hdr v ;; x <- nloop (Z.to_nat (fst h)) (contains_body v key) (snd h) ;;
    match x with inl _ => Ok false | inr r => Ok r end
   else Ok false).
Proof.
  intros W. unfold zv_contains, zv_is. destruct (zv_tag v) as [t|e| |] eqn:T; cbn [bind]; auto.
  destruct (t =? TObject); cbn [negb]; [|reflexivity].
  rewrite <- (obj_prefix v (fun c o => x <- nloop (Z.to_nat c) (contains_body v key) o ;;
    match x with inl _ => Ok false | inr r => Ok r end) W (tag_vr v t T)).
  destruct (require_flags_ok v) as [[]|e| |]; cbn [bind]; auto.
  destruct (zv_a v) as [a|e| |]; cbn [bind]; auto.
  destruct (env_ptr_at v a 4) as [p|e| |]; cbn [bind]; auto.
  destruct (read_u32_le (zv_buf v) p) as [c|e| |]; cbn [bind fst snd]; auto.
  rewrite zloop_nloop. reflexivity.
Qed.
Lemma key_eq v key : wfv v -> zv_key v key =
  (t <- zv_tag v ;; if t =? TObject then
    h <- obj_hdr v ;; x <- nloop (Z.to_nat (fst h)) (key_body v key) (snd h) ;;
    match x with inl _ => Throw EDeser | inr r => Ok r end
   else Throw EDeser).
Proof.
  intros W. unfold zv_key. destruct (zv_tag v) as [t|e| |] eqn:T; cbn [bind]; auto.
  unfold require at 1. destruct (t =? TObject); cbn [bind]; [|reflexivity].
  rewrite <- (obj_prefix v (fun c o => x <- nloop (Z.to_nat c) (key_body v key) o ;;
    match x with inl _ => Throw EDeser | inr r => Ok r end) W (tag_vr v t T)).
  destruct (require_flags_ok v) as [[]|e| |]; cbn [bind]; auto.
  destruct (zv_a v) as [a|e| |]; cbn [bind]; auto.
  destruct (env_ptr_at v a 4) as [p|e| |]; cbn [bind]; auto.
  destruct (read_u32_le (zv_buf v) p) as [c|e| |]; cbn [bind fst snd]; auto.
  rewrite zloop_nloop. reflexivity.
Qed.
Lemma keys_eq v : wfv v -> zv_keys v =
  (t <- zv_tag v ;; if t =? TObject then
    h <- obj_hdr v ;; x <- nloop (Z.to_nat (fst h)) (keys_body v) (mkZKit (HeaderSize + snd h) 0 (fst h), []) ;;
    match x with inl (_, acc) => Ok (rev acc) | inr _ => Ok [] end
   else Throw EDeser).
Proof.
  intros W. unfold zv_keys, zv_mapKeys. destruct (zv_tag v) as [t|e| |] eqn:T; cbn [bind]; auto.
  unfold require at 1. destruct (t =? TObject); cbn [bind]; [|reflexivity].
  pose proof (tag_vr v t T) as NV. pose proof (obj_hdr_safe v W NV) as S. unfold obj_hdr in *.
  destruct (require_flags_ok v) as [[]|e| |]; cbn [bind]; auto.
  pose proof (safe_a v W) as SA.
  destruct (zv_a v) as [a|e| |]; cbn [bind]; auto. cbn [safe] in SA. cbn [bind] in S.
  destruct (env_ptr_at v a 4) as [p|e| |]; cbn [bind]; auto. cbn [bind] in S.
  destruct (read_u32_le (zv_buf v) p) as [c|e| |]; cbn [bind fst snd]; auto.
  cbn [bind safe fst snd] in S. pose proof (wf_env0 v W). rewrite wrap32_small by lia. rewrite env_ptr_ok by lia.
  cbn [bind ki_n]. rewrite zloop_nloop. reflexivity.
Qed.

Definition small_env (v : zview) : Prop := zv_env_size v + 16 < 2^32.

Lemma key_contains v key : wfv v -> small_env v ->
  match zv_key v key with
  | Ok _ => zv_contains v key = Ok true
  | Throw EDeser => zv_contains v key <> Ok false \/ zv_contains v key = Ok false
  | _ => False
  end /\ (zv_contains v key = Ok false -> zv_key v key = Throw EDeser).
Proof.
  intros W SE. rewrite key_eq, contains_eq by exact W.
  pose proof (safe_tag v W) as ST.
  destruct (zv_tag v) as [t|e| |] eqn:T; cbn [bind]; cbn [safe] in ST; try contradiction.
  2:{ destruct e; try contradiction. split; [left|]; discriminate. }
  destruct (t =? TObject); [|split; [right|]; reflexivity].
  pose proof (tag_vr v t T) as NV. pose proof (obj_hdr_safe v W NV) as S.
  destruct (obj_hdr v) as [[c o]|e| |]; cbn [bind]; cbn [safe fst snd] in *; try contradiction.
  2:{ destruct e; try contradiction. split; [left|]; discriminate. }
  pose proof (lookup_lockstep v W NV SE key (Z.to_nat c) o ltac:(lia)) as L.
  destruct (nloop (Z.to_nat c) (key_body v key) o) as [[x|x]|e| |]; cbn [bind] in *; try contradiction.
  - rewrite L. cbn [bind]. split; [right|]; reflexivity.
  - rewrite L. cbn [bind]. split; [reflexivity|discriminate].
  - destruct e; try contradiction. split; [|reflexivity].
    destruct L as [-> | ->]; left; discriminate.
Qed.

Lemma rd_views_in b l : Forall (view_in b) l -> rd_views b l = Ok (map (fun w => slice b (fst w) (snd w)) l).
Proof.
  induction l as [|w l IH]; intros H; [reflexivity|]. inversion H; subst. cbn [rd_views map].
  rewrite rd_view_in by assumption. cbn [bind]. rewrite IH by assumption. reflexivity.
Qed.

Lemma keys_contains v names : wfv v -> small_env v -> r_mapKeys zera_reader v = Ok names ->
  forall key,
    zv_contains v key = Ok (existsb (beq key) names) /\
    if existsb (beq key) names then exists w, zv_key v key = Ok w else zv_key v key = Throw EDeser.
Proof.
  intros W SE H key. cbn [r_mapKeys zera_reader] in H. rewrite keys_eq in H by exact W.
  rewrite key_eq, contains_eq by exact W.
  destruct (zv_tag v) as [t|e| |] eqn:T; cbn [bind] in *; try discriminate.
  destruct (t =? TObject); cbn [bind] in *; [|discriminate].
  pose proof (tag_vr v t T) as NV. pose proof (obj_hdr_safe v W NV) as S.
  destruct (obj_hdr v) as [[c o]|e| |]; cbn [bind] in *; cbn [safe fst snd] in *; try discriminate.
  destruct (nloop (Z.to_nat c) (keys_body v) (mkZKit (HeaderSize + o) 0 c, [])) as [x|e| |] eqn:N;
    cbn [bind] in H; try discriminate.
  apply (keys_lockstep v W NV SE) in N; [|lia|lia]. destruct N as (ks & it & -> & FV & LK).
  rewrite app_nil_r, rev_involutive in H. cbn [bind] in H. rewrite rd_views_in in H by exact FV.
  assert (names = map (name v) ks) as -> by (unfold name; congruence).
  specialize (LK key).
  destruct (nloop (Z.to_nat c) (contains_body v key) o) as [[x|[|]]|e| |]; try contradiction;
  destruct (nloop (Z.to_nat c) (key_body v key) o) as [[y|y]|e| |]; try contradiction;
  rewrite LK; cbn [bind]; eauto.
Qed.

(** ** The header *)

Lemma read_u32_val b p : bytes_ok b -> 0 <= p -> p + 4 <= zlen b -> read_u32_le b p = Ok (u32_at b p) /\ 0 <= u32_at b p < 2^32.
Proof.
  intros Hb Hp Hl. destruct (read_u32_has b p Hb Hp Hl) as (x0 & x1 & x2 & x3 & H & B0 & B1 & B2 & B3 & E).
  pose proof (has_slice _ _ _ H) as HS. change (zlen [x0; x1; x2; x3]) with 4 in HS.
  unfold u32_at. rewrite HS, E. cbn [le_val fold_right]. unfold is_byte in *. split; [f_equal|]; lia.
Qed.
Lemma read_u16_val b p : bytes_ok b -> 0 <= p -> p + 2 <= zlen b -> read_u16_le b p = Ok (u16_at b p) /\ 0 <= u16_at b p < 2^16.
Proof.
  intros Hb Hp Hl.
  destruct (rd_in b p ltac:(lia)) as [x0 E0]. destruct (rd_in b (p+1) ltac:(lia)) as [x1 E1].
  pose proof (rd_byte _ _ _ Hb E0) as B0. pose proof (rd_byte _ _ _ Hb E1) as B1.
  rewrite (read_u16_le_bytes _ _ _ _ E0 E1 B0 B1). unfold u16_at. rewrite (slice2 _ _ _ _ Hb E0 E1).
  cbn [le_val fold_right]. unfold is_byte in *. split; [f_equal|]; lia.
Qed.

Lemma magic_bytes b : bytes_ok b -> 4 <= zlen b -> (u32_at b 0 =? Magic) = true <-> slice b 0 4 = [90; 69; 78; 86].
Proof.
  intros Hb Hl. destruct (read_u32_has b 0 Hb ltac:(lia) ltac:(lia)) as (x0 & x1 & x2 & x3 & H & B0 & B1 & B2 & B3 & _).
  pose proof (has_slice _ _ _ H) as HS. change (zlen [x0; x1; x2; x3]) with 4 in HS.
  unfold u32_at. rewrite HS. cbn [le_val fold_right]. unfold is_byte, Magic in *. rewrite Z.eqb_eq. split.
  - intros. assert (x0 = 90) by lia. assert (x1 = 69) by lia. assert (x2 = 78) by lia. assert (x3 = 86) by lia. congruence.
  - intros E. inversion E. lia.
Qed.

Lemma open_iff b : bytes_ok b -> zlen b < 2^32 - 20 ->
  (header_ok b -> zera_open b = Ok (mkZView b (u32_at b 12) (u32_at b 16) (zlen b - u32_at b 16) (Some (20 + u32_at b 8)))) /\
  (~ header_ok b -> zera_open b = Throw EDeser \/
                    u32_at b 12 < 16 /\ exists v, zera_open b = Ok v /\ require_vr v = Throw EDeser).
Proof.
  intros Hb Hl. unfold zera_open, parse_header, require.
  destruct (zlen b <? HeaderSize) eqn:L; cbn [negb bind]; unfold HeaderSize in *.
  { split; [intros [H]; lia|auto]. }
  destruct (read_u32_val b 0 Hb ltac:(lia) ltac:(lia)) as [-> R0].
  destruct (read_u16_val b 4 Hb ltac:(lia) ltac:(lia)) as [-> R4].
  destruct (read_u16_val b 6 Hb ltac:(lia) ltac:(lia)) as [-> R6].
  destruct (read_u32_val b 8 Hb ltac:(lia) ltac:(lia)) as [-> R8].
  destruct (read_u32_val b 12 Hb ltac:(lia) ltac:(lia)) as [-> R12].
  destruct (read_u32_val b 16 Hb ltac:(lia) ltac:(lia)) as [-> R16].
  cbn [bind h_magic h_version h_flags h_env_size h_root_ofs h_arena_ofs].
  pose proof (magic_bytes b Hb ltac:(lia)) as MB. unfold ArenaBaseAlign.
  destruct (u32_at b 0 =? Magic) eqn:E0; cbn [bind].
  2:{ split; [|auto]. intros H. destruct MB as [_ MB]. specialize (MB (ho_magic b H)). discriminate. }
  destruct (u16_at b 4 =? 1) eqn:E1; cbn [bind].
  2:{ split; [|auto]. intros H. pose proof (ho_version b H). lia. }
  destruct (u16_at b 6 =? 1) eqn:E2; cbn [bind].
  2:{ split; [|auto]. intros H. pose proof (ho_flags b H). lia. }
  destruct (u32_at b 12 <=? zlen b) eqn:E3; cbn [bind].
  2:{ split; [|auto]. intros H. pose proof (ho_env b H). pose proof (ho_arena b H). lia. }
  destruct (u32_at b 8 <? u32_at b 12) eqn:E4; cbn [bind].
  2:{ split; [|auto]. intros H. pose proof (ho_root b H). lia. }
  destruct (u32_at b 16 <=? zlen b) eqn:E5; cbn [bind].
  2:{ split; [|auto]. intros H. pose proof (ho_arena b H). lia. }
  destruct (u32_at b 16 mod 16 =? 0) eqn:E6; cbn [bind].
  2:{ split; [|auto]. intros H. pose proof (ho_align b H). lia. }
  rewrite wrap32_small by lia.
  destruct (20 + u32_at b 12 <=? u32_at b 16) eqn:E7; cbn [bind].
  2:{ split; [|auto]. intros H. pose proof (ho_env b H). lia. }
  destruct (u32_at b 8 <=? wrap64 (u32_at b 12 - 16)) eqn:E8; cbn [bind].
  - split; [reflexivity|]. intros H.
    destruct (Z.lt_ge_cases (u32_at b 12) 16) as [S|S].
    + right. split; [exact S|]. eexists. split; [reflexivity|].
      unfold require_vr, require. cbn [zv_vr zv_env_size]. unfold HeaderSize.
      replace ((20 <=? 20 + u32_at b 8) && (20 + u32_at b 8 + 16 <=? 20 + u32_at b 12)) with false by lia. reflexivity.
    + exfalso. apply H. rewrite wrap64_small in E8 by lia. split; try lia. now apply MB.
  - split; [|auto]. intros H. pose proof (ho_root b H). rewrite wrap64_small in E8 by lia. lia.
Qed.
