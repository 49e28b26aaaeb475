(** SizeGrow.v -- small messages whose copies are exponentially large. *)

From Coq Require Import ZArith List Bool Lia ZifyBool ZifyNat.
From Verif Require Import Base BaseFacts Spec SpecFacts FloatSpec B64Spec Utf8Spec ZeraModel ZeraFacts.
From Verif Require MsgModel MsgSpec MsgMain CborModel CborSpec CborMain.
From Verif Require Import TransModel TransSpec TransFacts TransMain TransAll SaysSpec SaysFacts SizeSpec.
Import ListNotations.
Open Scope Z_scope.

(** {"a": {"a": ... null, "a": null}, "a": null}: each map repeats its key. *)
Fixpoint dupv (n : nat) : val := match n with O => VNull | S n => VMap [([97], dupv n); ([97], VNull)] end.
(** What reading by key makes of it: the first value, twice, at every level. *)
Fixpoint twice (n : nat) : val := match n with O => VNull | S n => VMap [([97], twice n); ([97], twice n)] end.
(** A binary tree of arrays. *)
Fixpoint arrs (n : nat) : val := match n with O => VNull | S n => VArr [arrs n; arrs n] end.

Lemma dupv_ok n : val_ok (dupv n).
Proof. induction n as [|n IH]; [exact I|]. cbn [dupv]. apply val_ok_map. repeat constructor; cbn [snd val_ok]; auto; lia. Qed.
Lemma twice_exposed T n : T = MsgSpec.T_mp \/ T = CborSpec.T_cbor -> exposed T (dupv n) = Some (twice n).
Proof.
  intros H. induction n as [|n IH]; [destruct H; subst; reflexivity|].
  assert (E : exposed T (dupv (S n)) = option_map (fun xs => VMap (firsts (combine [[97]; [97]] xs))) (all_some [exposed T (dupv n); exposed T VNull])) by (destruct H; subst; reflexivity).
  rewrite E, IH. destruct H; subst; reflexivity.
Qed.
Lemma dupv_lengths n : MsgSpec.lengths_below (2^32 - 5) (dupv n).
Proof. induction n as [|n IH]; [exact I|]. cbn [dupv MsgSpec.lengths_below]. change (zlen [([97], dupv n); ([97], VNull)]) with 2. change (zlen [97]) with 1. repeat split; auto; lia. Qed.
Lemma mp_len v : exists b, serialize MsgModel.mp_writer v = Ok b /\ zlen b = zlen (flat_map MsgModel.mp_emit (events v)).
Proof. exists (flat_map MsgModel.mp_emit (events v)). split; [|reflexivity]. unfold serialize. rewrite MsgMain.mp_run. reflexivity. Qed.
Lemma events_two k x y : events (VMap [(k, x); (k, y)]) = EBeginMap 2 :: EKey k :: events x ++ EKey k :: events y ++ [EEndMap].
Proof. cbn [events flat_map fst snd]. change (zlen [(k, x); (k, y)]) with 2. rewrite <- ?app_assoc. cbn [app]. rewrite <- ?app_assoc. reflexivity. Qed.
Lemma dup_mp_len n : zlen (flat_map MsgModel.mp_emit (events (dupv n))) = 6 * Z.of_nat n + 1.
Proof.
  induction n as [|n IH]; [reflexivity|]. cbn [dupv]. rewrite events_two. cbn [flat_map]. rewrite flat_map_app, !zlen_app, IH. cbn [flat_map app events].
  change (zlen (MsgModel.mp_emit (EBeginMap 2))) with 1. change (zlen (MsgModel.mp_emit (EKey [97]))) with 2. cbn [flat_map app]. rewrite zlen_app.
  change (zlen (MsgModel.mp_emit (EKey [97]))) with 2. change (zlen (MsgModel.mp_emit EEndMap ++ [])) with 0. 
  match goal with |- context [zlen ?t] => change (zlen t) with 1 end. lia.
Qed.
Lemma twice_mp_len n : 2 ^ Z.of_nat n <= zlen (flat_map MsgModel.mp_emit (events (twice n))).
Proof.
  induction n as [|n IH]; [vm_compute; discriminate|]. cbn [twice]. rewrite events_two. cbn [flat_map]. rewrite flat_map_app, !zlen_app. cbn [flat_map]. rewrite flat_map_app, !zlen_app.
  rewrite Nat2Z.inj_succ, Z.pow_succ_r by lia. pose proof (zlen_nonneg (MsgModel.mp_emit (EBeginMap 2))). pose proof (zlen_nonneg (MsgModel.mp_emit (EKey [97]))).
  pose proof (zlen_nonneg (flat_map MsgModel.mp_emit [EEndMap])). lia.
Qed.
Lemma dup_utf8 n : texts_utf8 (dupv n).
Proof.
  assert (U : is_utf8 [97]) by (exists [97]; split; [apply Forall_cons; [left; lia|apply Forall_nil]|reflexivity]).
  induction n as [|n IH]; [exact I|]. cbn [dupv texts_utf8]. repeat split; auto.
Qed.
Lemma dup_depth n : CborSpec.depth (dupv n) = Z.of_nat n.
Proof. induction n as [|n IH]; [reflexivity|]. cbn [dupv CborSpec.depth map snd fold_right]. rewrite IH. lia. Qed.
Lemma dup_last n : CborSpec.last_empty (dupv n) = false.
Proof. destruct n; reflexivity. Qed.
Lemma dup_cb_len n : zlen (CborSpec.enc (CborMain.item_of (dupv n))) = 6 * Z.of_nat n + 1.
Proof.
  induction n as [|n IH]; [reflexivity|]. cbn [dupv CborMain.item_of map fst snd CborSpec.enc flat_map]. rewrite !zlen_app, IH.
  match goal with |- context [zlen (CborSpec.hdr ?a ?b ?c)] => change (zlen (CborSpec.hdr a b c)) with 1 end.
  change (zlen (CborSpec.enc (CborMain.str_item [97]))) with 2. change (zlen [224 + 22]) with 1. rewrite zlen_nil. lia.
Qed.

Lemma dup_msgpack n : exists b b' m, serialize MsgModel.mp_writer (dupv n) = Ok b /\ zlen b = 6 * Z.of_nat n + 1 /\ 2 ^ Z.of_nat n <= zlen b' /\
  forall fuel, (m <= fuel)%nat -> translate MsgModel.mp_reader MsgModel.mp_writer (fun b => Ok (MsgModel.mp_open b)) fuel (MsgModel.mp_open b) = Ok (MsgModel.mp_open b').
Proof.
  destruct (translate_reserializes P_msgpack P_msgpack (dupv n) (twice n) is_msgpack (dupv_ok n) (dupv_lengths n) (twice_exposed _ n (or_introl eq_refl))) as (b & w & m & E & O & T).
  cbn [p_writer p_open p_reader P_msgpack] in *. injection O as <-. destruct (mp_len (dupv n)) as (b1 & E1 & L1). change (serialize MsgModel.mp_writer (dupv n) = Ok b) in E. rewrite E in E1. assert (X : b = b1) by congruence. subst b1. clear E1.
  destruct (mp_len (twice n)) as (b2 & E2 & L2). exists b, b2, m. split; [exact E|]. rewrite L1, L2. split; [apply dup_mp_len|]. split; [apply twice_mp_len|].
  intros fuel F. etransitivity; [exact (T fuel F)|]. change (bind (serialize MsgModel.mp_writer (twice n)) (fun b => Ok (MsgModel.mp_open b)) = Ok (MsgModel.mp_open b2)). rewrite E2. reflexivity.
Qed.
Lemma dup_cbor hard n : (n <= 1024)%nat -> exists b b' m, serialize CborModel.cbor_writer (dupv n) = Ok b /\ zlen b = 6 * Z.of_nat n + 1 /\ 2 ^ Z.of_nat n <= zlen b' /\
  forall fuel, (m <= fuel)%nat -> translate (CborModel.cbor_reader hard fuel) MsgModel.mp_writer (fun b => Ok (MsgModel.mp_open b)) fuel (CborModel.cb_open b) = Ok (MsgModel.mp_open b').
Proof.
  intros N. assert (D : CborSpec.depth (dupv n) <= 1024) by (rewrite dup_depth; lia).
  pose proof (CborMain.cbor_serialize (dupv n) (dupv_ok n) (conj (dup_utf8 n) D)) as E0. pose proof (dup_cb_len n) as L0.
  assert (OK : p_ok (P_cbor hard) (dupv n)).
  { split; [apply dup_utf8|]. split; [exact D|]. split; [right; apply dup_last|]. intros b E. rewrite E0 in E. assert (X : CborSpec.enc (CborMain.item_of (dupv n)) = b) by congruence. rewrite <- X, L0. lia. }
  destruct (translate_reserializes (P_cbor hard) P_msgpack (dupv n) (twice n) (is_cbor hard) (dupv_ok n) OK (twice_exposed _ n (or_intror eq_refl))) as (b & w & m & E & O & T).
  cbn [p_writer p_open p_reader P_msgpack P_cbor] in *. assert (X : w = CborModel.cb_open b) by congruence. subst w. change (serialize CborModel.cbor_writer (dupv n) = Ok b) in E. rewrite E in E0. assert (Y : b = CborSpec.enc (CborMain.item_of (dupv n))) by congruence.
  destruct (mp_len (twice n)) as (b2 & E2 & L2). exists b, b2, m. split; [exact E|]. rewrite L2. split; [rewrite Y; exact L0|]. split; [apply twice_mp_len|].
  intros fuel F. etransitivity; [exact (T fuel F)|]. change (bind (serialize MsgModel.mp_writer (twice n)) (fun b => Ok (MsgModel.mp_open b)) = Ok (MsgModel.mp_open b2)). rewrite E2. reflexivity.
Qed.

(** ** ZERA: both elements of an array are the same one *)

(** The node of level [n]: null, or the array that sits at 36 (n - 1). *)
Definition zref (n : nat) : bytes := match n with O => make_vr TNull 0 0 0 0 0 | S j => make_vr TArray 0 0 (36 * Z.of_nat j) 0 0 end.
Definition zlevel (j : nat) : bytes := u32_le 2 ++ zref j ++ zref j.
Fixpoint zlevels (n : nat) : bytes := match n with O => [] | S j => zlevels j ++ zlevel j end.
Definition zpad (n : nat) : Z := (16 - (4 + 4 * Z.of_nat n) mod 16) mod 16.
(** Header, [n] levels, the reference to the topmost one, padding. *)
Definition ladder (n : nat) : bytes :=
  (u32_le Magic ++ u16_le 1 ++ u16_le 1 ++ u32_le (36 * Z.of_nat n) ++ u32_le (36 * Z.of_nat n + 16) ++ u32_le (36 * Z.of_nat n + 36 + zpad n)) ++
  zlevels n ++ zref n ++ zeros (zpad n).
Definition ladder_view (n : nat) (p : Z) : zview := mkZView (ladder n) (36 * Z.of_nat n + 16) (36 * Z.of_nat n + 36 + zpad n) 0 (Some p).
Lemma ladder_small : zera_open (ladder 3) = Ok (ladder_view 3 (20 + 36 * 3)). Proof. vm_compute. reflexivity. Qed.

Lemma zlen_zref j : zlen (zref j) = 16.
Proof. destruct j; reflexivity. Qed.
Lemma zlen_zlevels n : zlen (zlevels n) = 36 * Z.of_nat n.
Proof. induction n as [|n IH]; [reflexivity|]. cbn [zlevels]. unfold zlevel. rewrite !zlen_app, IH, !zlen_zref, zlen_u32_le. lia. Qed.
Lemma zpad_range n : 0 <= zpad n < 16. Proof. unfold zpad. lia. Qed.
Lemma zlen_zeros k : 0 <= k -> zlen (zeros k) = k.
Proof. intros H. unfold zeros, zlen. rewrite repeat_length. lia. Qed.
Definition zhead (n : nat) : bytes := u32_le Magic ++ u16_le 1 ++ u16_le 1 ++ u32_le (36 * Z.of_nat n) ++ u32_le (36 * Z.of_nat n + 16) ++ u32_le (36 * Z.of_nat n + 36 + zpad n).
Lemma zlen_ladder n : zlen (ladder n) = 36 * Z.of_nat n + 36 + zpad n.
Proof. unfold ladder. fold (zhead n). rewrite !zlen_app, zlen_zlevels, zlen_zref, zlen_zeros by apply zpad_range. change (zlen (zhead n)) with 20. lia. Qed.
Lemma has_level n j : (j < n)%nat -> has (zlevels n) (36 * Z.of_nat j) (zlevel j).
Proof.
  induction n as [|n IH]; intros H; [lia|]. cbn [zlevels]. destruct (Nat.eq_dec j n) as [->|E].
  - pose proof (has_end (zlevels n) (zlevel n)) as X. now rewrite zlen_zlevels in X.
  - apply has_app_l, IH. lia.
Qed.
Lemma ladder_level n j : (j < n)%nat -> has (ladder n) (20 + 36 * Z.of_nat j) (zlevel j).
Proof. intros H. unfold ladder. fold (zhead n). change 20 with (zlen (zhead n)). apply has_app_r, has_app_l, has_level, H. Qed.
Lemma ladder_root n : has (ladder n) (20 + 36 * Z.of_nat n) (zref n).
Proof. unfold ladder. fold (zhead n). change 20 with (zlen (zhead n)). apply has_app_r. rewrite <- zlen_zlevels. apply has_mid. Qed.
Lemma bytes_ok_zref j : bytes_ok (zref j).
Proof. destruct j; unfold zref, make_vr; repeat first [apply bytes_ok_app; split|apply bytes_ok_u32_le|apply bytes_ok_u16_le]; repeat constructor; unfold is_byte, TNull, TArray; lia. Qed.
Lemma ladder_bytes n : bytes_ok (ladder n).
Proof.
  unfold ladder. repeat first [apply bytes_ok_app; split|apply bytes_ok_u32_le|apply bytes_ok_u16_le|apply bytes_ok_zref].
  - induction n as [|n IH]; [constructor|]. cbn [zlevels]. unfold zlevel. repeat first [apply bytes_ok_app; split|apply bytes_ok_u32_le|apply bytes_ok_zref|exact IH].
  - unfold zeros. apply Forall_forall. intros x H. apply repeat_spec in H. subst x. unfold is_byte. lia.
Qed.

Section Ladder.
  Context (n : nat) (N : 36 * Z.of_nat n + 100 < 2^32).
  Lemma ladder_open : zera_open (ladder n) = Ok (ladder_view n (20 + 36 * Z.of_nat n)).
  Proof.
    pose proof (zpad_range n) as P. pose proof (zlen_ladder n) as L.
    assert (H : has (ladder n) 0 (zhead n)) by (unfold ladder; fold (zhead n); apply has_app_l, has_self).
    unfold zhead in H. repeat rewrite has_app in H. rewrite !zlen_u32_le, !zlen_u16_le in H. destruct H as (H1 & H2 & H3 & H4 & H5 & H6).
    replace (0 + 4) with 4 in * by lia. replace (4 + 2) with 6 in * by lia. replace (6 + 2) with 8 in * by lia. replace (8 + 4) with 12 in * by lia. replace (12 + 4) with 16 in * by lia.
    unfold zera_open, parse_header. replace (zlen (ladder n) <? HeaderSize) with false by (unfold HeaderSize; lia). cbn [negb require bind].
    rewrite (read_u32_le_has _ _ Magic) by (auto; unfold Magic; lia). rewrite !(read_u16_le_has _ _ 1) by (auto; lia). cbn [bind].
    rewrite (read_u32_le_has _ 8 (36 * Z.of_nat n)) by (auto; lia). rewrite (read_u32_le_has _ 12 (36 * Z.of_nat n + 16)) by (auto; lia). rewrite (read_u32_le_has _ 16 (36 * Z.of_nat n + 36 + zpad n)) by (auto; lia).
    cbn [bind h_magic h_version h_flags h_env_size h_root_ofs h_arena_ofs]. rewrite !Z.eqb_refl. cbn [require bind]. rewrite L.
    assert (M : (36 * Z.of_nat n + 36 + zpad n) mod ArenaBaseAlign =? 0 = true) by (clear; unfold ArenaBaseAlign, zpad; lia). rewrite M.
    assert (W : wrap32 (HeaderSize + (36 * Z.of_nat n + 16)) = 36 * Z.of_nat n + 36) by (clear - N; unfold wrap32, HeaderSize; rewrite Z.mod_small; lia). rewrite W.
    assert (W2 : wrap64 (36 * Z.of_nat n + 16 - 16) = 36 * Z.of_nat n) by (clear - N; unfold wrap64; rewrite Z.mod_small; lia). rewrite W2.
    replace (36 * Z.of_nat n + 16 <=? 36 * Z.of_nat n + 36 + zpad n) with true by lia. replace (36 * Z.of_nat n <? 36 * Z.of_nat n + 16) with true by lia.
    replace (36 * Z.of_nat n + 36 + zpad n <=? 36 * Z.of_nat n + 36 + zpad n) with true by lia. replace (36 * Z.of_nat n + 36 <=? 36 * Z.of_nat n + 36 + zpad n) with true by lia.
    replace (36 * Z.of_nat n <=? 36 * Z.of_nat n) with true by lia. cbn [require bind]. unfold ladder_view, HeaderSize. now rewrite Z.sub_diag.
  Qed.

  Definition sits (p : Z) (j : nat) : Prop := 20 <= p /\ p + 16 <= 36 * Z.of_nat n + 36 /\ (j <= n)%nat /\ has (ladder n) p (zref j).
  Definition tagof (j : nat) : Z := match j with O => TNull | S _ => TArray end.
  Lemma sits_vr p j : sits p j -> require_vr (ladder_view n p) = Ok p.
  Proof. intros (A & B & _). unfold require_vr. cbn [zv_vr ladder_view zv_env_size]. unfold HeaderSize. replace (20 <=? p) with true by lia. replace (p + 16 <=? 20 + (36 * Z.of_nat n + 16)) with true by lia. reflexivity. Qed.
  Lemma sits_tag p j : sits p j -> zv_tag (ladder_view n p) = Ok (tagof j).
  Proof. intros H. unfold zv_tag. rewrite (sits_vr p j H). destruct H as (_ & _ & _ & H). cbn [bind zv_buf ladder_view]. destruct j; exact (has_rd _ _ _ _ H). Qed.
  Lemma sits_flags p j : sits p j -> require_flags_ok (ladder_view n p) = Ok tt.
  Proof.
    intros H. unfold require_flags_ok. rewrite (sits_tag p j H). cbn [bind]. unfold zv_flags. rewrite (sits_vr p j H). destruct H as (_ & _ & _ & H). cbn [bind zv_buf ladder_view].
    destruct j; apply has_cons in H; destruct H as [_ H]; rewrite (has_rd _ _ _ _ H); reflexivity.
  Qed.
  Lemma sits_a p j : sits p (S j) -> zv_a (ladder_view n p) = Ok (36 * Z.of_nat j).
  Proof.
    intros H. unfold zv_a. rewrite (sits_vr p _ H). destruct H as (_ & _ & L & H). cbn [bind zv_buf ladder_view]. cbn [zref] in H. unfold make_vr in H.
    apply has_app in H. destruct H as [_ H]. apply has_app in H. destruct H as [_ H]. apply has_app in H. destruct H as [H _]. rewrite zlen_u16_le in H.
    change (zlen [TArray; 0]) with 2 in H. replace (p + 2 + 2) with (p + 4) in H by lia. apply read_u32_le_has; [|exact H]. lia.
  Qed.
  Lemma sits_count p j : sits p (S j) -> env_ptr_at (ladder_view n p) (36 * Z.of_nat j) 4 = Ok (20 + 36 * Z.of_nat j) /\
    read_u32_le (ladder n) (20 + 36 * Z.of_nat j) = Ok 2 /\ (exists q, env_ptr_at (ladder_view n p) (36 * Z.of_nat j) (4 + 16 * 2) = Ok q) /\
    (forall i, 0 <= i < 2 -> env_ptr_at (ladder_view n p) (wrap32 (36 * Z.of_nat j + 4 + 16 * i)) 16 = Ok (20 + 36 * Z.of_nat j + 4 + 16 * i)).
  Proof.
    intros (A & B & L & H). pose proof (ladder_level n j ltac:(lia)) as LV. unfold zlevel in LV. apply has_app in LV. destruct LV as [LV _].
    unfold env_ptr_at. cbn [zv_env_size ladder_view]. unfold HeaderSize. split; [|split; [|split]].
    - replace (36 * Z.of_nat j <=? 36 * Z.of_nat n + 16) with true by lia. replace (4 <=? 36 * Z.of_nat n + 16) with true by lia. replace (36 * Z.of_nat j + 4 <=? 36 * Z.of_nat n + 16) with true by lia. reflexivity.
    - apply read_u32_le_has; [lia|exact LV].
    - exists (20 + 36 * Z.of_nat j). replace (36 * Z.of_nat j <=? 36 * Z.of_nat n + 16) with true by lia. replace (4 + 16 * 2 <=? 36 * Z.of_nat n + 16) with true by lia. replace (36 * Z.of_nat j + (4 + 16 * 2) <=? 36 * Z.of_nat n + 16) with true by lia. reflexivity.
    - intros i I. assert (W : wrap32 (36 * Z.of_nat j + 4 + 16 * i) = 36 * Z.of_nat j + 4 + 16 * i) by (clear - I L N; unfold wrap32; rewrite Z.mod_small; lia). rewrite W.
      replace (36 * Z.of_nat j + 4 + 16 * i <=? 36 * Z.of_nat n + 16) with true by lia. replace (16 <=? 36 * Z.of_nat n + 16) with true by lia. replace (36 * Z.of_nat j + 4 + 16 * i + 16 <=? 36 * Z.of_nat n + 16) with true by lia. cbn [require bind]. f_equal. lia.
  Qed.
  Lemma ladder_says : forall j p, sits p j -> says zera_reader (ladder_view n p) (arrs j).
  Proof.
    assert (Q : forall j p, sits p j -> first_yes zera_reader (ladder_view n p) (match j with O => 0 | S _ => 8 end)).
    { intros j p H. pose proof (sits_tag p j H) as T. split.
      - destruct j; (eexists; split; [reflexivity|]); cbn [r_isNull r_isArray zera_reader]; unfold zv_is; rewrite T; reflexivity.
      - intros m q L E. destruct j; [lia|]. repeat (destruct m as [|m]; [cbn in E; injection E as <-; unfold zv_is, zv_isBlob; rewrite T; reflexivity|]). lia. }
    induction j as [|j IH]; intros p H; [exact (Q O p H)|]. cbn [arrs]. apply says_arr. split; [exact (Q _ p H)|].
    destruct (sits_count p j H) as (E1 & E2 & (q & E3) & E4). pose proof (sits_tag p _ H) as T. pose proof (sits_flags p _ H) as F. pose proof (sits_a p j H) as A.
    split.
    - cbn [r_arraySize zera_reader]. unfold zv_arraySize. rewrite T. cbn [bind tagof require Z.eqb TArray]. change (5 =? 5) with true. cbn [require bind]. rewrite F. cbn [bind]. rewrite A. cbn [bind]. rewrite E1. cbn [bind zv_buf ladder_view]. rewrite E2. cbn [bind].
      change (mkZView (ladder n) (36 * Z.of_nat n + 16) (36 * Z.of_nat n + 36 + zpad n) 0 (Some p)) with (ladder_view n p). rewrite E3. reflexivity.
    - assert (C : forall i, 0 <= i < 2 -> exists w', r_idx zera_reader (ladder_view n p) i = Ok w' /\ says zera_reader w' (arrs j)).
      { intros i I. exists (ladder_view n (20 + 36 * Z.of_nat j + 4 + 16 * i)). split.
        - cbn [r_idx zera_reader]. unfold zv_idx. rewrite T. cbn [bind tagof]. change (TArray =? TArray) with true. cbn [require bind]. rewrite F. cbn [bind]. rewrite A. cbn [bind]. rewrite E1. cbn [bind zv_buf ladder_view]. rewrite E2. cbn [bind].
          change (mkZView (ladder n) (36 * Z.of_nat n + 16) (36 * Z.of_nat n + 36 + zpad n) 0 (Some p)) with (ladder_view n p). replace (i <? 2) with true by lia. cbn [require bind]. rewrite (E4 i I). reflexivity.
        - apply IH. destruct H as (A1 & B1 & L & H). split; [lia|]. split; [lia|]. split; [lia|].
          pose proof (ladder_level n j ltac:(lia)) as LV. unfold zlevel in LV. apply has_app in LV. destruct LV as [_ LV]. apply has_app in LV. rewrite zlen_u32_le, zlen_zref in LV.
          assert (i = 0 \/ i = 1) as [-> | ->] by lia; [replace (20 + 36 * Z.of_nat j + 4 + 16 * 0) with (20 + 36 * Z.of_nat j + 4) by lia|replace (20 + 36 * Z.of_nat j + 4 + 16 * 1) with (20 + 36 * Z.of_nat j + 4 + 16) by lia]; apply LV. }
      cbn [says_elems]. split; [apply C; lia|]. split; [apply C; lia|exact I].
  Qed.
  Lemma ladder_root_says : says zera_reader (ladder_view n (20 + 36 * Z.of_nat n)) (arrs n).
  Proof. apply ladder_says. split; [lia|]. split; [lia|]. split; [lia|apply ladder_root]. Qed.
End Ladder.
Lemma arrs_distinct n : distinct_keys (arrs n).
Proof. induction n as [|n IH]; [split; exact I|]. unfold distinct_keys in *. cbn [arrs every]. repeat split; auto. Qed.
Lemma arrs_nodes n : nodes (arrs n) = 2 ^ (Z.of_nat n + 1) - 1.
Proof. induction n as [|n IH]; [reflexivity|]. unfold nodes in *. cbn [arrs size total fold_right]. rewrite IH. rewrite Nat2Z.inj_succ, Z.add_succ_l, (Z.pow_succ_r 2 (Z.of_nat n + 1)) by lia. lia. Qed.
Lemma arrs_mp_len n : zlen (flat_map MsgModel.mp_emit (events (arrs n))) = 2 ^ (Z.of_nat n + 1) - 1.
Proof.
  induction n as [|n IH]; [reflexivity|]. cbn [arrs events flat_map]. change (zlen [arrs n; arrs n]) with 2. rewrite app_nil_r, !flat_map_app, !zlen_app, IH.
  change (zlen (MsgModel.mp_emit (EBeginArr 2))) with 1. change (zlen (flat_map MsgModel.mp_emit [EEndArr])) with 0.
  rewrite Nat2Z.inj_succ, Z.add_succ_l, (Z.pow_succ_r 2 (Z.of_nat n + 1)) by lia. lia.
Qed.
Lemma ladder_grows n : 36 * Z.of_nat n + 100 < 2^32 -> exists w b' m, zera_open (ladder n) = Ok w /\ zlen b' = 2 ^ (Z.of_nat n + 1) - 1 /\
  forall fuel, (m <= fuel)%nat -> translate zera_reader MsgModel.mp_writer (fun b => Ok (MsgModel.mp_open b)) fuel w = Ok (MsgModel.mp_open b').
Proof.
  intros N. destruct (mp_len (arrs n)) as (b' & E & L). eexists _, b', (Datatypes.S (height (arrs n))). split; [exact (ladder_open n N)|]. split; [rewrite L; apply arrs_mp_len|].
  intros fuel F. rewrite (says_translates zera_reader MsgModel.mp_writer _ (arrs n) _ (ladder_root_says n N) fuel ltac:(lia)), E. reflexivity.
Qed.
