(** MsgMain.v -- the MessagePack writer emits well-formed objects; round trip. *)

From Coq Require Import ZArith List Bool Lia ZifyBool ZifyNat.
From Verif Require Import Base BaseFacts Spec SpecFacts FloatModel MsgModel MsgSpec MsgFacts.
Import ListNotations.
Open Scope Z_scope.
Ltac Zify.zify_post_hook ::= Z.div_mod_to_equations.

(** ** The object each value is written as *)
Definition str_fmt (n : Z) : fmt := if n <? 32 then FFix else if n <? 256 then F8 else if n <? 65536 then F16 else F32.
Definition bin_fmt (n : Z) : fmt := if n <? 256 then F8 else if n <? 65536 then F16 else F32.
Definition seq_fmt (n : Z) : fmt := if n <? 16 then FFix else if n <? 65536 then F16 else F32.
Definition uint_item (d : Z) : item :=
  if d <? 2^7 then MFixInt d
  else if d <? 2^8 then MUInt I8 d else if d <? 2^16 then MUInt I16 d
  else if d <? 2^32 then MUInt I32 d else MUInt I64 d.
Definition int_item (d : Z) : item :=
  if d <? - 2^31 then MSInt I64 d else if d <? - 2^15 then MSInt I32 d
  else if d <? - 2^7 then MSInt I16 d else if d <? - 2^5 then MSInt I8 d
  else if d <? 0 then MFixInt d else uint_item d.
Definition str_item (s : bytes) : item := MStr (str_fmt (zlen s)) s.

Fixpoint item_of (v : val) : item :=
  match v with
  | VNull => MNil
  | VBool b => MBool b
  | VInt z => int_item z
  | VUInt z => uint_item z
  | VDbl x => MF64 x
  | VStr s => str_item s
  | VBlob b => MBin (bin_fmt (zlen b)) b
  | VArr l => MArr (seq_fmt (zlen l)) (map item_of l)
  | VMap l => MMap (seq_fmt (zlen l)) (map (fun kx => (str_item (fst kx), item_of (snd kx))) l)
  end.

Lemma be16_be v : be16 v = be 2 v.
Proof.
  unfold be16. cbn [be]. change (256 ^ Z.of_nat 1) with 256. change (256 ^ Z.of_nat 0) with 1. rewrite Z.div_1_r.
  rewrite !land_255, shiftr_div by lia. reflexivity.
Qed.
Lemma be32_be v : be32 v = be 4 v.
Proof.
  unfold be32. cbn [be]. change (256 ^ Z.of_nat 3) with (2^24). change (256 ^ Z.of_nat 2) with (2^16).
  change (256 ^ Z.of_nat 1) with (2^8). change (256 ^ Z.of_nat 0) with 1. rewrite Z.div_1_r.
  rewrite !land_255, !shiftr_div by lia. reflexivity.
Qed.
Lemma be64_be v : be64 v = be 8 v.
Proof.
  unfold be64. rewrite !be32_be. rewrite shiftr_div by lia. cbn [be app].
  change (256 ^ Z.of_nat 3) with (2^24). change (256 ^ Z.of_nat 2) with (2^16).
  change (256 ^ Z.of_nat 1) with (2^8). change (256 ^ Z.of_nat 0) with 1.
  change (256 ^ Z.of_nat 7) with (2^32 * 2^24). change (256 ^ Z.of_nat 6) with (2^32 * 2^16).
  change (256 ^ Z.of_nat 5) with (2^32 * 2^8). change (256 ^ Z.of_nat 4) with (2^32 * 1).
  rewrite <- !Z.div_div by (clear; lia). reflexivity.
Qed.

Lemma emit_uint d : 0 <= d < 2^64 -> pack_uint64 d = enc (uint_item d) /\ item_small (uint_item d).
Proof.
  intros H. unfold pack_uint64, uint_item, item_small.
  destruct (d <? 2^7) eqn:E1; [cbn [enc item_in]; split; [f_equal|]; lia|].
  destruct (d <? 2^8) eqn:E2; [cbn [enc item_in ibytes]; rewrite be1 by lia; split; [reflexivity|cbn; lia]|].
  destruct (d <? 2^16) eqn:E3; [rewrite be16_be; split; [reflexivity|cbn; lia]|].
  destruct (d <? 2^32) eqn:E4; [rewrite be32_be; split; [reflexivity|cbn; lia]|].
  rewrite be64_be; split; [reflexivity|cbn; lia].
Qed.
Lemma emit_int d : is_i64 d -> pack_int64 d = enc (int_item d) /\ item_small (int_item d).
Proof.
  unfold is_i64, i64_min, i64_max. intros H. unfold pack_int64, int_item.
  destruct (d <? - 2^31) eqn:E1; [rewrite be64_be; split; [reflexivity|cbn; lia]|].
  destruct (d <? - 2^15) eqn:E2; [rewrite be32_be; split; [reflexivity|cbn; lia]|].
  destruct (d <? - 2^7) eqn:E3; [rewrite be16_be; split; [reflexivity|cbn; lia]|].
  destruct (d <? - 2^5) eqn:E4.
  { cbn [enc ibytes ibits]. rewrite be1 by (clear; lia). split; [reflexivity|cbn; lia]. }
  destruct (d <? 0) eqn:E5; [split; [reflexivity|cbn; lia]|].
  apply emit_uint. lia.
Qed.
Lemma emit_str s : zlen s < 2^32 -> pack_str (zlen s) ++ s = enc (str_item s).
Proof.
  intros H. pose proof (zlen_nonneg s). unfold pack_str, str_item, str_fmt. cbn [enc].
  destruct (zlen s <? 32); [reflexivity|].
  destruct (zlen s <? 256) eqn:E2; [cbn [str_hdr]; rewrite be1 by lia; reflexivity|].
  destruct (zlen s <? 65536); [now rewrite be16_be|]. rewrite wrap32_small by lia. now rewrite be32_be.
Qed.
Lemma emit_bin b : zlen b < 2^32 -> pack_bin (zlen b) ++ b = enc (MBin (bin_fmt (zlen b)) b).
Proof.
  intros H. pose proof (zlen_nonneg b). unfold pack_bin, bin_fmt. cbn [enc].
  destruct (zlen b <? 256) eqn:E2; [cbn [bin_hdr]; rewrite be1 by lia; reflexivity|].
  destruct (zlen b <? 65536); [now rewrite be16_be|]. rewrite wrap32_small by lia. now rewrite be32_be.
Qed.
Lemma emit_arr n : 0 <= n < 2^32 -> pack_array n = arr_hdr (seq_fmt n) n.
Proof.
  intros H. unfold pack_array, seq_fmt. destruct (n <? 16); [reflexivity|].
  destruct (n <? 65536); [cbn [arr_hdr]; now rewrite be16_be|]. rewrite wrap32_small by lia. cbn [arr_hdr]. now rewrite be32_be.
Qed.
Lemma emit_map n : 0 <= n < 2^32 -> pack_map n = map_hdr (seq_fmt n) n.
Proof.
  intros H. unfold pack_map, seq_fmt. destruct (n <? 16); [reflexivity|].
  destruct (n <? 65536); [cbn [map_hdr]; now rewrite be16_be|]. rewrite wrap32_small by lia. cbn [map_hdr]. now rewrite be32_be.
Qed.

Lemma lengths_arr lim l : lengths_below lim (VArr l) <-> zlen l < 2^32 /\ Forall (lengths_below lim) l.
Proof.
  cbn [lengths_below]. apply and_iff_compat_l. induction l as [|x l IH]; [split; constructor|].
  split; [intros [A B]; constructor; tauto|inversion 1; subst; tauto].
Qed.
Lemma lengths_map lim l : lengths_below lim (VMap l) <->
  zlen l < 2^32 /\ Forall (fun kx => zlen (fst kx) < lim /\ lengths_below lim (snd kx)) l.
Proof.
  cbn [lengths_below]. apply and_iff_compat_l. induction l as [|[k x] l IH]; [split; constructor|].
  split; [intros (A & B & C); constructor; tauto|inversion 1; subst; cbn in *; tauto].
Qed.

Lemma mp_run es : forall s, run mp_writer s es = (s ++ flat_map mp_emit es, Ok tt).
Proof.
  induction es as [|e es IH]; intros s; cbn [run flat_map mp_writer w_step]; [now rewrite app_nil_r|].
  rewrite IH. now rewrite <- app_assoc.
Qed.

Lemma emit_events : forall v, val_ok v -> lengths_below (2^32) v -> flat_map mp_emit (events v) = enc (item_of v).
Proof.
  induction v as [| | | | | | |l IH|l IH] using val_ind'; intros OK LB; cbn [events flat_map mp_emit item_of]; rewrite ?app_nil_r.
  - reflexivity.
  - reflexivity.
  - apply emit_int, OK.
  - apply emit_uint. unfold val_ok, is_u64, u64_max in OK. lia.
  - now rewrite be64_be.
  - now apply emit_str.
  - now apply emit_bin.
  - apply val_ok_arr in OK. apply lengths_arr in LB. destruct LB as [L LB]. pose proof (zlen_nonneg l).
    rewrite emit_arr by lia. cbn [enc]. rewrite zlen_map. f_equal.
    rewrite flat_map_app. cbn [flat_map mp_emit app]. rewrite app_nil_r. clear L H.
    induction IH as [|x l Hx Hl IHl]; [reflexivity|]. inversion OK; inversion LB; subst. cbn [flat_map map].
    rewrite flat_map_app. rewrite Hx, IHl by assumption. reflexivity.
  - apply val_ok_map in OK. apply lengths_map in LB. destruct LB as [L LB]. pose proof (zlen_nonneg l).
    rewrite emit_map by lia. cbn [enc]. rewrite zlen_map. f_equal.
    rewrite flat_map_app. cbn [flat_map mp_emit app]. rewrite app_nil_r. clear L H.
    induction IH as [|[k x] l Hx Hl IHl]; [reflexivity|]. inversion OK as [|? ? [O1 O2]]; inversion LB as [|? ? [L1 L2]]; subst.
    cbn [flat_map map fst snd app mp_emit] in *.
    rewrite flat_map_app. rewrite emit_str, Hx, IHl by assumption. now rewrite <- !app_assoc.
Qed.

Lemma str_item_in lim s : 65536 <= lim -> bytes_ok s -> zlen s < lim -> item_in lim (str_item s).
Proof.
  intros HL B L. cbn [item_in str_item]. split; [exact B|]. unfold str_fmt.
  destruct (zlen s <? 32) eqn:E1; [cbn; lia|]. destruct (zlen s <? 256) eqn:E2; [cbn; lia|].
  destruct (zlen s <? 65536) eqn:E3; cbn; lia.
Qed.
Lemma seq_fmt_cap n : n < 2^32 -> n < seq_cap (seq_fmt n).
Proof. intros H. unfold seq_fmt. destruct (n <? 16) eqn:E1; [cbn; lia|]. destruct (n <? 65536) eqn:E3; cbn; lia. Qed.

Lemma item_of_in : forall v, val_ok v -> lengths_below (2^32 - 5) v -> item_small (item_of v).
Proof.
  induction v as [| | | | | | |l IH|l IH] using val_ind'; intros OK LB; cbn [item_of].
  - exact I.
  - exact I.
  - apply emit_int, OK.
  - apply emit_uint. unfold val_ok, is_u64, u64_max in OK. lia.
  - unfold val_ok, is_u64, u64_max in OK. cbn. lia.
  - apply str_item_in; [lia|exact OK|exact LB].
  - cbn [lengths_below] in LB. split; [exact OK|]. unfold bin_fmt.
    destruct (zlen b <? 256) eqn:E2; [cbn; lia|].
    destruct (zlen b <? 65536) eqn:E3; cbn [bin_cap]; lia.
  - apply val_ok_arr in OK. apply lengths_arr in LB. destruct LB as [L LB].
    apply item_in_arr. rewrite zlen_map. split; [now apply seq_fmt_cap|]. clear L.
    induction IH as [|x l Hx Hl IHl]; [constructor|]. inversion OK; inversion LB; subst. cbn [map]. constructor; auto.
    now apply Hx.
  - apply val_ok_map in OK. apply lengths_map in LB. destruct LB as [L LB].
    apply item_in_map. rewrite zlen_map. split; [now apply seq_fmt_cap|]. clear L.
    induction IH as [|[k x] l Hx Hl IHl]; [constructor|]. inversion OK as [|? ? [O1 O2]]; inversion LB as [|? ? [L1 L2]]; subst.
    cbn [map fst snd] in *. constructor; auto. cbn [fst snd]. split; [apply str_item_in; auto; lia|now apply Hx].
Qed.

(** ** Reading back *)
Lemma tbl_int z : is_i64 z -> item_table (int_item z) = T_mp (VInt z).
Proof.
  unfold is_i64, i64_min, i64_max. intros H. unfold int_item, uint_item. cbn [T_mp].
  repeat match goal with |- context [if ?b then _ else _] => destruct b eqn:? end; cbn [item_table];
    f_equal; lia.
Qed.
Lemma tbl_uint z : 0 <= z < 2^64 -> item_table (uint_item z) = T_mp (VUInt z).
Proof.
  intros H. unfold uint_item. cbn [T_mp].
  repeat match goal with |- context [if ?b then _ else _] => destruct b eqn:? end; cbn [item_table];
    f_equal; lia.
Qed.
Lemma tbl_of v : val_ok v -> item_table (item_of v) = T_mp v.
Proof.
  intros OK. destruct v; cbn [item_of]; try reflexivity.
  - now apply tbl_int.
  - apply tbl_uint. unfold val_ok, is_u64, u64_max in OK. lia.
Qed.

Lemma leaf_shows w v : is_leaf v -> val_ok v -> item_small (item_of v) -> starts w (enc (item_of v)) -> shows mp_reader T_mp w v.
Proof.
  intros HL OK OI S. apply shows_leaf; [exact HL|].
  split; [rewrite <- tbl_of by exact OK; apply (observes_item w _ (2^32-5)); [lia|exact OI|exact S]|].
  destruct (enc_marker _ _ OI) as (m & l & E & K). rewrite E in S.
  rewrite tbl_of in K by exact OK. unfold kinds, tkinds in K. injection K as _ _ _ _ _ _ _ KM KA.
  assert (k_map m = false) by (rewrite KM; destruct v; try reflexivity; destruct HL).
  assert (k_array m = false) by (rewrite KA; destruct v; try reflexivity; destruct HL).
  cbn [mp_reader r_arraySize r_idx r_key r_contains r_mapKeys]. repeat split; intros.
  - now apply (no_size w m l S).
  - now apply (no_idx w m l S).
  - now apply (no_key w m l S).
  - now apply (no_contains w m l S).
  - now rewrite (no_keys w m l S).
Qed.

Definition kv (kx : bytes * val) : item * item := (str_item (fst kx), item_of (snd kx)).
Lemma exists_kv k l : existsb (key_is k) (map kv l) = existsb (beq k) (map fst l).
Proof. induction l as [|[k' x] l IH]; [reflexivity|]. cbn [map existsb fst]. rewrite IH. f_equal. unfold key_is, key_of. cbn. apply beq_sym. Qed.
Lemma keys_kv l : keys_of (map kv l) = Some (map fst l).
Proof. induction l as [|[k' x] l IH]; [reflexivity|]. cbn [map keys_of]. now rewrite IH. Qed.
Lemma find_none_exists {A} (f : A -> bool) l : existsb f l = false -> find f l = None.
Proof. induction l as [|x l IH]; [reflexivity|]. cbn. destruct (f x); [discriminate|exact IH]. Qed.
Lemma find_kv k x l1 l2 : existsb (beq k) (map fst l1) = false ->
  find (key_is k) (map kv (l1 ++ (k, x) :: l2)) = Some (kv (k, x)).
Proof.
  induction l1 as [|[k' x'] l1 IH]; intros H.
  - cbn [map app find]. unfold key_is at 1, key_of. cbn. now rewrite beq_refl.
  - cbn [map app find existsb fst] in *. apply orb_false_iff in H. destruct H as [H1 H2].
    unfold key_is at 1, key_of. cbn [kv fst snd str_item]. rewrite beq_sym, H1. now apply IH.
Qed.

Theorem mp_starts_shows : forall v, val_ok v -> lengths_below (2^32 - 5) v -> forall w, starts w (enc (item_of v)) -> shows mp_reader T_mp w v.
Proof.
  induction v as [| | | | | | |l IH|l IH] using val_ind'; intros OK LB w S;
    try (apply leaf_shows; [exact I|exact OK|now apply item_of_in|exact S]).
  - assert (OI := item_of_in _ OK LB). apply shows_arr.
    split; [rewrite <- tbl_of by exact OK; apply (observes_item w _ (2^32-5)); [lia|exact OI|exact S]|].
    destruct (enc_marker _ _ OI) as (m & t & E & K). assert (S' := S). rewrite E in S'.
    unfold kinds, tkinds in K. injection K as _ _ _ _ _ _ _ KM _.
    apply val_ok_arr in OK. apply lengths_arr in LB. destruct LB as [_ LB]. rewrite Forall_forall in IH, OK, LB.
    cbn [item_of] in S, OI. cbn [mp_reader r_arraySize r_idx r_key r_contains r_mapKeys]. repeat split; intros.
    + rewrite (size_item w _ _ _ OI S). now rewrite zlen_map.
    + apply (idx_out w _ _ _ _ OI S). rewrite zlen_map. lia.
    + apply elems_intro. intros l1 x l2 El. rewrite El, map_app in S, OI. cbn [map] in S, OI.
      destruct (idx_item w _ _ _ _ OI S) as (w' & EI & Sw). rewrite zlen_map in EI. exists w'.
      split; [exact EI|]. assert (In x l) by (rewrite El; apply in_or_app; right; now left). apply IH; auto. now apply spans_starts.
    + now apply (no_key w m t S').
    + now apply (no_contains w m t S').
    + now rewrite (no_keys w m t S').
  - assert (OI := item_of_in _ OK LB). apply shows_map.
    split; [rewrite <- tbl_of by exact OK; apply (observes_item w _ (2^32-5)); [lia|exact OI|exact S]|].
    destruct (enc_marker _ _ OI) as (m & t & E & K). assert (S' := S). rewrite E in S'.
    unfold kinds, tkinds in K. injection K as _ _ _ _ _ _ _ _ KA.
    apply val_ok_map in OK. apply lengths_map in LB. destruct LB as [_ LB]. rewrite Forall_forall in IH, OK, LB.
    cbn [item_of] in S, OI. change (map (fun kx => (str_item (fst kx), item_of (snd kx))) l) with (map kv l) in S, OI.
    repeat split; intros.
    + rewrite (keys_item w _ _ OI S), keys_kv. reflexivity.
    + cbn [mp_reader r_contains]. rewrite (contains_item w _ _ OI S). now rewrite exists_kv.
    + cbn [mp_reader r_key]. pose proof (key_item w _ _ OI S k) as KI.
      rewrite find_none_exists in KI; [exact KI|]. now rewrite exists_kv.
    + apply entries_intro. intros l1 k x l2 El NI. cbn [mp_reader r_key]. pose proof (key_item w _ _ OI S k) as KI.
      rewrite El, find_kv in KI by exact NI. destruct KI as (c & EK & Sc). exists c. split; [exact EK|].
      assert (IN : In (k, x) l) by (rewrite El; apply in_or_app; right; now left).
      apply (IH _ IN); [apply (OK _ IN)|apply (LB _ IN)|now apply spans_starts].
    + now apply (no_size w m t S').
    + now apply (no_idx w m t S').
Qed.
Theorem mp_shows v : val_ok v -> lengths_below (2^32 - 5) v -> forall w, spans w (item_of v) -> shows mp_reader T_mp w v.
Proof. intros OK LB w S. apply mp_starts_shows; [exact OK|exact LB|now apply spans_starts]. Qed.

Lemma lengths_mono a b : a <= b -> forall v, lengths_below a v -> lengths_below b v.
Proof.
  intros H. induction v as [| | | | | | |l IH|l IH] using val_ind'; intros LB; try exact I; try (cbn in *; lia).
  - apply lengths_arr in LB. apply lengths_arr. destruct LB as [L LB]. split; [exact L|].
    rewrite Forall_forall in *. auto.
  - apply lengths_map in LB. apply lengths_map. destruct LB as [L LB]. split; [exact L|].
    rewrite Forall_forall in *. intros x Hx. destruct (LB x Hx). split; [lia|auto].
Qed.

Lemma open_spans b it : b = enc it -> spans (mp_open b) it.
Proof. intros ->. split; [apply has_self|reflexivity]. Qed.

Theorem mp_round_trip v : val_ok v -> lengths_below (2^32 - 5) v ->
  exists b, serialize mp_writer v = Ok b /\ shows mp_reader T_mp (mp_open b) v.
Proof.
  intros OK LB. exists (enc (item_of v)). split.
  - unfold serialize. rewrite mp_run. cbn [mp_writer w_finish w_init snd app].
    rewrite emit_events; auto. apply (lengths_mono (2^32-5)); [lia|exact LB].
  - apply mp_shows; auto. now apply open_spans.
Qed.
