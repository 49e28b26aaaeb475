(** TransMain.v -- the five protocols and translation between them. *)

From Coq Require Import ZArith List Bool Lia ZifyBool ZifyNat Permutation.
From Verif Require Import Base BaseFacts Spec SpecFacts FloatSpec B64Spec Utf8Spec.
From Verif Require Import ZeraModel ZeraSpec JsonModel JsonSpec JsonFacts JsonMain FlexModel FlexSpec FlexFacts FlexBModel FlexBSpec FlexBSize.
From Verif Require ZeraHist MsgModel MsgSpec MsgFacts MsgMain CborModel CborSpec CborMain.
From Verif Require Import TransModel TransSpec TransFacts.
Import ListNotations.
Open Scope Z_scope.

Definition P_zera : protocol := mkProtocol _ _ _ (fun _ => zera_reader) zera_writer zera_open ideal zera_fits (fun _ => True) (fun v => v) (fun v => v).
Definition P_msgpack : protocol := mkProtocol _ _ _ (fun _ => MsgModel.mp_reader) MsgModel.mp_writer (fun b => Ok (MsgModel.mp_open b)) MsgSpec.T_mp
  (MsgSpec.lengths_below (2^32 - 5)) (fun _ => True) (fun v => v) (fun v => v).
Definition P_cbor (hard : bool) : protocol := mkProtocol _ _ _ (CborModel.cbor_reader hard) CborModel.cbor_writer (fun b => Ok (CborModel.cb_open b)) CborSpec.T_cbor
  (fun v => texts_utf8 v /\ CborSpec.depth v <= 1024 /\ (hard = false \/ CborSpec.last_empty v = false) /\
            forall b, serialize CborModel.cbor_writer v = Ok b -> zlen b < 2^63)
  small_uints (fun v => v) (fun v => v).
Definition P_json (dbg : bool) : protocol := mkProtocol _ _ _ (fun _ => json_reader) (json_writer dbg) json_open json_table
  json_ok (fun v => small_uints v /\ no_blob_form v) (fun v => v) as_json.
Definition P_flex (dbg : bool) (srt : list (bytes * fx) -> list (bytes * fx)) : protocol :=
  mkProtocol _ _ _ flex_reader (flex_writer dbg srt) (fun b => Ok (flex_open b)) flex_table flex_ok (fun _ => True) in_key_order in_key_order.
(** FlexBuffers as bytes; P_flex has trees for messages. *)
Definition P_flexb (dbg : bool) (srt : forall A, list (bytes * A) -> list (bytes * A)) : protocol :=
  mkProtocol _ _ _ flexb_at (flexb_writer dbg (srt (bval * bval)%type)) flexb_opened flex_table (fun v => flex_ok v /\ room v < 2^61) (fun _ => True) in_key_order in_key_order.
Inductive is_protocol : protocol -> Prop :=
| is_zera : is_protocol P_zera
| is_msgpack : is_protocol P_msgpack
| is_cbor hard : is_protocol (P_cbor hard)
| is_json dbg : is_protocol (P_json dbg)
| is_flex dbg srt : sorts srt -> is_protocol (P_flex dbg srt)
| is_flexb dbg srt : key_sort srt -> is_protocol (P_flexb dbg srt).

(** ** Round trips, uniformly *)
Lemma protocol_round_trip P v : is_protocol P -> val_ok v -> p_ok P v ->
  exists b w n, serialize (p_writer P) v = Ok b /\ p_open P b = Ok w /\ forall fuel, (n <= fuel)%nat -> shows (p_reader P fuel) (p_table P) w (p_norm P v).
Proof.
  intros [| |hard|dbg|dbg srt S|dbg srt S] V OK; cbn [p_writer p_open p_reader p_table p_norm P_zera P_msgpack P_cbor P_json P_flex P_flexb p_ok] in *.
  - destruct (ZeraHist.round_trip v V OK) as (b & w & E & O & SH). exists b, w, 0%nat. repeat split; auto.
  - destruct (MsgMain.mp_round_trip v V OK) as (b & E & SH). exists b, (MsgModel.mp_open b), 0%nat. repeat split; auto.
  - destruct OK as (U & D & H & Z). pose proof (CborMain.cbor_serialize v V (conj U D)) as E. specialize (Z _ E).
    eexists _, _, (Datatypes.S (List.length (CborSpec.enc (CborMain.item_of v)))). split; [exact E|]. split; [reflexivity|]. intros fuel F.
    apply (CborMain.cbor_round_trip hard fuel v _ V E Z); [unfold zlen; lia|exact H].
  - destruct (json_round_trip dbg v V OK) as (d & w & E & O & SH). exists d, w, 0%nat. repeat split; auto.
  - destruct (flex_round_trip dbg srt 64 v _ S OK ltac:(lia) (events_calls v)) as (s & b & R & FI & SH). exists b, (flex_open b), 64%nat. split; [change (serialize (flex_writer dbg srt) v = Ok b); unfold serialize; now rewrite R|]. split; [reflexivity|].
    intros fuel F. destruct (flex_round_trip dbg srt fuel v _ S OK F (events_calls v)) as (s' & b' & R' & FI' & SH'). rewrite R in R'. injection R' as <-. rewrite FI in FI'. injection FI' as <-. exact SH'.
  - destruct OK as (OK & RM). destruct (flexb_round_trip dbg srt 64 v S V OK RM ltac:(lia)) as (b & w & E & O & SH). exists b, w, 64%nat. split; [exact E|]. split; [exact O|].
    intros fuel F. destruct (flexb_round_trip dbg srt fuel v S V OK RM F) as (b' & w' & E' & O' & SH'). rewrite E in E'. injection E' as <-. rewrite O in O'. injection O' as <-. exact SH'.
Qed.

(** ** What the generic copy sees *)
Fixpoint leafmap (g : val -> val) (v : val) : val :=
  match v with
  | VArr l => VArr (map (leafmap g) l)
  | VMap l => VMap (map (fun kx => (fst kx, leafmap g (snd kx))) l)
  | _ => g v
  end.
Lemma beq_false a b : beq a b = false -> a <> b.
Proof. intros H E. subst. assert (beq b b = true) by now apply beq_eq. congruence. Qed.
Lemma first_of_self {A} k (x : A) l : NoDup (map fst l) -> forall d, In (k, x) l -> first_of k d l = x.
Proof.
  induction l as [|[k' y] l IH]; intros N d I; [destruct I|]. cbn [map fst first_of] in *. inversion N as [|? ? N1 N2]; subst. destruct (beq k' k) eqn:E.
  - apply beq_eq in E. subst k'. destruct I as [I|I]; [congruence|]. exfalso. apply N1, in_map_iff. now exists (k, x).
  - destruct I as [I|I]; [injection I as -> ->; apply beq_false in E; congruence|]. now apply IH.
Qed.
Lemma firsts_distinct {A} (l : list (bytes * A)) : NoDup (map fst l) -> firsts l = l.
Proof.
  intros N. unfold firsts. transitivity (map (fun kx => kx) l); [|apply map_id]. apply map_ext_in. intros [k x] I. cbn [fst snd]. f_equal. now apply first_of_self.
Qed.
Lemma map_keys {A B} (f : A -> B) (l : list (bytes * A)) : map fst (map (fun kx => (fst kx, f (snd kx))) l) = map fst l.
Proof. rewrite map_map. apply map_ext. reflexivity. Qed.
Lemma first_wins_distinct v : distinct_keys v -> first_wins v = v.
Proof.
  induction v as [| | | | | | |l IH|l IH] using val_ind'; intros D; try reflexivity; cbn [first_wins].
  - apply every_arr in D. destruct D as [_ D]. f_equal. etransitivity; [|apply map_id]. apply map_ext_in. rewrite Forall_forall in *. intros x I. exact (IH x I (D x I)).
  - apply every_map in D. destruct D as [N D]. f_equal. rewrite firsts_distinct by now rewrite map_keys. etransitivity; [|apply map_id]. apply map_ext_in. rewrite Forall_forall in *.
    intros [k x] I. cbn [fst snd]. f_equal. exact (IH _ I (D _ I)).
Qed.
Lemma first_of_fmap {A B} (f : A -> B) k (l : list (bytes * A)) : forall d d', existsb (beq k) (map fst l) = true ->
  first_of k d' (map (fun kx => (fst kx, f (snd kx))) l) = f (first_of k d l).
Proof.
  induction l as [|[k' y] l IH]; intros d d' H; cbn [map fst snd first_of existsb] in *; [discriminate|]. rewrite (beq_sym k k') in H. destruct (beq k' k); [reflexivity|]. now apply IH.
Qed.
Lemma firsts_fmap {A B} (f : A -> B) (l : list (bytes * A)) : firsts (map (fun kx => (fst kx, f (snd kx))) l) = map (fun kx => (fst kx, f (snd kx))) (firsts l).
Proof.
  unfold firsts. rewrite !map_map. apply map_ext_in. intros [k x] I. cbn [fst snd]. f_equal. apply first_of_fmap. now apply key_in in I.
Qed.
Lemma combine_map {A B} (f : A -> B) (l : list (bytes * A)) : combine (map fst l) (map (fun kx => f (snd kx)) l) = map (fun kx => (fst kx, f (snd kx))) l.
Proof. induction l as [|kx l IH]; [reflexivity|]. cbn [map combine]. now rewrite IH. Qed.
Lemma all_some_some {A B} (f : A -> option B) (g : A -> B) l : (forall a, In a l -> f a = Some (g a)) -> all_some (map f l) = Some (map g l).
Proof.
  induction l as [|a l IH]; intros H; [reflexivity|]. cbn [map all_some]. rewrite (H a) by (now left). rewrite IH by (intros b I; apply H; now right). reflexivity.
Qed.

Lemma exposed_plain T g v :
  every (fun u => match u with VArr _ | VMap _ => scalar (T u) = None | _ => scalar (T u) = Some (Some (g u)) end) v ->
  exposed T v = Some (leafmap g (first_wins v)).
Proof.
  induction v as [| | | | | | |l IH|l IH] using val_ind'; intros E; try (destruct E as [E _]; cbn [exposed leafmap first_wins]; now rewrite E).
  - apply every_arr in E. destruct E as [E0 E]. cbn [exposed leafmap first_wins]. rewrite E0. rewrite Forall_forall in *.
    rewrite (all_some_some _ (fun x => leafmap g (first_wins x))) by (intros x I; exact (IH x I (E x I))). cbn [option_map]. now rewrite map_map.
  - apply every_map in E. destruct E as [E0 E]. cbn [exposed leafmap first_wins]. rewrite E0. rewrite Forall_forall in *.
    rewrite (all_some_some _ (fun kx => leafmap g (first_wins (snd kx)))) by (intros kx I; exact (IH kx I (E kx I))). cbn [option_map].
    rewrite (combine_map (fun x => leafmap g (first_wins x))). rewrite <- firsts_fmap, map_map. reflexivity.
Qed.

(** The signedness under which each source presents integers. *)
Definition g_mp (v : val) : val := match v with VInt z | VUInt z => if z <? 128 then VInt z else VUInt z | _ => v end.
Definition g_int (v : val) : val := match v with VUInt z => VInt z | _ => v end.
Definition g_id (v : val) : val := v.

Lemma every_impl2 (P Q R : val -> Prop) : (forall u, P u -> Q u -> R u) -> forall v, every P v -> every Q v -> every R v.
Proof.
  intros H. induction v as [| | | | | | |l IH|l IH] using val_ind'; intros A B; try (destruct A as [A _], B as [B _]; split; [auto|exact I]).
  - apply every_arr in A, B. apply every_arr. destruct A as [A0 A], B as [B0 B]. split; [auto|]. rewrite Forall_forall in *. auto.
  - apply every_map in A, B. apply every_map. destruct A as [A0 A], B as [B0 B]. split; [auto|]. rewrite Forall_forall in *. auto.
Qed.
Lemma every_impl (P Q : val -> Prop) : (forall u, P u -> Q u) -> forall v, every P v -> every Q v.
Proof. intros H v A. apply (every_impl2 P P Q); auto. Qed.
Lemma every_true v : every (fun _ => True) v.
Proof.
  induction v as [| | | | | | |l IH|l IH] using val_ind'; try (split; exact I); [apply every_arr|apply every_map]; auto.
Qed.
Definition ints_ok (u : val) : Prop := match u with VInt z => is_i64 z | VUInt z => is_u64 z | VBlob b => bytes_ok b | _ => True end.
Lemma val_ok_ints v : val_ok v -> every ints_ok v.
Proof.
  induction v as [| | | | | | |l IH|l IH] using val_ind'; intros V; try (split; [first [exact V|exact I]|exact I]).
  - apply val_ok_arr in V. apply every_arr. split; [exact I|]. rewrite Forall_forall in *. auto.
  - apply val_ok_map in V. apply every_map. split; [exact I|]. rewrite Forall_forall in *. intros kx K. apply IH; [exact K|]. now apply V.
Qed.

Lemma seen_zera v : val_ok v -> exposed ideal v = Some (leafmap g_id (first_wins v)).
Proof.
  intros V. apply exposed_plain. apply (every_impl ints_ok); [|now apply val_ok_ints]. unfold ints_ok, is_i64, is_u64, i64_min, i64_max, u64_max.
  intros [| |z|z| | | | |] H; try reflexivity; unfold scalar; cbn [ideal t_null t_bool t_int t_uint t_asInt t_asUInt g_id].
  - unfold fits_s, smin, smax, ibits. replace (_ && _) with true by lia. reflexivity.
  - unfold fits_u, umax, ibits. replace (_ && _) with true by lia. reflexivity.
Qed.
Lemma seen_msgpack v : val_ok v -> exposed MsgSpec.T_mp v = Some (leafmap g_mp (first_wins v)).
Proof.
  intros V. apply exposed_plain. apply (every_impl ints_ok); [|now apply val_ok_ints]. unfold ints_ok, is_i64, is_u64, i64_min, i64_max, u64_max.
  intros [| |z|z| | | | |] H; try reflexivity; unfold scalar; cbn [MsgSpec.T_mp MsgSpec.int_tbl t_null t_bool t_int t_uint t_asInt t_asUInt g_mp]; destruct (z <? 128) eqn:Z.
  - rewrite MsgFacts.to_signed64_id by lia. unfold fits_s, smin, smax, ibits. replace (_ && _) with true by lia. reflexivity.
  - replace (0 <=? z) with true by lia. rewrite Z.mod_small by lia. unfold fits_u, umax, ibits. replace (_ && _) with true by lia. reflexivity.
  - rewrite MsgFacts.to_signed64_id by lia. unfold fits_s, smin, smax, ibits. replace (_ && _) with true by lia. reflexivity.
  - replace (0 <=? z) with true by lia. rewrite Z.mod_small by lia. unfold fits_u, umax, ibits. replace (_ && _) with true by lia. reflexivity.
Qed.
Lemma seen_cbor v : val_ok v -> small_uints v -> exposed CborSpec.T_cbor v = Some (leafmap g_int (first_wins v)).
Proof.
  intros V S. apply exposed_plain. revert S. apply every_impl2 with (P := ints_ok); [|now apply val_ok_ints]. unfold ints_ok, is_i64, is_u64, i64_min, i64_max, u64_max.
  intros [| |z|z| | | | |] H L; try reflexivity; unfold scalar; cbn [CborSpec.T_cbor CborSpec.int_tbl t_null t_bool t_int t_uint t_asInt t_asUInt g_int]; destruct (z <? 0) eqn:Z.
  all: try (rewrite MsgFacts.to_signed64_id by lia); unfold fits_s, smin, smax, ibits; replace (_ && _) with true by lia; reflexivity.
Qed.
Lemma seen_flex v : val_ok v -> exposed flex_table v = Some (leafmap g_id (first_wins v)).
Proof.
  intros V. apply exposed_plain. apply (every_impl ints_ok); [|now apply val_ok_ints]. unfold ints_ok, is_i64, is_u64, i64_min, i64_max, u64_max.
  intros [| |z|z| | | | |] H; try reflexivity; unfold scalar; cbn [flex_table t_null t_bool t_int t_uint t_asInt t_asUInt g_id ibits option_map].
  - now rewrite MsgFacts.to_signed64_id by lia.
  - now rewrite Z.mod_small by lia.
Qed.
Lemma seen_json v : val_ok v -> small_uints v -> no_blob_form v -> exposed json_table (as_json v) = Some (leafmap g_int (first_wins v)).
Proof.
  induction v as [| |z|z| | | |l IH|l IH] using val_ind'; intros V S B; try reflexivity.
  - cbn [as_json leafmap first_wins g_int]. cbn [val_ok] in V. unfold is_i64, i64_min, i64_max in V. destruct (z <? 0); cbn [exposed]; unfold scalar; cbn [json_table t_null t_bool t_int t_asInt option_map ibits]; now rewrite MsgFacts.to_signed64_id by lia.
  - cbn [as_json leafmap first_wins g_int]. cbn [val_ok] in V. unfold is_u64, u64_max in V. destruct S as [S _]. cbn [exposed]. unfold scalar. cbn [json_table t_null t_bool t_int t_asInt option_map ibits]. now rewrite MsgFacts.to_signed64_id by lia.
  - assert (Q : scalar (json_table (as_json (VBlob b))) = Some (Some (VBlob b))).
    { cbn [as_json]. unfold scalar, json_table. cbn [blob_text]. change (beq tag_text tag_text) with true. change (beq enc_text enc_text) with true. cbn [andb t_null t_bool t_int t_uint t_float t_string t_blob t_asBlob].
      now rewrite unb64_rfc. }
    cbn [as_json exposed] in *. now rewrite Q.
  - pose proof (blob_form _ B) as BT. cbn beta iota in BT. apply val_ok_arr in V. apply every_arr in S, B. destruct S as [_ S], B as [_ B].
    assert (Q : scalar (json_table (as_json (VArr l))) = None) by (cbn [as_json] in *; unfold json_table; now rewrite BT).
    cbn [as_json exposed leafmap first_wins] in *. rewrite Q, !map_map. rewrite Forall_forall in *.
    rewrite (all_some_some _ (fun x => leafmap g_int (first_wins x))); [reflexivity|]. intros x I. exact (IH x I (V x I) (S x I) (B x I)).
  - apply val_ok_map in V. apply every_map in S, B. destruct S as [_ S], B as [_ B]. cbn [as_json exposed leafmap first_wins]. change (scalar _) with (@None (option val)). cbv iota. rewrite map_keys, map_map. cbn [snd].
    rewrite Forall_forall in *. rewrite (all_some_some _ (fun kx => leafmap g_int (first_wins (snd kx)))) by (intros kx I; exact (IH kx I (proj2 (V kx I)) (S kx I) (B kx I))).
    cbn [option_map]. rewrite (combine_map (fun x => leafmap g_int (first_wins x))). rewrite <- firsts_fmap, map_map. reflexivity.
Qed.
