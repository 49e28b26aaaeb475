(** TransAll.v -- translation between any two protocols. *)

From Coq Require Import ZArith List Bool Lia ZifyBool ZifyNat Permutation.
From Verif Require Import Base BaseFacts Spec SpecFacts FloatSpec B64Spec B64Facts Utf8Spec.
From Verif Require Import ZeraModel ZeraSpec JsonModel JsonSpec JsonFacts JsonMain FlexModel FlexSpec FlexFacts.
From Verif Require MsgModel MsgSpec MsgMain CborModel CborSpec CborFacts CborMain.
From Verif Require Import TransModel TransSpec TransFacts TransMain.
Import ListNotations.
Open Scope Z_scope.

(** ** Changing the signedness of integers *)
Definition numeric (g : val -> val) : Prop := forall v, is_leaf v -> val_ok v ->
  g v = v \/ exists z, 0 <= z /\ (v = VInt z \/ v = VUInt z) /\ (g v = VInt z \/ g v = VUInt z).
Lemma numeric_mp : numeric g_mp.
Proof.
  intros [| |z|z| | | | |] L V; try (left; reflexivity); cbn [g_mp val_ok] in *; destruct (z <? 128) eqn:E; try (left; reflexivity); right; exists z; unfold is_u64 in V; intuition lia.
Qed.
Lemma numeric_int : numeric g_int.
Proof. intros [| |z|z| | | | |] L V; try (left; reflexivity). right. exists z. cbn [val_ok] in V. unfold is_u64 in V. intuition lia. Qed.
Lemma numeric_id : numeric g_id.
Proof. intros v L V. now left. Qed.

Section Numeric.
  Variable g : val -> val.
  Hypothesis G : numeric g.
  Let F := leafmap g.
  Let K := fun kx : bytes * val => (fst kx, leafmap g (snd kx)).

  Lemma leaf_cases (P : val -> val -> Prop) v : is_leaf v -> val_ok v -> P v v ->
    (forall z, 0 <= z -> P (VInt z) (VUInt z)) -> (forall z, 0 <= z -> P (VUInt z) (VInt z)) -> P v (F v).
  Proof.
    intros L V A B C. replace (F v) with (g v) by (destruct v; try reflexivity; destruct L).
    destruct (G v L V) as [-> |(z & Z & [-> | ->] & [-> | ->])]; auto.
  Qed.
  (** A function that ignores signs and only looks at the rest is unchanged. *)
  Lemma leafmap_same v : val_ok v -> same_value v (F v).
  Proof.
    unfold same_value. induction v as [| | | | | | |l IH|l IH] using val_ind'; intros V; try (apply (leaf_cases (fun a b => unsign a = unsign b)); auto; exact I).
    - apply val_ok_arr in V. unfold F. cbn [leafmap unsign]. f_equal. rewrite map_map. apply map_ext_in. rewrite Forall_forall in *. auto.
    - apply val_ok_map in V. unfold F. cbn [leafmap unsign]. f_equal. rewrite map_map. apply map_ext_in. rewrite Forall_forall in *. intros kx I. cbn [fst snd]. f_equal. apply IH; [exact I|]. now apply V.
  Qed.
  Lemma map_fst_K l : map fst (map K l) = map fst l.
  Proof. rewrite map_map. apply map_ext. reflexivity. Qed.
  Lemma every_leafmap (P : val -> Prop) : (forall z, 0 <= z -> P (VInt z) <-> P (VUInt z)) -> (forall l, P (VArr l) -> P (VArr (map F l))) -> (forall l, P (VMap l) -> P (VMap (map K l))) ->
    forall v, val_ok v -> every P v -> every P (F v).
  Proof.
    intros A B C. induction v as [| | | | | | |l IH|l IH] using val_ind'; intros V E;
      try (revert E; apply (leaf_cases (fun a b => every P a -> every P b)); [exact I|exact V|auto| |]; intros z' Z' [Q' _]; (split; [now apply (A z' Z')|exact I])).
    - apply val_ok_arr in V. apply every_arr in E. destruct E as [E0 E]. unfold F. cbn [leafmap]. apply every_arr. split; [now apply B|]. rewrite Forall_map. rewrite Forall_forall in *. intros x I. exact (IH x I (V x I) (E x I)).
    - apply val_ok_map in V. apply every_map in E. destruct E as [E0 E]. unfold F. cbn [leafmap]. apply every_map. split; [now apply C|]. rewrite Forall_map. cbn [snd]. rewrite Forall_forall in *. intros x I. exact (IH x I (proj2 (V x I)) (E x I)).
  Qed.

  Lemma fold_ext {A} (f h : A -> Z -> Z) l : (forall x n, In x l -> f x n = h x n) -> fold_right f 0 l = fold_right h 0 l.
  Proof. induction l as [|x l IH]; intros H; [reflexivity|]. cbn [fold_right]. rewrite IH by (intros; apply H; now right). apply H. now left. Qed.
  Lemma fold_right_map' {A B} (f : B -> Z -> Z) (h : A -> B) l : fold_right f 0 (map h l) = fold_right (fun x n => f (h x) n) 0 l.
  Proof. induction l as [|x l IH]; [reflexivity|]. cbn [map fold_right]. now rewrite IH. Qed.
  Lemma env_need_F v : val_ok v -> env_need (F v) = env_need v.
  Proof.
    induction v as [| | | | | | |l IH|l IH] using val_ind'; intros V; try (apply (leaf_cases (fun a b => env_need b = env_need a)); auto; exact I).
    - apply val_ok_arr in V. unfold F. cbn [leafmap env_need]. rewrite fold_right_map'. replace (zlen (map _ l)) with (zlen l) by (unfold zlen; now rewrite map_length). f_equal.
      rewrite Forall_forall in *. apply fold_ext. intros x n I. f_equal. exact (IH x I (V x I)).
    - apply val_ok_map in V. unfold F. cbn [leafmap env_need]. unfold map_size. rewrite !fold_right_map'. cbn [fst snd]. f_equal.
      rewrite Forall_forall in *. apply fold_ext. intros x n I. f_equal. exact (IH x I (proj2 (V x I))).
  Qed.
  Lemma arena_after_F t v : val_ok v -> forall a, arena_after t a (F v) = arena_after t a v.
  Proof.
    induction v as [| | | | | | |l IH|l IH] using val_ind'; intros V; try (apply (leaf_cases (fun a b => forall n, arena_after t n b = arena_after t n a)); auto; exact I).
    - apply val_ok_arr in V. unfold F. cbn [leafmap arena_after]. induction l as [|x l IHl]; intros a; [reflexivity|]. cbn [map fold_left]. inversion IH; inversion V; subst. rewrite (H1 H5). now apply IHl.
    - apply val_ok_map in V. unfold F. cbn [leafmap arena_after]. induction l as [|[k x] l IHl]; intros a; [reflexivity|]. cbn [map fold_left fst snd]. inversion IH; inversion V; subst. rewrite (H1 (proj2 H5)). now apply IHl.
  Qed.
  Lemma keys_ok_F v : val_ok v -> keys_ok v -> keys_ok (F v).
  Proof.
    induction v as [| | | | | | |l IH|l IH] using val_ind'; intros V; try (apply (leaf_cases (fun a b => keys_ok a -> keys_ok b)); auto; exact I).
    - apply val_ok_arr in V. unfold F. cbn [leafmap keys_ok]. induction l as [|x l IHl]; [auto|]. cbn [map fold_right]. inversion IH; inversion V; subst. intros [A B]. split; [exact (H1 H5 A)|exact (IHl H2 H6 B)].
    - apply val_ok_map in V. unfold F. cbn [leafmap keys_ok]. induction l as [|[k x] l IHl]; [auto|]. cbn [map fold_right fst snd]. inversion IH; inversion V; subst. intros (A & B & C). split; [exact A|]. split; [exact (H1 (proj2 H5) B)|exact (IHl H2 H6 C)].
  Qed.
  Lemma zera_fits_F v : val_ok v -> zera_fits v -> zera_fits (F v).
  Proof.
    intros V (A & B & C). split; [now apply keys_ok_F|]. unfold env_size_of, arena_size_of in *. now rewrite env_need_F, arena_after_F.
  Qed.
  Lemma lengths_F n v : val_ok v -> MsgSpec.lengths_below n v -> MsgSpec.lengths_below n (F v).
  Proof.
    induction v as [| | | | | | |l IH|l IH] using val_ind'; intros V; try (apply (leaf_cases (fun a b => MsgSpec.lengths_below n a -> MsgSpec.lengths_below n b)); auto; exact I).
    - apply val_ok_arr in V. unfold F. cbn [leafmap MsgSpec.lengths_below]. replace (zlen (map _ l)) with (zlen l) by (unfold zlen; now rewrite map_length). intros [A B]. split; [exact A|]. clear A.
      induction l as [|x l IHl]; [auto|]. cbn [map]. inversion IH; inversion V; subst. destruct B as [B C]. split; [exact (H1 H5 B)|exact (IHl H2 H6 C)].
    - apply val_ok_map in V. unfold F. cbn [leafmap MsgSpec.lengths_below]. replace (zlen (map _ l)) with (zlen l) by (unfold zlen; now rewrite map_length). intros [A B]. split; [exact A|]. clear A.
      induction l as [|[k x] l IHl]; [auto|]. cbn [map fst snd]. inversion IH; inversion V; subst. destruct B as (B & C & D). split; [exact B|]. split; [exact (H1 (proj2 H5) C)|exact (IHl H2 H6 D)].
  Qed.
  Lemma utf8_F v : val_ok v -> texts_utf8 v -> texts_utf8 (F v).
  Proof.
    induction v as [| | | | | | |l IH|l IH] using val_ind'; intros V; try (apply (leaf_cases (fun a b => texts_utf8 a -> texts_utf8 b)); auto; exact I).
    - apply val_ok_arr in V. unfold F. cbn [leafmap texts_utf8]. induction l as [|x l IHl]; [auto|]. cbn [map]. inversion IH; inversion V; subst. intros [B C]. split; [exact (H1 H5 B)|exact (IHl H2 H6 C)].
    - apply val_ok_map in V. unfold F. cbn [leafmap texts_utf8]. induction l as [|[k x] l IHl]; [auto|]. cbn [map fst snd]. inversion IH; inversion V; subst. intros (B & C & D). split; [exact B|]. split; [exact (H1 (proj2 H5) C)|exact (IHl H2 H6 D)].
  Qed.
  Lemma item_F v : val_ok v -> CborMain.item_of (F v) = CborMain.item_of v.
  Proof.
    induction v as [| | | | | | |l IH|l IH] using val_ind'; intros V.
    1-7: apply (leaf_cases (fun a b => CborMain.item_of b = CborMain.item_of a)); auto; try exact I; intros z' Z; cbn [CborMain.item_of]; unfold CborMain.int_item; replace (0 <=? z') with true by lia; reflexivity.
    - apply val_ok_arr in V. unfold F. cbn [leafmap CborMain.item_of]. replace (zlen (map _ l)) with (zlen l) by (unfold zlen; now rewrite map_length). f_equal. rewrite map_map. apply map_ext_in. rewrite Forall_forall in *. intros x I. exact (IH x I (V x I)).
    - apply val_ok_map in V. unfold F. cbn [leafmap CborMain.item_of]. replace (zlen (map _ l)) with (zlen l) by (unfold zlen; now rewrite map_length). f_equal. rewrite map_map. apply map_ext_in. rewrite Forall_forall in *. intros x I. cbn [fst snd]. f_equal. exact (IH x I (proj2 (V x I))).
  Qed.
  Lemma depth_F v : val_ok v -> CborSpec.depth (F v) = CborSpec.depth v.
  Proof.
    induction v as [| | | | | | |l IH|l IH] using val_ind'; intros V; try (apply (leaf_cases (fun a b => CborSpec.depth b = CborSpec.depth a)); auto; exact I).
    - apply val_ok_arr in V. unfold F. cbn [leafmap CborSpec.depth]. f_equal. f_equal. rewrite map_map. apply map_ext_in. rewrite Forall_forall in *. intros x I. exact (IH x I (V x I)).
    - apply val_ok_map in V. unfold F. cbn [leafmap CborSpec.depth]. f_equal. f_equal. rewrite map_map. apply map_ext_in. rewrite Forall_forall in *. intros x I. exact (IH x I (proj2 (V x I))).
  Qed.
  Lemma json_ok_F v : val_ok v -> json_ok v -> json_ok (F v).
  Proof.
    intros V (A & B & C). split; [|split; [now apply utf8_F|]].
    - revert A. apply every_leafmap; auto; tauto.
    - revert C. apply every_leafmap; auto; [tauto|]. intros l H. rewrite Forall_map. exact H.
  Qed.
  Lemma flex_ok_F v : val_ok v -> flex_ok v -> flex_ok (F v).
  Proof.
    intros V. apply every_leafmap; auto; [tauto|]. intros l (A & B & C). rewrite map_fst_K. split; [exact A|]. split; [rewrite Forall_map; exact B|]. unfold zlen in *. now rewrite map_length.
  Qed.
  Lemma room_F v : val_ok v -> FlexBSpec.room (F v) = FlexBSpec.room v.
  Proof.
    induction v as [| | | | | | |l IH|l IH] using val_ind'; intros V; try (apply (leaf_cases (fun a b => FlexBSpec.room b = FlexBSpec.room a)); auto; exact I).
    - apply val_ok_arr in V. unfold F. cbn [leafmap FlexBSpec.room]. rewrite fold_right_map'. f_equal. apply fold_ext. rewrite Forall_forall in *. intros x n I. unfold F in IH. now rewrite (IH x I (V x I)).
    - apply val_ok_map in V. unfold F. cbn [leafmap FlexBSpec.room]. rewrite fold_right_map'. f_equal. apply fold_ext. rewrite Forall_forall in *. intros x n I. cbn [fst snd]. unfold F in IH. now rewrite (IH x I (proj2 (V x I))).
  Qed.
  Lemma p_ok_F Q v : is_protocol Q -> val_ok v -> val_ok (F v) -> p_ok Q v -> p_ok Q (F v).
  Proof.
    intros [| |hard|dbg|dbg srt S|dbg srt S] V VF; cbn [p_ok P_zera P_msgpack P_cbor P_json P_flex P_flexb].
    - now apply zera_fits_F.
    - now apply lengths_F.
    - intros (A & B & C & D). pose proof (utf8_F v V A) as A'. assert (B' : CborSpec.depth (F v) <= 1024) by now rewrite depth_F. split; [exact A'|]. split; [exact B'|]. split.
      + rewrite <- CborMain.last_empty_item, item_F, CborMain.last_empty_item by exact V. exact C.
      + intros b E. apply D. rewrite (CborMain.cbor_serialize _ V (conj A B)). rewrite (CborMain.cbor_serialize _ VF (conj A' B')), item_F in E by exact V. exact E.
    - now apply json_ok_F.
    - now apply flex_ok_F.
    - intros (A & B). rewrite room_F by exact V. split; [now apply flex_ok_F|exact B].
  Qed.
End Numeric.

Lemma val_ok_leafmap g v : every (fun u => match u with VArr _ | VMap _ => True | _ => val_ok u -> val_ok (g u) end) v -> val_ok v -> val_ok (leafmap g v).
Proof.
  induction v as [| | | | | | |l IH|l IH] using val_ind'; intros E V; try (destruct E as [E _]; exact (E V)).
  - apply every_arr in E. destruct E as [_ E]. apply val_ok_arr in V. cbn [leafmap]. apply val_ok_arr. rewrite Forall_map. rewrite Forall_forall in *. auto.
  - apply every_map in E. destruct E as [_ E]. apply val_ok_map in V. cbn [leafmap]. apply val_ok_map. rewrite Forall_map. cbn [fst snd]. rewrite Forall_forall in *. intros kx I. destruct (V kx I) as [K X]. auto.
Qed.
Lemma val_ok_mp v : val_ok v -> val_ok (leafmap g_mp v).
Proof.
  intros V. apply val_ok_leafmap; [|exact V]. apply (every_impl (fun _ => True)); [|apply every_true]. intros [| |z|z| | | | |] _; auto; cbn [g_mp]; intros H; cbn [val_ok] in *; unfold is_i64, is_u64, i64_min, i64_max, u64_max in *; destruct (z <? 128) eqn:Z; cbn [val_ok]; unfold is_i64, is_u64, i64_min, i64_max, u64_max; lia.
Qed.
Lemma val_ok_int v : small_uints v -> val_ok v -> val_ok (leafmap g_int v).
Proof.
  intros S V. apply val_ok_leafmap; [|exact V]. revert S. apply every_impl. intros [| |z|z| | | | |] L; auto. cbn [g_int val_ok]. unfold is_i64, is_u64, i64_min, i64_max. lia.
Qed.
Lemma leafmap_id v : leafmap g_id v = v.
Proof.
  induction v as [| | | | | | |l IH|l IH] using val_ind'; try reflexivity; cbn [leafmap]; f_equal; (etransitivity; [|apply map_id]); apply map_ext_in; rewrite Forall_forall in *; auto.
  intros [k x] I. cbn [fst snd]. f_equal. exact (IH _ I).
Qed.

(** ** Map order *)
Lemma val_ok_order v : val_ok v -> val_ok (in_key_order v).
Proof.
  induction v as [| | | | | | |l IH|l IH] using val_ind'; intros V; try exact V.
  - apply val_ok_arr in V. cbn [in_key_order]. apply val_ok_arr. rewrite Forall_map. rewrite Forall_forall in *. auto.
  - apply val_ok_map in V. cbn [in_key_order]. apply val_ok_map. rewrite Forall_forall in *. intros kx I. apply (Permutation_in _ (by_key_perm _)) in I. apply in_map_iff in I. destruct I as (ky & <- & I). cbn [fst snd]. split; [now apply V|]. apply IH; [exact I|]. now apply V.
Qed.
Lemma distinct_order v : distinct_keys v -> distinct_keys (in_key_order v).
Proof.
  induction v as [| | | | | | |l IH|l IH] using val_ind'; intros D; try (split; exact I).
  - apply every_arr in D. destruct D as [_ D]. cbn [in_key_order]. apply every_arr. split; [exact I|]. rewrite Forall_map. rewrite Forall_forall in *. intros x I. exact (IH x I (D x I)).
  - apply every_map in D. destruct D as [N D]. cbn [in_key_order]. apply every_map. split.
    + eapply Permutation_NoDup; [apply Permutation_map; symmetry; apply by_key_perm|]. rewrite map_map. exact N.
    + rewrite Forall_forall in *. intros kx I. apply (Permutation_in _ (by_key_perm _)) in I. apply in_map_iff in I. destruct I as (ky & <- & I). cbn [snd]. exact (IH _ I (D _ I)).
Qed.
Lemma flex_distinct v : flex_ok v -> distinct_keys v.
Proof. apply every_impl. intros []; tauto. Qed.

(** ** First occurrences *)
Lemma first_of_or {A} k (x : A) l : first_of k x l = x \/ In (first_of k x l) (map snd l).
Proof. induction l as [|[k' y] l IH]; [now left|]. cbn [first_of map snd In]. destruct (beq k' k); [right; now left|]. tauto. Qed.
Lemma firsts_in {A} (l : list (bytes * A)) kx : In kx (firsts l) -> In (snd kx) (map snd l) /\ In (fst kx) (map fst l).
Proof.
  intros I. apply in_map_iff in I. destruct I as ([k x] & <- & I). cbn [fst snd]. split; [|now apply (in_map fst) in I].
  destruct (first_of_or k x l) as [-> |H]; [now apply (in_map snd) in I|exact H].
Qed.
Lemma val_ok_first v : val_ok v -> val_ok (first_wins v).
Proof.
  induction v as [| | | | | | |l IH|l IH] using val_ind'; intros V; try exact V; cbn [first_wins].
  - apply val_ok_arr in V. apply val_ok_arr. rewrite Forall_map. rewrite Forall_forall in *. auto.
  - apply val_ok_map in V. apply val_ok_map. rewrite Forall_forall in *. intros kx I. apply firsts_in in I. destruct I as [I J]. rewrite map_map in I, J. cbn [fst snd] in I, J.
    apply in_map_iff in I, J. destruct I as (ky & <- & I), J as (kz & <- & J). split; [now apply V|]. apply IH; [exact I|]. now apply V.
Qed.
Lemma small_first v : small_uints v -> small_uints (first_wins v).
Proof.
  induction v as [| | | | | | |l IH|l IH] using val_ind'; intros V; try exact V; cbn [first_wins].
  - apply every_arr in V. apply every_arr. split; [exact I|]. destruct V as [_ V]. rewrite Forall_map. rewrite Forall_forall in *. intros x X. exact (IH x X (V x X)).
  - apply every_map in V. apply every_map. split; [exact I|]. destruct V as [_ V]. rewrite Forall_forall in *. intros kx X. apply firsts_in in X. destruct X as [X _]. rewrite map_map in X. cbn [snd] in X.
    apply in_map_iff in X. destruct X as (ky & <- & X). exact (IH ky X (V ky X)).
Qed.

(** ** Translation *)
Lemma tables_ok P : is_protocol P -> table_ok (p_table P).
Proof.
  intros [| |hard|dbg|dbg srt S|dbg srt S]; split; cbn [p_table P_zera P_msgpack P_cbor P_json P_flex P_flexb]; try (intros l _; reflexivity); try (intros l _; split; reflexivity).
  intros l. unfold json_table. destruct (blob_text (VArr l)); [discriminate|]. intros _. split; reflexivity.
Qed.
(** Which value each source shows to the copy. *)
Definition copy (P : protocol) (v : val) : option val := exposed (p_table P) (p_norm P v).
Lemma copy_spec P v : is_protocol P -> val_ok v -> p_exact P v -> exists g, numeric g /\ copy P v = Some (leafmap g (first_wins (p_order P v))) /\
  val_ok (leafmap g (first_wins (p_order P v))) /\ val_ok (first_wins (p_order P v)).
Proof.
  intros [| |hard|dbg|dbg srt S|dbg srt S] V E; unfold copy; cbn [p_table p_norm p_exact p_order P_zera P_msgpack P_cbor P_json P_flex P_flexb] in *.
  - exists g_id. split; [exact numeric_id|]. split; [now apply seen_zera|]. rewrite leafmap_id. split; now apply val_ok_first.
  - exists g_mp. split; [exact numeric_mp|]. split; [now apply seen_msgpack|]. split; [apply val_ok_mp|]; now apply val_ok_first.
  - exists g_int. split; [exact numeric_int|]. split; [now apply seen_cbor|]. split; [apply val_ok_int; [now apply small_first|]|]; now apply val_ok_first.
  - destruct E as [E1 E2]. exists g_int. split; [exact numeric_int|]. split; [now apply seen_json|]. split; [apply val_ok_int; [now apply small_first|]|]; now apply val_ok_first.
  - exists g_id. split; [exact numeric_id|]. split; [apply seen_flex; now apply val_ok_order|]. rewrite leafmap_id. split; apply val_ok_first; now apply val_ok_order.
  - exists g_id. split; [exact numeric_id|]. split; [apply seen_flex; now apply val_ok_order|]. rewrite leafmap_id. split; apply val_ok_first; now apply val_ok_order.
Qed.
Lemma norm_ok P v : is_protocol P -> val_ok v -> val_ok (p_norm P v).
Proof.
  intros [| |hard|dbg|dbg srt S|dbg srt S] V; cbn [p_norm P_zera P_msgpack P_cbor P_json P_flex P_flexb]; try exact V; [|now apply val_ok_order|now apply val_ok_order].
  induction v as [| |z|z| | | |l IH|l IH] using val_ind'; try exact V.
  - cbn [as_json val_ok] in *. destruct (z <? 0) eqn:Z; cbn [val_ok]; [exact V|]. unfold is_i64, is_u64, i64_min, i64_max, u64_max in *. lia.
  - cbn [as_json]. apply val_ok_arr. constructor; [cbn [val_ok]; okay|]. constructor; [cbn [val_ok]; apply bytes_ok_rfc; exact V|]. constructor; [cbn [val_ok]; okay|constructor].
  - apply val_ok_arr in V. cbn [as_json]. apply val_ok_arr. rewrite Forall_map. rewrite Forall_forall in *. auto.
  - apply val_ok_map in V. cbn [as_json]. apply val_ok_map. rewrite Forall_map. cbn [fst snd]. rewrite Forall_forall in *. intros kx I. destruct (V kx I). auto.
Qed.

(** Translating is re-serializing the value that the source shows. *)
Theorem translate_reserializes P Q v x : is_protocol P -> val_ok v -> p_ok P v -> copy P v = Some x ->
  exists b w n, serialize (p_writer P) v = Ok b /\ p_open P b = Ok w /\
    forall fuel, (n <= fuel)%nat -> translate (p_reader P fuel) (p_writer Q) (p_open Q) fuel w = (b' <- serialize (p_writer Q) x ;; p_open Q b').
Proof.
  intros IP V OK C. destruct (protocol_round_trip P v IP V OK) as (b & w & n & E & O & SH). exists b, w, (Nat.max n (Datatypes.S (height (p_norm P v)))). split; [exact E|]. split; [exact O|].
  intros fuel F. unfold translate. rewrite (write_value_ok (p_reader P fuel) (p_writer Q) (p_table P) (tables_ok P IP) (p_norm P v) (norm_ok P v IP V) x w fuel _ (SH fuel ltac:(lia)) C ltac:(lia)).
  unfold run_res, serialize. destruct (run (p_writer Q) (w_init (p_writer Q)) (events x)) as [s []]; reflexivity.
Qed.

Theorem translate_first_wins P Q v : is_protocol P -> is_protocol Q -> val_ok v -> p_ok P v -> p_exact P v -> p_ok Q (first_wins (p_order P v)) ->
  exists b w b' w' x n, serialize (p_writer P) v = Ok b /\ p_open P b = Ok w /\ same_value (first_wins (p_order P v)) x /\ serialize (p_writer Q) x = Ok b' /\ p_open Q b' = Ok w' /\
    forall fuel, (n <= fuel)%nat -> translate (p_reader P fuel) (p_writer Q) (p_open Q) fuel w = Ok w' /\ shows (p_reader Q fuel) (p_table Q) w' (p_norm Q x).
Proof.
  intros IP IQ V OK EX OKQ. destruct (copy_spec P v IP V EX) as (g & G & C & VG & VY). set (y := first_wins (p_order P v)) in *.
  set (x := leafmap g y) in *. destruct (translate_reserializes P Q v x IP V OK C) as (b & w & n & E & O & TR).
  assert (QX : p_ok Q x) by (apply p_ok_F; auto). destruct (protocol_round_trip Q x IQ VG QX) as (b' & w' & n' & E' & O' & SH').
  exists b, w, b', w', x, (Nat.max n n'). split; [exact E|]. split; [exact O|]. split; [now apply leafmap_same|]. split; [exact E'|]. split; [exact O'|]. intros fuel F. split; [|apply SH'; lia].
  rewrite TR by lia. rewrite E'. exact O'.
Qed.
Theorem translate_preserves P Q v : is_protocol P -> is_protocol Q -> val_ok v -> distinct_keys v -> p_ok P v -> p_exact P v -> p_ok Q (p_order P v) ->
  exists b w b' w' x n, serialize (p_writer P) v = Ok b /\ p_open P b = Ok w /\ same_value (p_order P v) x /\ serialize (p_writer Q) x = Ok b' /\ p_open Q b' = Ok w' /\
    forall fuel, (n <= fuel)%nat -> translate (p_reader P fuel) (p_writer Q) (p_open Q) fuel w = Ok w' /\ shows (p_reader Q fuel) (p_table Q) w' (p_norm Q x).
Proof.
  intros IP IQ V D OK EX OKQ. assert (Y : first_wins (p_order P v) = p_order P v) by (apply first_wins_distinct; destruct IP; try exact D; now apply distinct_order).
  rewrite <- Y in OKQ. rewrite <- Y. now apply translate_first_wins.
Qed.

(** ** Where the source protocol misreports *)
Lemma big_signed z : 2^63 <= z < 2^64 -> to_signed 64 z = z - 2^64.
Proof. intros H. unfold to_signed. change (2 ^ (64 - 1)) with (2^63). rewrite Z.mod_small by lia. replace (z <? 2^63) with false by lia. reflexivity. Qed.
Lemma copy_cbor_big hard z : 2^63 <= z < 2^64 -> copy (P_cbor hard) (VUInt z) = Some (VInt (z - 2^64)).
Proof.
  intros H. unfold copy. cbn [p_table p_norm P_cbor exposed CborSpec.T_cbor]. unfold scalar, CborSpec.int_tbl. cbn [t_null t_bool t_int t_asInt].
  replace (z <? 0) with false by lia. rewrite big_signed by exact H. unfold fits_s, smin, smax, ibits. replace (_ && _) with true by lia. reflexivity.
Qed.
Lemma copy_json_big dbg z : 2^63 <= z < 2^64 -> copy (P_json dbg) (VUInt z) = Some (VInt (z - 2^64)).
Proof.
  intros H. unfold copy. cbn [p_table p_norm P_json exposed json_table as_json]. unfold scalar. cbn [t_null t_bool t_int t_asInt ibits]. rewrite big_signed by exact H. reflexivity.
Qed.
Lemma copy_json_blob dbg s b : unb64 s = Some b -> copy (P_json dbg) (VArr [VStr tag_text; VStr s; VStr enc_text]) = Some (VBlob b).
Proof.
  intros H. unfold copy. cbn [p_table p_norm P_json as_json map exposed]. cbn [json_table blob_text]. change (beq tag_text tag_text && beq enc_text enc_text) with true. cbn [scalar t_null t_bool t_int t_uint t_float t_string t_blob t_asBlob]. now rewrite H.
Qed.

(** ** A buffer that contains itself *)
Lemma never_done {V S O} (R : reader V) (W : writer S O) (I : S -> Prop) v :
  r_isNull R v = Ok false -> r_isBool R v = Ok false -> r_isInt R v = Ok false -> r_isUInt R v = Ok false -> r_isFloat R v = Ok false ->
  r_isString R v = Ok false -> r_isBlob R v = Ok false -> r_isMap R v = Ok false -> r_isArray R v = Ok true -> r_arraySize R v = Ok 1 -> r_idx R v 0 = Ok v ->
  (forall s, I s -> exists s', w_step W s (EBeginArr 1) = (s', Ok tt) /\ I s') ->
  forall fuel s, I s -> write_value R W fuel v s = NoFuel.
Proof.
  intros H1 H2 H3 H4 H5 H6 H7 H8 H9 H10 H11 H. induction fuel as [|f IH]; intros s Is; [reflexivity|]. cbn [write_value].
  rewrite H1, H2, H3, H4, H5, H6, H7, H8, H9, H10. cbn [bind]. destruct (H s Is) as (s' & E & Is'). unfold emit at 1. rewrite E. cbn [bind].
  cbn [zloop ploop]. unfold write_elem at 1. rewrite H11. cbn [bind]. rewrite (IH s' Is'). reflexivity.
Qed.

(** A 20-byte envelope: an array of one element whose element is the array itself. *)
Definition ouroboros : bytes := [90; 69; 78; 86; 1; 0; 1; 0; 4; 0; 0; 0; 20; 0; 0; 0; 48; 0; 0; 0] ++ [1; 0; 0; 0] ++ [5; 0; 0; 0; 0; 0; 0; 0; 0; 0; 0; 0; 0; 0; 0; 0] ++ repeat 0 8.
Definition ouroboros_view : zview := mkZView ouroboros 20 48 0 (Some 24).
Lemma ouroboros_open : zera_open ouroboros = Ok ouroboros_view.
Proof. vm_compute. reflexivity. Qed.
Definition swallows {S O} (W : writer S O) (I : S -> Prop) : Prop := I (w_init W) /\ forall s, I s -> exists s', w_step W s (EBeginArr 1) = (s', Ok tt) /\ I s'.
Lemma ouroboros_loops {S O V'} (W : writer S O) (open : O -> res V') I : swallows W I -> forall fuel, translate zera_reader W open fuel ouroboros_view = NoFuel.
Proof.
  intros [I0 H] fuel. unfold translate. rewrite (never_done zera_reader W I ouroboros_view); auto; vm_compute; reflexivity.
Qed.
Lemma swallow_zera : swallows zera_writer (fun _ => True).
Proof. split; [exact I|]. intros s _. eexists. split; [|exact I]. reflexivity. Qed.
Lemma swallow_msgpack : swallows MsgModel.mp_writer (fun _ => True).
Proof. split; [exact I|]. intros s _. eexists. split; [|exact I]. reflexivity. Qed.
Lemma swallow_flex dbg srt : swallows (flex_writer dbg srt) (fun _ => True).
Proof. split; [exact I|]. intros s _. eexists. split; [|exact I]. reflexivity. Qed.
Lemma swallow_flexb dbg srt : swallows (FlexBModel.flexb_writer dbg srt) (fun _ => True).
Proof. split; [exact I|]. intros s _. eexists. split; [|exact I]. reflexivity. Qed.
Lemma swallow_json dbg : swallows (json_writer dbg) (fun s => js_doc s = true /\ match js_st s with [] => js_wrote s = false | c :: _ => jc_obj c = false end).
Proof.
  split; [split; reflexivity|]. intros s [D H]. cbn [json_writer w_step]. unfold j_step, j_begin, j_accept. rewrite D. cbn [negb]. destruct (js_st s) as [|c st] eqn:E; rewrite H.
  - eexists. split; [reflexivity|]. split; reflexivity.
  - eexists. split; [reflexivity|]. split; [exact D|reflexivity].
Qed.

(** ** Single integers *)
Lemma enc_int_len m f z : zlen (CborSpec.hdr m f z) < 2^63.
Proof. rewrite CborFacts.zlen_hdr. destruct f; reflexivity. Qed.
Lemma p_ok_int P v : is_protocol P -> (exists z, v = VUInt z /\ is_u64 z \/ v = VInt z /\ is_i64 z) -> p_ok P v.
Proof.
  intros [| |hard|dbg|dbg srt S|dbg srt S] (z & [[-> U]|[-> U]]); cbn [p_ok P_zera P_msgpack P_cbor P_json P_flex P_flexb].
  1-2: vm_compute; intuition congruence.
  1-2: exact I.
  1-2: split; [exact I|]; split; [vm_compute; congruence|]; split; [now right|]; intros b E;
    rewrite CborMain.cbor_serialize in E by first [exact U|split; [exact I|vm_compute; congruence]]; injection E as <-; cbn [CborMain.item_of]; unfold CborMain.int_item; try destruct (0 <=? z); cbn [CborSpec.enc]; apply enc_int_len.
  1-2: split; [split; exact I|]; split; [exact I|split; exact I].
  1-2: split; exact I.
  1-2: split; [split; exact I|reflexivity].
Qed.
Lemma translate_int P Q v x : is_protocol P -> is_protocol Q -> (exists z, v = VUInt z /\ is_u64 z) ->
  copy P v = Some x -> (exists z, x = VUInt z /\ is_u64 z \/ x = VInt z /\ is_i64 z) ->
  exists b w b' w' n, serialize (p_writer P) v = Ok b /\ p_open P b = Ok w /\ serialize (p_writer Q) x = Ok b' /\ p_open Q b' = Ok w' /\
    forall fuel, (n <= fuel)%nat -> translate (p_reader P fuel) (p_writer Q) (p_open Q) fuel w = Ok w' /\ shows (p_reader Q fuel) (p_table Q) w' (p_norm Q x).
Proof.
  intros IP IQ (z & -> & U) C X. assert (VX : val_ok x) by (destruct X as (y & [[-> Y]|[-> Y]]); exact Y).
  assert (OP : p_ok P (VUInt z)) by (apply p_ok_int; eauto). pose proof (p_ok_int Q x IQ X) as OQ.
  destruct (translate_reserializes P Q (VUInt z) x IP U OP C) as (b & w & n & E & O & TR).
  destruct (protocol_round_trip Q x IQ VX OQ) as (b' & w' & n' & E' & O' & SH'). exists b, w, b', w', (Nat.max n n').
  split; [exact E|]. split; [exact O|]. split; [exact E'|]. split; [exact O'|]. intros fuel F. split; [|apply SH'; lia]. rewrite TR by lia. rewrite E'. exact O'.
Qed.
Theorem translate_uint P Q z : is_protocol P -> is_protocol Q -> P = P_zera \/ P = P_msgpack \/ (exists dbg srt, P = P_flex dbg srt) \/ (exists dbg srt, P = P_flexb dbg srt) -> is_u64 z ->
  exists b w b' w' x n, serialize (p_writer P) (VUInt z) = Ok b /\ p_open P b = Ok w /\ (x = VUInt z \/ x = VInt z /\ z < 2^63) /\
    serialize (p_writer Q) x = Ok b' /\ p_open Q b' = Ok w' /\
    forall fuel, (n <= fuel)%nat -> translate (p_reader P fuel) (p_writer Q) (p_open Q) fuel w = Ok w' /\ shows (p_reader Q fuel) (p_table Q) w' (p_norm Q x).
Proof.
  intros IP IQ HP U.
  assert (C : exists x, copy P (VUInt z) = Some x /\ (x = VUInt z \/ x = VInt z /\ z < 2^63)).
  { destruct HP as [-> |[-> |[(dbg & srt & ->)|(dbg & srt & ->)]]]; unfold copy; cbn [p_table p_norm P_zera P_msgpack P_flex P_flexb].
    - rewrite seen_zera by exact U. exists (VUInt z). split; [reflexivity|now left].
    - rewrite seen_msgpack by exact U. cbn [leafmap first_wins g_mp]. destruct (z <? 128) eqn:E; eexists; (split; [reflexivity|]); [right; split; [reflexivity|lia]|now left].
    - rewrite seen_flex by exact U. exists (VUInt z). split; [reflexivity|now left].
    - rewrite seen_flex by exact U. exists (VUInt z). split; [reflexivity|now left]. }
  destruct C as (x & C & X). destruct (translate_int P Q (VUInt z) x IP IQ) as (b & w & b' & w' & n & H); [eauto|exact C| |].
  - exists z. unfold is_i64, is_u64, i64_min, i64_max in *. destruct X as [-> |[-> L]]; [now left|right; split; [reflexivity|lia]].
  - exists b, w, b', w', x, n. tauto.
Qed.
Theorem translate_big_uint P Q z : (exists hard, P = P_cbor hard) \/ (exists dbg, P = P_json dbg) -> is_protocol Q -> 2^63 <= z < 2^64 ->
  exists b w b' w' n, serialize (p_writer P) (VUInt z) = Ok b /\ p_open P b = Ok w /\ serialize (p_writer Q) (VInt (z - 2^64)) = Ok b' /\ p_open Q b' = Ok w' /\
    forall fuel, (n <= fuel)%nat -> translate (p_reader P fuel) (p_writer Q) (p_open Q) fuel w = Ok w' /\ shows (p_reader Q fuel) (p_table Q) w' (p_norm Q (VInt (z - 2^64))).
Proof.
  intros HP IQ H. apply translate_int; [destruct HP as [[h ->]|[d ->]]; constructor|exact IQ| | |].
  - exists z. split; [reflexivity|]. unfold is_u64, u64_max. lia.
  - destruct HP as [[h ->]|[d ->]]; [now apply copy_cbor_big|now apply copy_json_big].
  - eexists. right. split; [reflexivity|]. unfold is_i64, i64_min, i64_max. lia.
Qed.
