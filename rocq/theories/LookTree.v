(** LookTree.v -- lookups and indices: JSON and FlexBuffers, on every tree. *)

From Coq Require Import ZArith List Bool Lia ZifyBool ZifyNat.
From Verif Require Import Base BaseFacts Spec LookSpec JsonModel FlexModel FlexSpec FlexFacts.
Import ListNotations.
Open Scope Z_scope.

(** ** JSON *)
Lemma obj_getn l key : match yy_obj_getn l key with Some _ => existsb (beq key) (map fst l) = true | None => existsb (beq key) (map fst l) = false end.
Proof.
  induction l as [|[k x] l IH]; [reflexivity|]. cbn [yy_obj_getn map fst existsb]. rewrite (beq_sym key k). destruct (beq k key); [reflexivity|exact IH].
Qed.
Theorem json_lookups w : lookups_agree json_reader w.
Proof.
  intros ks key _ K. cbn [json_reader r_mapKeys r_contains r_key] in *. unfold j_mapKeys, j_contains, j_key in *. destruct w; try discriminate.
  injection K as <-. pose proof (obj_getn l key) as G. destruct (yy_obj_getn l key); rewrite G; eauto.
Qed.
Theorem json_indices w : indices_agree json_reader w.
Proof.
  intros n i A I0. cbn [json_reader r_arraySize r_idx] in *. unfold j_arraySize, j_idx in *. destruct w; try discriminate. injection A as <-.
  unfold yy_arr_get, get. destruct (i <? zlen l) eqn:L.
  - replace ((0 <=? i) && true) with true by lia. destruct (nth_error l (Z.to_nat i)) eqn:N; [eauto|]. apply nth_error_None in N. unfold zlen in L. lia.
  - replace ((0 <=? i) && false) with false by lia. reflexivity.
Qed.

(** ** FlexBuffers *)
Lemma memcmp_eq : forall n a b, zlen a = Z.of_nat n -> zlen b = Z.of_nat n -> memcmp a b n = 0 -> a = b.
Proof.
  induction n as [|n IH]; intros a b A B H.
  - destruct a; [|rewrite zlen_cons in A; pose proof (zlen_nonneg a); lia]. destruct b; [reflexivity|]. rewrite zlen_cons in B. pose proof (zlen_nonneg b). lia.
  - destruct a as [|x a]; [discriminate A|]. destruct b as [|y b]; [discriminate B|]. rewrite zlen_cons in A, B. cbn [memcmp] in H.
    destruct (x <? y) eqn:X; [discriminate|]. destruct (y <? x) eqn:Y; [discriminate|]. f_equal; [lia|]. apply IH; auto; lia.
Qed.
(** The search ends, and finds only what is there; the keys may be in any order. *)
Lemma search_sound ks key : zlen ks < 2^63 -> forall f lo hi, 0 <= lo <= hi -> hi <= zlen ks -> hi - lo < 2 ^ Z.of_nat f ->
  exists r, x_search (S f) ks key lo hi = Ok r /\ forall i, r = Some i -> get ks i = Some key.
Proof.
  intros LK. induction f as [|f IH]; intros lo hi L H M; cbn [x_search].
  - change (2 ^ Z.of_nat 0) with 1 in M. replace (lo <? hi) with false by lia. eexists. split; [reflexivity|discriminate].
  - rewrite Nat2Z.inj_succ, Z.pow_succ_r in M by lia. destruct (lo <? hi) eqn:E; [|eexists; split; [reflexivity|discriminate]].
    rewrite wrap64_small by lia. set (mid := (lo + hi) / 2). assert (MID : lo <= mid < hi) by (unfold mid; split; [apply Z.div_le_lower_bound|apply Z.div_lt_upper_bound]; lia).
    assert (D : hi - (mid + 1) < 2 ^ Z.of_nat f /\ mid - lo < 2 ^ Z.of_nat f).
    { assert (2 * mid <= lo + hi < 2 * mid + 2) by (unfold mid; pose proof (Z.div_mod (lo + hi) 2 ltac:(lia)); pose proof (Z.mod_pos_bound (lo + hi) 2 ltac:(lia)); lia). lia. }
    destruct D as (D1 & D2). pose proof (IH (mid + 1) hi ltac:(lia) H D1) as R1. pose proof (IH lo mid ltac:(lia) ltac:(lia) D2) as R2. clear IH.
    cbv zeta. fold (x_search (S f)). destruct (_ <? 0) eqn:C1; [exact R1|]. destruct (0 <? _) eqn:C2; [exact R2|]. destruct (zlen (key_at ks mid) <? zlen key) eqn:C3; [exact R1|]. destruct (zlen key <? zlen (key_at ks mid)) eqn:C4; [exact R2|].
    eexists. split; [reflexivity|]. intros i I0. injection I0 as <-. unfold key_at in *. destruct (get ks mid) as [k|] eqn:G.
    + f_equal. apply (memcmp_eq (Z.to_nat (zlen key))); pose proof (zlen_nonneg key); lia.
    + exfalso. unfold get in G. replace ((0 <=? mid) && (mid <? zlen ks)) with true in G by lia. apply nth_error_None in G. unfold zlen in *. lia.
Qed.
(** On every map: contains() and operator[] agree, and find nothing but listed keys. *)
Theorem flex_lookups fuel w ks key : (64 <= fuel)%nat -> r_mapKeys (flex_reader fuel) w = Ok ks -> zlen ks < 2^63 ->
  (r_contains (flex_reader fuel) w key = Ok true /\ In key ks /\ exists x, r_key (flex_reader fuel) w key = Ok x) \/
  (r_contains (flex_reader fuel) w key = Ok false /\ r_key (flex_reader fuel) w key = Throw EDeser).
Proof.
  cbn [flex_reader r_mapKeys r_contains r_key]. unfold x_mapKeys, x_contains, x_key. intros F K L. destruct (x_isMap w) eqn:M; cbn [require bind negb] in *; [|discriminate].
  injection K as <-. destruct fuel as [|f]; [lia|]. pose proof (zlen_nonneg (map_keys w)). destruct (search_sound (map_keys w) key L f 0 (zlen (map_keys w))) as (r & -> & G); [lia|lia| |].
  { assert (2 ^ 63 <= 2 ^ Z.of_nat f) by (apply Z.pow_le_mono_r; lia). lia. }
  cbn [bind]. destruct r as [i|]; [left|right; auto]. specialize (G i eq_refl). split; [reflexivity|]. split; [|eauto].
  unfold get in G. destruct (_ && _); [|discriminate]. now apply nth_error_In in G.
Qed.
Theorem flex_lookups_ordered fuel w : (64 <= fuel)%nat -> (forall ks, r_mapKeys (flex_reader fuel) w = Ok ks -> ordered ks /\ zlen ks < 2^63) -> lookups_agree (flex_reader fuel) w.
Proof.
  intros F O ks key _ K. destruct (O ks K) as (OR & L). cbn [flex_reader r_mapKeys r_contains r_key] in *. unfold x_mapKeys in K. destruct w; cbn [x_isMap require bind map_keys] in K; try discriminate. injection K as <-.
  assert (L' : zlen l < 2^63) by (unfold zlen in *; now rewrite map_length in L).
  destruct (key_lookup fuel l key OR L' F) as (C & N & Y). split; [exact C|]. destruct (existsb (beq key) (map fst l)) eqn:E; [|now apply N].
  apply existsb_in, in_map_iff in E. destruct E as ([k x] & <- & I0). exists x. now apply Y.
Qed.
Theorem flex_indices fuel w : indices_agree (flex_reader fuel) w.
Proof.
  intros n i A I0. cbn [flex_reader r_arraySize r_idx] in *. unfold x_arraySize, x_idx in *. destruct (x_isArray w); cbn [require bind] in *; [|discriminate]. injection A as <-.
  destruct (i <? zlen (AsVector w)); cbn [require bind]; eauto.
Qed.
