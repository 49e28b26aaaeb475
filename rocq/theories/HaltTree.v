(** HaltTree.v -- the JSON and FlexBuffers readers always come to an end. *)

From Coq Require Import ZArith List Bool Lia ZifyBool ZifyNat.
From Verif Require Import Base BaseFacts Spec TransFacts HaltFacts.
From Verif Require B64Model JsonModel FlexModel.
Import ListNotations.
Open Scope Z_scope.

Lemma get_member {A} (l : list A) i x : get l i = Some x -> In x l.
Proof. unfold get. destruct (_ && _); [|discriminate]. apply nth_error_In. Qed.

Section Json.
Import B64Model JsonModel.
Lemma decode_halts : forall s buf bits out, halts any (dec_loop s buf bits out).
Proof. induction s as [|c s IH]; intros; cbn [dec_loop]; cbv zeta; [exact I|]. hany; apply IH. Qed.
Lemma jidx_halts v i : halts (fun c => (height c < height v)%nat) (j_idx v i).
Proof.
  destruct v; try exact I. cbn [j_idx]. unfold yy_arr_get. destruct (get l i) eqn:E; [|exact I]. apply get_member, (max_in height) in E. cbn [halts height]. lia.
Qed.
Lemma jkey_halts v k : halts (fun c => (height c < height v)%nat) (j_key v k).
Proof.
  destruct v; try exact I. cbn [j_key]. destruct (yy_obj_getn l k) eqn:E; [|exact I].
  assert (IN : exists k', In (k', v) l). { revert E. induction l as [|[k' x] l IH]; cbn [yy_obj_getn]; [discriminate|]. destruct (beq k' k); [intros [= ->]; exists k'; now left|]. intros H. destruct (IH H) as (k2 & K2). exists k2. now right. }
  destruct IN as (k' & IN). apply (max_in (fun kx : bytes * val => height (snd kx))) in IN. cbn [snd] in IN. cbn [halts height]. lia.
Qed.
Lemma jstr_halts v : halts any (j_asString v). Proof. destruct v; exact I. Qed.
Lemma jsize_halts v : halts any (j_arraySize v). Proof. destruct v; exact I. Qed.
Lemma andr_halts a b : halts any a -> halts any b -> halts any (andr a b).
Proof. intros A B. unfold andr. hb (exact A). destruct a0; [exact B|exact I]. Qed.
Lemma jblob_halts v : halts any (j_isBlob v).
Proof.
  unfold j_isBlob. repeat apply andr_halts; try exact I.
  - hb (apply jsize_halts). exact I.
  - hb (apply jidx_halts). exact I.
  - hb (apply jidx_halts). hb (apply jstr_halts). exact I.
  - hb (apply jidx_halts). exact I.
  - hb (apply jidx_halts). exact I.
  - hb (apply jidx_halts). hb (apply jstr_halts). exact I.
Qed.
Theorem json_answers v : answers json_reader v.
Proof.
  constructor; cbn [json_reader r_isNull r_isBool r_isInt r_isUInt r_isFloat r_isString r_isBlob r_isMap r_isArray r_asBool r_asInt r_asUInt r_asDouble r_asStringView r_asBlob r_arraySize r_mapKeys r_idx r_key]; intros; try discriminate; apply (halts_ne any).
  - apply jblob_halts.
  - destruct v; exact I.
  - unfold j_asInt. hany.
  - unfold j_asUInt. hany.
  - destruct v; exact I.
  - apply jstr_halts.
  - unfold j_asBlob. hb (apply jblob_halts). apply halts_req; intros _. hb (apply jidx_halts). hb (apply jstr_halts). apply decode_halts.
  - apply jsize_halts.
  - destruct v; exact I.
  - eapply halts_any, jidx_halts.
  - eapply halts_any, jkey_halts.
Qed.
End Json.

Section Flex.
Import FlexModel.
(** The number of values in a tree, containers counted twice. *)
Fixpoint fx_size (x : fx) : nat :=
  match x with
  | XVec l | XTyped l => S (S (list_sum (map fx_size l)))
  | XMap l => S (S (list_sum (map (fun kx => fx_size (snd kx)) l)))
  | _ => 1
  end.
Lemma size_pos x : (1 <= fx_size x)%nat. Proof. destruct x; cbn [fx_size]; lia. Qed.
Lemma sum_in {A} (f : A -> nat) l x : In x l -> (f x <= list_sum (map f l))%nat.
Proof. induction l as [|y l IH]; [contradiction|]. cbn [map list_sum fold_right]. intros [->|I]; [lia|]. specialize (IH I). unfold list_sum in IH. lia. Qed.
Lemma sum_len {A} (f : A -> nat) l : (forall x, 1 <= f x)%nat -> (length l <= list_sum (map f l))%nat.
Proof. intros F. induction l as [|y l IH]; [cbn; lia|]. cbn [map length list_sum fold_right]. specialize (F y). unfold list_sum in IH. lia. Qed.
Lemma search_S f ks key lo hi : x_search (S f) ks key lo hi =
  if lo <? hi then
    let mid := wrap64 (lo + hi) / 2 in
    let sv := key_at ks mid in
    let n := if zlen sv <? zlen key then zlen sv else zlen key in
    let cmp := memcmp sv key (Z.to_nat n) in
    if cmp <? 0 then x_search f ks key (mid + 1) hi
    else if 0 <? cmp then x_search f ks key lo mid
    else if zlen sv <? zlen key then x_search f ks key (mid + 1) hi
    else if zlen key <? zlen sv then x_search f ks key lo mid
    else Ok (Some mid)
  else Ok None.
Proof. reflexivity. Qed.
Lemma search_halts ks key : forall f lo hi, 0 <= lo <= hi -> hi < 2^63 -> hi - lo < 2 ^ Z.of_nat f -> halts any (x_search (S f) ks key lo hi).
Proof.
  induction f as [|f IH]; intros lo hi L H M; rewrite search_S.
  - change (2 ^ Z.of_nat 0) with 1 in M. replace (lo <? hi) with false by lia. exact I.
  - rewrite Nat2Z.inj_succ, Z.pow_succ_r in M by lia. destruct (lo <? hi) eqn:E; [|exact I]. rewrite wrap64_small by lia. cbv zeta.
    set (mid := (lo + hi) / 2). assert (MI : lo <= mid < hi /\ 2 * mid <= lo + hi /\ lo + hi < 2 * mid + 2) by (unfold mid; clear - E L; Z.div_mod_to_equations; lia).
    set (pw := 2 ^ Z.of_nat f) in *. assert (R1 : halts any (x_search (S f) ks key (mid + 1) hi)) by (apply IH; lia).
    assert (R2 : halts any (x_search (S f) ks key lo mid)) by (apply IH; lia).
    repeat match goal with |- halts _ (if ?c then _ else _) => destruct c end; auto. exact I.
Qed.
Definition modest (x : fx) : Prop := Z.of_nat (fx_size x) < 2^63.
Lemma vec_size l i : (fx_size (vec_at l i) < S (S (list_sum (map fx_size l))))%nat.
Proof. unfold vec_at. destruct (get l i) eqn:E; [|cbn [fx_size]; lia]. apply get_member, (sum_in fx_size) in E. lia. Qed.
Lemma xidx_halts x i : modest x -> halts (fun c => modest c /\ (fx_size c < fx_size x)%nat) (x_idx x i).
Proof.
  intros M. apply (halts_impl (fun c => (fx_size c < fx_size x)%nat)); [unfold modest in *; intros; lia|]. unfold x_idx.
  apply halts_req. intros A. apply halts_req. intros L. cbn [halts].
  destruct x; try discriminate A; cbn [AsVector fx_size] in *; [apply vec_size|]. unfold vec_at. destruct (get [] i) eqn:E; [apply get_member in E; destruct E|]. cbn [fx_size]. lia.
Qed.
Variable fuel : nat.
Hypothesis FU : (64 <= fuel)%nat.
Lemma xsearch_halts l key : modest (XMap l) -> halts any (x_search fuel (map_keys (XMap l)) key 0 (zlen (map_keys (XMap l)))).
Proof.
  intros M. replace fuel with (S (pred fuel)) by lia. assert (Z63 : 2^63 <= 2 ^ Z.of_nat (pred fuel)) by (apply Z.pow_le_mono_r; lia).
  unfold modest in M. cbn [fx_size map_keys] in *. pose proof (sum_len (fun kx : bytes * fx => fx_size (snd kx)) l ltac:(intros; apply size_pos)) as S.
  assert (LK : zlen (map fst l) = Z.of_nat (length l)) by (unfold zlen; now rewrite map_length). pose proof (zlen_nonneg (map fst l)).
  apply search_halts; lia.
Qed.
Lemma xkey_halts x k : modest x -> halts (fun c => modest c /\ (fx_size c < fx_size x)%nat) (x_key fuel x k).
Proof.
  intros M. apply (halts_impl (fun c => (fx_size c < fx_size x)%nat)); [unfold modest in *; intros; lia|]. unfold x_key.
  apply halts_req. intros A. destruct x; try discriminate A. hb (now apply xsearch_halts). destruct a; [|exact I]. cbn [halts map_vals fx_size].
  replace (map (fun kx : bytes * fx => fx_size (snd kx)) l) with (map fx_size (map snd l)) by (rewrite map_map; reflexivity). apply vec_size.
Qed.
Theorem flex_answers x : modest x -> answers (flex_reader fuel) x.
Proof.
  intros M. constructor; cbn [flex_reader r_isNull r_isBool r_isInt r_isUInt r_isFloat r_isString r_isBlob r_isMap r_isArray r_asBool r_asInt r_asUInt r_asDouble r_asStringView r_asBlob r_arraySize r_mapKeys r_idx r_key]; intros; try discriminate; apply (halts_ne any);
    try (destruct x; exact I).
  - eapply halts_any, xidx_halts, M.
  - eapply halts_any, xkey_halts, M.
Qed.
End Flex.
