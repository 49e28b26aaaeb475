(** IdentCbor.v -- a CBOR item is determined by its bytes, and encodings are prefix-free. *)

From Coq Require Import ZArith List Bool Lia ZifyBool ZifyNat.
From Verif Require Import Base BaseFacts Spec SpecFacts FloatModel FloatSpec FloatFacts Utf8Spec CborModel CborSpec CborFacts CborMain
  TransSpec IdentFacts.
Import ListNotations.
Open Scope Z_scope.
Ltac Zify.zify_post_hook ::= Z.div_mod_to_equations.

Lemma be_inj n a b : 0 <= a < 256 ^ Z.of_nat n -> 0 <= b < 256 ^ Z.of_nat n -> be n a = be n b -> a = b.
Proof. intros A B E. rewrite <- (horner_be_id n a A), <- (horner_be_id n b B). now rewrite E. Qed.
Lemma length_be n v : length (be n v) = n.
Proof. induction n as [|n IH]; [reflexivity|]. cbn [be length]. now rewrite IH. Qed.
Lemma be_app n a b s t : 0 <= a < 256 ^ Z.of_nat n -> 0 <= b < 256 ^ Z.of_nat n ->
  be n a ++ s = be n b ++ t -> a = b /\ s = t.
Proof.
  intros A B E. apply app_eq_len in E; [|now rewrite !length_be]. destruct E as [E ->]. split; [|reflexivity]. now apply (be_inj n).
Qed.

(** The kind of encoding, from the initial byte. *)
Definition cls (b : Z) : Z :=
  10 * (b / 32) + (let r := b mod 32 in if r <? 24 then 0 else if r <? 28 then r - 23 else if r =? 31 then 5 else 9).
Definition code (f : arg) : Z := match f with A0 => 0 | A1 => 1 | A2 => 2 | A4 => 3 | A8 => 4 end.
Definition tag (it : item) : Z :=
  match it with
  | CUInt f _ => code f
  | CNeg f _ => 10 + code f
  | CBytes f _ => 20 + code f
  | CBytesI _ => 25
  | CText f _ => 30 + code f
  | CTextI _ => 35
  | CArr f _ => 40 + code f
  | CArrI _ => 45
  | CMap f _ => 50 + code f
  | CMapI _ => 55
  | CTag f _ _ => 60 + code f
  | CSimple _ => 70
  | CSimple8 _ => 71
  | CF16 _ => 72
  | CF32 _ => 73
  | CF64 _ => 74
  end.
Lemma hdr_cls m f n : 0 <= m < 8 -> 0 <= n < arg_cap f -> exists b r, hdr m f n = b :: r /\ cls b = 10 * m + code f.
Proof.
  intros M N. destruct f; cbn [hdr arg_cap code] in *; (eexists _, _; split; [reflexivity|]); unfold cls; cbv zeta.
  - replace ((32 * m + n) / 32) with m by (clear - N M; lia). replace ((32 * m + n) mod 32) with n by (clear - N M; lia).
    destruct (n <? 24) eqn:?; lia.
  - replace ((32 * m + 24) / 32) with m by (clear - M; lia). replace ((32 * m + 24) mod 32) with 24 by (clear - M; lia). reflexivity.
  - replace ((32 * m + 25) / 32) with m by (clear - M; lia). replace ((32 * m + 25) mod 32) with 25 by (clear - M; lia). reflexivity.
  - replace ((32 * m + 26) / 32) with m by (clear - M; lia). replace ((32 * m + 26) mod 32) with 26 by (clear - M; lia). reflexivity.
  - replace ((32 * m + 27) / 32) with m by (clear - M; lia). replace ((32 * m + 27) mod 32) with 27 by (clear - M; lia). reflexivity.
Qed.
Lemma hdr_cls_app m f n (l : bytes) : 0 <= m < 8 -> 0 <= n < arg_cap f ->
  exists b r, hdr m f n ++ l = b :: r /\ cls b = 10 * m + code f.
Proof. intros M N. destruct (hdr_cls m f n M N) as (b & r & E & C). rewrite E. exists b, (r ++ l). auto. Qed.
Lemma enc_cls it : item_ok it -> exists b r, enc it = b :: r /\ cls b = tag it.
Proof.
  unfold item_ok. intros OK.
  destruct it as [f n|f n|f b|l|f b|l|f l|l|f l|l|f n x|n|n|x|x|x]; cbn [enc tag];
    try (eexists _, _; split; [reflexivity|reflexivity]).
  - apply hdr_cls; [lia|exact OK].
  - apply hdr_cls; [lia|exact OK].
  - apply hdr_cls_app; [lia|]. destruct OK as [_ OK]. pose proof (zlen_nonneg b). lia.
  - apply hdr_cls_app; [lia|]. destruct OK as [_ OK]. pose proof (zlen_nonneg b). lia.
  - apply item_in_arr in OK. apply hdr_cls_app; [lia|]. destruct OK as [OK _]. pose proof (zlen_nonneg l). lia.
  - apply item_in_map in OK. apply hdr_cls_app; [lia|]. destruct OK as [OK _]. pose proof (zlen_nonneg l). lia.
  - apply hdr_cls_app; [lia|]. apply OK.
  - eexists _, _. split; [reflexivity|]. cbn [item_in] in OK. unfold cls. cbv zeta.
    replace ((224 + n) / 32) with 7 by (clear - OK; lia). replace ((224 + n) mod 32) with n by (clear - OK; lia).
    destruct (n <? 24) eqn:?; lia.
Qed.
Lemma same_tag x y s t : item_ok x -> item_ok y -> enc x ++ s = enc y ++ t -> tag x = tag y.
Proof.
  intros X Y E. destruct (enc_cls x X) as (m & r & Ex & Tx). destruct (enc_cls y Y) as (n & q & Ey & Ty).
  rewrite Ex, Ey in E. cbn [app] in E. apply cons_eq in E. destruct E as [-> _]. congruence.
Qed.
Lemma enc_nobreak it : item_ok it -> exists m r, enc it = m :: r /\ m <> 255.
Proof.
  intros OK. destruct (enc_cls it OK) as (b & r & E & C). exists b, r. split; [exact E|]. intros ->. change (cls 255) with 75 in C.
  destruct it as [[]|[]|[]| |[]| |[]| |[]| |[]| | | | | ]; discriminate C.
Qed.

Lemma hdr_inj m f n n' s t : 0 <= n < arg_cap f -> 0 <= n' < arg_cap f -> hdr m f n ++ s = hdr m f n' ++ t -> n = n' /\ s = t.
Proof.
  intros A B. destruct f; cbn [hdr app arg_cap] in *; intros E; apply cons_eq in E; destruct E as [E0 E].
  - split; [lia|exact E].
  - apply (be_app 1) in E; [exact E|exact A|exact B].
  - apply (be_app 2) in E; [exact E|exact A|exact B].
  - apply (be_app 4) in E; [exact E|exact A|exact B].
  - apply (be_app 8) in E; [exact E|exact A|exact B].
Qed.
Lemma hdr_fmt m f f' n n' s t : 0 <= m < 8 -> 0 <= n < arg_cap f -> 0 <= n' < arg_cap f' ->
  hdr m f n ++ s = hdr m f' n' ++ t -> f = f'.
Proof.
  intros M A B E. destruct (hdr_cls m f n M A) as (b & r & Eb & C). destruct (hdr_cls m f' n' M B) as (b' & r' & Eb' & C').
  rewrite Eb, Eb' in E. cbn [app] in E. apply cons_eq in E. destruct E as [-> _]. rewrite C in C'.
  destruct f, f'; cbn [code] in C'; try reflexivity; lia.
Qed.
Definition chunk_ok (c : arg * bytes) : Prop := bytes_ok (snd c) /\ zlen (snd c) < arg_cap (fst c).
Lemma chunk_delim m c : 0 <= m < 8 -> chunk_ok c -> delim chunk_ok (chunk m) c.
Proof.
  destruct c as [f b]. intros M [_ C] [f' b'] s t [_ C'] E. unfold chunk in E. cbn [fst snd] in *. rewrite <- !app_assoc in E.
  pose proof (zlen_nonneg b). pose proof (zlen_nonneg b').
  pose proof (hdr_fmt m f f' (zlen b) (zlen b') _ _ M ltac:(lia) ltac:(lia) E) as <-.
  apply hdr_inj in E; [|lia|lia]. destruct E as [L E]. apply zlen_app_eq in E; [|exact L]. destruct E as [-> ->]. auto.
Qed.
Lemma chunk_nobreak m c : m = 2 \/ m = 3 -> chunk_ok c -> exists b r, chunk m c = b :: r /\ b <> 255.
Proof.
  intros M [_ C]. unfold chunk. pose proof (zlen_nonneg (snd c)).
  destruct (hdr_cls_app m (fst c) (zlen (snd c)) (snd c)) as (b & r & E & K); [lia|lia|]. exists b, r. split; [exact E|].
  intros ->. change (cls 255) with 75 in K. destruct (fst c); cbn [code] in K; lia.
Qed.

Ltac other T := try (repeat match goal with f : arg |- _ => destruct f end; discriminate T).
Ltac samef f' f T := assert (f' = f) as -> by (destruct f, f'; try reflexivity; discriminate T).
Theorem enc_delim : forall x, item_ok x -> delim item_ok enc x.
Proof.
  induction x as [it Hl|f l IH|l IH|f l IH|l IH|f n x IH] using item_ind'; intros OK y s t OKy E;
    pose proof (same_tag _ _ _ _ OK OKy E) as T; unfold item_ok in OK, OKy.
  - destruct it as [f n|f n|f b|l|f b|l| | | | | |n|n|x|x|x]; try contradiction Hl;
      destruct y as [f' n'|f' n'|f' b'|l'|f' b'|l'|f' l'|l'|f' l'|l'|f' n' x'|n'|n'|x'|x'|x']; other T;
      cbn [tag] in T; try samef f' f T; clear T; cbn [enc item_in] in *.
    + apply hdr_inj in E; [|exact OK|exact OKy]. destruct E as [-> ->]. auto.
    + apply hdr_inj in E; [|exact OK|exact OKy]. destruct E as [-> ->]. auto.
    + rewrite <- !app_assoc in E. destruct OK as [_ OK], OKy as [_ OKy]. pose proof (zlen_nonneg b). pose proof (zlen_nonneg b').
      apply hdr_inj in E; [|lia|lia]. destruct E as [L E]. apply zlen_app_eq in E; [|exact L]. destruct E as [-> ->]. auto.
    + cbn [app] in E. apply cons_eq in E. destruct E as [_ E]. rewrite <- !app_assoc in E. cbn [app] in E.
      apply (delim_stop chunk_ok) in E; [destruct E as [-> ->]; auto|intros c; apply chunk_nobreak; lia|exact OK| |exact OKy].
      revert OK; apply Forall_impl; intros c; apply chunk_delim; lia.
    + rewrite <- !app_assoc in E. destruct OK as [_ OK], OKy as [_ OKy]. pose proof (zlen_nonneg b). pose proof (zlen_nonneg b').
      apply hdr_inj in E; [|lia|lia]. destruct E as [L E]. apply zlen_app_eq in E; [|exact L]. destruct E as [-> ->]. auto.
    + cbn [app] in E. apply cons_eq in E. destruct E as [_ E]. rewrite <- !app_assoc in E. cbn [app] in E.
      apply (delim_stop chunk_ok) in E; [destruct E as [-> ->]; auto|intros c; apply chunk_nobreak; lia|exact OK| |exact OKy].
      revert OK; apply Forall_impl; intros c; apply chunk_delim; lia.
    + cbn [app] in E. apply cons_eq in E. destruct E as [E ->]. split; [|reflexivity]. f_equal. lia.
    + cbn [app] in E. apply cons_eq in E. destruct E as [_ E]. apply cons_eq in E. destruct E as [-> ->]. auto.
    + cbn [app] in E. apply cons_eq in E. destruct E as [_ E]. apply (be_app 2) in E; [|exact OK|exact OKy]. destruct E as [-> ->]. auto.
    + cbn [app] in E. apply cons_eq in E. destruct E as [_ E]. apply (be_app 4) in E; [|exact OK|exact OKy]. destruct E as [-> ->]. auto.
    + cbn [app] in E. apply cons_eq in E. destruct E as [_ E]. apply (be_app 8) in E; [|exact OK|exact OKy]. destruct E as [-> ->]. auto.
  - destruct y as [f' n'|f' n'|f' b'|l'|f' b'|l'|f' l'|l'|f' l'|l'|f' n' x'|n'|n'|x'|x'|x']; other T. cbn [tag] in T. samef f' f T. clear T.
    apply item_in_arr in OK. apply item_in_arr in OKy. destruct OK as [CL OK], OKy as [CL' OKy].
    cbn [enc] in E. rewrite <- !app_assoc in E. pose proof (zlen_nonneg l). pose proof (zlen_nonneg l').
    apply hdr_inj in E; [|lia|lia]. destruct E as [L E].
    apply (delim_list item_ok) in E; [destruct E as [-> ->]; auto| |exact OKy|exact L].
    rewrite Forall_forall in *. intros x Hx. apply IH; [exact Hx|]. now apply OK.
  - destruct y as [f' n'|f' n'|f' b'|l'|f' b'|l'|f' l'|l'|f' l'|l'|f' n' x'|n'|n'|x'|x'|x']; other T. clear T.
    apply item_in_arrI in OK. apply item_in_arrI in OKy.
    cbn [enc app] in E. apply cons_eq in E. destruct E as [_ E]. rewrite <- !app_assoc in E. cbn [app] in E.
    apply (delim_stop item_ok) in E; [destruct E as [-> ->]; auto|exact enc_nobreak|exact OK| |exact OKy].
    rewrite Forall_forall in *. intros x Hx. apply IH; [exact Hx|]. now apply OK.
  - destruct y as [f' n'|f' n'|f' b'|l'|f' b'|l'|f' l'|l'|f' l'|l'|f' n' x'|n'|n'|x'|x'|x']; other T. cbn [tag] in T. samef f' f T. clear T.
    apply item_in_map in OK. apply item_in_map in OKy. destruct OK as [CL OK], OKy as [CL' OKy].
    cbn [enc] in E. rewrite <- !app_assoc in E. pose proof (zlen_nonneg l). pose proof (zlen_nonneg l').
    apply hdr_inj in E; [|lia|lia]. destruct E as [L E].
    apply (delim_list (fun kx => item_ok (fst kx) /\ item_ok (snd kx))) in E; [destruct E as [-> ->]; auto| |exact OKy|exact L].
    rewrite Forall_forall in *. intros kx Hx. destruct (IH _ Hx), (OK _ Hx). apply delim_pair; auto.
  - destruct y as [f' n'|f' n'|f' b'|l'|f' b'|l'|f' l'|l'|f' l'|l'|f' n' x'|n'|n'|x'|x'|x']; other T. clear T.
    apply item_in_mapI in OK. apply item_in_mapI in OKy.
    cbn [enc app] in E. apply cons_eq in E. destruct E as [_ E]. rewrite <- !app_assoc in E. cbn [app] in E.
    apply (delim_stop (fun kx => item_ok (fst kx) /\ item_ok (snd kx))) in E; [destruct E as [-> ->]; auto| |exact OK| |exact OKy].
    + intros kx [K _]. destruct (enc_nobreak _ K) as (m & r & E1 & N). rewrite E1. exists m, (r ++ enc (snd kx)). auto.
    + rewrite Forall_forall in *. intros kx Hx. destruct (IH _ Hx), (OK _ Hx). apply delim_pair; auto.
  - destruct y as [f' n'|f' n'|f' b'|l'|f' b'|l'|f' l'|l'|f' l'|l'|f' n' x'|n'|n'|x'|x'|x']; other T. cbn [tag] in T. samef f' f T. clear T.
    destruct OK as [A OK], OKy as [B OKy]. cbn [enc] in E. rewrite <- !app_assoc in E.
    apply hdr_inj in E; [|exact A|exact B]. destruct E as [-> E]. apply (IH OK) in E; [|exact OKy]. destruct E as [-> ->]. auto.
Qed.

(** ** Written values *)
Definition key_bytes (it : item) : bytes := match it with CText _ s => s | _ => [] end.
Fixpoint value_of (it : item) : val :=
  match it with
  | CUInt _ n => VInt n
  | CNeg _ n => VInt (-1 - n)
  | CBytes _ b => VBlob b
  | CText _ s => VStr s
  | CArr _ l => VArr (map value_of l)
  | CMap _ l => VMap (map (fun kx => (key_bytes (fst kx), value_of (snd kx))) l)
  | CSimple n => if n =? 20 then VBool false else if n =? 21 then VBool true else VNull
  | CF32 x => VDbl (f32_to_f64 x)
  | CF64 x => VDbl x
  | _ => VNull
  end.
Lemma value_of_item : forall v, val_ok v -> value_of (item_of v) = unsign v.
Proof.
  induction v as [| | | | | | |l IH|l IH] using val_ind'; intros OK; cbn [item_of unsign same_num]; try reflexivity.
  - now destruct b.
  - unfold int_item. destruct (0 <=? z); cbn [value_of]; [reflexivity|]. f_equal. lia.
  - unfold val_ok, is_u64, u64_max in OK. unfold dbl_item. destruct (f64_to_f32 b) as [y|] eqn:E; [|reflexivity].
    destruct (narrow_widen b y ltac:(lia) E) as [_ W]. cbn [value_of]. now rewrite W.
  - apply val_ok_arr in OK. cbn [value_of]. f_equal. rewrite map_map. apply map_ext_in. rewrite Forall_forall in *. auto.
  - apply val_ok_map in OK. cbn [value_of]. f_equal. rewrite map_map. apply map_ext_in. rewrite Forall_forall in *. intros [k x] Hx.
    cbn [fst snd key_bytes str_item]. f_equal. apply (IH _ Hx). apply (OK _ Hx).
Qed.

(** Written messages: one followed by anything determines the value and where it ends. *)
Theorem cbor_ident v1 v2 b1 b2 s t : val_ok v1 -> val_ok v2 -> zlen b1 < 2^63 -> zlen b2 < 2^63 ->
  serialize cbor_writer v1 = Ok b1 -> serialize cbor_writer v2 = Ok b2 -> b1 ++ s = b2 ++ t -> same_value v1 v2 /\ s = t.
Proof.
  intros O1 O2 L1 L2 S1 S2 E.
  assert (W : forall v b, val_ok v -> serialize cbor_writer v = Ok b -> b = enc (item_of v)).
  { intros v b O S. pose proof (run_value v (w_init cbor_writer)) as R. unfold run_spec in R. unfold serialize in S.
    destruct (writable _ v).
    - rewrite R in S. change (Ok (enc (item_of v)) = Ok b) in S. congruence.
    - destruct R as [s' R]. rewrite R in S. discriminate S. }
  apply W in S1; [|exact O1]. apply W in S2; [|exact O2]. subst b1 b2.
  apply (enc_delim _ (item_in_mono _ _ (item_of_ok _ O1 L1))) in E; [|exact (item_in_mono _ _ (item_of_ok _ O2 L2))]. destruct E as [E ->].
  split; [|reflexivity]. unfold same_value. rewrite <- !value_of_item by assumption. now rewrite E.
Qed.
