(** FoundIn.v -- the accessors of MessagePack views inside arrays and maps return only what is in the message where the view is. *)

From Coq Require Import ZArith List Bool Lia ZifyBool ZifyNat.
From Verif Require Import Base BaseFacts Spec SpecFacts SaysSpec FloatModel MsgModel MsgSpec MsgFacts MsgSafe MeanFacts MeanMsg FoundSpec FoundMsg.
Import ListNotations.
Open Scope Z_scope.
Ltac Zify.zify_post_hook ::= idtac.

(** The bytes [e] are in [b] at position [p]. *)
Definition stands_at (b : bytes) (p : Z) (e : bytes) : Prop := exists pre suf, b = pre ++ e ++ suf /\ zlen pre = p.

Lemma has_stands b p e : has b p e -> stands_at b p e.
Proof.
  intros (P & L & E). exists (slice b 0 p), (slice b (p + zlen e) (zlen b - (p + zlen e))). pose proof (zlen_nonneg e). split.
  - rewrite <- E at 1. rewrite <- slice_app_split by lia. rewrite <- (slice_full b) at 1. replace (zlen b) with (p + (zlen e + (zlen b - (p + zlen e)))) at 1 by lia. rewrite slice_app_split by lia. rewrite Z.add_0_l. reflexivity.
  - apply zlen_slice; lia.
Qed.

(** The view from where [v] begins to the end of the message. *)
Definition widened (v : mspan) : mspan := mkSpan (ms_buf v) (ms_off v) (zlen (ms_buf v) - ms_off v).
Section Wide.
  Context (v : mspan).
  Hypothesis W : wfs v.
  Lemma wide_wfs : wfs (widened v).
  Proof. destruct W. constructor; cbn [widened ms_buf ms_off ms_len]; auto; lia. Qed.
  Lemma wide_end : ms_off (widened v) + ms_len (widened v) = zlen (ms_buf (widened v)).
  Proof. cbn [widened ms_buf ms_off ms_len]. lia. Qed.
  Lemma wide_len : ms_len v <= ms_len (widened v).
  Proof. destruct W. cbn [widened ms_len]. lia. Qed.
  Lemma wide_at i x : sp_at v i = Ok x -> sp_at (widened v) i = Ok x.
  Proof. unfold sp_at. pose proof wide_len. destruct (_ && _) eqn:C; [|discriminate]. replace ((0 <=? i) && (i <? ms_len (widened v))) with true by lia. auto. Qed.
  Lemma wide_ptr k : sp_ptr (widened v) k = sp_ptr v k.
  Proof. reflexivity. Qed.
  Lemma wide_is p : mp_is p v = Ok true -> mp_is p (widened v) = Ok true.
  Proof.
    unfold mp_is, sp_empty. pose proof wide_len. destruct (ms_len v =? 0) eqn:Z0; [discriminate|]. intros E. apply found_bind in E. destruct E as (m & EM & E). destruct W. replace (ms_len (widened v) =? 0) with false by lia. rewrite (wide_at _ _ EM). exact E.
  Qed.
  Ltac widen E := repeat match type of E with
    | (if ?c then _ else _) = Ok _ => destruct c
    | bind (require (negb (ms_len v <? ?k)) EDeser) _ = Ok _ => let L := fresh "L" in destruct (ms_len v <? k) eqn:L; [discriminate E|]; cbn [negb require bind] in E; replace (ms_len (widened v) <? k) with false by (pose proof wide_len; lia); cbn [negb require bind]
    | bind (sp_at v ?i) _ = Ok _ => let x := fresh "x" in let A := fresh "A" in apply found_bind in E; destruct E as (x & A & E); rewrite (wide_at i x A); cbn [bind]
    | sp_at v _ = Ok _ => exact (wide_at _ _ E)
    end; try exact E; try discriminate E.
  Lemma wide_int z : mp_asInt64 v = Ok z -> mp_asInt64 (widened v) = Ok z.
  Proof.
    intros E. unfold mp_asInt64, sp_empty in *. pose proof wide_len. destruct W. destruct (ms_len v =? 0) eqn:Z0; [discriminate E|]. replace (ms_len (widened v) =? 0) with false by lia. cbn [negb require bind] in *. widen E.
  Qed.
  Lemma wide_uint z : mp_asUInt64 v = Ok z -> mp_asUInt64 (widened v) = Ok z.
  Proof.
    intros E. unfold mp_asUInt64, sp_empty in *. pose proof wide_len. destruct W. destruct (ms_len v =? 0) eqn:Z0; [discriminate E|]. replace (ms_len (widened v) =? 0) with false by lia. cbn [negb require bind] in *. widen E.
    apply found_bind in E. destruct E as (y & AY & E). rewrite (wide_int y AY). exact E.
  Qed.
  Lemma wide_asInt iw z : mp_asInt iw v = Ok z -> mp_asInt iw (widened v) = Ok z.
  Proof. unfold mp_asInt. intros E. apply found_bind in E. destruct E as (y & A & E). rewrite (wide_int y A). exact E. Qed.
  Lemma wide_asUInt iw z : mp_asUInt iw v = Ok z -> mp_asUInt iw (widened v) = Ok z.
  Proof. unfold mp_asUInt. intros E. apply found_bind in E. destruct E as (y & A & E). rewrite (wide_uint y A). exact E. Qed.
  Lemma wide_double z : mp_asDouble v = Ok z -> mp_asDouble (widened v) = Ok z.
  Proof.
    unfold mp_asDouble. intros E. apply found_bind in E. destruct E as (k & K & E). destruct k; [|discriminate E]. rewrite (wide_is _ K). cbn [require bind] in *. widen E.
  Qed.
  Lemma wide_bool z : mp_asBool v = Ok z -> mp_asBool (widened v) = Ok z.
  Proof.
    unfold mp_asBool. intros E. apply found_bind in E. destruct E as (k & K & E). destruct k; [|discriminate E]. rewrite (wide_is _ K). cbn [require bind] in *. widen E.
  Qed.
  Lemma wide_str s : (w <- str_info v ;; rd_view (ms_buf v) w) = Ok s -> (w <- str_info (widened v) ;; rd_view (ms_buf (widened v)) w) = Ok s.
  Proof.
    intros E. apply found_bind in E. destruct E as (w & E & R). assert (Q : str_info (widened v) = Ok w) by (unfold str_info in *; widen E). rewrite Q. exact R.
  Qed.
  Lemma wide_bin s : (w <- bin_info v ;; rd_view (ms_buf v) w) = Ok s -> (w <- bin_info (widened v) ;; rd_view (ms_buf (widened v)) w) = Ok s.
  Proof.
    intros E. apply found_bind in E. destruct E as (w & E & R). assert (Q : bin_info (widened v) = Ok w) by (unfold bin_info in *; widen E). rewrite Q. exact R.
  Qed.

  Let b := ms_buf v.
  Let p := ms_off v.
  Lemma here it : item_ok it -> starts (widened v) (enc it) -> stands_at b p (enc it) /\ observes mp_reader (widened v) (item_table it).
  Proof. intros OK S. split; [apply has_stands; exact (proj1 S)|exact (observes_item _ _ (2^32) ltac:(lia) OK S)]. Qed.
  Lemma in_int iw z : mp_asInt iw v = Ok z -> exists it n, item_ok it /\ stands_at b p (enc it) /\ number_of it = Some n /\ z = to_signed 64 n /\ smin iw <= z <= smax iw.
  Proof.
    intros E. apply wide_asInt in E. assert (E' := E). unfold mp_asInt in E'. apply found_bind in E'. destruct E' as (y & E64 & _). destruct (number_found _ wide_wfs wide_end y E64) as (it & n & OK & N & S).
    destruct (here it OK S) as [ST (_ & _ & _ & _ & _ & _ & _ & _ & _ & _ & O & _)]. destruct (number_table it n N) as (s & u & T). rewrite T in O. specialize (O iw). change (r_asInt mp_reader iw (widened v)) with (mp_asInt iw (widened v)) in O. rewrite E in O. symmetry in O.
    change (or_throw (fits_s iw (to_signed 64 n)) = Ok z) in O. apply or_throw_ok, fits_s_iff in O. destruct O as [-> R]. exists it, n. auto.
  Qed.
  Lemma in_uint iw z : mp_asUInt iw v = Ok z -> exists it n, item_ok it /\ stands_at b p (enc it) /\ number_of it = Some n /\ z = n mod 2^64 /\ z <= umax iw.
  Proof.
    intros E. apply wide_asUInt in E. assert (E' := E). unfold mp_asUInt in E'. apply found_bind in E'. destruct E' as (y & E64 & _). destruct (unumber _ y E64) as [y' E64']. destruct (number_found _ wide_wfs wide_end y' E64') as (it & n & OK & N & S).
    destruct (here it OK S) as [ST (_ & _ & _ & _ & _ & _ & _ & _ & _ & _ & _ & O & _)]. destruct (number_table it n N) as (s & u & T). rewrite T in O. specialize (O iw). change (r_asUInt mp_reader iw (widened v)) with (mp_asUInt iw (widened v)) in O. rewrite E in O. symmetry in O.
    change (or_throw (fits_u iw (n mod 2^64)) = Ok z) in O. apply or_throw_ok, fits_u_iff in O; [|apply Z.mod_pos_bound; lia]. destruct O as [-> R]. exists it, n. auto.
  Qed.
  Lemma in_double z : mp_asDouble v = Ok z -> exists it, item_ok it /\ stands_at b p (enc it) /\ ((exists x, it = MF32 x /\ z = f32_to_f64 x) \/ it = MF64 z).
  Proof.
    intros E. apply wide_double in E. destruct (double_found _ wide_wfs wide_end z E) as (x & [[OK S]|[OK S]]); destruct (here _ OK S) as [ST (_ & _ & _ & _ & _ & _ & _ & _ & _ & _ & _ & _ & O & _)];
      change (r_asDouble mp_reader (widened v)) with (mp_asDouble (widened v)) in O; rewrite E in O; cbn [item_table ideal t_asDouble or_throw] in O; injection O as ->; eexists; (split; [exact OK|]); (split; [exact ST|]); eauto.
  Qed.
  Lemma in_bool z : mp_asBool v = Ok z -> stands_at b p (enc (MBool z)).
  Proof. intros E. apply wide_bool in E. exact (proj1 (here (MBool z) I (bool_found _ wide_wfs z E))). Qed.
  Lemma in_null : mp_is k_null v = Ok true -> stands_at b p (enc MNil).
  Proof. intros E. apply wide_is in E. exact (proj1 (here MNil I (nil_found _ wide_wfs E))). Qed.
  Lemma in_string s : r_asString mp_reader v = Ok s -> exists f, item_ok (MStr f s) /\ stands_at b p (enc (MStr f s)).
  Proof.
    intros E. apply wide_str in E. destruct (string_found _ wide_wfs wide_end s E) as (f & s' & OK & S). destruct (here _ OK S) as [ST (_ & _ & _ & _ & _ & _ & _ & _ & _ & _ & _ & _ & _ & O & _)].
    change (r_asString mp_reader (widened v)) with (w <- str_info (widened v) ;; rd_view (ms_buf (widened v)) w) in O. rewrite E in O. cbn [item_table ideal t_asString or_throw] in O. injection O as ->. eauto.
  Qed.
  Lemma in_blob s : r_asBlob mp_reader v = Ok s -> exists f, item_ok (MBin f s) /\ stands_at b p (enc (MBin f s)).
  Proof.
    intros E. apply wide_bin in E. destruct (blob_found _ wide_wfs wide_end s E) as (f & s' & OK & S). destruct (here _ OK S) as [ST (_ & _ & _ & _ & _ & _ & _ & _ & _ & _ & _ & _ & _ & _ & _ & O)].
    change (r_asBlob mp_reader (widened v)) with (w <- bin_info (widened v) ;; rd_view (ms_buf (widened v)) w) in O. rewrite E in O. cbn [item_table ideal t_asBlob or_throw] in O. injection O as ->. eauto.
  Qed.
End Wide.

Lemma reached_wfs b w : bytes_ok b -> leads mp_reader (mp_open b) w -> wfs w /\ ms_buf w = b.
Proof.
  intros B L. induction L as [|w1 i w2 L [W1 E1] E|w1 k w2 L [W1 E1] E]; [split; [exact (wfs_open b B)|reflexivity]| |].
  - destruct (idx_child w1 i w2 W1 E) as (w & o & Ww & O & SU & SK & LE & EB & EO & LN). destruct (wfs_sub w1 o w W1 O SU) as (_ & EW & _). destruct Ww. split; [constructor; rewrite ?EO; try rewrite EB, <- EW; auto; lia|congruence].
  - destruct (key_child w1 k w2 W1 E) as (w & o & Ww & O & SU & SK & LE & EB & EO & LN). destruct (wfs_sub w1 o w W1 O SU) as (_ & EW & _). destruct Ww. split; [constructor; rewrite ?EO; try rewrite EB, <- EW; auto; lia|congruence].
Qed.
