(** FoundCbor.v -- the accessors of the CBOR reader, for views anywhere in a message. *)

From Coq Require Import ZArith List Bool Lia ZifyBool ZifyNat.
From Verif Require Import Base BaseFacts Spec SpecFacts FloatModel CborModel CborSpec CborFacts CborRead CborSafe SoundSpec CborSound.
Import ListNotations.
Open Scope Z_scope.

Ltac Zify.zify_post_hook ::= idtac.

(** ** Views at the end of a prefix *)
Lemma has_at_end {A} (pre b l : list A) : has (pre ++ b) (zlen pre) l <-> exists suf, b = l ++ suf.
Proof.
  split.
  - intros H. destruct (has_split _ _ _ H) as (pre' & suf & E & L). assert (LN : length pre' = length pre) by (unfold zlen in L; lia).
    assert (E' : pre' = pre /\ b = l ++ suf). { clear H L. revert pre' LN E. induction pre as [|x pre IH]; intros [|y pre'] LN E; try discriminate LN; [auto|]. cbn in E. injection E as <- E. destruct (IH pre' ltac:(now injection LN) E) as [-> ->]. auto. }
    exists suf. apply E'.
  - intros [suf ->]. apply has_mid.
Qed.
Lemma sits_end hard pre b it : sits hard (pre ++ b) (zlen pre) it <-> exists suf, b = enc it ++ suf /\ (hard = false \/ ends_empty it = false \/ suf <> []).
Proof.
  split.
  - intros ST. assert (H := sits_has _ _ _ _ ST). apply has_at_end in H. destruct H as [suf ->]. exists suf. split; [reflexivity|]. destruct ST as (_ & _ & _ & R).
    destruct R as [R|[R|R]]; auto. right. right. intros ->. rewrite !zlen_app, zlen_nil in R. lia.
  - intros (suf & -> & R). pose proof (has_mid pre (enc it) suf) as (H0 & H1 & H2). unfold sits. repeat split; auto. destruct R as [R|[R|R]]; auto. right. right.
    rewrite !zlen_app. destruct suf as [|x suf]; [now destruct R|]. rewrite zlen_cons. pose proof (zlen_nonneg suf). lia.
Qed.

(** ** Integers of every width *)
Lemma asInt_narrow v iw z : c_asInt iw v = Ok z <-> c_asInt64 v = Ok z /\ (iw = I64 \/ smin iw <= z <= smax iw).
Proof.
  unfold c_asInt. split.
  - intros H. apply bind_ok in H. destruct H as (x & E & H). rewrite E. destruct iw; try (injection H as ->; auto).
    all: apply req_ok in H; destruct H as [R H]; injection H as H; rewrite to_signed_id in H by (unfold smin, smax in R; cbn in R |- *; lia); subst z; split; [reflexivity|right; lia].
  - intros [E [-> |R]]; rewrite E; cbn [bind]; [reflexivity|]. destruct iw; [| | |reflexivity].
    all: match goal with |- context [smin ?w] => replace ((z <? smin w) || (smax w <? z)) with false by lia; cbn [negb require bind]; rewrite to_signed_id by (unfold smin, smax in R; cbn in R |- *; lia); reflexivity end.
Qed.
Lemma asUInt_narrow v iw z : (forall x, c_asUInt64 v = Ok x -> 0 <= x) -> c_asUInt iw v = Ok z <-> c_asUInt64 v = Ok z /\ (iw = I64 \/ z <= umax iw).
Proof.
  intros P. unfold c_asUInt. split.
  - intros H. apply bind_ok in H. destruct H as (x & E & H). rewrite E. specialize (P x E). destruct iw; try (injection H as ->; auto).
    all: apply req_ok in H; destruct H as [R H]; injection H as H; rewrite Z.mod_small in H by (unfold umax in R; cbn in R |- *; lia); subst z; split; [reflexivity|right; lia].
  - intros [E [-> |R]]; rewrite E; cbn [bind]; [reflexivity|]. specialize (P z E). destruct iw; [| | |reflexivity].
    all: match goal with |- context [umax ?w] => replace (umax w <? z) with false by lia; cbn [negb require bind]; rewrite Z.mod_small by (unfold umax in R; cbn in R |- *; lia); reflexivity end.
Qed.

(** ** asBlobVec() is safe where asBlob() is *)
Lemma out_rdv u b q n : 0 <= q <= zlen b -> 0 <= n -> q + n <= zlen b -> outcome true u (fun _ => True) (rd_view b (q, n)).
Proof. intros Q N L. unfold rd_view. cbn [fst snd]. replace ((0 <=? q) && (0 <=? n) && (q + n <=? zlen b)) with true by lia. exact I. Qed.
Lemma asBlobVec_safe b fuel p : bytes_ok b -> zlen b < 2^63 -> no_huge b -> zlen b < Z.of_nat fuel -> 0 <= p -> safe (fun _ => True) (c_asBlobVec false fuel (mkCView b p)).
Proof.
  intros B HB NH FU P. apply out_safe. unfold c_asBlobVec, chd. cbn [cv_buf cv_pos].
  eapply out_bind; [apply (out_head true false b p B P)|]. intros h HH. assert (HH' := HH). destruct HH' as (H1 & H2 & H3 & _).
  apply out_req. intros E. cbv zeta. destruct (negb (h_indef h)).
  - apply out_req. intros W. rewrite addr_soft by lia. cbn [bind]. assert (V := str_small true b (fun _ => NH) p h P HH ltac:(lia) eq_refl). rewrite wrap64_small in W by lia. apply out_rdv; lia.
  - apply (out_floop true false _ (fun s => 0 <= fst s) (fun s => rest b (fst s))); [|intros; unfold rest; lia|cbn; lia|cbn [fst]; unfold rest; lia].
    intros [q out] Q. cbn [fst] in *. unfold blob_chunk. apply out_req. intros L. destruct (rd_in b q) as [x Ex]; [lia|]. rewrite Ex. cbn [bind].
    destruct (x =? 255); [exact I|]. eapply out_bind; [apply (out_head true false b q B Q)|]. intros h' HH'. assert (HH'' := HH'). destruct HH'' as (K1 & K2 & K3 & _).
    apply out_req. intros E'. cbv zeta. apply out_req. intros W. rewrite addr_soft by lia. cbn [bind].
    assert (V := str_small true b (fun _ => NH) q h' Q HH' ltac:(lia) eq_refl). rewrite wrap64_small in * by lia.
    eapply out_bind; [apply out_rdv; lia|]. intros t _. cbn [outcome fst]. split; [lia|]. intros _. unfold rest. lia.
Qed.
