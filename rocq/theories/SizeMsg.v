(** SizeMsg.v -- what a MessagePack view says is no bigger than its span. *)

From Coq Require Import ZArith List Bool Lia ZifyBool ZifyNat.
From Verif Require Import Base BaseFacts Spec SpecFacts MsgModel MsgSpec MsgFacts MsgSafe LookMsg SaysSpec SaysFacts TransSpec SizeSpec.
Import ListNotations.
Open Scope Z_scope.

Lemma total_app {A} (f : A -> Z) a b : total f (a ++ b) = total f a + total f b.
Proof. induction a as [|x a IH]; cbn [total fold_right app]; [reflexivity|]. unfold total in *. lia. Qed.
Lemma total_le {A} (f g : A -> Z) l : Forall (fun x => f x <= g x) l -> total f l <= total g l.
Proof. induction 1 as [|x l H _ IH]; cbn [total fold_right]; [lia|]. unfold total in *. lia. Qed.

Lemma yes_nonempty v n : first_yes mp_reader v n -> wfs v -> 1 <= ms_len v.
Proof.
  intros ((q & Q & E) & _) W. destruct W. assert (X : exists p, q = mp_is p) by (do 9 (destruct n as [|n]; [injection Q as <-; eexists; reflexivity|]); destruct n; discriminate Q).
  destruct X as [p ->]. unfold mp_is in E. unfold sp_empty in E. destruct (ms_len v =? 0) eqn:L; [discriminate E|lia].
Qed.
Lemma view_nonempty v w : mp_asStringView v = Ok w -> 1 <= ms_len v.
Proof. unfold mp_asStringView, str_info, sp_at. destruct (_ && _) eqn:E; [lia|discriminate]. Qed.

Section S.
  Variable len : bytes -> Z.
  (** Strings, blobs and keys read from a view lie inside it. *)
  Definition tight (v : mspan) : Prop :=
    (forall s, r_asStringView mp_reader v = Ok s -> 1 + len s <= ms_len v) /\ (forall s, r_asBlob mp_reader v = Ok s -> 1 + len s <= ms_len v).
  Variable good : mspan -> Prop.
  Hypothesis GW : forall v, good v -> wfs v.
  Hypothesis GT : forall v, good v -> tight v.
  Hypothesis GC : forall v c, good v -> child_of v c -> good c.

  Definition small (x : val) : Prop := forall v, good v -> distinct_keys x -> says mp_reader v x -> size len x <= ms_len v.

  Lemma elems_small v n off0 : good v -> arr_info v = Ok (n, off0) -> forall l, Forall small l -> Forall distinct_keys l -> forall i off, 0 <= i ->
    skip_seq skip v i off0 = Ok off -> says_elems mp_reader v i l -> l = [] \/ off + total (size len) l <= ms_len v.
  Proof.
    intros G AI. induction 1 as [|x l SX _ IH]; intros D i off HI SK SA; [now left|]. right.
    apply Forall_cons_iff in D. destruct D as [DX DL]. cbn [says_elems] in SA. destruct SA as ((c & EI & SC) & SA). cbn [r_idx mp_reader] in EI.
    pose proof (idx_child v i c (GW v G) EI) as CH. pose proof (SX c (GC v c G CH) DX SC) as LX.
    unfold mp_idx in EI. rewrite AI in EI. cbn [bind] in EI. destruct (require (negb (n <=? i)) EDeser) eqn:EN; cbn [bind] in EI; try discriminate EI.
    rewrite SK in EI. cbn [bind] in EI. destruct (subspan v off) as [w| | |] eqn:E1; cbn [bind] in EI; try discriminate EI.
    destruct (skip w) as [sz| | |] eqn:E2; cbn [bind] in EI; try discriminate EI. unfold subspan2 in EI. destruct (_ && _) eqn:C; [|discriminate EI].
    assert (LC : ms_len c = sz) by (injection EI as <-; reflexivity).
    assert (SK' : skip_seq skip v (i + 1) off0 = Ok (off + sz)).
    { unfold skip_seq in *. rewrite zloop_nloop in *. replace (Z.to_nat (i + 1)) with (Z.to_nat i + 1)%nat by lia. rewrite nloop_add.
      destruct (nloop (R := unit) (Z.to_nat i) _ off0) as [[o|[]]| | |] eqn:EL in SK |- *; cbn [bind] in SK; try discriminate SK. injection SK as ->.
      cbn [bind nloop]. rewrite E1. cbn [bind]. rewrite E2. reflexivity. }
    destruct (IH DL (i + 1) _ ltac:(lia) SK' SA) as [-> |H]; cbn [total fold_right]; unfold total in *; cbn [fold_right] in *; lia.
  Qed.

  Lemma entries_small v : good v -> forall n off ws, ents v n off ws -> 0 <= off -> forall l, mp_rd_views (ms_buf v) ws = Ok (map fst l) -> NoDup (map fst l) ->
    Forall (fun kx => exists c, nloop n
         (fun off =>
            kspan <- subspan v off ;;
            ksz <- skip kspan ;;
            kd <- first kspan ksz ;;
            vspan <- subspan v (off + ksz) ;;
            vsz <- skip vspan ;;
            eq <- mp_key_is kd (fst kx) ;;
            if eq then c <- first vspan vsz ;; Ok (inr c) else Ok (inl (off + ksz + vsz))) off = Ok (inr c) /\ (wfs c -> size len (snd kx) <= ms_len c)) l ->
    l = [] \/ off + total (fun kx => 1 + len (fst kx) + size len (snd kx)) l <= ms_len v.
  Proof.
    intros G. induction 1 as [off|n off kspan ksz kd w vspan vsz ws E1 E2 E3 E4 E5 E6 _ IH]; intros HO l R ND F.
    - cbn [mp_rd_views] in R. destruct l; [now left|discriminate R].
    - right. cbn [mp_rd_views] in R. destruct (rd_view (ms_buf v) w) as [k| | |] eqn:RV; cbn [bind] in R; try discriminate R.
      destruct (mp_rd_views (ms_buf v) ws) as [ks'| | |] eqn:RS; cbn [bind] in R; try discriminate R. destruct l as [|[k0 x] l]; [discriminate R|].
      cbn [map fst] in R. assert (EK : k = k0) by (injection R; congruence). assert (EL : ks' = map fst l) by (injection R; congruence). subst k0 ks'. clear R.
      cbn [map fst] in ND. apply NoDup_cons_iff in ND. destruct ND as [NI ND].
      destruct (wfs_sub v off kspan (GW v G) HO E1) as (Wk & Bk & Ok' & Lk). pose proof (skip_nonneg _ _ Wk E2) as K0.
      destruct (wfs_first _ _ _ Wk K0 E3) as (Wd & Bd & Od & Ld).
      destruct (wfs_sub v (off + ksz) vspan (GW v G) ltac:(lia) E5) as (Wv & Bv & Ov & Lv). pose proof (skip_nonneg _ _ Wv E6) as V0.
      assert (KI : forall key, mp_key_is kd key = Ok (beq k key)) by (intros; apply (key_is_view kd w k key E4); rewrite Bd, Bk; exact RV).
      assert (GD : good kd).
      { apply (GC v kd G). exists kspan, off. rewrite Ld. unfold first in E3. destruct (ksz <=? ms_len kspan) eqn:FL; [|discriminate E3]. repeat split; auto; try apply Wk; try lia; congruence. }
      assert (LK : 1 + len k <= ksz).
      { rewrite <- Ld. apply (proj1 (GT kd GD)). cbn [r_asStringView mp_reader]. rewrite E4. cbn [bind]. rewrite Bd, Bk. exact RV. }
      apply Forall_cons_iff in F. destruct F as [(c & FC & LX) F]. cbn [fst snd nloop] in FC, LX.
      rewrite E1 in FC. cbn [bind] in FC. rewrite E2 in FC. cbn [bind] in FC. rewrite E3 in FC. cbn [bind] in FC. rewrite E5 in FC. cbn [bind] in FC. rewrite E6 in FC. cbn [bind] in FC.
      rewrite KI, beq_refl in FC. cbn [bind] in FC. destruct (first vspan vsz) as [c'| | |] eqn:E7; cbn [bind] in FC; try discriminate FC.
      injection FC as ->. destruct (wfs_first _ _ _ Wv V0 E7) as (Wc & Bc & Oc & Lc). specialize (LX Wc).
      assert (VL : vsz <= ms_len vspan) by (unfold first in E7; destruct (vsz <=? ms_len vspan) eqn:FL; [lia|discriminate E7]).
      destruct (IH ltac:(lia) l eq_refl ND) as [-> |H].
      + rewrite Forall_forall in F |- *. intros [k1 x1] IN. destruct (F _ IN) as (c1 & FC1 & L1). exists c1. split; [|exact L1]. cbn [fst snd nloop] in FC1 |- *.
        rewrite E1 in FC1. cbn [bind] in FC1. rewrite E2 in FC1. cbn [bind] in FC1. rewrite E3 in FC1. cbn [bind] in FC1. rewrite E5 in FC1. cbn [bind] in FC1. rewrite E6 in FC1. cbn [bind] in FC1.
        rewrite KI in FC1. assert (NE : beq k k1 = false) by (destruct (beq k k1) eqn:B; [apply beq_eq in B; subst k1; exfalso; apply NI; exact (in_map fst _ _ IN)|reflexivity]).
        rewrite NE in FC1. exact FC1.
      + cbn [total fold_right fst snd]. lia.
      + unfold total in *. cbn [fold_right fst snd]. lia.
  Qed.

  Theorem says_small : forall x, small x.
  Proof.
    induction x as [| | | | | | |l IH|l IH] using val_ind'; intros v G D SY.
    1: exact (yes_nonempty v _ SY (GW v G)).
    1-4: exact (yes_nonempty v _ (proj1 SY) (GW v G)).
    - cbn [size]. exact (proj1 (GT v G) _ (proj2 SY)).
    - cbn [size]. exact (proj2 (GT v G) _ (proj2 SY)).
    - apply says_arr in SY. destruct SY as (Y & N & SE). apply every_arr in D. destruct D as [_ D]. pose proof (yes_nonempty v _ Y (GW v G)) as L1.
      cbn [r_arraySize mp_reader] in N. unfold mp_arraySize in N. destruct (arr_info v) as [[n off0]| | |] eqn:AI; cbn [bind] in N; try discriminate N.
      pose proof (arr_info_off _ _ _ AI) as O1. destruct (elems_small v n off0 G AI l IH D 0 off0 ltac:(lia) eq_refl SE) as [-> |H]; cbn [size]; [exact L1|lia].
    - apply says_map in SY. destruct SY as (Y & K & SE). apply every_map in D. destruct D as [ND D]. pose proof (yes_nonempty v _ Y (GW v G)) as L1.
      cbn [r_mapKeys mp_reader] in K. destruct (mp_keys v) as [ws| | |] eqn:MK; cbn [bind] in K; try discriminate K.
      unfold mp_keys in MK. destruct (mp_is k_map v) as [m| | |] eqn:IM; cbn [bind] in MK; try discriminate MK. destruct m; [|discriminate MK]. cbn [require bind] in MK.
      destruct (map_info v) as [[n off0]| | |] eqn:MI; cbn [bind] in MK; try discriminate MK. pose proof (map_info_off _ _ _ MI) as O1.
      unfold skip_pairs in MK. rewrite !zloop_nloop in MK. destruct (nloop (R := unit) (Z.to_nat n) _ off0) as [[e|[]]| | |] eqn:SP in MK; cbn [bind] in MK; try discriminate MK.
      assert (N : 0 <= n).
      { destruct (Z_lt_le_dec n 0) as [L|]; [|assumption]. rewrite zloop_nloop in MK. replace (Z.to_nat (n + 1)) with 0%nat in MK by lia. discriminate MK. }
      rewrite zloop_nloop in MK. replace (Z.to_nat (n + 1)) with (Datatypes.S (Z.to_nat n)) in MK by lia.
      destruct (nloop (Datatypes.S (Z.to_nat n)) _ _) as [[r|r]| | |] eqn:KE in MK; cbn [bind] in MK; try discriminate MK.
      destruct (keys_ents v n e (Z.to_nat n) 0 off0 [] r ltac:(lia) KE SP) as (ws' & -> & EN). injection MK as <-. cbn [rev app] in K.
      destruct (entries_small v G _ _ _ EN ltac:(lia) l K ND) as [-> |H]; [|cbn [size]; exact L1|cbn [size]; lia].
      clear K ND Y L1 KE EN. induction l as [|[k x] l IL]; constructor.
      + cbn [says_entries] in SE. destruct SE as ((c & EC & SC) & _). cbn [fst snd]. apply Forall_cons_iff in IH. destruct IH as [IX _]. apply Forall_cons_iff in D. destruct D as [DX _].
        cbn [r_key mp_reader] in EC. pose proof (GC v c G (key_child v k c (GW v G) EC)) as Gc. exists c. split; [|intros _; exact (IX c Gc DX SC)].
        unfold mp_key in EC. rewrite IM in EC. cbn [require bind] in EC. rewrite MI in EC. cbn [bind] in EC. rewrite zloop_nloop in EC.
        destruct (nloop (Z.to_nat n) _ off0) as [[o|c']| | |] eqn:EL in EC |- *; cbn [bind] in EC; try discriminate EC. now injection EC as ->.
      + apply Forall_cons_iff in IH. apply Forall_cons_iff in D. cbn [says_entries] in SE. apply IL; [apply IH|apply D|apply SE].
  Qed.
End S.

(** Every view of a message: its strings may be counted or not. *)
Theorem msgpack_nodes b x : bytes_ok b -> distinct_keys x -> says mp_reader (mp_open b) x -> nodes x <= zlen b.
Proof.
  intros B D SY. refine (says_small (fun _ => 0) wfs (fun _ W => W) _ child_wfs x (mp_open b) (wfs_open b B) D SY).
  intros v W. split; intros s E; cbn [r_asStringView r_asBlob mp_reader] in E; unfold mp_asBlob, mp_asStringView, bin_info, str_info, sp_at in E;
    destruct (_ && _) eqn:L in E; [lia|discriminate E|lia|discriminate E].
Qed.

Lemma item_tight v it : item_small it -> spans v it -> tight zlen v.
Proof.
  intros IS [H L]. pose proof (observes_item v it (2^32 - 5) ltac:(lia) IS (spans_starts v it (conj H L))) as O.
  destruct O as (_ & _ & _ & _ & _ & _ & _ & _ & _ & _ & _ & _ & _ & _ & S & B). unfold tight. rewrite L. split; intros s E; [rewrite S in E|rewrite B in E];
    destruct it; cbn in E; try discriminate E; injection E as <-; cbn [enc]; rewrite zlen_app; [assert (1 <= zlen (str_hdr f (zlen s0)))|assert (1 <= zlen (bin_hdr f (zlen b)))]; try lia.
  - destruct f; cbn [str_hdr]; rewrite zlen_cons; match goal with |- context [zlen ?l] => pose proof (zlen_nonneg l) end; lia.
  - destruct f; [exfalso; cbn [item_small item_in bin_cap] in IS; unfold item_small in IS; cbn [item_in bin_cap] in IS; pose proof (zlen_nonneg b); lia|..]; cbn [bin_hdr]; rewrite zlen_cons; match goal with |- context [zlen ?l] => pose proof (zlen_nonneg l) end; lia.
Qed.
Lemma root_tight b : bytes_ok b -> tight zlen (mp_open b).
Proof.
  assert (X : forall (m : res view) s, (forall w, m = Ok w -> 1 <= fst w) -> (w <- m ;; rd_view b w) = Ok s -> 1 + zlen s <= zlen b).
  { intros m s P E. destruct m as [w| | |]; cbn [bind] in E; try discriminate E. specialize (P w eq_refl). pose proof (rd_view_len _ _ _ E) as L.
    unfold rd_view in E. destruct (_ && _) eqn:C in E; [|discriminate E]. lia. }
  intros B. split; intros s E; cbn [r_asStringView r_asBlob mp_reader mp_open ms_buf ms_len] in *; eapply X; try exact E; clear; intros w E;
    unfold mp_asBlob, mp_asStringView, bin_info, str_info in E; destruct (sp_at _ 0); cbn [bind] in E; try discriminate E;
    repeat match type of E with (if ?c then _ else _) = _ => destruct c | bind ?m _ = _ => destruct m; cbn [bind] in E end; try discriminate E; injection E as <-; cbn; lia.
Qed.
Theorem msgpack_weight b x : bytes_ok b -> no_huge b -> distinct_keys x -> says mp_reader (mp_open b) x -> weight x <= zlen b.
Proof.
  intros B NH D SY. refine (says_small zlen (fun v => wfs v /\ ms_buf v = b /\ tight zlen v) (fun _ W => proj1 W) (fun _ W => proj2 (proj2 W)) _ x (mp_open b) _ D SY).
  - intros v c (W & E & T) C. pose proof (child_wfs v c W C) as Wc. split; [exact Wc|]. destruct (child_inside v c W C) as (Eb & _). split; [congruence|].
    destruct (child_item v c W ltac:(now rewrite E) C) as (it & IS & SP). exact (item_tight c it IS SP).
  - split; [now apply wfs_open|]. split; [reflexivity|now apply root_tight].
Qed.
