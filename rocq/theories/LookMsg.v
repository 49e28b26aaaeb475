(** LookMsg.v -- MessagePack map lookups against mapKeys, on arbitrary messages. *)

From Coq Require Import ZArith List Bool Lia ZifyBool ZifyNat.
From Verif Require Import Base BaseFacts Spec MsgModel.
Import ListNotations.
Open Scope Z_scope.

(** The [n] entries found by walking from [off] *)
Inductive ents (v : mspan) : nat -> Z -> list view -> Prop :=
| ents_0 off : ents v 0 off []
| ents_S n off kspan ksz kd w vspan vsz ws : subspan v off = Ok kspan -> skip kspan = Ok ksz -> first kspan ksz = Ok kd ->
    mp_asStringView kd = Ok w -> subspan v (off + ksz) = Ok vspan -> skip vspan = Ok vsz ->
    ents v n (off + ksz + vsz) ws -> ents v (Datatypes.S n) off (w :: ws).

Lemma keys_ents v N end_off : forall n i off acc r, i + Z.of_nat n = N ->
  nloop (Datatypes.S n)
         (fun s => let '(i, off, acc) := s in
            if (i =? N) && (off =? end_off) then Ok (inr (rev acc)) else
            w <- mk_deref v off ;;
            off' <- mk_incr v off ;;
            Ok (inl (i + 1, off', w :: acc))) (i, off, acc) = Ok (inr r) ->
  nloop (R := unit) n
         (fun off =>
            w <- subspan v off ;; ks <- skip w ;;
            w2 <- subspan v (off + ks) ;; vs <- skip w2 ;;
            Ok (inl (off + ks + vs))) off = Ok (inl end_off) ->
  exists ws, r = rev acc ++ ws /\ ents v n off ws.
Proof.
  match goal with |- context [nloop (Datatypes.S _) ?F _] => set (body := F) end.
  induction n as [|n IH]; intros i off acc r HI H E.
  - cbn [nloop] in E. injection E as <-. cbn [nloop] in H. unfold body in H. replace ((i =? N) && (off =? off)) with true in H by lia. cbn [bind] in H.
    injection H as <-. exists []. rewrite app_nil_r. split; [reflexivity|constructor].
  - change (nloop (Datatypes.S (Datatypes.S n)) body (i, off, acc)) with
      (x <- body (i, off, acc) ;; match x with inl s' => nloop (Datatypes.S n) body s' | inr r => Ok (inr r) end) in H.
    unfold body at 1 in H. replace (i =? N) with false in H by lia. cbn [andb] in H.
    cbn [nloop] in E. destruct (subspan v off) as [kspan| | |] eqn:E1; cbn [bind] in E; try discriminate.
    destruct (skip kspan) as [ksz| | |] eqn:E2; cbn [bind] in E; try discriminate.
    destruct (subspan v (off + ksz)) as [vspan| | |] eqn:E3; cbn [bind] in E; try discriminate.
    destruct (skip vspan) as [vsz| | |] eqn:E4; cbn [bind] in E; try discriminate.
    unfold mk_deref in H. rewrite E1 in H. cbn [bind] in H. rewrite E2 in H. cbn [bind] in H.
    destruct (first kspan ksz) as [kd| | |] eqn:E5; cbn [bind] in H; try discriminate.
    destruct (mp_asStringView kd) as [w| | |] eqn:E6; cbn [bind] in H; try discriminate.
    unfold mk_incr in H. rewrite E1 in H. cbn [bind] in H. rewrite E2 in H. cbn [bind] in H. rewrite E3 in H. cbn [bind] in H. rewrite E4 in H. cbn [bind] in H.
    rewrite Z.add_assoc in H. destruct (IH (i + 1) (off + ksz + vsz) (w :: acc) r) as (ws & -> & EN); [lia|exact H|exact E|].
    exists (w :: ws). cbn [rev]. rewrite <- app_assoc. split; [reflexivity|]. econstructor; eassumption.
Qed.

Lemma first_bufs a n c : first a n = Ok c -> ms_buf c = ms_buf a.
Proof. unfold first. destruct (n <=? ms_len a); [|discriminate]. intros [= <-]. reflexivity. Qed.
Lemma sub_bufs a n c : subspan a n = Ok c -> ms_buf c = ms_buf a.
Proof. unfold subspan. destruct (n <=? ms_len a); [|discriminate]. intros [= <-]. reflexivity. Qed.
Lemma rd_view_len b w k : rd_view b w = Ok k -> zlen k = snd w.
Proof. unfold rd_view. destruct (_ && _) eqn:E; [|discriminate]. intros [= <-]. apply zlen_slice; lia. Qed.

Lemma key_is_view kd w k key : mp_asStringView kd = Ok w -> rd_view (ms_buf kd) w = Ok k -> mp_key_is kd key = Ok (beq k key).
Proof.
  intros A R. assert (S : mp_is k_string kd = Ok true).
  { unfold mp_asStringView, str_info in A. unfold mp_is. destruct (sp_at kd 0) as [m| | |] eqn:M; cbn [bind] in A; try discriminate.
    assert (NE : sp_empty kd = false) by (unfold sp_at in M; unfold sp_empty; destruct (_ && _) eqn:E in M; [lia|discriminate]).
    rewrite NE. cbn [bind]. f_equal. unfold k_string. destruct (Z.land m 224 =? 160); [reflexivity|]. destruct (m =? 217); [reflexivity|].
    destruct (m =? 218); [reflexivity|]. destruct (m =? 219); [reflexivity|discriminate]. }
  unfold mp_key_is. rewrite S. cbn [bind]. rewrite A. cbn [bind]. pose proof (rd_view_len _ _ _ R) as L. destruct (snd w =? zlen key) eqn:E.
  - rewrite R. reflexivity.
  - f_equal. destruct (beq k key) eqn:B; [|reflexivity]. apply beq_eq in B. subst key. lia.
Qed.

Lemma contains_ents v key : forall n off ws, ents v n off ws -> forall ks, mp_rd_views (ms_buf v) ws = Ok ks ->
  exists x, nloop n
         (fun off =>
            kspan <- subspan v off ;;
            ksz <- skip kspan ;;
            kd <- first kspan ksz ;;
            vspan <- subspan v (off + ksz) ;;
            vsz <- skip vspan ;;
            eq <- mp_key_is kd key ;;
            if eq then Ok (inr true) else Ok (inl (off + ksz + vsz))) off = Ok x /\
    match x with inl _ => existsb (beq key) ks = false | inr r => r = true /\ existsb (beq key) ks = true end.
Proof.
  induction 1 as [off|n off kspan ksz kd w vspan vsz ws E1 E2 E3 E4 E5 E6 _ IH]; intros ks R.
  - exists (inl off). cbn [nloop mp_rd_views] in *. injection R as <-. split; reflexivity.
  - cbn [mp_rd_views] in R. destruct (rd_view (ms_buf v) w) as [k| | |] eqn:RV; cbn [bind] in R; try discriminate.
    destruct (mp_rd_views (ms_buf v) ws) as [ks'| | |] eqn:RS; cbn [bind] in R; try discriminate. injection R as <-.
    cbn [nloop]. rewrite E1. cbn [bind]. rewrite E2. cbn [bind]. rewrite E3. cbn [bind]. rewrite E5. cbn [bind]. rewrite E6. cbn [bind].
    rewrite (key_is_view kd w k key E4) by (rewrite (first_bufs _ _ _ E3), (sub_bufs _ _ _ E1); exact RV). cbn [bind existsb]. rewrite (beq_sym key k).
    destruct (beq k key); cbn [bind orb]; [exists (inr true); auto|]. exact (IH ks' eq_refl).
Qed.
Lemma key_ents v key : forall n off ws, ents v n off ws -> forall ks, mp_rd_views (ms_buf v) ws = Ok ks ->
  let r := nloop n
         (fun off =>
            kspan <- subspan v off ;;
            ksz <- skip kspan ;;
            kd <- first kspan ksz ;;
            vspan <- subspan v (off + ksz) ;;
            vsz <- skip vspan ;;
            eq <- mp_key_is kd key ;;
            if eq then c <- first vspan vsz ;; Ok (inr c) else Ok (inl (off + ksz + vsz))) off in
  if existsb (beq key) ks then (exists c, r = Ok (inr c)) \/ r = UB else exists o, r = Ok (inl o).
Proof.
  induction 1 as [off|n off kspan ksz kd w vspan vsz ws E1 E2 E3 E4 E5 E6 _ IH]; intros ks R.
  - cbn [nloop mp_rd_views] in *. injection R as <-. cbn [existsb]. eauto.
  - cbn [mp_rd_views] in R. destruct (rd_view (ms_buf v) w) as [k| | |] eqn:RV; cbn [bind] in R; try discriminate.
    destruct (mp_rd_views (ms_buf v) ws) as [ks'| | |] eqn:RS; cbn [bind] in R; try discriminate. injection R as <-.
    cbn [nloop]. rewrite E1. cbn [bind]. rewrite E2. cbn [bind]. rewrite E3. cbn [bind]. rewrite E5. cbn [bind]. rewrite E6. cbn [bind].
    rewrite (key_is_view kd w k key E4) by (rewrite (first_bufs _ _ _ E3), (sub_bufs _ _ _ E1); exact RV). cbn [bind existsb]. rewrite (beq_sym key k).
    destruct (beq k key); cbn [bind orb]; [|exact (IH ks' eq_refl)]. unfold first. destruct (vsz <=? ms_len vspan); cbn [bind]; [left; eauto|now right].
Qed.

Theorem msgpack_lookups v ks key : r_mapKeys mp_reader v = Ok ks ->
  r_contains mp_reader v key = Ok (existsb (beq key) ks) /\
  (if existsb (beq key) ks then (exists c, r_key mp_reader v key = Ok c) \/ r_key mp_reader v key = UB else r_key mp_reader v key = Throw EDeser).
Proof.
  cbn [mp_reader r_mapKeys r_contains r_key]. unfold mp_keys, mp_contains, mp_key. intros H.
  destruct (mp_is k_map v) as [m| | |]; cbn [bind] in H; try discriminate. destruct m; [|discriminate]. cbn [require bind negb] in *.
  destruct (map_info v) as [[n off0]| | |] eqn:MI; cbn [bind] in H; try discriminate.
  unfold skip_pairs in H. rewrite !zloop_nloop in H. cbn [bind].
  destruct (nloop (R := unit) (Z.to_nat n) _ off0) as [[e|[]]| | |] eqn:SP in H; cbn [bind] in H; try discriminate.
  assert (N : 0 <= n).
  { destruct (Z_lt_le_dec n 0) as [L|]; [|assumption]. rewrite zloop_nloop in H. replace (Z.to_nat (n + 1)) with 0%nat in H by lia. discriminate H. }
  rewrite zloop_nloop in H.
  replace (Z.to_nat (n + 1)) with (Datatypes.S (Z.to_nat n)) in H by lia.
  destruct (nloop (Datatypes.S (Z.to_nat n)) _ _) as [[r|r]| | |] eqn:KE in H; cbn [bind] in H; try discriminate.
  destruct (keys_ents v n e (Z.to_nat n) 0 off0 [] r ltac:(lia) KE SP) as (ws & -> & EN). cbn [rev app] in H.
  destruct (contains_ents v key _ _ _ EN ks H) as (x & X & C). rewrite !zloop_nloop. rewrite X. cbn [bind]. split.
  - destruct x; [now rewrite C|]. destruct C as (-> & ->). reflexivity.
  - pose proof (key_ents v key _ _ _ EN ks H) as K. cbv zeta in K. destruct (existsb (beq key) ks).
    + destruct K as [(c & ->)| ->]; cbn [bind]; eauto.
    + destruct K as (o & ->). reflexivity.
Qed.
