(** MeanZera.v -- what a ZERA view says is what its ValueRef stands for. *)

From Coq Require Import ZArith List Bool Lia ZifyBool ZifyNat.
From Verif Require Import Base BaseFacts Spec SpecFacts ZeraModel ZeraSpec ZeraFacts ZeraRep ZeraSafe ZeraArb TransSpec SaysSpec SaysFacts MeanFacts MeanZSpec.
Import ListNotations.
Open Scope Z_scope.

Lemma u32_slice b o n p : 0 <= o -> 0 <= p -> p + 4 <= n -> u32_at (slice b o n) p = u32_at b (o + p).
Proof. intros. unfold u32_at. now rewrite slice_slice by lia. Qed.
Lemma u16_slice b o n p : 0 <= o -> 0 <= p -> p + 2 <= n -> u16_at (slice b o n) p = u16_at b (o + p).
Proof. intros. unfold u16_at. now rewrite slice_slice by lia. Qed.

Section View.
  Context (v : zview) (p : Z).
  Hypothesis W : wfv v.
  Hypothesis SE : small_env v.
  Hypothesis VR : zv_vr v = Some (20 + p).
  Hypothesis P0 : 0 <= p.
  Let env := slice (zv_buf v) 20 (zv_env_size v).
  Let arena := slice (zv_buf v) (zv_arena v) (zv_arena_len v).
  Let INB : 20 + zv_env_size v <= zlen (zv_buf v).
  Proof. destruct (wf_env v W) as [H|H]; [exact H|congruence]. Qed.
  Lemma env_len : zlen env = zv_env_size v.
  Proof. unfold env. pose proof (wf_env0 v W). rewrite zlen_slice; lia. Qed.
  Lemma arena_len : zlen arena = zv_arena_len v.
  Proof. unfold arena. destruct W. rewrite zlen_slice; lia. Qed.

  Lemma vr_out : zv_env_size v < p + 16 -> require_vr v = Throw EDeser.
  Proof. intros L. unfold require_vr. rewrite VR. unfold HeaderSize. replace ((20 <=? 20 + p) && (20 + p + 16 <=? 20 + zv_env_size v)) with false by lia. reflexivity. Qed.
  Lemma vr_in : p + 16 <= zv_env_size v -> require_vr v = Ok (20 + p).
  Proof. intros L. unfold require_vr. rewrite VR. unfold HeaderSize. replace ((20 <=? 20 + p) && (20 + p + 16 <=? 20 + zv_env_size v)) with true by lia. reflexivity. Qed.

  Section In.
    Hypothesis L : p + 16 <= zv_env_size v.
    Let R := vr_in L.
    Lemma tag_flags : exists t f, slice env p 2 = [t; f] /\ slice env p 1 = [t] /\ zv_tag v = Ok t /\ zv_flags v = Ok f /\ is_byte t /\ is_byte f.
    Proof.
      destruct (rd_in (zv_buf v) (20 + p) ltac:(lia)) as [t E0]. destruct (rd_in (zv_buf v) (20 + p + 1) ltac:(lia)) as [f E1].
      exists t, f. pose proof (wf_bytes v W) as WB. unfold env. rewrite !slice_slice by lia. split; [exact (slice2 _ _ _ _ WB E0 E1)|]. split; [exact (has_slice _ _ _ (has_intro1 _ _ _ E0))|].
      unfold zv_tag, zv_flags. rewrite R. cbn [bind]. eauto 10 using rd_byte.
    Qed.
    Lemma aux_val : zv_aux v = Ok (u16_at env (p + 2)) /\ 0 <= u16_at env (p + 2) < 2^16.
    Proof. unfold zv_aux. rewrite R. cbn [bind]. unfold env. rewrite u16_slice by lia. replace (20 + p + 2) with (20 + (p + 2)) by lia. apply read_u16_val; [apply W|lia..]. Qed.
    Lemma a_val : zv_a v = Ok (u32_at env (p + 4)) /\ 0 <= u32_at env (p + 4) < 2^32.
    Proof. unfold zv_a. rewrite R. cbn [bind]. unfold env. rewrite u32_slice by lia. replace (20 + p + 4) with (20 + (p + 4)) by lia. apply read_u32_val; [apply W|lia..]. Qed.
    Lemma b_val : zv_b v = Ok (u32_at env (p + 8)) /\ 0 <= u32_at env (p + 8) < 2^32.
    Proof. unfold zv_b. rewrite R. cbn [bind]. unfold env. rewrite u32_slice by lia. replace (20 + p + 8) with (20 + (p + 8)) by lia. apply read_u32_val; [apply W|lia..]. Qed.
    Lemma c_val : zv_c v = Ok (u32_at env (p + 12)) /\ 0 <= u32_at env (p + 12) < 2^32.
    Proof. unfold zv_c. rewrite R. cbn [bind]. unfold env. rewrite u32_slice by lia. replace (20 + p + 12) with (20 + (p + 12)) by lia. apply read_u32_val; [apply W|lia..]. Qed.
    Lemma bits_val : zv_bits v = Ok (le_val (slice env (p + 4) 8)) /\ 0 <= le_val (slice env (p + 4) 8) < 2^64.
    Proof. unfold env. rewrite slice_slice by lia. replace (20 + (p + 4)) with (20 + p + 4) by lia. exact (zv_bits_val v (20 + p) W R). Qed.

    (** Type questions *)
    Lemma yes_iff t n : zv_tag v = Ok t -> first_yes zera_reader v n <->
      first_true [t =? 0; t =? 1; t =? 2; t =? 8; t =? 3; t =? 4; (t =? 7) && (u16_at env (p + 2) =? 2); t =? 6; t =? 5] = Some n.
    Proof.
      intros T. apply yes_list. unfold questions. cbn [zera_reader r_isNull r_isBool r_isInt r_isUInt r_isFloat r_isString r_isBlob r_isMap r_isArray].
      assert (Q : forall k, zv_is k v = Ok (t =? k)) by (intros; unfold zv_is; now rewrite T).
      do 6 (apply Forall2_cons; [apply Q|]). apply Forall2_cons; [|apply Forall2_cons; [apply Q|apply Forall2_cons; [apply Q|apply Forall2_nil]]]. destruct aux_val as [A _]. unfold zv_isBlob. rewrite T, A. cbn [bind]. unfold TTyped, DT_U8. destruct (t =? 7); reflexivity.
    Qed.
    Lemma flags_iff t f : zv_tag v = Ok t -> zv_flags v = Ok f -> require_flags_ok v = if (if t =? 4 then Z.land f 254 =? 0 else f =? 0) then Ok tt else Throw EDeser.
    Proof. intros T F. unfold require_flags_ok. rewrite T, F. cbn [bind]. unfold TString, require. destruct (t =? 4); reflexivity. Qed.
  End In.
End View.

Lemma yes_tag t c n : first_true [t =? 0; t =? 1; t =? 2; t =? 8; t =? 3; t =? 4; (t =? 7) && c; t =? 6; t =? 5] = Some n <->
  match n with 0%nat => t = 0 | 1%nat => t = 1 | 2%nat => t = 2 | 3%nat => t = 8 | 4%nat => t = 3 | 5%nat => t = 4 | 6%nat => t = 7 /\ c = true | 7%nat => t = 6 | 8%nat => t = 5 | _ => False end.
Proof.
  assert (X : forall k : Z, t = k \/ t <> k) by (intros; lia).
  destruct (X 0) as [-> |N0]; [|destruct (X 1) as [-> |N1]; [|destruct (X 2) as [-> |N2]; [|destruct (X 8) as [-> |N3]; [|destruct (X 3) as [-> |N4]; [|destruct (X 4) as [-> |N5]; [|destruct (X 7) as [-> |N6]; [|destruct (X 6) as [-> |N7]; [|destruct (X 5) as [-> |N8]]]]]]]]].
  7: destruct c.
  11: replace (t =? 0) with false by lia; replace (t =? 1) with false by lia; replace (t =? 2) with false by lia; replace (t =? 8) with false by lia; replace (t =? 3) with false by lia;
      replace (t =? 4) with false by lia; replace (t =? 7) with false by lia; replace (t =? 6) with false by lia; replace (t =? 5) with false by lia.
  all: cbn; split; intros H; [try discriminate H; try (injection H as <-); auto|do 9 (destruct n as [|n]; [try (exfalso; lia); try reflexivity; try (destruct H; discriminate)|]); destruct n; contradiction].
Qed.

Notation env_of v := (slice (zv_buf v) 20 (zv_env_size v)).
Notation arena_of v := (slice (zv_buf v) (zv_arena v) (zv_arena_len v)).

Lemma ok_iff {A} (x y : A) : Ok x = Ok y <-> x = y.
Proof. split; congruence. Qed.
Lemma require_ok {A} (c : bool) e (k : res A) r : (require c e ;;; k) = Ok r <-> c = true /\ k = Ok r.
Proof. destruct c; cbn [require bind]; split; try tauto; try discriminate; intros [H _]; discriminate H. Qed.
Lemma two_iff (a b c d : Z) : [a; b] = [c; d] <-> a = c /\ b = d.
Proof. split; [intros [= -> ->]; auto|intros [-> ->]; reflexivity]. Qed.
Lemma land254 f : is_byte f -> (Z.land f 254 =? 0) = (f <=? 1).
Proof. intros H. apply eqb_prop. apply (forall_upto (fun f => eqb (Z.land f 254 =? 0) (f <=? 1)) 256); [vm_compute; reflexivity|unfold is_byte in *; lia]. Qed.

Section Cases.
  Context (v : zview) (p t f : Z).
  Hypothesis W : wfv v.
  Hypothesis SE : small_env v.
  Hypothesis VR : zv_vr v = Some (20 + p).
  Hypothesis P0 : 0 <= p.
  Hypothesis L : p + 16 <= zv_env_size v.
  Hypothesis T : zv_tag v = Ok t.
  Hypothesis F : zv_flags v = Ok f.
  Hypothesis BF : is_byte f.
  Local Notation env := (env_of v).
  Local Notation arena := (arena_of v).
  Local Notation aux := (u16_at env (p + 2)).
  Local Notation a := (u32_at env (p + 4)).
  Local Notation b := (u32_at env (p + 8)).
  Local Notation c := (u32_at env (p + 12)).
  Let INB : 20 + zv_env_size v <= zlen (zv_buf v).
  Proof. destruct (wf_env v W) as [H|H]; [exact H|congruence]. Qed.

  Lemma FL k : t = k -> k <> 4 -> require_flags_ok v = if f =? 0 then Ok tt else Throw EDeser.
  Proof. intros -> N. rewrite (flags_iff v k f T F). replace (k =? 4) with false by lia. reflexivity. Qed.
  Lemma bool_iff x : t = 1 -> zv_asBool v = Ok x <-> f = 0 /\ aux = (if x then 1 else 0).
  Proof.
    intros E. unfold zv_asBool. rewrite T, (FL 1 E ltac:(lia)), (proj1 (aux_val v p W VR P0 L)). cbn [bind]. rewrite E. change (1 =? TBool) with true. cbn [require bind].
    destruct (f =? 0) eqn:F0; cbn [bind]; [|split; [discriminate|lia]]. rewrite require_ok, ok_iff. destruct x; lia.
  Qed.
  Local Notation u := (le_val (slice env (p + 4) 8)).
  Lemma bits_in : zv_bits v = Ok u /\ 0 <= u < 2^64.
  Proof. exact (bits_val v p W VR P0 L). Qed.
  Lemma int_iff x : t = 2 -> zv_asInt I64 v = Ok x <-> f = 0 /\ x = if u <? 2^63 then u else u - 2^64.
  Proof.
    intros E. destruct bits_in as [B R]. unfold zv_asInt, zv_asInt64. rewrite T, (FL 2 E ltac:(lia)), B. cbn [bind]. rewrite E. change ((2 =? TI64) || (2 =? TU64)) with true. change (2 =? TU64) with false. cbn [require bind].
    destruct (f =? 0) eqn:F0; cbn [bind]; [|split; [discriminate|lia]]. rewrite ok_iff, to_signed64 by exact R. lia.
  Qed.
  Lemma uint_iff x : t = 8 -> zv_asUInt I64 v = Ok x <-> f = 0 /\ x = u.
  Proof.
    intros E. destruct bits_in as [B R]. unfold zv_asUInt, zv_asUInt64. rewrite T, (FL 8 E ltac:(lia)), B. cbn [bind]. rewrite E. change ((8 =? TU64) || (8 =? TI64)) with true. change (8 =? TI64) with false. cbn [require bind].
    destruct (f =? 0) eqn:F0; cbn [bind]; [|split; [discriminate|lia]]. rewrite ok_iff. lia.
  Qed.
  Lemma dbl_iff x : t = 3 -> zv_asDouble v = Ok x <-> f = 0 /\ x = u.
  Proof.
    intros E. destruct bits_in as [B R]. unfold zv_asDouble. rewrite T, (FL 3 E ltac:(lia)), B. cbn [bind]. rewrite E. change (3 =? TF64) with true. cbn [require bind].
    destruct (f =? 0) eqn:F0; cbn [bind]; [|split; [discriminate|lia]]. rewrite ok_iff. lia.
  Qed.
  Lemma arena_iff s x y : 0 <= x -> 0 <= y -> (w <- arena_view v x y ;; rd_view (zv_buf v) w) = Ok s <-> x + y <= zlen arena /\ s = slice arena x y.
  Proof.
    intros HX HY. assert (W' := W). destruct W'. rewrite zlen_slice by lia. destruct (Z.le_gt_cases (x + y) (zv_arena_len v)) as [LE|GT].
    - rewrite arena_view_ok by lia. cbn [bind]. rewrite rd_view_in by (unfold view_in; cbn [fst snd]; lia). cbn [fst snd]. rewrite ok_iff, slice_slice by lia. split; [intros <-; split; [lia|reflexivity]|intros [_ ->]; reflexivity].
    - unfold arena_view. replace (x + y <=? zv_arena_len v) with false by lia. cbn [require]. destruct (x <=? _), (y <=? _); cbn [require bind]; (split; [discriminate|lia]).
  Qed.
  Lemma str_iff s : t = 4 -> r_asStringView zera_reader v = Ok s <-> f = 1 /\ aux <= 12 /\ s = slice env (p + 4) aux \/ f = 0 /\ a + b <= zlen arena /\ s = slice arena a b.
  Proof.
    intros E. cbn [r_asStringView zera_reader]. unfold zv_asStringView. rewrite T, (flags_iff v t f T F), F, E. cbn [bind]. change (4 =? TString) with true. change (4 =? 4) with true. cbn [require bind].
    rewrite land254 by exact BF. unfold is_byte in BF. destruct (f <=? 1) eqn:F1; cbn [bind]; [|split; [discriminate|lia]].
    destruct (aux_val v p W VR P0 L) as [AX AR]. destruct (a_val v p W VR P0 L) as [EA RA]. destruct (b_val v p W VR P0 L) as [EB RB].
    assert (FF : f = 0 \/ f = 1) by lia. destruct FF as [E0|E0]; rewrite E0.
    - change (negb (Z.land 0 1 =? 0)) with false. cbn [negb]. rewrite EA, EB. cbn [bind]. rewrite arena_iff by lia. clear. intuition lia.
    - change (negb (Z.land 1 1 =? 0)) with true. cbn [negb]. rewrite AX. cbn [bind]. unfold InlineMax. destruct (aux <=? 12) eqn:A12; cbn [require bind]; [|split; [discriminate|lia]].
      unfold inline_bytes_view, InlineMax. rewrite A12. cbn [require bind]. rewrite (vr_in v p VR P0 L). cbn [bind]. rewrite rd_view_in by (unfold view_in; cbn [fst snd]; lia). cbn [fst snd].
      rewrite ok_iff, (slice_slice (zv_buf v)) by lia. replace (20 + (p + 4)) with (20 + p + 4) by lia. split; [intros <-; left; split; [reflexivity|]; split; [lia|reflexivity]|]. intros [(_ & _ & ->)|(D & _)]; [reflexivity|lia].
  Qed.
  Lemma env_iff o n r : 0 <= o -> 0 <= n -> env_ptr_at v o n = Ok r <-> o + n <= zv_env_size v /\ r = 20 + o.
  Proof.
    intros HO HN. unfold env_ptr_at, HeaderSize. rewrite !require_ok, ok_iff. split; [intros (_ & _ & H & <-); split; [lia|reflexivity]|intros [H ->]; repeat split; lia].
  Qed.
  Lemma bind_iff {A B} (m : res A) (k : A -> res B) r : (x <- m ;; k x) = Ok r <-> exists x, m = Ok x /\ k x = Ok r.
  Proof. destruct m; cbn [bind]; split; try discriminate; try (intros (x & D & _); discriminate D); eauto. intros (x & [= ->] & H). exact H. Qed.
  Lemma u32_iff o r : 0 <= o -> o + 4 <= zv_env_size v -> read_u32_le (zv_buf v) (20 + o) = Ok r <-> r = u32_at env o.
  Proof. intros HO HL. destruct (read_u32_val (zv_buf v) (20 + o) ltac:(apply W) ltac:(lia) ltac:(lia)) as [E _]. rewrite E, ok_iff, u32_slice by lia. split; congruence. Qed.
  Lemma u32_rng o : 0 <= o -> o + 4 <= zv_env_size v -> 0 <= u32_at env o < 2^32.
  Proof. intros HO HL. rewrite u32_slice by lia. apply (read_u32_val (zv_buf v) (20 + o)); [apply W|lia..]. Qed.
  Lemma u64_in o : 0 <= o -> o + 8 <= zv_env_size v -> read_u64_le (zv_buf v) (20 + o) = Ok (le_val (slice env o 8)).
  Proof.
    intros HO HL. unfold read_u64_le. rewrite slice_slice by lia.
    destruct (read_u32_has (zv_buf v) (20 + o)) as (x0 & x1 & x2 & x3 & H1 & B0 & B1 & B2 & B3 & E1); [apply W|lia|lia|].
    destruct (read_u32_has (zv_buf v) (20 + o + 4)) as (y0 & y1 & y2 & y3 & H2 & C0 & C1 & C2 & C3 & E2); [apply W|lia|lia|].
    rewrite E1, E2. cbn [bind].
    assert (H : has (zv_buf v) (20 + o) ([x0; x1; x2; x3] ++ [y0; y1; y2; y3])) by (rewrite has_app; split; [exact H1|exact H2]).
    pose proof (has_slice _ _ _ H) as HS. change (zlen ([x0; x1; x2; x3] ++ [y0; y1; y2; y3])) with 8 in HS.
    rewrite HS. cbn [app le_val fold_right]. unfold is_byte in *. rewrite lor_shiftl by lia. f_equal. lia.
  Qed.
  Lemma blob_iff s : t = 7 -> aux = 2 -> r_asBlob zera_reader v = Ok s <-> f = 0 /\ c + 12 <= zlen env /\ u32_at env c = 1 /\ le_val (slice env (c + 4) 8) = b /\ a + b <= zlen arena /\ s = slice arena a b.
  Proof.
    intros E A2. destruct (a_val v p W VR P0 L) as [EA RA]. destruct (b_val v p W VR P0 L) as [EB RB]. destruct (c_val v p W VR P0 L) as [EC RC].
    rewrite (env_len v p W VR). cbn [r_asBlob zera_reader]. unfold zv_asBlob, zv_isBlob. rewrite T, (FL 7 E ltac:(lia)), E, EA, EB, EC, (proj1 (aux_val v p W VR P0 L)), A2. cbn [bind]. change (7 =? TTyped) with true. change (2 =? DT_U8) with true. cbn [require bind].
    destruct (f =? 0) eqn:F0; cbn [bind]; [|split; [discriminate|lia]].
    destruct (Z.le_gt_cases (c + 4) (zv_env_size v)) as [L4|L4].
    2:{ split; [|lia]. rewrite !bind_iff. intros (w & H & _). rewrite bind_iff in H. destruct H as (r & H & _). apply env_iff in H; lia. }
    pose proof (u32_rng c ltac:(lia) L4) as RR. rewrite (proj2 (env_iff c 4 (20 + c) ltac:(lia) ltac:(lia)) (conj L4 eq_refl)). cbn [bind]. rewrite (proj2 (u32_iff c _ ltac:(lia) L4) eq_refl). cbn [bind]. unfold RankMax.
    destruct (Z.eq_dec (u32_at env c) 1) as [R1|R1].
    2:{ split; [|lia]. rewrite bind_iff. intros (w & H & _). rewrite !require_ok in H. lia. }
    rewrite R1. change (1 <=? 8) with true. change (1 =? 1) with true. change (4 + 8 * 1) with 12. cbn [require bind].
    destruct (Z.le_gt_cases (c + 12) (zv_env_size v)) as [L12|L12].
    2:{ split; [|lia]. rewrite bind_iff. intros (w & H & _). rewrite bind_iff in H. destruct H as (r & H & _). apply env_iff in H; lia. }
    rewrite (proj2 (env_iff c 12 (20 + c) ltac:(lia) ltac:(lia)) (conj L12 eq_refl)). cbn [bind]. unfold HeaderSize. replace (20 + c + 4) with (20 + (c + 4)) by lia.
    rewrite u64_in by lia. cbn [bind]. destruct (le_val (slice env (c + 4) 8) =? b) eqn:D; cbn [require bind]; [|split; [discriminate|lia]].
    rewrite arena_iff by lia. clear - L12 F0 D. intuition lia.
  Qed.
End Cases.

Lemma le_nonneg l : bytes_ok l -> 0 <= le_val l.
Proof. unfold le_val. induction l as [|x l IH]; intros H; [cbn; lia|]. apply Forall_cons_iff in H. destruct H as [B H]. specialize (IH H). unfold is_byte in B. cbn [fold_right]. lia. Qed.

(** Entries *)
Section Entries.
  Context (v : zview).
  Hypothesis W : wfv v.
  Hypothesis NV : zv_vr v <> None.
  Hypothesis SE : small_env v.
  Local Notation env := (env_of v).
  Let INB : 20 + zv_env_size v <= zlen (zv_buf v).
  Proof. destruct (wf_env v W) as [H|H]; [exact H|congruence]. Qed.
  Lemma elen : zlen env = zv_env_size v.
  Proof. pose proof (wf_env0 v W). rewrite zlen_slice; lia. Qed.
  Lemma u16_nonneg o : 0 <= u16_at env o.
  Proof. apply le_nonneg, bytes_ok_slice, bytes_ok_slice, W. Qed.
  Lemma entry_len o kl : good_entry v o kl -> 0 <= o -> kl = u16_at env o.
  Proof.
    intros (K & L & _ & _ & G) O0. specialize (G 0 1 [] ltac:(lia)). pose proof (wf_env0 v W).
    destruct (read_u16_val (zv_buf v) (20 + o) ltac:(apply W) ltac:(lia) ltac:(lia)) as [E R].
    unfold keys_body, zk_deref in G. cbn [ki_cur ki_i ki_n] in G. change HeaderSize with 20 in G. rewrite E in G. cbn [bind require Z.leb Z.compare negb] in G.
    rewrite u16_slice by lia. unfold require in G. change (1 <=? 0) with false in G. cbn [negb bind] in G.
    destruct (env_ptr_at v (wrap32 (20 + o - 20)) (4 + u16_at (zv_buf v) (20 + o) + 16)); cbn [bind] in G; try discriminate G.
    destruct (zk_incr v (mkZKit (20 + o) 0 1)); cbn [bind] in G; try discriminate G.
    match type of G with Ok (inl (_, ?x :: _)) = Ok (inl (_, ?y :: _)) => assert (snd x = snd y) by congruence end. cbn [snd] in *. congruence.
  Qed.
  Lemma good_at o : 0 <= o -> o + 4 + u16_at env o + 16 <= zv_env_size v -> good_entry v o (u16_at env o).
  Proof.
    intros O0 L. pose proof (u16_nonneg o) as U. pose proof (wf_env0 v W) as E0. unfold small_env in SE. destruct (entry_step v W NV SE o ltac:(lia)) as [(kl & G)|(_ & _ & B)].
    - now rewrite <- (entry_len o kl G O0).
    - exfalso. destruct (read_u16_val (zv_buf v) (20 + o) ltac:(apply W) ltac:(lia) ltac:(lia)) as [E R]. rewrite u16_slice in L by lia.
      refine (B 0 1 [] _ _). unfold keys_body, zk_deref, zk_incr. cbn [ki_cur ki_i ki_n]. unfold require. change (1 <=? 0) with false. cbn [negb bind]. change HeaderSize with 20. rewrite E. cbn [bind].
      replace (20 + o - 20) with o by lia. rewrite (wrap32_small o) by lia. rewrite env_ptr_ok by lia. cbn [bind]. cbv zeta. rewrite wrap32_small by lia. rewrite env_ptr_ok by lia. cbn [bind]. reflexivity.
  Qed.

  Lemma keys_entries n : forall o i N acc ks, 0 <= o <= zv_env_size v -> i + Z.of_nat n <= N ->
    (exists it, nloop n (keys_body v) (mkZKit (20 + o) i N, acc) = Ok (inl (it, ks))) <->
    exists es, obj_entries env o es /\ List.length es = n /\ ks = rev (map (fun e => (20 + (snd e - zlen (fst e)), zlen (fst e))) es) ++ acc.
  Proof.
    induction n as [|n IH]; intros o i N acc ks O0 IN; cbn [nloop].
    - split.
      + intros (it & [= _ <-]). exists []. repeat split. constructor.
      + intros ([|e es] & OE & LE & ->); [|discriminate LE]. cbn [map rev app]. eauto.
    - destruct (entry_step v W NV SE o O0) as [(kl & G)|B].
      + pose proof (entry_len o kl G (proj1 O0)) as ->. destruct G as (K & L & _ & _ & G). change HeaderSize with 20 in G. rewrite (G i N acc) by lia. cbn [bind].
        rewrite (IH (o + (4 + u16_at env o + 16)) (i + 1) N _ ks) by lia.
        assert (LS : zlen (slice env (o + 4) (u16_at env o)) = u16_at env o) by (rewrite zlen_slice; rewrite ?elen; lia).
        split.
        * intros (es & OE & LE & ->). exists ((slice env (o + 4) (u16_at env o), o + 4 + u16_at env o) :: es). split; [|split].
          -- constructor; [rewrite elen; lia|]. replace (o + 4 + u16_at env o + 16) with (o + (4 + u16_at env o + 16)) by lia. exact OE.
          -- cbn. now rewrite LE.
          -- cbn [map fst snd rev]. rewrite LS, <- app_assoc. cbn [app]. do 3 f_equal. lia.
        * intros (es & OE & LE & ->). inversion OE as [|? l LL OE']; subst; [discriminate LE|]. exists l. split; [|split].
          -- replace (o + (4 + u16_at env o + 16)) with (o + 4 + u16_at env o + 16) by lia. exact OE'.
          -- now injection LE.
          -- cbn [map fst snd rev]. rewrite LS, <- app_assoc. cbn [app]. do 3 f_equal. lia.
      + split.
        * intros (it & H). exfalso. destruct B as (_ & _ & B). specialize (B i N acc). change HeaderSize with 20 in B. destruct (keys_body v (mkZKit (20 + o) i N, acc)) as [r| | |]; cbn [bind] in H; try discriminate H. exact (B r eq_refl).
        * intros (es & OE & LE & ->). exfalso. inversion OE as [|? l LL OE']; subst; [discriminate LE|]. rewrite elen in LL. destruct (good_at o (proj1 O0) LL) as (_ & _ & _ & G & _). destruct B as (B & _ & _). specialize (G []). rewrite (B []) in G. clear - G. destruct (beq _ _); discriminate G.
  Qed.
  Lemma find_entries k es : forall o, 0 <= o <= zv_env_size v -> obj_entries env o es ->
    (x <- nloop (List.length es) (key_body v k) o ;; match x with inl _ => Throw EDeser | inr r => Ok r end) =
    match find (fun e => beq (fst e) k) es with Some e => Ok (zv_child v (20 + snd e)) | None => Throw EDeser end.
  Proof.
    induction es as [|e es IH]; intros o O0 OE; [reflexivity|]. inversion OE as [|? l LL OE']; subst. rewrite elen in LL. pose proof (u16_nonneg o) as U.
    destruct (good_at o (proj1 O0) LL) as (_ & _ & _ & G & _). change HeaderSize with 20 in G. cbn [List.length nloop find fst snd]. rewrite G.
    assert (NM : name v (20 + o + 4, u16_at env o) = slice env (o + 4) (u16_at env o)) by (unfold name; cbn [fst snd]; rewrite slice_slice by lia; f_equal; lia).
    rewrite NM, beq_sym. cbn [bind]. destruct (beq _ k); [reflexivity|]. replace (o + (4 + u16_at env o + 16)) with (o + 4 + u16_at env o + 16) by lia. apply IH; [lia|exact OE'].
  Qed.
  Lemma entries_in es : forall o, 0 <= o -> obj_entries env o es -> Forall (fun e => 0 <= snd e - zlen (fst e) /\ snd e + 16 <= zv_env_size v /\ fst e = slice env (snd e - zlen (fst e)) (zlen (fst e))) es.
  Proof.
    induction es as [|e es IH]; intros o O0 OE; [constructor|]. inversion OE as [|? l LL OE']; subst. rewrite elen in LL. pose proof (u16_nonneg o) as U. constructor; [|refine (IH _ _ OE'); lia].
    cbn [fst snd]. rewrite zlen_slice by (rewrite ?elen; lia). split; [lia|]. split; [lia|]. f_equal. lia.
  Qed.
  (** Names of the keys *)
  Lemma names_entries es o : 0 <= o -> obj_entries env o es -> rd_views (zv_buf v) (map (fun e => (20 + (snd e - zlen (fst e)), zlen (fst e))) es) = Ok (map fst es).
  Proof.
    intros O0 OE. pose proof (entries_in es o O0 OE) as F. pose proof (zlen_nonneg (A := Z)) as ZN. rewrite rd_views_in.
    - f_equal. rewrite map_map. apply map_ext_in. intros e IE. pose proof (proj1 (Forall_forall _ _) F e IE) as (A & B & C). cbn [fst snd]. specialize (ZN (fst e)). transitivity (slice env (snd e - zlen (fst e)) (zlen (fst e))); [now rewrite slice_slice by lia|symmetry; exact C].
    - apply Forall_map. eapply Forall_impl; [|exact F]. intros e (A & B & C). unfold view_in. cbn [fst snd]. specialize (ZN (fst e)). lia.
  Qed.
End Entries.

Fixpoint den_elems (env arena : bytes) (q : Z) (l : list val) : Prop :=
  match l with [] => True | y :: l' => denotes env arena q y /\ den_elems env arena (q + 16) l' end.
Fixpoint den_entries (env arena : bytes) (es : list (bytes * Z)) (l : list (bytes * val)) : Prop :=
  match l with [] => True | (k, y) :: l' => (exists e, find (fun e => beq (fst e) k) es = Some e /\ denotes env arena (snd e) y) /\ den_entries env arena es l' end.
Lemma denotes_arr env arena p l : denotes env arena p (VArr l) <-> 0 <= p /\ p + 16 <= zlen env /\
  slice env p 2 = [5; 0] /\ u32_at env (p + 4) + 4 + 16 * zlen l <= zlen env /\ u32_at env (u32_at env (p + 4)) = zlen l /\ den_elems env arena (u32_at env (p + 4) + 4) l.
Proof.
  assert (E : forall l q, (fix go q l := match l with [] => True | y :: l' => denotes env arena q y /\ go (q + 16) l' end) q l <-> den_elems env arena q l).
  { clear. induction l as [|y l IH]; intros q; cbn [den_elems]; [reflexivity|]. now rewrite IH. }
  cbn [denotes]. now rewrite E.
Qed.
Lemma denotes_map env arena p l : denotes env arena p (VMap l) <-> 0 <= p /\ p + 16 <= zlen env /\
  slice env p 2 = [6; 0] /\ u32_at env (p + 4) + 4 <= zlen env /\
  exists es, obj_entries env (u32_at env (p + 4) + 4) es /\ zlen es = u32_at env (u32_at env (p + 4)) /\ map fst l = map fst es /\ den_entries env arena es l.
Proof.
  assert (E : forall es l, (fix go l := match l with [] => True | (k, y) :: l' => (exists e, find (fun e => beq (fst e) k) es = Some e /\ denotes env arena (snd e) y) /\ go l' end) l <-> den_entries env arena es l).
  { clear. intros es l. induction l as [|[k y] l IH]; cbn [den_entries]; [reflexivity|]. now rewrite IH. }
  cbn [denotes]. split; intros (A & B & C & D & es & H1 & H2 & H3 & H4); (do 4 (split; [assumption|])); exists es; (do 3 (split; [assumption|])); apply E; exact H4.
Qed.
Lemma denotes_in env arena p x : denotes env arena p x -> 0 <= p /\ p + 16 <= zlen env.
Proof. destruct x; intros (A & B & _); auto. Qed.

Section Main.
  Context (v : zview) (p t f : Z).
  Hypothesis W : wfv v.
  Hypothesis SE : small_env v.
  Hypothesis VR : zv_vr v = Some (20 + p).
  Hypothesis P0 : 0 <= p.
  Hypothesis L : p + 16 <= zv_env_size v.
  Hypothesis T : zv_tag v = Ok t.
  Hypothesis F : zv_flags v = Ok f.
  Hypothesis BF : is_byte f.
  Local Notation env := (env_of v).
  Local Notation arena := (arena_of v).
  Local Notation a := (u32_at env (p + 4)).
  Let INB : 20 + zv_env_size v <= zlen (zv_buf v).
  Proof. destruct (wf_env v W) as [H|H]; [exact H|congruence]. Qed.
  Lemma size_iff n : t = 5 -> 0 <= n -> zv_arraySize v = Ok n <-> f = 0 /\ a + 4 + 16 * n <= zv_env_size v /\ u32_at env a = n.
  Proof.
    intros E N. destruct (a_val v p W VR P0 L) as [EA RA]. unfold zv_arraySize. rewrite T, (FL v t f T F 5 E ltac:(lia)), EA, E. cbn [bind]. change (5 =? TArray) with true. cbn [require bind].
    destruct (f =? 0) eqn:F0; cbn [bind]; [|split; [discriminate|lia]].
    destruct (Z.le_gt_cases (a + 4) (zv_env_size v)) as [L4|L4].
    2:{ split; [|lia]. rewrite bind_iff. intros (w & H & _). apply env_iff in H; lia. }
    pose proof (u32_rng v p W VR a ltac:(lia) L4) as RR. rewrite (proj2 (env_iff v a 4 (20 + a) ltac:(lia) ltac:(lia)) (conj L4 eq_refl)). cbn [bind]. rewrite (proj2 (u32_iff v p W VR a _ ltac:(lia) L4) eq_refl). cbn [bind].
    rewrite bind_iff. split.
    - intros (w & H & [= <-]). apply env_iff in H; lia.
    - intros (_ & H & <-). eexists. split; [apply env_iff; [lia|lia|]; split; [lia|reflexivity]|reflexivity].
  Qed.
  Lemma idx_at n i : t = 5 -> zv_arraySize v = Ok n -> 0 <= i < n -> zv_idx v i = Ok (zv_child v (20 + (a + 4 + 16 * i))).
  Proof.
    intros E S I. apply size_iff in S; [|exact E|lia]. destruct S as (F0 & S & N). destruct (a_val v p W VR P0 L) as [EA RA]. pose proof (wf_env0 v W). assert (L4 : a + 4 <= zv_env_size v) by lia.
    unfold zv_idx. rewrite T, (FL v t f T F 5 E ltac:(lia)), EA, E, F0. cbn [bind]. change (5 =? TArray) with true. change (0 =? 0) with true. cbn [require bind].
    rewrite (proj2 (env_iff v a 4 (20 + a) ltac:(lia) ltac:(lia)) (conj L4 eq_refl)). cbn [bind]. rewrite (proj2 (u32_iff v p W VR a _ ltac:(lia) L4) eq_refl). cbn [bind].
    unfold require. replace (i <? u32_at env a) with true by lia. cbn [bind]. rewrite wrap32_small by lia. rewrite env_ptr_ok by lia. cbn [bind]. reflexivity.
  Qed.
  Lemma hdr_iff r : t = 6 -> obj_hdr v = Ok r <-> f = 0 /\ a + 4 <= zv_env_size v /\ r = (u32_at env a, a + 4).
  Proof.
    intros E. destruct (a_val v p W VR P0 L) as [EA RA]. unfold obj_hdr. rewrite (FL v t f T F 6 E ltac:(lia)), EA. cbn [bind].
    destruct (f =? 0) eqn:F0; cbn [bind]; [|split; [discriminate|lia]].
    destruct (Z.le_gt_cases (a + 4) (zv_env_size v)) as [L4|L4].
    2:{ split; [|lia]. rewrite bind_iff. intros (w & H & _). apply env_iff in H; lia. }
    rewrite (proj2 (env_iff v a 4 (20 + a) ltac:(lia) ltac:(lia)) (conj L4 eq_refl)). cbn [bind]. rewrite (proj2 (u32_iff v p W VR a _ ltac:(lia) L4) eq_refl). cbn [bind].
    rewrite ok_iff. split; [intros <-; split; [lia|]; split; [lia|reflexivity]|intros (_ & _ & ->); reflexivity].
  Qed.
  Let NV : zv_vr v <> None.
  Proof. congruence. Qed.
  Lemma keys_iff ks : t = 6 -> r_mapKeys zera_reader v = Ok ks <->
    f = 0 /\ a + 4 <= zv_env_size v /\ exists es, obj_entries env (a + 4) es /\ zlen es = u32_at env a /\ ks = map fst es.
  Proof.
    intros E. cbn [r_mapKeys zera_reader]. rewrite keys_eq by exact W. rewrite T, E. cbn [bind]. change (6 =? TObject) with true. cbv iota. destruct (a_val v p W VR P0 L) as [EA RA].
    destruct (obj_hdr v) as [h| | |] eqn:H; cbn [bind].
    2-4: split; [discriminate|]; intros (F0 & L4 & _); pose proof (proj2 (hdr_iff (u32_at env a, a + 4) E)) as X; rewrite H in X; discriminate (X (conj F0 (conj L4 eq_refl))).
    apply hdr_iff in H; [|exact E]. destruct H as (F0 & L4 & ->). cbn [fst snd]. change HeaderSize with 20. pose proof (u32_rng v p W VR a ltac:(lia) L4) as RR.
    assert (K := fun ks' => keys_entries v W NV SE (Z.to_nat (u32_at env a)) (a + 4) 0 (u32_at env a) [] ks' ltac:(lia) ltac:(lia)).
    split.
    - intros H. split; [exact F0|]. split; [exact L4|]. destruct (nloop _ _ _) as [[[it acc]|[]]| | |] eqn:N; cbn [bind] in H; try discriminate H.
      + destruct (proj1 (K acc)) as (es & OE & LE & ->); [eauto|]. rewrite app_nil_r, rev_involutive in H. rewrite (names_entries v W NV es (a + 4)) in H by (try exact OE; lia). injection H as <-.
        exists es. split; [exact OE|]. split; [unfold zlen; lia|reflexivity].
      + exfalso. clear - N. revert N. generalize (mkZKit (20 + (a + 4)) 0 (u32_at env a), @nil view). generalize (Z.to_nat (u32_at env a)). intros n. induction n as [|n IH]; intros s; cbn [nloop]; [discriminate|].
        unfold keys_body at 1. destruct s as [it acc]. destruct (zk_deref v it); cbn [bind]; try discriminate. destruct (zk_incr v it); cbn [bind]; try discriminate. apply IH.
    - intros (_ & _ & es & OE & LE & ->). destruct (proj2 (K (rev (map (fun e => (20 + (snd e - zlen (fst e)), zlen (fst e))) es) ++ []))) as (it & ->).
      { exists es. split; [exact OE|]. split; [unfold zlen in LE; lia|reflexivity]. }
      cbn [bind]. rewrite app_nil_r, rev_involutive. apply (names_entries v W NV es (a + 4)); [lia|exact OE].
  Qed.
  Lemma key_at es k : t = 6 -> f = 0 -> a + 4 <= zv_env_size v -> obj_entries env (a + 4) es -> zlen es = u32_at env a ->
    zv_key v k = match find (fun e => beq (fst e) k) es with Some e => Ok (zv_child v (20 + snd e)) | None => Throw EDeser end.
  Proof.
    intros E F0 L4 OE LE. destruct (a_val v p W VR P0 L) as [EA RA]. rewrite key_eq by exact W. rewrite T, E. cbn [bind]. change (6 =? TObject) with true. cbv iota.
    rewrite (proj2 (hdr_iff (u32_at env a, a + 4) E) (conj F0 (conj L4 eq_refl))). cbn [bind fst snd]. rewrite <- (find_entries v W NV SE k es (a + 4)) by (try exact OE; lia).
    rewrite <- LE. unfold zlen. now rewrite Nat2Z.id.
  Qed.
End Main.

Lemma says_nothing v x : require_vr v = Throw EDeser -> ~ says zera_reader v x.
Proof.
  intros R SY. apply says_rank in SY. assert (Q : zv_is TNull v = Throw EDeser) by (unfold zv_is, zv_tag; now rewrite R).
  destruct SY as [(q & E & Y) N]. destruct (rank x) as [|n].
  - injection E as <-. cbn [zera_reader r_isNull] in Y. congruence.
  - specialize (N 0%nat _ ltac:(lia) eq_refl). cbn [zera_reader r_isNull] in N. congruence.
Qed.

Theorem zera_says : forall x v p, wfv v -> small_env v -> zv_vr v = Some (20 + p) -> 0 <= p -> says zera_reader v x <-> denotes (env_of v) (arena_of v) p x.
Proof.
  assert (OUT : forall v p x, wfv v -> zv_vr v = Some (20 + p) -> zv_env_size v < p + 16 -> says zera_reader v x <-> denotes (env_of v) (arena_of v) p x).
  { intros v p x W VR LT. pose proof (env_len v p W VR) as EL. split; [|intros D; apply denotes_in in D; lia]. intros SY. exfalso. exact (says_nothing v x (vr_out v p VR LT) SY). }
  assert (K : forall v p, wfv v -> small_env v -> zv_vr v = Some (20 + p) -> 0 <= p -> p + 16 <= zv_env_size v -> exists t f,
    slice (env_of v) p 2 = [t; f] /\ slice (env_of v) p 1 = [t] /\ zv_tag v = Ok t /\ zv_flags v = Ok f /\ is_byte f /\
    forall n, first_yes zera_reader v n <-> match n with 0%nat => t = 0 | 1%nat => t = 1 | 2%nat => t = 2 | 3%nat => t = 8 | 4%nat => t = 3 | 5%nat => t = 4 | 6%nat => t = 7 /\ (u16_at (env_of v) (p + 2) =? 2) = true | 7%nat => t = 6 | 8%nat => t = 5 | _ => False end).
  { intros v p W SE VR P0 LE. destruct (tag_flags v p W VR P0 LE) as (t & f & S2 & S1 & T & F & BT & BF). exists t, f. repeat (split; [assumption|]). intros n. rewrite (yes_iff v p W VR P0 LE t n T). apply yes_tag. }
  induction x as [|x|x|x|x|x|x|l IH|l IH] using val_ind'; intros v p W SE VR P0; (destruct (Z.le_gt_cases (p + 16) (zv_env_size v)) as [LE|LT]; [|exact (OUT v p _ W VR LT)]);
    pose proof (env_len v p W VR) as EL; destruct (K v p W SE VR P0 LE) as (t & f & S2 & S1 & T & F & BF & Y).
  - cbn [says denotes]. rewrite Y, S1, EL. split; [intros ->; auto|]. intros (_ & _ & [= ->]). reflexivity.
  - cbn [says denotes zera_reader r_asBool]. rewrite (Y 1%nat), S2, EL, two_iff. split.
    + intros [E H]. apply (bool_iff v p t f W VR P0 LE T F x E) in H. tauto.
    + intros (_ & _ & [E F0] & H). split; [exact E|]. apply (bool_iff v p t f W VR P0 LE T F x E). tauto.
  - cbn [says denotes zera_reader r_asInt]. rewrite (Y 2%nat), S2, EL, two_iff. split.
    + intros [E H]. apply (int_iff v p t f W VR P0 LE T F x E) in H. tauto.
    + intros (_ & _ & [E F0] & H). split; [exact E|]. apply (int_iff v p t f W VR P0 LE T F x E). tauto.
  - cbn [says denotes zera_reader r_asUInt]. rewrite (Y 3%nat), S2, EL, two_iff. split.
    + intros [E H]. apply (uint_iff v p t f W VR P0 LE T F x E) in H. tauto.
    + intros (_ & _ & [E F0] & H). split; [exact E|]. apply (uint_iff v p t f W VR P0 LE T F x E). tauto.
  - cbn [says denotes zera_reader r_asDouble]. rewrite (Y 4%nat), S2, EL, two_iff. split.
    + intros [E H]. apply (dbl_iff v p t f W VR P0 LE T F x E) in H. tauto.
    + intros (_ & _ & [E F0] & H). split; [exact E|]. apply (dbl_iff v p t f W VR P0 LE T F x E). tauto.
  - cbn [says denotes]. rewrite (Y 5%nat), S2, EL, !two_iff. split.
    + intros [E H]. apply (str_iff v p t f W VR P0 LE T F BF x E) in H. tauto.
    + intros (_ & _ & H). assert (E : t = 4) by tauto. split; [exact E|]. apply (str_iff v p t f W VR P0 LE T F BF x E). tauto.
  - cbn [says denotes]. rewrite (Y 6%nat), S2, two_iff, Z.eqb_eq. split.
    + intros [[E A] H]. apply (blob_iff v p t f W VR P0 LE T F x E A) in H. rewrite EL in *. tauto.
    + intros (_ & _ & [E F0] & A & H). split; [tauto|]. apply (blob_iff v p t f W VR P0 LE T F x E A). tauto.
  - rewrite says_arr, denotes_arr, (Y 8%nat), S2, EL, two_iff. cbn [r_arraySize zera_reader].
    assert (EQ : t = 5 -> forall n l' i, zv_arraySize v = Ok n -> 0 <= i -> i + zlen l' <= n -> Forall (fun x => forall v p, wfv v -> small_env v -> zv_vr v = Some (20 + p) -> 0 <= p -> says zera_reader v x <-> denotes (env_of v) (arena_of v) p x) l' ->
      says_elems zera_reader v i l' <-> den_elems (env_of v) (arena_of v) (u32_at (env_of v) (p + 4) + 4 + 16 * i) l').
    { intros E n l'. induction l' as [|y l' IHl]; intros i S I0 IN FA; cbn [says_elems den_elems]; [reflexivity|]. unfold zlen in IN. cbn [List.length] in IN. apply Forall_cons_iff in FA. destruct FA as [FY FA].
      cbn [r_idx zera_reader]. rewrite (idx_at v p t f W VR P0 LE T F n i E S) by lia. rewrite (IHl (i + 1) S) by (try exact FA; unfold zlen; lia).
      destruct (a_val v p W VR P0 LE) as [_ RA]. set (q := u32_at (env_of v) (p + 4) + 4 + 16 * i) in *. replace (u32_at (env_of v) (p + 4) + 4 + 16 * (i + 1)) with (q + 16) by lia.
      pose proof (FY (zv_child v (20 + q)) q (wfv_child v W _ ltac:(congruence)) SE eq_refl ltac:(lia)) as B. cbn [zv_child zv_buf zv_env_size zv_arena zv_arena_len] in B. rewrite <- B.
      split; intros [H1 H2]; (split; [|exact H2]); [destruct H1 as (w & [= <-] & H); exact H|eauto]. }
    pose proof (zlen_nonneg l) as ZL. split.
    + intros (E & S & H). pose proof S as S'. apply (size_iff v p t f W VR P0 LE T F (zlen l) E ZL) in S'. destruct S' as (F0 & LA & N). repeat split; try assumption. rewrite (EQ E _ l 0 S ltac:(lia) ltac:(lia) IH) in H. rewrite Z.mul_0_r, Z.add_0_r in H. exact H.
    + intros (_ & _ & [E F0] & LA & N & H). assert (S : zv_arraySize v = Ok (zlen l)) by (apply (size_iff v p t f W VR P0 LE T F (zlen l) E ZL); auto). split; [exact E|]. split; [exact S|].
      apply (EQ E _ l 0 S ltac:(lia) ltac:(lia) IH). rewrite Z.mul_0_r, Z.add_0_r. exact H.
  - rewrite says_map, denotes_map, (Y 7%nat), S2, EL, two_iff.
    assert (EQ : t = 6 -> f = 0 -> u32_at (env_of v) (p + 4) + 4 <= zv_env_size v -> forall es, obj_entries (env_of v) (u32_at (env_of v) (p + 4) + 4) es -> zlen es = u32_at (env_of v) (u32_at (env_of v) (p + 4)) ->
      says_entries zera_reader v l <-> den_entries (env_of v) (arena_of v) es l).
    { intros E F0 L4 es OE LN. destruct (a_val v p W VR P0 LE) as [_ RA]. pose proof (entries_in v W ltac:(congruence) es (u32_at (env_of v) (p + 4) + 4) ltac:(lia) OE) as IN.
      induction l as [|[k y] l' IHl]; cbn [says_entries den_entries]; [reflexivity|]. apply Forall_cons_iff in IH. destruct IH as [FY FA]. rewrite (IHl FA). cbn [r_key zera_reader snd] in *.
      rewrite (key_at v p t f W SE VR P0 LE T F es k E F0 L4 OE LN). destruct (find _ es) as [e|] eqn:FE.
      - apply find_some in FE. destruct FE as [FE _]. apply (proj1 (Forall_forall _ _) IN) in FE. pose proof (zlen_nonneg (fst e)) as ZF.
        pose proof (FY (zv_child v (20 + snd e)) (snd e) (wfv_child v W _ ltac:(congruence)) SE eq_refl ltac:(lia)) as B. cbn [zv_child zv_buf zv_env_size zv_arena zv_arena_len] in B.
        split; intros [H1 H2]; (split; [|exact H2]).
        + destruct H1 as (w & [= <-] & H). exists e. split; [reflexivity|]. apply B. exact H.
        + destruct H1 as (e' & [= <-] & H). eexists. split; [reflexivity|]. apply B. exact H.
      - split; intros [(w & D & _) _]; discriminate D. }
    split.
    + intros (E & S & H). apply (keys_iff v p t f W SE VR P0 LE T F _ E) in S. destruct S as (F0 & L4 & es & OE & LN & MP). repeat split; try assumption. exists es. repeat split; try assumption. apply (EQ E F0 L4 es OE LN). exact H.
    + intros (_ & _ & [E F0] & L4 & es & OE & LN & MP & H). split; [exact E|]. split; [apply (keys_iff v p t f W SE VR P0 LE T F _ E); eauto 10|]. apply (EQ E F0 L4 es OE LN). exact H.
Qed.

Theorem zera_iff b x : bytes_ok b -> zlen b < 2^32 - 20 -> (exists w, zera_open b = Ok w /\ says zera_reader w x) <-> zera_stands_for b x.
Proof.
  intros OK SM. destruct (open_iff b OK SM) as [Y N]. unfold zera_stands_for.
  assert (HD : header_ok b -> (exists w, zera_open b = Ok w /\ says zera_reader w x) <-> denotes (slice b 20 (u32_at b 12)) (slice b (u32_at b 16) (zlen b - u32_at b 16)) (u32_at b 8) x).
  { intros H. rewrite (Y H). pose proof (fun o => le_nonneg (slice b o 4) (bytes_ok_slice b o 4 OK)) as NN. destruct H as [H1 H2 H3 H4 H5 H6 H7 H8]. pose proof (NN 8) as N8. pose proof (NN 12) as N12. pose proof (NN 16) as N16. unfold u32_at in *.
    pose proof (zera_says x (mkZView b (le_val (slice b 12 4)) (le_val (slice b 16 4)) (zlen b - le_val (slice b 16 4)) (Some (20 + le_val (slice b 8 4)))) (le_val (slice b 8 4))) as M. cbn [zv_buf zv_env_size zv_arena zv_arena_len] in M.
    rewrite <- M; [|constructor; cbn [zv_buf zv_env_size zv_arena zv_arena_len zv_vr]; try exact OK; try lia; left; unfold HeaderSize; lia|unfold small_env; cbn [zv_env_size]; lia|reflexivity|lia].
    split; [intros (w & [= <-] & H); exact H|eauto]. }
  split.
  - intros H. assert (HH : header_ok b).
    { assert (D : header_ok b \/ ~ header_ok b).
      { destruct (zlen b <? 20) eqn:E1; [right; intros []; lia|]. destruct (list_eq_dec Z.eq_dec (slice b 0 4) [90; 69; 78; 86]) as [E2|E2]; [|right; intros []; contradiction].
        destruct ((u16_at b 4 =? 1) && (u16_at b 6 =? 1) && (u32_at b 8 + 16 <=? u32_at b 12) && (20 + u32_at b 12 <=? u32_at b 16) && (u32_at b 16 mod 16 =? 0) && (u32_at b 16 <=? zlen b)) eqn:E3.
        - left. rewrite !andb_true_iff in E3. constructor; try lia. exact E2.
        - right. intros []. rewrite !andb_false_iff in E3. lia. }
      destruct D as [D|D]; [exact D|]. exfalso. destruct H as (w & O & SY). destruct (N D) as [E|(_ & w' & E & R)]; [congruence|]. assert (w' = w) as -> by congruence. exact (says_nothing w x R SY). }
    split; [exact HH|]. now apply HD.
  - intros [HH D]. now apply HD.
Qed.
