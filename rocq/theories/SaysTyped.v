(** SaysTyped.v -- whatever the message, the answers of the library's readers have the range of their C++ types. *)

From Coq Require Import ZArith List Bool Lia ZifyBool ZifyNat.
From Verif Require Import Base BaseFacts Spec SpecFacts FloatModel FloatSpec FloatFacts HalfModel NarrowFacts SaysSpec SaysFacts.
From Verif Require ZeraModel MsgModel CborModel B64Model JsonModel FlexModel.
Import ListNotations.
Open Scope Z_scope.

(** ** Partial correctness *)
Definition gives {A} (P : A -> Prop) (m : res A) : Prop := forall a, m = Ok a -> P a.
Lemma gives_ok {A} (P : A -> Prop) a : P a -> gives P (Ok a).
Proof. intros H x E. injection E as <-. exact H. Qed.
Lemma gives_throw {A} (P : A -> Prop) e : gives P (Throw e).
Proof. intros x E. discriminate E. Qed.
Lemma gives_ub {A} (P : A -> Prop) : gives P UB.
Proof. intros x E. discriminate E. Qed.
Lemma gives_nofuel {A} (P : A -> Prop) : gives P NoFuel.
Proof. intros x E. discriminate E. Qed.
Lemma gives_any {A} (m : res A) : gives (fun _ => True) m.
Proof. intros x E. exact I. Qed.
Lemma gives_bind {A B} (P : A -> Prop) (Q : B -> Prop) m f : gives P m -> (forall a, P a -> gives Q (f a)) -> gives Q (bind m f).
Proof. intros H K. destruct m as [a|?| |]; cbn [bind]; [|intros x E; discriminate E..]. apply K, H. reflexivity. Qed.
Lemma gives_req {A} (P : A -> Prop) c e k : (c = true -> gives P k) -> gives P (require c e ;;; k).
Proof. intros H. destruct c; [now apply H|apply gives_throw]. Qed.
Lemma gives_if {A} (P : A -> Prop) (c : bool) x y : (c = true -> gives P x) -> (c = false -> gives P y) -> gives P (if c then x else y).
Proof. destruct c; auto. Qed.
Lemma gives_impl {A} (P Q : A -> Prop) m : (forall a, P a -> Q a) -> gives P m -> gives Q m.
Proof. intros H K x E. apply H, K, E. Qed.
Definition either {S R} (J : S -> Prop) (Q : R -> Prop) (x : S + R) : Prop := match x with inl s => J s | inr r => Q r end.
Lemma gives_nloop {S R} (J : S -> Prop) (Q : R -> Prop) f : (forall s, J s -> gives (either J Q) (f s)) -> forall n s, J s -> gives (either J Q) (nloop n f s).
Proof.
  intros H. induction n as [|n IH]; intros s K; cbn [nloop]; [now apply gives_ok|].
  apply (gives_bind (either J Q)); [now apply H|]. intros [s'|r] E; [now apply IH|now apply gives_ok].
Qed.
Lemma gives_zloop {S R} (J : S -> Prop) (Q : R -> Prop) f n s : (forall s, J s -> gives (either J Q) (f s)) -> J s -> gives (either J Q) (zloop n f s).
Proof. rewrite zloop_nloop. intros. now apply gives_nloop. Qed.
Lemma gives_floop {S R} (J : S -> Prop) (Q : R -> Prop) f : (forall s, J s -> gives (either J Q) (f s)) -> forall n s, J s -> gives Q (CborModel.floop n f s).
Proof.
  intros H. induction n as [|n IH]; intros s K; cbn [CborModel.floop]; [apply gives_nofuel|].
  apply (gives_bind (either J Q)); [now apply H|]. intros [s'|r] E; [now apply IH|now apply gives_ok].
Qed.
Ltac gany := eapply gives_bind; [apply gives_any|intros ? _].
Tactic Notation "gb" tactic3(t) := eapply gives_bind; [t|intros ? ?; cbv beta in *].
Ltac gstep := first
  [ match goal with
    | |- gives _ (Throw _) => apply gives_throw
    | |- gives _ UB => apply gives_ub
    | |- gives _ NoFuel => apply gives_nofuel
    | |- gives _ (bind (require _ _) _) => apply gives_req; intros ?
    | |- gives _ (if _ then _ else _) => apply gives_if; intros ?
    end ].

(** ** Bytes *)
Lemma gives_rd b p : bytes_ok b -> gives (fun x => 0 <= x < 256) (rd b p).
Proof. intros B x E. apply (rd_byte _ _ _ B) in E. exact E. Qed.
Lemma gives_view b w : bytes_ok b -> gives bytes_ok (rd_view b w).
Proof. intros B. unfold rd_view. gstep; [apply gives_ok, bytes_ok_slice, B|gstep]. Qed.
Lemma lor_hi_lo a c n : 0 <= n -> 0 <= c < 2^n -> Z.lor (Z.shiftl a n) c = a * 2^n + c.
Proof. intros. rewrite Z.lor_comm, lor_shiftl by lia. lia. Qed.
Lemma lor_bound a b n : 0 <= n -> 0 <= a < 2^n -> 0 <= b < 2^n -> 0 <= Z.lor a b < 2^n.
Proof.
  intros N A B. assert (0 <= Z.lor a b) by (apply Z.lor_nonneg; lia). split; [lia|].
  destruct (Z.eq_dec (Z.lor a b) 0) as [E|E]; [rewrite E; apply Z.pow_pos_nonneg; lia|]. apply Z.log2_lt_pow2; [lia|]. rewrite Z.log2_lor by lia.
  assert (L : forall x, 0 <= x < 2^n -> Z.log2 x < n \/ x = 0) by (intros x X; destruct (Z.eq_dec x 0); [auto|left; apply Z.log2_lt_pow2; lia]).
  pose proof (Z.log2_nonneg a). pose proof (Z.log2_nonneg b).
  destruct (L a A) as [La|La], (L b B) as [Lb|Lb]; [lia| | |].
  - rewrite Lb in *. change (Z.log2 0) with 0. lia.
  - rewrite La in *. change (Z.log2 0) with 0. lia.
  - rewrite La, Lb in E. now destruct E.
Qed.
Lemma shift_bound a k n : 0 <= k <= n -> 0 <= a < 2^(n - k) -> 0 <= Z.shiftl a k < 2^n.
Proof. intros K A. rewrite Z.shiftl_mul_pow2 by lia. replace (2^n) with (2^(n - k) * 2^k) by (rewrite <- Z.pow_add_r by lia; f_equal; lia). assert (0 < 2^k) by (apply Z.pow_pos_nonneg; lia). nia. Qed.
Lemma u64_of z : 0 <= z < 2^64 -> is_u64 z.
Proof. unfold is_u64, u64_max. lia. Qed.
Lemma signed_range n z : 0 < n <= 64 -> is_i64 (to_signed n z).
Proof.
  intros N. assert (P : 0 < 2^(n-1) <= 2^63) by (split; [apply Z.pow_pos_nonneg; lia|apply Z.pow_le_mono_r; lia]). assert (Q : 2^n = 2 * 2^(n-1)) by (rewrite <- Z.pow_succ_r by lia; f_equal; lia).
  unfold to_signed, is_i64, i64_min, i64_max. rewrite Q. pose proof (Z.mod_pos_bound z (2 * 2^(n-1)) ltac:(lia)). cbv zeta. destruct (_ <? _) eqn:E; lia.
Qed.

(** ** ZERA *)
Section Zera.
Import ZeraModel.
Variable b : bytes.
Hypothesis B : bytes_ok b.
Lemma z_u16 p : gives (fun x => 0 <= x < 2^16) (read_u16_le b p).
Proof. unfold read_u16_le. do 2 (gb exact (gives_rd b _ B)). apply gives_ok, lor_bound; [lia|lia|apply shift_bound; lia]. Qed.
Lemma z_u32 p : gives (fun x => 0 <= x < 2^32) (read_u32_le b p).
Proof. unfold read_u32_le. do 4 (gb exact (gives_rd b _ B)). apply gives_ok. repeat (apply lor_bound; [lia| |apply shift_bound; lia]). lia. Qed.
Lemma z_bits v : zv_buf v = b -> gives (fun x => 0 <= x < 2^64) (zv_bits v).
Proof.
  intros E. unfold zv_bits, zv_a, zv_b. rewrite E. gb (gany; apply z_u32). gb (gany; apply z_u32).
  apply gives_ok, lor_bound; [lia|lia|apply shift_bound; lia].
Qed.
Lemma z_views ks : gives (Forall bytes_ok) (rd_views b ks).
Proof. induction ks as [|w ks IH]; cbn [rd_views]; [now apply gives_ok|]. gb (apply gives_view, B). gb (exact IH). apply gives_ok. auto. Qed.
Lemma zera_typed v : zv_buf v = b -> typed zera_reader v.
Proof.
  intros E. unfold typed. cbn [zera_reader r_asInt r_asUInt r_asDouble r_asStringView r_asBlob r_arraySize r_mapKeys].
  repeat match goal with |- (forall z, ?m = Ok z -> @?P z) /\ _ => split; [change (gives P m)|] | |- forall z, ?m = Ok z -> @?P z => change (gives P m) end.
  - unfold zv_asInt, zv_asInt64. eapply (gives_bind is_i64); [|intros x Hx; now apply gives_ok]. gany. gstep. gany. gany. gstep; [gstep|]; apply gives_ok, signed_range; lia.
  - unfold zv_asUInt, zv_asUInt64. eapply (gives_bind is_u64); [|intros x Hx; now apply gives_ok]. gany. gstep. gany. gb (apply z_bits, E).
    gstep; [gstep|]; apply gives_ok, u64_of; [|assumption]. unfold wrap64. apply Z.mod_pos_bound. lia.
  - unfold zv_asDouble. gany. gstep. gany. eapply gives_impl; [exact u64_of|apply z_bits, E].
  - gany. rewrite E. apply gives_view, B.
  - gany. rewrite E. apply gives_view, B.
  - unfold zv_arraySize. gany. gstep. gany. gany. gany. rewrite E. gb (apply z_u32). gany. apply gives_ok. lia.
  - gany. rewrite E. apply z_views.
Qed.
Lemma zera_well_typed v : zv_buf v = b -> well_typed zera_reader v.
Proof.
  apply (well_typed_inv zera_reader (fun v => zv_buf v = b)); [exact zera_typed| |]; clear v; cbn [zera_reader r_idx r_key]; intros v.
  - intros i v' E. revert v'. change (gives (fun v' => zv_buf v' = b) (zv_idx v i)). unfold zv_idx. gany. gstep. gany. gany. gany. gany. gstep. cbv zeta. gany. apply gives_ok. exact E.
  - intros k v' E. revert v'. change (gives (fun v' => zv_buf v' = b) (zv_key v k)). unfold zv_key. gany. gstep. gany. gany. gany. gany.
    eapply gives_bind; [apply (gives_zloop (fun _ => True) (fun v' => zv_buf v' = b)); [|exact I]|intros [?|?] ?; [apply gives_throw|apply gives_ok; assumption]].
    intros s _. do 6 gany. gstep; [apply gives_ok; exact E|]. cbv zeta. gany. now apply gives_ok.
Qed.
End Zera.

(** ** MessagePack *)
Section Msg.
Import MsgModel.
Variable b : bytes.
Hypothesis B : bytes_ok b.
Ltac grd := gb (exact (gives_rd b _ B)).
Lemma m_at v i : ms_buf v = b -> gives (fun x => 0 <= x < 256) (sp_at v i).
Proof. intros E. unfold sp_at. gstep; [|gstep]. rewrite E. exact (gives_rd b _ B). Qed.
Lemma m_16 p : gives (fun x => 0 <= x < 2^16) (mp_read_be16 b p).
Proof. unfold mp_read_be16. do 2 grd. apply gives_ok, lor_bound; [lia|apply shift_bound; lia|lia]. Qed.
Lemma m_32 p : gives (fun x => 0 <= x < 2^32) (mp_read_be32 b p).
Proof. unfold mp_read_be32. do 4 grd. apply gives_ok. repeat (apply lor_bound; [lia| |first [apply shift_bound; lia|lia]]). apply shift_bound; lia. Qed.
Lemma m_64 p : gives (fun x => 0 <= x < 2^64) (mp_read_be64 b p).
Proof. unfold mp_read_be64. do 8 grd. apply gives_ok. repeat (apply lor_bound; [lia| |first [apply shift_bound; lia|lia]]). apply shift_bound; lia. Qed.
Lemma m_views ks : gives (Forall bytes_ok) (mp_rd_views b ks).
Proof. induction ks as [|w ks IH]; cbn [mp_rd_views]; [now apply gives_ok|]. gb (apply gives_view, B). gb (exact IH). apply gives_ok. auto. Qed.
Lemma i64_u n z : n <= 63 -> 0 <= z < 2^n -> is_i64 z.
Proof. intros N Z. assert (2^n <= 2^63) by (apply Z.pow_le_mono_r; lia). unfold is_i64, i64_min, i64_max. lia. Qed.
Lemma u64_u n z : n <= 64 -> 0 <= z < 2^n -> is_u64 z.
Proof. intros N Z. assert (2^n <= 2^64) by (apply Z.pow_le_mono_r; lia). apply u64_of. lia. Qed.
Lemma m_int v : ms_buf v = b -> gives is_i64 (mp_asInt64 v).
Proof.
  intros E. unfold mp_asInt64. rewrite E. gstep. gb (apply m_at, E). gstep; [apply gives_ok; unfold is_i64, i64_min, i64_max; lia|].
  gstep; [apply gives_ok, signed_range; lia|]. do 4 (gstep; [gstep; gany; apply gives_ok, signed_range; lia|]).
  gstep; [gstep; eapply gives_impl; [exact (fun z => i64_u 8 z ltac:(lia))|apply m_at, E]|].
  gstep; [gstep; eapply gives_impl; [exact (fun z => i64_u 16 z ltac:(lia))|apply m_16]|].
  gstep; [gstep; eapply gives_impl; [exact (fun z => i64_u 32 z ltac:(lia))|apply m_32]|].
  gstep; [gstep; gany; apply gives_ok, signed_range; lia|gstep].
Qed.
Lemma m_uint v : ms_buf v = b -> gives is_u64 (mp_asUInt64 v).
Proof.
  intros E. unfold mp_asUInt64. rewrite E. gstep. gb (apply m_at, E). gstep; [apply gives_ok; unfold is_u64, u64_max; lia|].
  gstep; [gstep; eapply gives_impl; [exact (fun z => u64_u 8 z ltac:(lia))|apply m_at, E]|].
  gstep; [gstep; eapply gives_impl; [exact (fun z => u64_u 16 z ltac:(lia))|apply m_16]|].
  gstep; [gstep; eapply gives_impl; [exact (fun z => u64_u 32 z ltac:(lia))|apply m_32]|].
  gstep; [gstep; eapply gives_impl; [exact u64_of|apply m_64]|].
  gany. apply gives_ok, u64_of. unfold wrap64. apply Z.mod_pos_bound. lia.
Qed.
Lemma m_arr v : ms_buf v = b -> gives (fun x => 0 <= fst x) (arr_info v).
Proof.
  intros E. unfold arr_info. rewrite E. gb (apply m_at, E). gstep; [apply gives_ok; cbn [fst]; apply Z.land_nonneg; lia|].
  gstep; [gb (apply m_16); apply gives_ok; cbn [fst]; lia|]. gstep; [gb (apply m_32); apply gives_ok; cbn [fst]; lia|gstep].
Qed.
Lemma msgpack_typed v : ms_buf v = b -> typed mp_reader v.
Proof.
  intros E. unfold typed. cbn [mp_reader r_asInt r_asUInt r_asDouble r_asStringView r_asBlob r_arraySize r_mapKeys].
  repeat match goal with |- (forall z, ?m = Ok z -> @?P z) /\ _ => split; [change (gives P m)|] | |- forall z, ?m = Ok z -> @?P z => change (gives P m) end.
  - unfold mp_asInt. gb (apply m_int, E). now apply gives_ok.
  - unfold mp_asUInt. gb (apply m_uint, E). now apply gives_ok.
  - unfold mp_asDouble. rewrite E. gany. gstep. gany. gstep; [gstep; gb (apply m_32); apply gives_ok, u64_of, widen_u64; assumption|].
    gstep; [gstep; eapply gives_impl; [exact u64_of|apply m_64]|gstep].
  - gany. rewrite E. apply gives_view, B.
  - gany. rewrite E. apply gives_view, B.
  - unfold mp_arraySize. gb (apply m_arr, E). destruct a as [n o]. now apply gives_ok.
  - gany. rewrite E. apply m_views.
Qed.
Lemma m_sub v o : ms_buf v = b -> gives (fun w => ms_buf w = b) (subspan v o).
Proof. intros E. unfold subspan. gstep; [now apply gives_ok|gstep]. Qed.
Lemma msgpack_well_typed v : ms_buf v = b -> well_typed mp_reader v.
Proof.
  apply (well_typed_inv mp_reader (fun v => ms_buf v = b)); [exact msgpack_typed| |]; clear v; cbn [mp_reader r_idx r_key]; intros v.
  - intros i v' E. revert v'. change (gives (fun v' => ms_buf v' = b) (mp_idx v i)). unfold mp_idx. gany. destruct a. gstep. gany. gany. gany. unfold subspan2. gstep; [now apply gives_ok|gstep].
  - intros k v' E. revert v'. change (gives (fun v' => ms_buf v' = b) (mp_key v k)). unfold mp_key. gany. gstep. gany. destruct a0 as [n o].
    eapply gives_bind; [apply (gives_zloop (fun _ => True) (fun v' => ms_buf v' = b)); [|exact I]|intros [?|?] ?; [apply gives_throw|apply gives_ok; assumption]].
    intros s _. do 3 gany. gb (apply m_sub, E). gany. gany. gstep; [|now apply gives_ok]. gb (unfold first; gstep; [apply gives_ok; instantiate (1 := fun v => ms_buf v = b); assumption|gstep]). now apply gives_ok.
Qed.
End Msg.

(** ** CBOR *)
Lemma half_u64 h : 0 <= f16_to_f64 h < 2^64.
Proof.
  unfold f16_to_f64, mk64. cbv zeta. pose proof (Z.mod_pos_bound (h / 2^15) 2 ltac:(lia)) as Rs. pose proof (Z.mod_pos_bound (h / 2^10) (2^5) ltac:(lia)) as Re.
  pose proof (Z.mod_pos_bound h (2^10) ltac:(lia)) as Rm. set (s := h / 2^15 mod 2) in *. set (e := h / 2^10 mod 2^5) in *. set (m := h mod 2^10) in *. clearbody s e m.
  destruct (e =? 31) eqn:E1; [destruct (m =? 0); lia|]. destruct (e =? 0) eqn:E2; [|lia]. destruct (m =? 0) eqn:E3; [lia|].
  assert (Hk : 0 <= Z.log2 m < 10) by (split; [apply Z.log2_nonneg|apply Z.log2_lt_pow2; lia]).
  pose proof (Z.log2_spec m ltac:(lia)) as Hl. set (k := Z.log2 m) in *. clearbody k. rewrite Z.pow_succ_r in Hl by lia.
  assert (P : 2^52 = 2^k * 2^(52 - k)) by (rewrite <- Z.pow_add_r by lia; f_equal; lia).
  assert (0 < 2^(52-k)) by (apply Z.pow_pos_nonneg; lia).
  assert (0 <= (m - 2^k) * 2^(52 - k) < 2^52) by (rewrite P; clear P; nia). lia.
Qed.
Section Cbor.
Import CborModel.
Variable hard : bool.
Variable b : bytes.
Hypothesis B : bytes_ok b.
Ltac grd := gb (exact (gives_rd b _ B)).
Lemma c_be n : forall p v, 0 <= v < 2^64 -> gives (fun x => 0 <= x < 2^64) (get_be b p n v).
Proof.
  induction n as [|n IH]; intros p v V; cbn [get_be]; [now apply gives_ok|]. grd. apply IH, lor_bound; [lia| |lia]. unfold wrap64. apply Z.mod_pos_bound. lia.
Qed.
Lemma c_head p : gives (fun h => 0 <= h_val h < 2^64) (read_head b p).
Proof.
  unfold read_head. gstep. grd. cbv zeta. assert (0 <= Z.land a 31 < 32) by (change 31 with (Z.ones 5); rewrite Z.land_ones by lia; apply Z.mod_pos_bound; lia).
  gstep; [repeat (gstep; try (apply gives_ok; cbn [h_val]; lia))|]. gstep; [apply gives_ok; cbn [h_val]; lia|].
  gstep; [gstep; grd; apply gives_ok; cbn [h_val]; lia|].
  do 3 (gstep; [gstep; gb (apply c_be; lia); apply gives_ok; cbn [h_val]; lia|]). gstep; [apply gives_ok; cbn [h_val]; lia|gstep].
Qed.
Lemma c_mk q n : gives bytes_ok (mk_string b q n).
Proof. unfold mk_string. gstep; [gstep|apply gives_view, B]. Qed.
Lemma c_str fuel p : gives bytes_ok (c_asString hard fuel (mkCView b p)).
Proof.
  unfold c_asString. cbn [cv_buf cv_pos]. gany. gstep. gstep; [gstep; gany; apply c_mk|].
  apply (gives_floop (fun s => bytes_ok (snd s)) bytes_ok); [|constructor]. intros [q out] Ho. cbn [snd] in Ho. unfold str_chunk. gstep. grd. gstep; [now apply gives_ok|].
  gany. gstep. cbv zeta. gstep. gany. gb (apply c_mk). apply gives_ok. cbn [either snd]. now apply bytes_ok_app.
Qed.
Lemma cbor_typed fuel v : cv_buf v = b -> typed (cbor_reader hard fuel) v.
Proof.
  intros E. unfold typed. cbn [cbor_reader r_asInt r_asUInt r_asDouble r_asStringView r_asBlob r_arraySize r_mapKeys]. destruct v as [b' p]. cbn [cv_buf] in E. subst b'.
  repeat match goal with |- (forall z, ?m = Ok z -> @?P z) /\ _ => split; [change (gives P m)|] | |- forall z, ?m = Ok z -> @?P z => change (gives P m) end.
  - unfold c_asInt, c_asInt64, chd. cbn [cv_buf cv_pos]. eapply (gives_bind is_i64); [|intros x Hx; now apply gives_ok]. gb (apply c_head). gstep.
    gstep; [apply gives_ok, signed_range; lia|]. gstep; [gstep|]. apply gives_ok. unfold is_i64, i64_min, i64_max in *. lia.
  - unfold c_asUInt, c_asUInt64, chd. cbn [cv_buf cv_pos]. eapply (gives_bind is_u64); [|intros x Hx; now apply gives_ok]. gb (apply c_head). gstep. apply gives_ok, u64_of. assumption.
  - unfold c_asDouble, chd. cbn [cv_buf cv_pos]. gany. gstep. cbv zeta. gstep; [|gstep].
    + do 2 grd. apply gives_ok, u64_of. rewrite decode_f16_spec; [apply half_u64|]. unfold wrap16. apply Z.mod_pos_bound. lia.
    + gany. apply gives_ok, u64_of, widen_u64. unfold NarrowSpec.is_f32, wrap32. apply Z.mod_pos_bound. lia.
    + eapply gives_impl; [exact u64_of|apply c_be; lia].
  - gany. apply gives_view, B.
  - gany. apply gives_view, B.
  - unfold c_arraySize, chd. cbn [cv_buf cv_pos]. gb (apply c_head). gstep. gstep; [apply gives_ok; lia|].
    apply (gives_floop (fun s => 0 <= snd s) (fun n => 0 <= n)); [|cbn [snd]; lia]. intros [q c] Hc. cbn [snd] in Hc. unfold size_step. gstep. gany. gstep; [now apply gives_ok|].
    gany. apply gives_ok. cbn [either snd]. lia.
  - unfold c_mapKeys, chd. cbn [cv_buf cv_pos]. gany. gstep. gany. gany.
    apply (gives_floop (fun s => Forall bytes_ok (snd s)) (Forall bytes_ok)); [|constructor]. intros [[q r] acc] Ha. cbn [snd] in Ha. unfold keys_step. gstep; [apply gives_ok; cbn [either]; now apply Forall_rev|].
    gb (unfold k_deref; gany; gstep; [gany; apply gives_view, B|apply c_str]). gany. apply gives_ok. cbn [either snd]. constructor; assumption.
Qed.
Lemma cbor_well_typed fuel v : cv_buf v = b -> well_typed (cbor_reader hard fuel) v.
Proof.
  apply (well_typed_inv (cbor_reader hard fuel) (fun v => cv_buf v = b)); [apply cbor_typed| |]; clear v; cbn [cbor_reader r_idx r_key]; intros v.
  - intros i v' E. revert v'. change (gives (fun v' => cv_buf v' = b) (c_idx fuel v i)). unfold c_idx. gany. gstep. cbv zeta. gstep; [gstep; [gstep|gany; now apply gives_ok]|].
    eapply gives_bind; [apply (gives_floop (fun _ => True) (fun x => match x with Some v' => cv_buf v' = b | None => True end)); [|exact I]|intros [?|] ?; [apply gives_ok; assumption|gstep]].
    intros [q j] _. unfold idx_step. gstep. gany. gstep; [now apply gives_ok|]. gstep; [now apply gives_ok|]. gany. now apply gives_ok.
  - intros k v' E. revert v'. change (gives (fun v' => cv_buf v' = b) (c_key hard fuel v k)). unfold c_key. gany. gstep. cbv zeta. gstep.
    + eapply gives_bind; [apply (gives_zloop (fun _ => True) (fun v' => cv_buf v' = b)); [|exact I]|intros [?|?] ?; [apply gives_throw|apply gives_ok; assumption]].
      intros s _. unfold key_def. do 2 gany. gstep; [now apply gives_ok|]. gany. now apply gives_ok.
    + eapply gives_bind; [apply (gives_floop (fun _ => True) (fun x => match x with Some v' => cv_buf v' = b | None => True end)); [|exact I]|intros [?|] ?; [apply gives_ok; assumption|gstep]].
      intros q _. unfold key_ind. gstep. gany. gstep; [now apply gives_ok|]. do 2 gany. gstep; [now apply gives_ok|]. gany. now apply gives_ok.
Qed.
End Cbor.

(** ** JSON *)
Section Json.
Import B64Model JsonModel.
Lemma dec_bytes s : forall buf bits out, bytes_ok out -> gives bytes_ok (dec_loop s buf bits out).
Proof.
  induction s as [|c s IH]; intros buf bits out O; cbn [dec_loop]; [now apply gives_ok|]. gstep; [now apply gives_ok|]. gany. gstep. cbv zeta. gstep; [|now apply IH].
  apply IH. apply bytes_ok_app. split; [exact O|]. apply bytes_ok_cons. split; [|constructor]. unfold is_byte. change 255 with (Z.ones 8). rewrite Z.land_ones by lia. apply Z.mod_pos_bound. lia.
Qed.
Lemma get_nth {A} (l : list A) i x : get l i = Some x -> In x l.
Proof. unfold get. destruct (_ && _); [apply nth_error_In|intros E; discriminate E]. Qed.
Lemma getn_in l k x : yy_obj_getn l k = Some x -> exists k', In (k', x) l.
Proof. induction l as [|[k' y] l IH]; cbn [yy_obj_getn]; [discriminate|]. destruct (beq k' k); [intros E; injection E as <-; exists k'; now left|]. intros E. destruct (IH E) as (k2 & H). exists k2. now right. Qed.
Lemma json_typed v : val_ok v -> typed json_reader v.
Proof.
  intros O. unfold typed. cbn [json_reader r_asInt r_asUInt r_asDouble r_asStringView r_asBlob r_arraySize r_mapKeys].
  repeat match goal with |- (forall z, ?m = Ok z -> @?P z) /\ _ => split; [change (gives P m)|] | |- forall z, ?m = Ok z -> @?P z => change (gives P m) end.
  - unfold j_asInt. gstep; [apply gives_ok, signed_range; cbn; lia|gstep].
  - unfold j_asUInt. gstep; [apply gives_ok, u64_of; apply Z.mod_pos_bound; reflexivity|gstep].
  - destruct v; try apply gives_throw. now apply gives_ok.
  - destruct v; try apply gives_throw. now apply gives_ok.
  - unfold j_asBlob. gany. gstep. gany. gany. apply dec_bytes. constructor.
  - destruct v; try apply gives_throw. apply gives_ok. apply zlen_nonneg.
  - destruct v; try apply gives_throw. apply gives_ok. apply val_ok_map in O. rewrite Forall_map. eapply Forall_impl; [|exact O]. intros kx (K & _). exact K.
Qed.
Lemma json_well_typed v : val_ok v -> well_typed json_reader v.
Proof.
  apply (well_typed_inv json_reader val_ok); [exact json_typed| |]; clear v; cbn [json_reader r_idx r_key]; intros v.
  - intros i v' O E. unfold j_idx, yy_arr_get in E. destruct v; try discriminate E. destruct (get l i) eqn:G; [|discriminate E]. injection E as <-. apply val_ok_arr in O. rewrite Forall_forall in O. apply O. exact (get_nth _ _ _ G).
  - intros k v' O E. unfold j_key in E. destruct v; try discriminate E. destruct (yy_obj_getn l k) eqn:G; [|discriminate E]. injection E as <-. apply val_ok_map in O. rewrite Forall_forall in O. destruct (getn_in _ _ _ G) as (k2 & H). exact (proj2 (O _ H)).
Qed.
End Json.

(** ** FlexBuffers *)
Section Flex.
Import FlexModel.
Lemma fx_ok_list l : (fix go l := match l with [] => True | y :: l' => fx_ok y /\ go l' end) l <-> Forall fx_ok l.
Proof. induction l as [|x l IH]; [split; auto|]. rewrite Forall_cons_iff, <- IH. reflexivity. Qed.
Lemma fx_ok_map l : fx_ok (XMap l) <-> Forall (fun kx => bytes_ok (fst kx) /\ fx_ok (snd kx)) l.
Proof. induction l as [|[k x] l IH]; [split; [constructor|exact (fun _ => I)]|]. rewrite Forall_cons_iff, <- IH. cbn [fst snd]. cbn [fx_ok]. tauto. Qed.
Lemma vec_ok l i : Forall fx_ok l -> fx_ok (vec_at l i).
Proof. intros H. unfold vec_at. destruct (get l i) eqn:G; [|exact I]. rewrite Forall_forall in H. apply H. exact (get_nth _ _ _ G). Qed.
Lemma flex_typed fuel v : fx_ok v -> typed (flex_reader fuel) v.
Proof.
  intros O. unfold typed. cbn [flex_reader r_asInt r_asUInt r_asDouble r_asStringView r_asBlob r_arraySize r_mapKeys].
  repeat match goal with |- (forall z, ?m = Ok z -> @?P z) /\ _ => split; [change (gives P m)|] | |- forall z, ?m = Ok z -> @?P z => change (gives P m) end.
  - destruct v; try apply gives_throw. apply gives_ok, signed_range; cbn; lia.
  - destruct v; try apply gives_throw. apply gives_ok, u64_of. apply Z.mod_pos_bound; reflexivity.
  - destruct v; try apply gives_throw. now apply gives_ok.
  - destruct v; try apply gives_throw. now apply gives_ok.
  - destruct v; try apply gives_throw. now apply gives_ok.
  - unfold x_arraySize. gstep. apply gives_ok. apply zlen_nonneg.
  - unfold x_mapKeys. gstep. apply gives_ok. destruct v; cbn [map_keys]; try constructor. apply fx_ok_map in O. rewrite Forall_map. eapply Forall_impl; [|exact O]. intros kx (K & _). exact K.
Qed.
Lemma flex_well_typed fuel v : fx_ok v -> well_typed (flex_reader fuel) v.
Proof.
  apply (well_typed_inv (flex_reader fuel) fx_ok); [apply flex_typed| |]; clear v; cbn [flex_reader r_idx r_key]; intros v.
  - intros i v' O E. revert v' E. change (gives fx_ok (x_idx v i)). unfold x_idx. gstep. gstep. apply gives_ok, vec_ok. destruct v; cbn [AsVector]; try constructor; [now apply fx_ok_list|].
    apply fx_ok_map in O. rewrite Forall_map. eapply Forall_impl; [|exact O]. intros kx (_ & K). exact K.
  - intros k v' O E. revert v' E. change (gives fx_ok (x_key fuel v k)). unfold x_key. gstep. gany. destruct a; [|gstep]. apply gives_ok, vec_ok. destruct v; cbn [map_vals]; try constructor.
    apply fx_ok_map in O. rewrite Forall_map. eapply Forall_impl; [|exact O]. intros kx (_ & K). exact K.
Qed.
End Flex.
