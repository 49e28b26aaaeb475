(** FoundMsg.v -- an accessor of the MessagePack reader that returns has found an object of its kind. *)

From Coq Require Import ZArith List Bool Lia ZifyBool ZifyNat.
From Verif Require Import Base BaseFacts Spec SpecFacts FloatModel MsgModel MsgSpec MsgFacts MsgSafe MeanFacts MeanMsg FoundSpec.
Import ListNotations.
Open Scope Z_scope.

Ltac Zify.zify_post_hook ::= idtac.

Lemma found_bind {A B} (m : res A) (f : A -> res B) y : bind m f = Ok y -> exists x, m = Ok x /\ f x = Ok y.
Proof. destruct m; cbn [bind]; try discriminate. eauto. Qed.

Section Root.
  Context (v : mspan).
  Hypothesis W : wfs v.
  Hypothesis END : ms_off v + ms_len v = zlen (ms_buf v).

  Lemma at0 m : sp_at v 0 = Ok m -> is_byte m /\ 1 <= ms_len v /\ starts v [m].
  Proof.
    intros E. assert (L : 1 <= ms_len v) by (unfold sp_at in E; destruct (_ && _) eqn:C in E; [lia|discriminate E]).
    destruct (at_ok v 0 W ltac:(lia)) as (m' & E' & B & H). assert (m' = m) by congruence. subst m'. rewrite Z.add_0_r in H. split; [exact B|]. split; [exact L|]. split; [exact H|exact L].
  Qed.
  Lemma leaf_found m n mk : starts v [m] -> 1 + Z.of_nat n <= ms_len v -> (forall x, 0 <= x < 256 ^ Z.of_nat n -> item_small (mk x) /\ enc (mk x) = m :: be n x) ->
    exists x, item_ok (mk x) /\ starts v (enc (mk x)).
  Proof.
    intros S L H. assert (W' := W). destruct W'. destruct (be_at (ms_buf v) (ms_off v + 1) n) as (x & Hx & Rx); auto; try lia.
    destruct (H x Rx) as [OK E]. exists x. split; [now apply small_ok|]. rewrite E. split; [apply has_cons; split; [apply S|exact Hx]|rewrite zlen_cons, zlen_be; lia].
  Qed.
  Lemma body_found h n : starts v h -> 0 <= n -> zlen h + n <= ms_len v -> exists s, bytes_ok s /\ zlen s = n /\ starts v (h ++ s).
  Proof.
    intros [SP L0] N L. pose proof (zlen_nonneg h). assert (W' := W). destruct W'. destruct (has_at (ms_buf v) (ms_off v + zlen h) n) as [H1 H2]; try lia.
    exists (slice (ms_buf v) (ms_off v + zlen h) n). split; [now apply (has_bytes _ _ _ wf_bytes H1)|]. split; [exact H2|]. split; [apply has_app; auto|rewrite zlen_app; lia].
  Qed.

  Lemma number_found z : mp_asInt64 v = Ok z -> exists it n, item_ok it /\ number_of it = Some n /\ starts v (enc it).
  Proof.
    intros E. unfold mp_asInt64, sp_empty in E. destruct (ms_len v =? 0); [discriminate E|]. cbn [negb require bind] in E. apply found_bind in E. destruct E as (m & EM & E).
    destruct (at0 m EM) as (B & L & S). unfold is_byte in B.
    destruct (m <=? 127) eqn:M1; [exists (MFixInt m), m; cbn [enc]; unfold item_ok; cbn [item_in]; rewrite Z.mod_small by lia; split; [lia|split; [reflexivity|exact S]]|].
    destruct (224 <=? m) eqn:M2; [exists (MFixInt (m - 256)), (m - 256); cbn [enc]; unfold item_ok; cbn [item_in]; replace ((m - 256) mod 256) with m by (rewrite <- (Z.mod_small m 256) at 1 by lia; rewrite <- (Z.mod_add (m - 256) 1 256) by lia; f_equal; lia); split; [lia|split; [reflexivity|exact S]]|].
    Ltac leaf E S n mk lem := match type of E with context [ms_len ?v <? ?k] => let LL := fresh in destruct (ms_len v <? k) eqn:LL; [discriminate E|]; let x := fresh in let A := fresh in let C := fresh in
      destruct (leaf_found _ n mk S ltac:(cbn; lia) lem) as (x & A & C); eexists; eexists; split; [exact A|split; [reflexivity|exact C]] end.
    destruct (m =? 208) eqn:M3; [assert (m = 208) by lia; subst m; leaf E S 1%nat (fun x => MSInt I8 (signed_of I8 x)) (signed_item I8)|].
    destruct (m =? 209) eqn:M4; [assert (m = 209) by lia; subst m; leaf E S 2%nat (fun x => MSInt I16 (signed_of I16 x)) (signed_item I16)|].
    destruct (m =? 210) eqn:M5; [assert (m = 210) by lia; subst m; leaf E S 4%nat (fun x => MSInt I32 (signed_of I32 x)) (signed_item I32)|].
    destruct (m =? 211) eqn:M6; [assert (m = 211) by lia; subst m; leaf E S 8%nat (fun x => MSInt I64 (signed_of I64 x)) (signed_item I64)|].
    destruct (m =? 204) eqn:M7; [assert (m = 204) by lia; subst m; leaf E S 1%nat (MUInt I8) (unsigned_item I8)|].
    destruct (m =? 205) eqn:M8; [assert (m = 205) by lia; subst m; leaf E S 2%nat (MUInt I16) (unsigned_item I16)|].
    destruct (m =? 206) eqn:M9; [assert (m = 206) by lia; subst m; leaf E S 4%nat (MUInt I32) (unsigned_item I32)|].
    destruct (m =? 207) eqn:M10; [assert (m = 207) by lia; subst m; leaf E S 8%nat (MUInt I64) (unsigned_item I64)|].
    discriminate E.
  Qed.
  (** asUInt64() reads the same objects as asInt64(). *)
  Lemma unumber z : mp_asUInt64 v = Ok z -> exists y, mp_asInt64 v = Ok y.
  Proof.
    intros E. unfold mp_asUInt64, mp_asInt64, sp_empty in *. destruct (ms_len v =? 0); [discriminate E|]. cbn [negb require bind] in *. apply found_bind in E. destruct E as (m & EM & E).
    rewrite EM. cbn [bind] in *. destruct (m <=? 127) eqn:M1; [eauto|].
    destruct (m =? 204) eqn:M2; [assert (m = 204) by lia; subst m; cbn [Z.leb Z.eqb Z.compare Pos.compare Pos.compare_cont Pos.eqb]; eauto|].
    destruct (m =? 205) eqn:M3; [assert (m = 205) by lia; subst m; cbn [Z.leb Z.eqb Z.compare Pos.compare Pos.compare_cont Pos.eqb]; eauto|].
    destruct (m =? 206) eqn:M4; [assert (m = 206) by lia; subst m; cbn [Z.leb Z.eqb Z.compare Pos.compare Pos.compare_cont Pos.eqb]; eauto|].
    destruct (m =? 207) eqn:M5; [assert (m = 207) by lia; subst m; cbn [Z.leb Z.eqb Z.compare Pos.compare Pos.compare_cont Pos.eqb]; apply found_bind in E; destruct E as (u & R & E); rewrite R; cbn [bind]; rewrite E; cbn [bind]; eauto|].
    apply found_bind in E. destruct E as (y & R & E). rewrite EM in R. cbn [bind] in R. rewrite M1, M2, M3, M4, M5 in R. eauto.
  Qed.

  Lemma double_found z : mp_asDouble v = Ok z -> exists x, (item_ok (MF32 x) /\ starts v (enc (MF32 x))) \/ (item_ok (MF64 x) /\ starts v (enc (MF64 x))).
  Proof.
    intros E. unfold mp_asDouble in E. apply found_bind in E. destruct E as (k & K & E). apply found_bind in E. destruct E as (u & _ & E). apply found_bind in E. destruct E as (m & EM & E). destruct (at0 m EM) as (B & L & S).
    destruct (m =? 202) eqn:M1; [assert (m = 202) by lia; subst m; destruct (ms_len v <? 5) eqn:LL; [discriminate E|]; destruct (leaf_found _ 4 MF32 S ltac:(cbn; lia) ltac:(intros x Hx; split; [exact Hx|reflexivity])) as (x & H); eauto|].
    destruct (m =? 203) eqn:M2; [assert (m = 203) by lia; subst m; destruct (ms_len v <? 9) eqn:LL; [discriminate E|]; destruct (leaf_found _ 8 MF64 S ltac:(cbn; lia) ltac:(intros x Hx; split; [exact Hx|reflexivity])) as (x & H); eauto|].
    discriminate E.
  Qed.
  Lemma bool_found z : mp_asBool v = Ok z -> starts v (enc (MBool z)).
  Proof.
    intros E. unfold mp_asBool, mp_is, sp_empty in E. apply found_bind in E. destruct E as (k & K & E). apply found_bind in E. destruct E as (u & RQ & E). apply found_bind in E. destruct E as (m & EM & E). destruct (at0 m EM) as (B & L & S).
    destruct (ms_len v =? 0); [injection K as <-; discriminate RQ|]. rewrite EM in K. cbn [bind] in K. destruct k; [|discriminate RQ]. unfold k_bool in K. assert (m = 194 \/ m = 195) by (injection K as K; lia).
    injection E as <-. cbn [enc]. destruct (m =? 195) eqn:M; [replace m with 195 in S by lia|replace m with 194 in S by lia]; exact S.
  Qed.
  Lemma nil_found : mp_is k_null v = Ok true -> starts v (enc MNil).
  Proof.
    unfold mp_is. destruct (sp_empty v); [discriminate|]. intros E. apply found_bind in E. destruct E as (m & EM & E). destruct (at0 m EM) as (B & L & S). unfold k_null in E. replace m with 192 in S by (injection E as E; lia). exact S.
  Qed.

  Lemma string_found s : (w <- str_info v ;; rd_view (ms_buf v) w) = Ok s -> exists f s', item_ok (MStr f s') /\ starts v (enc (MStr f s')).
  Proof.
    intros E. apply found_bind in E. destruct E as (w & E & R). apply (view_fits v END) in R. unfold str_info in E. apply found_bind in E. destruct E as (m & EM & E). destruct (at0 m EM) as (B & L & S). rewrite land224 in E by exact B.
    assert (Q : forall f n, starts v (str_hdr f n) -> w = (sp_ptr v (zlen (str_hdr f n)), n) -> n < str_cap (2^32) f -> exists f s', item_ok (MStr f s') /\ starts v (enc (MStr f s'))).
    { intros f n SH -> C. cbn [fst snd] in R. unfold sp_ptr in R. destruct (body_found _ n SH) as (s' & BS & LS & SS); [lia..|]. exists f, s'. unfold item_ok. cbn [item_in enc]. rewrite LS. auto. }
    destruct ((160 <=? m) && (m <=? 191)) eqn:M1.
    { rewrite land31_eq in E by (try exact B; lia). apply (Q FFix (m - 160)); cbn [str_hdr str_cap]; [replace (160 + (m - 160)) with m by lia; exact S|change (zlen [160 + (m - 160)]) with 1; congruence|lia]. }
    destruct (m =? 217) eqn:M2.
    { assert (m = 217) by lia. subst m. destruct (hdr8 v W 217) as (x & EX & HX & SX); [intros U; rewrite U in E; discriminate E|exact S|]. rewrite EX in E. cbn [bind] in E. apply (Q F8 x); cbn [str_hdr str_cap]; [exact SX|rewrite zlen_cons, zlen_be; cbn [Z.of_nat Pos.of_succ_nat Pos.succ Z.add Pos.add]; congruence|lia]. }
    destruct (m =? 218) eqn:M3.
    { assert (m = 218) by lia. subst m. apply found_bind in E. destruct E as (x & EX & E). destruct (hdr16 v W END 218 x EX S) as [HX SX]. apply (Q F16 x); cbn [str_hdr str_cap]; [exact SX|rewrite zlen_cons, zlen_be; cbn [Z.of_nat Pos.of_succ_nat Pos.succ Z.add Pos.add]; congruence|lia]. }
    destruct (m =? 219) eqn:M4; [|discriminate E].
    assert (m = 219) by lia. subst m. apply found_bind in E. destruct E as (x & EX & E). destruct (hdr32 v W END 219 x EX S) as [HX SX]. apply (Q F32 x); cbn [str_hdr str_cap]; [exact SX|rewrite zlen_cons, zlen_be; cbn [Z.of_nat Pos.of_succ_nat Pos.succ Z.add Pos.add]; congruence|lia].
  Qed.
  Lemma blob_found s : (w <- bin_info v ;; rd_view (ms_buf v) w) = Ok s -> exists f s', item_ok (MBin f s') /\ starts v (enc (MBin f s')).
  Proof.
    intros E. apply found_bind in E. destruct E as (w & E & R). apply (view_fits v END) in R. unfold bin_info in E. apply found_bind in E. destruct E as (m & EM & E). destruct (at0 m EM) as (B & L & S).
    assert (Q : forall f n, starts v (bin_hdr f n) -> w = (sp_ptr v (zlen (bin_hdr f n)), n) -> n < bin_cap (2^32) f -> exists f s', item_ok (MBin f s') /\ starts v (enc (MBin f s'))).
    { intros f n SH -> C. cbn [fst snd] in R. unfold sp_ptr in R. destruct (body_found _ n SH) as (s' & BS & LS & SS); [lia..|]. exists f, s'. unfold item_ok. cbn [item_in enc]. rewrite LS. auto. }
    destruct (m =? 196) eqn:M2.
    { assert (m = 196) by lia. subst m. destruct (hdr8 v W 196) as (x & EX & HX & SX); [intros U; rewrite U in E; discriminate E|exact S|]. rewrite EX in E. cbn [bind] in E. apply (Q F8 x); cbn [bin_hdr bin_cap]; [exact SX|rewrite zlen_cons, zlen_be; cbn [Z.of_nat Pos.of_succ_nat Pos.succ Z.add Pos.add]; congruence|lia]. }
    destruct (m =? 197) eqn:M3.
    { assert (m = 197) by lia. subst m. apply found_bind in E. destruct E as (x & EX & E). destruct (hdr16 v W END 197 x EX S) as [HX SX]. apply (Q F16 x); cbn [bin_hdr bin_cap]; [exact SX|rewrite zlen_cons, zlen_be; cbn [Z.of_nat Pos.of_succ_nat Pos.succ Z.add Pos.add]; congruence|lia]. }
    destruct (m =? 198) eqn:M4; [|discriminate E].
    assert (m = 198) by lia. subst m. apply found_bind in E. destruct E as (x & EX & E). destruct (hdr32 v W END 198 x EX S) as [HX SX]. apply (Q F32 x); cbn [bin_hdr bin_cap]; [exact SX|rewrite zlen_cons, zlen_be; cbn [Z.of_nat Pos.of_succ_nat Pos.succ Z.add Pos.add]; congruence|lia].
  Qed.
End Root.

(** ** The accessors of a whole message *)

Lemma opens b it : starts (mp_open b) (enc it) -> exists suf, b = enc it ++ suf.
Proof. intros S. now apply open_starts. Qed.
Lemma sees b it suf : item_ok it -> b = enc it ++ suf -> observes mp_reader (mp_open b) (item_table it).
Proof. intros OK E. apply (observes_item _ _ (2^32) ltac:(lia) OK). apply open_starts. eauto. Qed.

Lemma fits_s_iff iw y z : fits_s iw y = Some z <-> z = y /\ smin iw <= y <= smax iw.
Proof. unfold fits_s. destruct ((smin iw <=? y) && (y <=? smax iw)) eqn:C; split; intros H; [split; [congruence|lia]|destruct H as [-> _]; reflexivity|discriminate H|exfalso; lia]. Qed.
Lemma fits_u_iff iw y z : 0 <= y -> fits_u iw y = Some z <-> z = y /\ y <= umax iw.
Proof. unfold fits_u. intros P. destruct ((0 <=? y) && (y <=? umax iw)) eqn:C; split; intros H; [split; [congruence|lia]|destruct H as [-> _]; reflexivity|discriminate H|exfalso; lia]. Qed.
Lemma number_table it n : number_of it = Some n -> exists s u, item_table it = int_tbl s u n.
Proof. destruct it; try discriminate; cbn; intros [= <-]; eauto. Qed.

Theorem msg_int b iw z : bytes_ok b -> mp_asInt iw (mp_open b) = Ok z <->
  exists it suf n, item_ok it /\ b = enc it ++ suf /\ number_of it = Some n /\ z = to_signed 64 n /\ smin iw <= z <= smax iw.
Proof.
  intros B. assert (V : forall it suf n, item_ok it -> b = enc it ++ suf -> number_of it = Some n -> mp_asInt iw (mp_open b) = or_throw (fits_s iw (to_signed 64 n))).
  { intros it suf n OK E N. destruct (sees b it suf OK E) as (_ & _ & _ & _ & _ & _ & _ & _ & _ & _ & O & _). destruct (number_table it n N) as (s & u & T). rewrite T in O. apply (O iw). }
  split.
  - intros E. assert (E' := E). unfold mp_asInt in E'. apply found_bind in E'. destruct E' as (y & E64 & _). destruct (number_found _ (wfs_open b B) eq_refl y E64) as (it & n & OK & N & S). apply opens in S. destruct S as [suf S].
    rewrite (V it suf n OK S N) in E. apply or_throw_ok, fits_s_iff in E. destruct E as [-> R]. exists it, suf, n. auto.
  - intros (it & suf & n & OK & E & N & -> & R). rewrite (V it suf n OK E N). apply or_throw_ok, fits_s_iff. auto.
Qed.
Theorem msg_uint b iw z : bytes_ok b -> mp_asUInt iw (mp_open b) = Ok z <->
  exists it suf n, item_ok it /\ b = enc it ++ suf /\ number_of it = Some n /\ z = n mod 2^64 /\ z <= umax iw.
Proof.
  intros B. assert (V : forall it suf n, item_ok it -> b = enc it ++ suf -> number_of it = Some n -> mp_asUInt iw (mp_open b) = or_throw (fits_u iw (n mod 2^64))).
  { intros it suf n OK E N. destruct (sees b it suf OK E) as (_ & _ & _ & _ & _ & _ & _ & _ & _ & _ & _ & O & _). destruct (number_table it n N) as (s & u & T). rewrite T in O. apply (O iw). }
  assert (P : forall n, 0 <= n mod 2^64) by (intros n; apply Z.mod_pos_bound; lia).
  split.
  - intros E. assert (E' := E). unfold mp_asUInt in E'. apply found_bind in E'. destruct E' as (y & E64 & _). destruct (unumber _ y E64) as [y' E64'].
    destruct (number_found _ (wfs_open b B) eq_refl y' E64') as (it & n & OK & N & S). apply opens in S. destruct S as [suf S].
    rewrite (V it suf n OK S N) in E. apply or_throw_ok, fits_u_iff in E; [|apply P]. destruct E as [-> R]. exists it, suf, n. auto.
  - intros (it & suf & n & OK & E & N & -> & R). rewrite (V it suf n OK E N). apply or_throw_ok, fits_u_iff; auto.
Qed.
Theorem msg_double b z : bytes_ok b -> mp_asDouble (mp_open b) = Ok z <->
  exists it suf, item_ok it /\ b = enc it ++ suf /\ ((exists x, it = MF32 x /\ z = f32_to_f64 x) \/ it = MF64 z).
Proof.
  intros B. split.
  - intros E. destruct (double_found _ (wfs_open b B) eq_refl z E) as (x & [[OK S]|[OK S]]); apply opens in S; destruct S as [suf S]; destruct (sees b _ suf OK S) as (_ & _ & _ & _ & _ & _ & _ & _ & _ & _ & _ & _ & O & _);
      change (r_asDouble mp_reader (mp_open b)) with (mp_asDouble (mp_open b)) in O; rewrite E in O; cbn [item_table ideal t_asDouble or_throw] in O; injection O as ->; eexists; exists suf; (split; [exact OK|]); (split; [exact S|]); eauto.
  - intros (it & suf & OK & E & [(x & -> & ->)| ->]); now destruct (sees b _ suf OK E) as (_ & _ & _ & _ & _ & _ & _ & _ & _ & _ & _ & _ & O & _).
Qed.
Theorem msg_bool b z : bytes_ok b -> mp_asBool (mp_open b) = Ok z <-> exists suf, b = enc (MBool z) ++ suf.
Proof.
  intros B. split; [intros E; exact (opens _ _ (bool_found _ (wfs_open b B) z E))|].
  intros (suf & E). now destruct (sees b (MBool z) suf I E) as (_ & _ & _ & _ & _ & _ & _ & _ & _ & O & _).
Qed.
Theorem msg_null b : bytes_ok b -> mp_is k_null (mp_open b) = Ok true <-> exists suf, b = enc MNil ++ suf.
Proof.
  intros B. split; [intros E; exact (opens _ _ (nil_found _ (wfs_open b B) E))|].
  intros (suf & E). now destruct (sees b MNil suf I E) as (O & _).
Qed.
Theorem msg_string b s : bytes_ok b -> r_asString mp_reader (mp_open b) = Ok s <-> exists f suf, item_ok (MStr f s) /\ b = enc (MStr f s) ++ suf.
Proof.
  intros B. split.
  - intros E. destruct (string_found _ (wfs_open b B) eq_refl s E) as (f & s' & OK & S). apply opens in S. destruct S as [suf S]. destruct (sees b _ suf OK S) as (_ & _ & _ & _ & _ & _ & _ & _ & _ & _ & _ & _ & _ & O & _).
    rewrite E in O. cbn [item_table ideal t_asString or_throw] in O. injection O as ->. eauto.
  - intros (f & suf & OK & E). now destruct (sees b _ suf OK E) as (_ & _ & _ & _ & _ & _ & _ & _ & _ & _ & _ & _ & _ & O & _).
Qed.
Theorem msg_blob b s : bytes_ok b -> r_asBlob mp_reader (mp_open b) = Ok s <-> exists f suf, item_ok (MBin f s) /\ b = enc (MBin f s) ++ suf.
Proof.
  intros B. split.
  - intros E. destruct (blob_found _ (wfs_open b B) eq_refl s E) as (f & s' & OK & S). apply opens in S. destruct S as [suf S]. destruct (sees b _ suf OK S) as (_ & _ & _ & _ & _ & _ & _ & _ & _ & _ & _ & _ & _ & _ & _ & O).
    rewrite E in O. cbn [item_table ideal t_asBlob or_throw] in O. injection O as ->. eauto.
  - intros (f & suf & OK & E). now destruct (sees b _ suf OK E) as (_ & _ & _ & _ & _ & _ & _ & _ & _ & _ & _ & _ & _ & _ & _ & O).
Qed.
