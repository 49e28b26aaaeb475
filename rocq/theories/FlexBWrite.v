(** FlexBWrite.v -- FlexBuffers as bytes: what each value on the builder's stack stands for. *)

From Coq Require Import ZArith List Bool Lia ZifyBool ZifyNat Permutation Sorted.
From Verif Require Import Base BaseFacts Spec SpecFacts HalfModel FloatModel FloatFacts NarrowModel NarrowFacts FlexModel FlexSpec FlexFacts FlexBModel FlexBSpec FlexBFormat FlexBFacts.
Import ListNotations.
Open Scope Z_scope.
Ltac Zify.zify_post_hook ::= idtac.

(** ** Widths *)
Ltac cases4 w := assert (w = 0 \/ w = 1 \/ w = 2 \/ w = 3) as [-> |[-> |[-> | ->]]] by lia.
Ltac pows := change (2 ^ 0) with 1 in *; change (2 ^ 1) with 2 in *; change (2 ^ 2) with 4 in *; change (2 ^ 3) with 8 in *;
  change (8 * 1) with 8 in *; change (8 * 2) with 16 in *; change (8 * 4) with 32 in *; change (8 * 8) with 64 in *.
Lemma width_u_range u : 0 <= width_u u <= 3.
Proof. unfold width_u. repeat destruct (_ <? _); lia. Qed.
Lemma width_u_fits u w : 0 <= u < 2 ^ 64 -> width_u u <= w <= 3 -> 0 <= u < 2 ^ (8 * 2 ^ w).
Proof.
  intros H W. pose proof (width_u_range u). cases4 w; pows; unfold width_u in W; destruct (u <? 2 ^ 8) eqn:E1; try lia; destruct (u <? 2 ^ 16) eqn:E2; try lia; destruct (u <? 2 ^ 32) eqn:E3; lia.
Qed.
Lemma padding_range n w : 0 <= w -> 0 <= padding n (2 ^ w) < 2 ^ w.
Proof. intros H. unfold padding. apply Z.mod_pos_bound. apply Z.pow_pos_nonneg; lia. Qed.
Lemma elem_width_range v size idx : 0 <= v_w v <= 3 -> 0 <= elem_width v size idx <= 3.
Proof. intros H. unfold elem_width. destruct (is_inline _); [exact H|]. cbv zeta. repeat destruct (_ =? _); lia. Qed.
Lemma elem_fits v size idx k w : is_inline (v_ty v) = false -> 0 <= v_u v <= size -> 0 <= k <= idx -> elem_width v size idx <= w <= 3 -> 0 <= w ->
  size + padding size (2 ^ w) + k * 2 ^ w < 2 ^ 62 -> 0 <= size + padding size (2 ^ w) + k * 2 ^ w - v_u v < 2 ^ (8 * 2 ^ w).
Proof.
  intros T U K W W0 S. unfold elem_width in W. rewrite T in W. cbv zeta in W.
  pose proof (padding_range size 0 ltac:(lia)) as P0. pose proof (padding_range size 1 ltac:(lia)) as P1. pose proof (padding_range size 2 ltac:(lia)) as P2. pose proof (padding_range size 3 ltac:(lia)) as P3.
  unfold width_u in W.
  cases4 w; pows; set (p0 := padding size 1) in *; set (p1 := padding size 2) in *; set (p2 := padding size 4) in *; set (p3 := padding size 8) in *; clearbody p0 p1 p2 p3;
  set (u := v_u v) in *; clearbody u; clear T;
  repeat match type of W with context [if ?a <? ?b then _ else _] => destruct (a <? b) eqn:?; cbn [Z.eqb Pos.eqb] in W end; try lia.
Qed.
Lemma max_width_spec vs size step : forall i w, (forall v, In v vs -> 0 <= v_w v <= 3) -> 0 <= w <= 3 ->
  w <= max_width vs size i step w <= 3 /\ forall j v, get vs j = Some v -> elem_width v size (i + j * step) <= max_width vs size i step w.
Proof.
  induction vs as [|v vs IH]; intros i w V W; cbn [max_width].
  - split; [lia|]. intros j u G. apply get_some in G. change (zlen (@nil bval)) with 0 in G. lia.
  - pose proof (elem_width_range v size i (V v (or_introl eq_refl))) as E. destruct (IH (i + step) (Z.max w (elem_width v size i))) as (A & B); [auto with datatypes|lia|].
    split; [lia|]. intros j u G. rewrite get_cons in G. destruct (j =? 0) eqn:J.
    + injection G as <-. replace (i + j * step) with i by lia. lia.
    + replace (i + j * step) with (i + step + (j - 1) * step) by ring. now apply B.
Qed.

(** ** A value on the stack stands for a tree *)
Definition ty_of (x : fx) : Z :=
  match x with XNull => 0 | XBool _ => 26 | XInt _ => 1 | XUInt _ => 2 | XDbl _ => 3 | XStr _ => 5 | XBlob _ => 25 | XKey _ => 4 | XVec _ => 10 | XTyped _ => 14 | XMap _ => 9 end.
Definition fits (v : bval) (w data : Z) : Prop := if is_inline (v_ty v) then v_w v <= w else 0 <= data - v_u v < 2 ^ (8 * 2 ^ w).
Definition holds (B : bytes) (v : bval) (x : fx) : Prop :=
  v_ty v = ty_of x /\ 0 <= v_w v <= 3 /\ (v_ty v = 3 -> 2 <= v_w v) /\ (is_inline (v_ty v) = false -> 0 <= v_u v <= zlen B) /\
  match x with XKey k => has B (v_u v) (c_str k ++ [0]) | _ => True end /\
  forall sfx data w, 0 <= w <= 3 -> aligned data (2 ^ w) -> fits v w data -> has (B ++ sfx) data (write_any v (2 ^ w) data) ->
    rep aligned false (B ++ sfx) x (mkRef data (2 ^ w) (2 ^ stored_width v w) (v_ty v)).
Lemma holds_app B C v x : holds B v x -> holds (B ++ C) v x.
Proof.
  intros (A1 & A2 & A3 & A4 & A5 & A6). pose proof (zlen_nonneg C). split; [exact A1|]. split; [exact A2|]. split; [exact A3|]. split; [|split].
  - intros T. rewrite zlen_app. specialize (A4 T). lia.
  - destruct x; auto. now apply has_app_l.
  - intros sfx data w W AL F H'. rewrite <- app_assoc in *. now apply A6.
Qed.
Lemma ty_range x : 0 <= ty_of x <= 26.
Proof. destruct x; cbn; lia. Qed.
Lemma inline_ty v x B : holds B v x -> is_inline (v_ty v) = match x with XNull | XBool _ | XInt _ | XUInt _ | XDbl _ => true | _ => false end.
Proof. intros (T & _). rewrite T. destruct x; reflexivity. Qed.
Lemma write_any_len v w pos : 0 <= w <= 3 -> (v_ty v = 3 -> 2 <= w) -> zlen (write_any v (2 ^ w) pos) = 2 ^ w.
Proof.
  intros W F. pose proof (pow_range w W). unfold write_any. destruct (v_ty v =? 3) eqn:T.
  - assert (w = 2 \/ w = 3) as [-> | ->] by (specialize (F ltac:(lia)); lia); reflexivity.
  - destruct (is_inline (v_ty v)); apply le_put_zlen; lia.
Qed.
Lemma write_all_at vs w : 0 <= w <= 3 -> (forall v, In v vs -> v_ty v = 3 -> 2 <= w) -> forall pos,
  zlen (write_all vs (2 ^ w) pos) = zlen vs * 2 ^ w /\
  forall i v, get vs i = Some v -> has (write_all vs (2 ^ w) pos) (i * 2 ^ w) (write_any v (2 ^ w) (pos + i * 2 ^ w)).
Proof.
  intros W. induction vs as [|v vs IH]; intros F pos; cbn [write_all].
  - split; [reflexivity|]. intros i v G. apply get_some in G. change (zlen (@nil bval)) with 0 in G. lia.
  - destruct (IH (fun u U => F u (or_intror U)) (pos + 2 ^ w)) as (L & H). pose proof (write_any_len v w pos W (F v (or_introl eq_refl))) as Lv.
    split; [rewrite zlen_app, zlen_cons, L, Lv; ring|]. intros i u G. rewrite get_cons in G. destruct (i =? 0) eqn:E.
    + injection G as <-. assert (i = 0) as -> by lia. rewrite !Z.mul_0_l, Z.add_0_r. apply (has_mid [] (write_any v (2 ^ w) pos)).
    + specialize (H (i - 1) u G). replace (pos + 2 ^ w + (i - 1) * 2 ^ w) with (pos + i * 2 ^ w) in H by ring.
      apply (has_app_r (write_any v (2 ^ w) pos)) in H. rewrite Lv in H. now replace (2 ^ w + (i - 1) * 2 ^ w) with (i * 2 ^ w) in H by ring.
Qed.

(** ** Scalars *)
Lemma hold_null B : holds B (mkBv 0 0 0) XNull.
Proof. repeat split; try (cbn; lia); try discriminate. Qed.
Lemma hold_bool B (b : bool) : holds B (mkBv (if b then 1 else 0) 26 0) (XBool b).
Proof.
  split; [reflexivity|]. split; [cbn; lia|]. split; [discriminate|]. split; [discriminate|]. split; [exact I|]. intros sfx data w W AL F H. cbn [rep f_ty f_data f_pw]. split; [reflexivity|].
  unfold write_any in H. cbn [v_ty v_u is_inline Z.eqb Pos.eqb Z.leb Z.compare Pos.compare Pos.compare_cont orb] in H. eexists. split.
  - apply number_small; [exact W|exact AL| |exact H]. cases4 w; pows; destruct b; lia.
  - now destruct b.
Qed.
Lemma hold_uint B z : is_u64 z -> holds B (mkBv z 2 (width_u z)) (XUInt z).
Proof.
  intros Hz. unfold is_u64, u64_max in Hz. pose proof (width_u_range z). split; [reflexivity|]. split; [exact H|]. split; [discriminate|]. split; [discriminate|]. split; [exact I|].
  intros sfx data w W AL F H'. left. cbn [rep f_ty f_data f_pw]. split; [reflexivity|]. unfold write_any in H'. cbn [v_ty v_u is_inline Z.eqb Pos.eqb Z.leb Z.compare Pos.compare Pos.compare_cont orb] in H'.
  red in F. cbn in F. apply number_small; [exact W|exact AL| |exact H']. apply width_u_fits; lia.
Qed.
Lemma mod_mod_pow z a b : 0 <= a <= b -> (z mod 2 ^ b) mod 2 ^ a = z mod 2 ^ a.
Proof. intros H. replace b with (a + (b - a)) by lia. rewrite Z.pow_add_r by lia. rewrite Z.rem_mul_r by (try apply Z.pow_nonzero; try apply Z.pow_pos_nonneg; lia).
  rewrite Z.mul_comm, Z_mod_plus_full. apply Z.mod_mod. apply Z.pow_nonzero; lia. Qed.
Lemma width_i_fits z w : is_i64 z -> width_i z <= w <= 3 -> 0 <= w -> - 2 ^ (8 * 2 ^ w - 1) <= z < 2 ^ (8 * 2 ^ w - 1).
Proof.
  intros Hz W W0. unfold is_i64, i64_min, i64_max in Hz. unfold width_i in W. cbv zeta in W. destruct (0 <=? z) eqn:S.
  - rewrite wrap64_small in W by lia. pose proof (width_u_fits (z * 2) w ltac:(lia) W). cases4 w; pows; change (8 - 1) with 7; change (16 - 1) with 15; change (32 - 1) with 31; change (64 - 1) with 63; lia.
  - assert (E : wrap64 (z * 2) = z * 2 + 2 ^ 64) by (unfold wrap64; symmetry; apply Z.mod_unique with (-1); lia). rewrite E in W.
    replace (2 ^ 64 - 1 - (z * 2 + 2 ^ 64)) with (- (2 * z) - 1) in W by ring. pose proof (width_u_fits (- (2 * z) - 1) w ltac:(lia) W) as H.
    assert (W3 : w <= 3) by lia. clear - H W0 W3 S Hz. assert (w = 0 \/ w = 1 \/ w = 2 \/ w = 3) as [-> |[-> |[-> | ->]]] by lia; pows; change (8 - 1) with 7; change (16 - 1) with 15; change (32 - 1) with 31; change (64 - 1) with 63; lia.
Qed.
Lemma hold_int B z : is_i64 z -> holds B (mkBv (wrap64 z) 1 (width_i z)) (XInt z).
Proof.
  intros Hz. assert (R : 0 <= width_i z <= 3) by (unfold width_i; cbv zeta; destruct (0 <=? z); apply width_u_range).
  split; [reflexivity|]. split; [exact R|]. split; [discriminate|]. split; [discriminate|]. split; [exact I|].
  intros sfx data w W AL F H. left. cbn [rep f_ty f_data f_pw]. split; [reflexivity|]. unfold write_any in H. cbn [v_ty v_u is_inline Z.eqb Pos.eqb Z.leb Z.compare Pos.compare Pos.compare_cont orb] in H.
  red in F. cbn [v_ty v_w is_inline Z.leb Z.compare Pos.compare Pos.compare_cont orb] in F. split; [exact (width_i_fits z w Hz ltac:(lia) ltac:(lia))|].
  pose proof (number_put aligned _ _ _ _ W AL H) as N. unfold wrap64 in N. rewrite mod_mod_pow in N by (cases4 w; pows; lia). exact N.
Qed.
Lemma hold_dbl B d : is_u64 d -> holds B (mkBv d 3 (width_f d)) (XDbl d).
Proof.
  intros Hd. unfold is_u64, u64_max in Hd. assert (R : 2 <= width_f d <= 3) by (unfold width_f; destruct (f64_to_f32 d); lia).
  split; [reflexivity|]. split; [cbn [v_w]; lia|]. split; [intros _; cbn [v_w]; lia|]. split; [discriminate|]. split; [exact I|].
  intros sfx data w W AL F H. left. cbn [rep f_ty f_data f_pw]. split; [reflexivity|].
  red in F. cbn [v_ty v_w is_inline Z.leb Z.compare Pos.compare Pos.compare_cont orb] in F. unfold write_any in H. cbn [v_ty v_u Z.eqb Pos.eqb] in H.
  assert (w = 2 \/ w = 3) as [-> | ->] by lia; pows; cbn [Z.eqb Pos.eqb] in H.
  - right. split; [reflexivity|]. unfold width_f in F. destruct (f64_to_f32 d) as [y|] eqn:E; [|lia]. rewrite (narrow_exact d y ltac:(lia) E) in H. destruct (narrow_widen d y ltac:(lia) E) as (Y & Q).
    exists y. split; [|now symmetry]. apply (number_small aligned _ _ 2); [lia|exact AL|cbn; lia|exact H].
  - left. split; [reflexivity|]. apply (number_small aligned _ _ 3); [lia|exact AL|cbn; lia|exact H].
Qed.

(** ** Strings, blobs and keys *)
Lemma align_len buf w : 0 <= w <= 3 -> zlen (align buf w) = zlen buf + padding (zlen buf) (2 ^ w).
Proof. intros W. unfold align. pose proof (padding_range (zlen buf) w ltac:(lia)). rewrite zlen_app, zlen_repeat. lia. Qed.
Lemma align_app buf w : exists rest, align buf w = buf ++ rest.
Proof. now eexists. Qed.
Lemma offset_read B data w u : 0 <= w <= 3 -> 0 <= data - u < 2 ^ (8 * 2 ^ w) -> aligned data (2 ^ w) -> has B data (le_put (Z.to_nat (2 ^ w)) (data - u)) -> offset aligned B data (2 ^ w) u.
Proof. intros W F AL H. eexists. split; [apply number_small; [exact W|exact AL|exact F|exact H]|lia]. Qed.
Lemma align_aligned buf w : 0 <= w <= 3 -> aligned (zlen (align buf w)) (2 ^ w).
Proof.
  intros W. rewrite align_len by exact W. unfold aligned, padding. pose proof (pow_range w W). rewrite Zplus_mod_idemp_r. replace (zlen buf + - zlen buf) with 0 by lia. now apply Z.mod_0_l; lia.
Qed.
Lemma aligned_add p w k : 0 <= w -> aligned p (2 ^ w) -> aligned (p + k * 2 ^ w) (2 ^ w).
Proof. intros W H. unfold aligned in *. rewrite Z_mod_plus_full. exact H. Qed.
Lemma hold_blob buf s trailing x ty : create_blob buf s trailing ty = x -> (ty = 5 /\ trailing = [0] \/ ty = 25 /\ trailing = []) -> zlen (fst x) < 2 ^ 62 ->
  (exists rest, fst x = buf ++ rest) /\ holds (fst x) (snd x) (if ty =? 5 then XStr s else XBlob s).
Proof.
  intros <- T' L. assert (T : ty = 5 \/ ty = 25) by lia. unfold create_blob in *. cbv zeta in *. cbn [fst snd] in *. set (w := width_u (zlen s)) in *. pose proof (width_u_range (zlen s) : 0 <= w <= 3) as W. pose proof (pow_range w W) as PW.
  pose proof (zlen_nonneg s) as S0. pose proof (zlen_nonneg trailing) as T0. set (A := align buf w) in *. set (N := le_put (Z.to_nat (2 ^ w)) (zlen s)) in *.
  assert (LN : zlen N = 2 ^ w) by (apply le_put_zlen; lia). rewrite !zlen_app in L. pose proof (zlen_nonneg A) as A0.
  split; [exists (repeat 0 (Z.to_nat (padding (zlen buf) (2 ^ w))) ++ N ++ s ++ trailing); unfold A, align; now rewrite <- !app_assoc|].
  assert (FS : 0 <= zlen s < 2 ^ (8 * 2 ^ w)) by (apply width_u_fits; lia).
  assert (E : forall x, (x = XStr s /\ ty = 5 \/ x = XBlob s /\ ty = 25) -> holds ((A ++ N) ++ s ++ trailing) (mkBv (zlen (A ++ N)) ty w) x).
  { intros x C. split; [destruct C as [(-> & ->)|(-> & ->)]; reflexivity|]. split; [exact W|]. split; [cbn [v_ty]; lia|]. split; [intros _; cbn [v_u]; rewrite !zlen_app; lia|].
    split; [destruct C as [(-> & ->)|(-> & ->)]; exact I|]. intros sfx data pw PWR AL F H.
    assert (NI : is_inline ty = false) by (destruct T as [-> | ->]; reflexivity). unfold fits, write_any, stored_width in *. cbn [v_ty v_u v_w] in *. rewrite NI in *.
    replace (ty =? 3) with false in H by lia. apply offset_read in H; [|assumption|assumption|assumption].
    assert (SZ : sized aligned (((A ++ N) ++ s ++ trailing) ++ sfx) (mkRef data (2 ^ pw) (2 ^ w) ty) s trailing).
    { exists (zlen (A ++ N)). cbn [f_data f_pw f_bw]. split; [exact H|]. split.
      - replace (zlen (A ++ N) - 2 ^ w) with (zlen A) by (rewrite zlen_app; lia). apply number_small; [exact W|now apply align_aligned|exact FS|]. rewrite <- !app_assoc. apply has_mid.
      - apply lies_has. rewrite <- (app_assoc (A ++ N)). apply has_mid. }
    destruct C as [(-> & ->)|(-> & ->)]; destruct T' as [(Q & ->)|(Q & ->)]; try discriminate Q; cbn [rep f_ty]; auto. }
  destruct T as [-> | ->]; apply E; auto.
Qed.
Lemma c_str_nul k : ~ In 0 (c_str k).
Proof. induction k as [|c k IH]; [easy|]. cbn [c_str]. destruct (c =? 0) eqn:E; [easy|]. intros [C|C]; [lia|auto]. Qed.
Lemma c_str_start k : exists t, k ++ [0] = (c_str k ++ [0]) ++ t.
Proof.
  induction k as [|c k (t & IH)]; [now exists []|]. cbn [c_str]. destruct (c =? 0) eqn:E; [exists (k ++ [0]); cbn; f_equal; lia|]. exists t. cbn [app]. now rewrite IH.
Qed.
Lemma hold_key B p k : has B p (c_str k ++ [0]) -> holds B (mkBv p 4 0) (XKey k).
Proof.
  intros H. pose proof (has_bound _ _ _ H). pose proof (zlen_nonneg (c_str k ++ [0])). split; [reflexivity|]. split; [cbn; lia|]. split; [discriminate|]. split; [intros _; cbn [v_u]; lia|].
  split; [exact H|]. intros. reflexivity.
Qed.

(** ** Vectors *)
Lemma vector_spec buf len vs step typed keys buf' v : create_vector buf len vs step typed keys = (buf', v) ->
  1 <= step -> 0 <= len <= zlen vs -> zlen buf' < 2 ^ 62 -> (forall u, In u vs -> exists x, holds buf u x) ->
  (forall k, keys = Some k -> is_inline (v_ty k) = false /\ 0 <= v_u k <= zlen buf /\ 0 <= v_w k <= 3) ->
  (exists rest, buf' = buf ++ rest) /\ 0 <= v_w v <= 3 /\ v_ty v = (match keys with Some _ => 9 | None => if typed then 14 else 10 end) /\ 0 <= v_u v <= zlen buf' /\ aligned (v_u v) (2 ^ v_w v) /\
  has buf' (v_u v - 2 ^ v_w v) (le_put (Z.to_nat (2 ^ v_w v)) len) /\ 0 <= len < 2 ^ (8 * 2 ^ v_w v) /\
  (forall i u, get vs i = Some u -> fits u (v_w v) (v_u v + i * 2 ^ v_w v) /\ has buf' (v_u v + i * 2 ^ v_w v) (write_any u (2 ^ v_w v) (v_u v + i * 2 ^ v_w v)) /\
     (typed = false -> get buf' (v_u v + zlen vs * 2 ^ v_w v + i) = Some (packed_type u (v_w v)))) /\
  (forall k, keys = Some k -> has buf' (v_u v - 3 * 2 ^ v_w v) (le_put (Z.to_nat (2 ^ v_w v)) (v_u v - 3 * 2 ^ v_w v - v_u k)) /\
     0 <= v_u v - 3 * 2 ^ v_w v - v_u k < 2 ^ (8 * 2 ^ v_w v) /\ has buf' (v_u v - 2 * 2 ^ v_w v) (le_put (Z.to_nat (2 ^ v_w v)) (2 ^ v_w k))).
Proof.
  intros E ST LEN LB HV HK. unfold create_vector in E. cbv zeta in E.
  set (w0 := match keys with Some k => Z.max (width_u len) (elem_width k (zlen buf) 0) | None => width_u len end) in *.
  set (p := match keys with Some _ => 3 | None => 1 end) in *. set (w := max_width vs (zlen buf) p step w0) in *.
  set (A := align buf w) in *. set (L := le_put (Z.to_nat (2 ^ w)) len) in *.
  set (K := match keys with Some k => le_put (Z.to_nat (2 ^ w)) (zlen A - v_u k) ++ le_put (Z.to_nat (2 ^ w)) (2 ^ v_w k) | None => [] end).
  assert (EK : match keys with Some k => A ++ le_put (Z.to_nat (2 ^ w)) (zlen A - v_u k) ++ le_put (Z.to_nat (2 ^ w)) (2 ^ v_w k) | None => A end = A ++ K) by (unfold K; destruct keys; [|rewrite app_nil_r]; reflexivity).
  rewrite EK in E. clear EK. set (loc := zlen ((A ++ K) ++ L)) in *. set (Vs := write_all vs (2 ^ w) loc) in *. set (T := if typed then [] else map (fun v => packed_type v w) vs).
  assert (ET : (if typed then ((A ++ K) ++ L) ++ Vs else (((A ++ K) ++ L) ++ Vs) ++ map (fun v => packed_type v w) vs) = ((A ++ K) ++ L) ++ Vs ++ T).
  { unfold T. destruct typed; [now rewrite app_nil_r|now rewrite <- app_assoc]. }
  rewrite ET in E. clear ET. injection E as <- <-. cbn [v_u v_ty v_w].
  pose proof (width_u_range len) as WL. assert (W0 : 0 <= w0 <= 3 /\ width_u len <= w0).
  { unfold w0. destruct keys as [k|]; [|lia]. destruct (HK k eq_refl) as (_ & _ & Q). pose proof (elem_width_range k (zlen buf) 0 Q). lia. }
  destruct W0 as (W0 & W1). destruct (max_width_spec vs (zlen buf) step p w0) as (MW & ME); [intros u U; destruct (HV u U) as (x & _ & Q & _); exact Q|exact W0|]. fold w in MW, ME.
  assert (W : 0 <= w <= 3) by lia. pose proof (pow_range w W) as PW. assert (LL : zlen L = 2 ^ w) by (apply le_put_zlen; lia).
  assert (LK : zlen K = (p - 1) * 2 ^ w).
  { unfold K, p. destruct keys as [k|]; [|reflexivity]. rewrite zlen_app, !le_put_zlen by lia. ring. }
  assert (P1 : 1 <= p) by (unfold p; destruct keys; lia).
  assert (LA : zlen A = zlen buf + padding (zlen buf) (2 ^ w)) by (apply align_len; exact W).
  assert (ELOC : loc = zlen buf + padding (zlen buf) (2 ^ w) + p * 2 ^ w) by (unfold loc; rewrite !zlen_app, LL, LK, LA; ring).
  assert (FL : forall u, In u vs -> v_ty u = 3 -> 2 <= w).
  { intros u U Q. destruct (HV u U) as (x & _ & _ & Q3 & _). specialize (Q3 Q). apply In_nth_error in U. destruct U as (n & U).
    assert (G : get vs (Z.of_nat n) = Some u).
    { unfold get, zlen. rewrite Nat2Z.id. assert (n < length vs)%nat by (apply nth_error_Some; congruence). replace ((0 <=? Z.of_nat n) && (Z.of_nat n <? Z.of_nat (length vs))) with true by lia. exact U. }
    specialize (ME _ _ G). unfold elem_width in ME. rewrite Q in ME. cbn [is_inline Z.leb Z.compare Pos.compare Pos.compare_cont orb] in ME. lia. }
  destruct (write_all_at vs w W FL loc) as (LV & AV). fold Vs in LV, AV. rewrite !zlen_app in LB. fold loc in LB. pose proof (zlen_nonneg T) as T0. pose proof (zlen_nonneg vs) as V0. pose proof (zlen_nonneg buf) as B0.
  assert (LOCL : zlen A + zlen K + zlen L = loc) by (unfold loc; now rewrite !zlen_app).
  pose proof (padding_range (zlen buf) w ltac:(lia)) as PR.
  split; [exists (repeat 0 (Z.to_nat (padding (zlen buf) (2 ^ w))) ++ K ++ L ++ Vs ++ T); unfold A, align; now rewrite <- !app_assoc|].
  split; [exact W|]. split; [reflexivity|]. split; [rewrite (zlen_app ((A ++ K) ++ L)); fold loc; rewrite zlen_app; nia|].
  split; [rewrite ELOC, <- LA; apply aligned_add; [lia|now apply align_aligned]|]. split; [|split; [|split]].
  - replace (loc - 2 ^ w) with (zlen (A ++ K)) by (rewrite zlen_app; lia). apply has_app_l, has_end.
  - apply width_u_fits; [|lia]. assert (zlen vs <= zlen vs * 2 ^ w) by nia. lia.
  - intros i u G. pose proof (get_some _ _ _ G) as GI. assert (U : In u vs) by (unfold get in G; destruct (_ && _); [apply nth_error_In in G; exact G|discriminate]).
    destruct (HV u U) as (x & HX). destruct HX as (Q1 & Q2 & Q3 & Q4 & _). pose proof (ME _ _ G) as GE. split; [|split].
    + unfold fits. destruct (is_inline (v_ty u)) eqn:I.
      * unfold elem_width in GE. now rewrite I in GE.
      * rewrite ELOC. replace (zlen buf + padding (zlen buf) (2 ^ w) + p * 2 ^ w + i * 2 ^ w) with (zlen buf + padding (zlen buf) (2 ^ w) + (p + i) * 2 ^ w) by ring.
        apply elem_fits with (idx := p + i * step); auto; try lia; try nia.
    + rewrite (app_assoc _ Vs). apply has_app_l. apply has_app_r. now apply AV.
    + intros TY. unfold T. rewrite TY. rewrite get_app_r by (fold loc; lia). fold loc. rewrite get_app_r by (rewrite LV; lia). rewrite LV.
      replace (loc + zlen vs * 2 ^ w + i - loc - zlen vs * 2 ^ w) with i by ring. unfold get in *. rewrite zlen_map. destruct (_ && _); [|discriminate]. rewrite nth_error_map, G. reflexivity.
  - intros k Hk. destruct (HK k Hk) as (I & U & Q). assert (P3 : p = 3) by (unfold p; now rewrite Hk). assert (EA : loc - 3 * 2 ^ w = zlen A) by (rewrite ELOC, LA, P3; ring).
    assert (EK : K = le_put (Z.to_nat (2 ^ w)) (zlen A - v_u k) ++ le_put (Z.to_nat (2 ^ w)) (2 ^ v_w k)) by (unfold K; now rewrite Hk).
    rewrite EA. split; [|split].
    + rewrite EK, <- !app_assoc. apply has_mid.
    + rewrite LA. replace (zlen buf + padding (zlen buf) (2 ^ w)) with (zlen buf + padding (zlen buf) (2 ^ w) + 0 * 2 ^ w) by ring.
      apply elem_fits with (idx := 0); auto; try lia. assert (elem_width k (zlen buf) 0 <= w0) by (unfold w0; rewrite Hk; lia). lia.
    + replace (loc - 2 * 2 ^ w) with (zlen (A ++ le_put (Z.to_nat (2 ^ w)) (zlen A - v_u k))) by (rewrite zlen_app, le_put_zlen by lia; lia).
      rewrite EK, <- !app_assoc. rewrite (app_assoc A). apply has_mid.
Qed.
