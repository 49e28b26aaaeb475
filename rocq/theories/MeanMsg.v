(** MeanMsg.v -- what a MessagePack view says is what the object at its beginning stands for. *)

From Coq Require Import ZArith List Bool Lia ZifyBool ZifyNat.
From Verif Require Import Base BaseFacts Spec SpecFacts FloatModel MsgModel MsgSpec MsgFacts MsgSafe LookMsg TransSpec SaysSpec SaysFacts MeanSpec MeanFacts.
Import ListNotations.
Open Scope Z_scope.

(** ** Views at objects *)

Lemma keys_first l : forall ks, keys_of l = Some ks -> forall k d, In k ks ->
  first_of k d (combine ks (map (fun kx => mp_meaning (snd kx)) l)) = match find (key_is k) l with Some kx => mp_meaning (snd kx) | None => None end /\ find (key_is k) l <> None.
Proof.
  induction l as [|kx l IH]; intros ks K k d IN; cbn [keys_of] in K.
  - injection K as <-. destruct IN.
  - destruct (key_of kx) as [k0|] eqn:E; [|discriminate K]. destruct (keys_of l) as [r|]; [|discriminate K]. injection K as <-.
    cbn [map combine first_of find]. unfold key_is at 1. rewrite E. unfold key_is at 2. rewrite E. destruct (beq k0 k) eqn:B; [split; [reflexivity|discriminate]|].
    destruct IN as [-> |IN]; [rewrite beq_refl in B; discriminate B|]. now apply IH.
Qed.
Lemma keys_length l : forall ks, keys_of l = Some ks -> List.length ks = List.length l.
Proof.
  induction l as [|kx l IH]; intros ks K; cbn [keys_of] in K; [now injection K as <-|].
  destruct (key_of kx); [|discriminate K]. destruct (keys_of l) as [r|]; [|discriminate K]. injection K as <-. cbn. now rewrite (IH r).
Qed.
Lemma combine_fst {A B} (a : list A) (b : list B) : List.length a = List.length b -> map fst (combine a b) = a.
Proof. revert b. induction a as [|x a IH]; intros [|y b] L; cbn in *; try discriminate; [reflexivity|]. now rewrite IH by lia. Qed.

Theorem item_says : forall it, item_small it -> forall w x, starts w (enc it) -> says mp_reader w x <-> mp_meaning it = Some x.
Proof.
  induction it as [it Hl|f l IH|f l IH] using item_ind'; intros IS w x ST; pose proof (observes_item w _ (2^32 - 5) ltac:(lia) IS ST) as OB.
  - rewrite (says_scalar mp_reader w _ x OB) by (destruct it; try contradiction; try discriminate; cbn; destruct (0 <=? z); discriminate).
    unfold item_small in IS. destruct it; try contradiction; cbn [mp_meaning item_table scalar ideal t_null t_bool t_int t_uint t_float t_string t_blob t_asBool t_asInt t_asUInt t_asDouble t_asString t_asBlob option_map int_tbl] in *; try (split; congruence).
    + cbn [item_in] in IS. unfold fits_s. rewrite to_signed64_id by lia. replace ((smin I64 <=? z) && (z <=? smax I64)) with true by (unfold smin, smax; cbn; lia). cbn. split; congruence.
    + cbn [item_in] in IS. assert (U : umax w0 <= 2^64 - 1) by (destruct w0; cbn; lia). unfold fits_u. rewrite Z.mod_small by lia.
      replace ((0 <=? z) && (z <=? umax I64)) with true by (unfold umax; cbn; lia). cbn. split; congruence.
    + cbn [item_in] in IS. assert (U : - 2^63 <= smin w0 /\ smax w0 < 2^63) by (destruct w0; cbn; lia). unfold fits_s. rewrite to_signed64_id by lia.
      replace ((smin I64 <=? z) && (z <=? smax I64)) with true by (unfold smin, smax; cbn; lia). cbn. split; congruence.
  - assert (SZ : mp_arraySize w = Ok (zlen l)) by exact (size_item w f l _ IS ST).
    assert (EL : forall l2 l1 xs, l = l1 ++ l2 -> says_elems mp_reader w (zlen l1) xs /\ zlen xs = zlen l2 <-> all_some (map mp_meaning l2) = Some xs).
    { assert (FA : Forall item_small l) by (unfold item_small in IS; apply item_in_arr in IS; exact (proj2 IS)).
      induction l2 as [|it l2 IL]; intros l1 xs E.
      - cbn [map]. rewrite all_some_nil, zlen_nil. split; [intros [_ L]; now apply zlen_0|]. intros ->. split; [exact I|reflexivity].
      - cbn [map]. rewrite all_some_cons. rewrite E in IS, ST. destruct (idx_item w f l1 it l2 IS ST) as (c & EC & SC).
        assert (IN : In it l) by (rewrite E; apply in_or_app; right; now left). rewrite Forall_forall in IH, FA.
        pose proof (fun x => IH it IN (FA it IN) c x (spans_starts c it SC)) as IX. specialize (IL (l1 ++ [it])). rewrite zlen_app, zlen_cons, zlen_nil in IL.
        split.
        + intros [SE L]. destruct xs as [|x0 xs]; [rewrite zlen_nil, zlen_cons in L; pose proof (zlen_nonneg l2); lia|]. rewrite !zlen_cons in L. cbn [says_elems] in SE. destruct SE as [(c' & EC' & SX) SE].
          exists x0, xs. split; [reflexivity|]. split; [apply IX; cbn [r_idx mp_reader] in EC'; congruence|]. apply IL; [rewrite E, <- app_assoc; reflexivity|]. split; [exact SE|lia].
        + intros (x0 & xs' & -> & M & A). apply IL in A; [|rewrite E, <- app_assoc; reflexivity]. destruct A as [SE L]. rewrite !zlen_cons. split; [|lia]. cbn [says_elems].
          split; [exists c; split; [exact EC|now apply IX]|exact SE]. }
    cbn [mp_meaning]. split.
    + intros SY. pose proof (says_is mp_reader w _ x 8 OB eq_refl SY) as RX. destruct x; try discriminate RX. apply says_arr in SY. destruct SY as (_ & N & SE).
      cbn [r_arraySize mp_reader] in N. assert (NL : zlen l0 = zlen l) by congruence. rewrite (proj1 (EL l [] l0 eq_refl) (conj SE NL)). reflexivity.
    + intros M. destruct (all_some _) as [xs|] eqn:A in M; [|discriminate M]. injection M as <-. apply (EL l [] xs eq_refl) in A. destruct A as [SE L]. apply says_arr.
      split; [apply (observes_yes mp_reader w _ _ OB); reflexivity|]. split; [cbn [r_arraySize mp_reader]; now rewrite SZ, L|exact SE].
  - assert (FA : Forall (fun kx => item_small (fst kx) /\ item_small (snd kx)) l) by (unfold item_small in IS; apply item_in_map in IS; exact (proj2 IS)).
    pose proof (keys_item w f l IS ST) as KI. cbn [mp_meaning].
    set (G := fun k => match find (key_is k) l with Some kx => mp_meaning (snd kx) | None => None end).
    assert (EN : forall xs, says_entries mp_reader w xs <-> Forall (fun kx => G (fst kx) = Some (snd kx)) xs).
    { induction xs as [|[k x0] xs IX]; cbn [says_entries]; [split; constructor|]. rewrite Forall_cons_iff, IX. apply and_iff_compat_r. cbn [fst snd]. unfold G.
      pose proof (key_item w f l IS ST k) as KT. cbn [r_key mp_reader]. destruct (find (key_is k) l) as [kx|] eqn:FI.
      - apply find_some in FI. destruct FI as [IN _]. destruct KT as (c & EC & SC). rewrite Forall_forall in IH, FA.
        pose proof (proj2 (IH kx IN) (proj2 (FA kx IN)) c x0 (spans_starts c _ SC)) as IV. split; [intros (c' & EC' & SX); apply IV; congruence|intros M; exists c; split; [exact EC|now apply IV]].
      - rewrite KT. split; [intros (c' & EC' & _); discriminate EC'|discriminate]. }
    assert (FM : forall ks, keys_of l = Some ks -> firsts (combine ks (map (fun kx => mp_meaning (snd kx)) l)) = map (fun k => (k, G k)) ks).
    { intros ks K. pose proof (combine_fst ks (map (fun kx => mp_meaning (snd kx)) l) ltac:(rewrite map_length; now apply keys_length)) as CF.
      rewrite (firsts_map _ G); rewrite CF; [reflexivity|]. intros k d IN. exact (proj1 (keys_first l ks K k d IN)). }
    split.
    + intros SY. pose proof (says_is mp_reader w _ x 7 OB eq_refl SY) as RX. destruct x; try discriminate RX. apply says_map in SY. destruct SY as (_ & K & SE).
      rewrite KI in K. apply or_throw_ok in K. rewrite K, (FM _ K), (proj2 (entries_iff G _ _) (conj eq_refl (proj1 (EN _) SE))). reflexivity.
    + intros M. destruct (keys_of l) as [ks|] eqn:K in M; [|discriminate M]. rewrite (FM _ K) in M. destruct (all_entries _) as [xs|] eqn:A in M; [|discriminate M]. injection M as <-.
      apply entries_iff in A. destruct A as [A B]. apply says_map. split; [apply (observes_yes mp_reader w _ _ OB); reflexivity|]. split; [rewrite KI, K, A; reflexivity|now apply EN].
Qed.

(** ** The whole message *)

Section Root.
  Context (v : mspan).
  Hypothesis W : wfs v.
  Hypothesis END : ms_off v + ms_len v = zlen (ms_buf v).
  Hypothesis NH : no_huge (ms_buf v).
  Definition item_here : Prop := exists it, item_small it /\ starts v (enc it).

  Lemma rd_in p m : rd (ms_buf v) p = Ok m -> p < zlen (ms_buf v).
  Proof. unfold rd. destruct (get (ms_buf v) p) eqn:G; [|discriminate]. intros _. now apply get_some in G. Qed.
  Lemma marker p : mp_is p v = Ok true -> exists m, sp_at v 0 = Ok m /\ is_byte m /\ p m = true /\ 1 <= ms_len v /\ starts v [m].
  Proof.
    unfold mp_is, sp_empty. destruct (ms_len v =? 0) eqn:L; [discriminate|]. assert (L1 : 1 <= ms_len v) by (destruct W; lia).
    destruct (at_ok v 0 W ltac:(lia)) as (m & E & B & H). rewrite E. cbn [bind]. intros P. rewrite Z.add_0_r in H. exists m. repeat split; try assumption; try apply B; try lia; try congruence; apply H.
  Qed.
  Lemma here n : (exists it, item_small it /\ starts v (enc it) /\ zlen (enc it) = n) -> item_here.
  Proof. intros (it & A & B & _). exists it. auto. Qed.
  Lemma leaf_here m n mk : starts v [m] -> 1 + Z.of_nat n <= ms_len v ->
    (forall x, 0 <= x < 256 ^ Z.of_nat n -> item_small (mk x) /\ enc (mk x) = m :: be n x) -> item_here.
  Proof. intros S L H. exact (here _ (leaf_sound v m n mk W (proj1 S) L H)). Qed.

  Lemma hdr8 m : sp_at v 1 <> UB -> starts v [m] -> exists x, sp_at v 1 = Ok x /\ 0 <= x < 256 /\ starts v (m :: be 1 x).
  Proof.
    intros NU S. assert (L : 2 <= ms_len v) by (unfold sp_at in NU; destruct (_ && _) eqn:C in NU; [lia|now destruct NU]).
    destruct (at_ok v 1 W ltac:(lia)) as (x & E & B & H). exists x. split; [exact E|]. split; [exact B|]. apply hdr_starts; [apply S|unfold sp_ptr; rewrite be1 by exact B; exact H|cbn; lia].
  Qed.
  Lemma hdr16 m x : mp_read_be16 (ms_buf v) (sp_ptr v 1) = Ok x -> starts v [m] -> 0 <= x < 65536 /\ starts v (m :: be 2 x).
  Proof.
    intros E S. assert (W' := W). destruct W'. assert (L : 3 <= ms_len v).
    { unfold mp_read_be16 in E. destruct (rd _ (sp_ptr v 1)); cbn [bind] in E; try discriminate E. destruct (rd (ms_buf v) (sp_ptr v 1 + 1)) eqn:R; cbn [bind] in E; try discriminate E.
      apply rd_in in R. unfold sp_ptr in R. lia. }
    destruct (be16_at (ms_buf v) (sp_ptr v 1)) as (y & H & R & E'); auto; [unfold sp_ptr; lia..|]. assert (x = y) by congruence. subst y. split; [exact R|]. apply hdr_starts; [apply S|exact H|cbn; lia].
  Qed.
  Lemma hdr32 m x : mp_read_be32 (ms_buf v) (sp_ptr v 1) = Ok x -> starts v [m] -> 0 <= x < 2^32 /\ starts v (m :: be 4 x).
  Proof.
    intros E S. assert (W' := W). destruct W'. assert (L : 5 <= ms_len v).
    { unfold mp_read_be32 in E. do 3 (destruct (rd (ms_buf v) _) in E; cbn [bind] in E; try discriminate E). destruct (rd (ms_buf v) (sp_ptr v 1 + 3)) eqn:R; cbn [bind] in E; try discriminate E.
      apply rd_in in R. unfold sp_ptr in R. lia. }
    destruct (be32_at (ms_buf v) (sp_ptr v 1)) as (y & H & R & E'); auto; [unfold sp_ptr; lia..|]. assert (x = y) by congruence. subst y. split; [exact R|]. apply hdr_starts; [apply S|exact H|cbn; lia].
  Qed.

  Lemma int_here z : mp_is k_int v = Ok true -> mp_asInt I64 v = Ok z -> item_here.
  Proof.
    intros K E. destruct (marker _ K) as (m & EM & B & KM & L & S). unfold is_byte in B. unfold mp_asInt, mp_asInt64, sp_empty in E.
    replace (ms_len v =? 0) with false in E by lia. cbn [negb require bind] in E. rewrite EM in E. cbn [bind] in E.
    destruct (m <=? 127) eqn:M1; [exists (MFixInt m); cbn [enc]; unfold item_small; cbn [item_in]; rewrite Z.mod_small by lia; split; [lia|exact S]|].
    destruct (224 <=? m) eqn:M2; [exists (MFixInt (m - 256)); cbn [enc]; unfold item_small; cbn [item_in]; replace ((m - 256) mod 256) with m by (clear - B; lia); split; [lia|exact S]|].
    unfold k_int in KM. rewrite M1, M2 in KM. cbn [orb] in KM.
    destruct (m =? 208) eqn:M3; [destruct (ms_len v <? 2) eqn:LL; [discriminate E|]; apply (leaf_here m 1 (fun x => MSInt I8 (signed_of I8 x)) S ltac:(cbn; lia)); replace m with 208 by lia; apply (signed_item I8)|].
    destruct (m =? 209) eqn:M4; [destruct (ms_len v <? 3) eqn:LL; [discriminate E|]; apply (leaf_here m 2 (fun x => MSInt I16 (signed_of I16 x)) S ltac:(cbn; lia)); replace m with 209 by lia; apply (signed_item I16)|].
    destruct (m =? 210) eqn:M5; [destruct (ms_len v <? 5) eqn:LL; [discriminate E|]; apply (leaf_here m 4 (fun x => MSInt I32 (signed_of I32 x)) S ltac:(cbn; lia)); replace m with 210 by lia; apply (signed_item I32)|].
    destruct (m =? 211) eqn:M6; [destruct (ms_len v <? 9) eqn:LL; [discriminate E|]; apply (leaf_here m 8 (fun x => MSInt I64 (signed_of I64 x)) S ltac:(cbn; lia)); replace m with 211 by lia; apply (signed_item I64)|].
    discriminate KM.
  Qed.
  Lemma uint_here z : mp_is k_uint v = Ok true -> mp_asUInt I64 v = Ok z -> item_here.
  Proof.
    intros K E. destruct (marker _ K) as (m & EM & B & KM & L & S). unfold is_byte in B. unfold mp_asUInt, mp_asUInt64, sp_empty in E.
    replace (ms_len v =? 0) with false in E by lia. cbn [negb require bind] in E. rewrite EM in E. cbn [bind] in E.
    destruct (m <=? 127) eqn:M1; [exists (MFixInt m); cbn [enc]; unfold item_small; cbn [item_in]; rewrite Z.mod_small by lia; split; [lia|exact S]|].
    unfold k_uint in KM. rewrite M1 in KM. cbn [orb] in KM.
    destruct (m =? 204) eqn:M3; [destruct (ms_len v <? 2) eqn:LL; [discriminate E|]; apply (leaf_here m 1 (MUInt I8) S ltac:(cbn; lia)); replace m with 204 by lia; apply (unsigned_item I8)|].
    destruct (m =? 205) eqn:M4; [destruct (ms_len v <? 3) eqn:LL; [discriminate E|]; apply (leaf_here m 2 (MUInt I16) S ltac:(cbn; lia)); replace m with 205 by lia; apply (unsigned_item I16)|].
    destruct (m =? 206) eqn:M5; [destruct (ms_len v <? 5) eqn:LL; [discriminate E|]; apply (leaf_here m 4 (MUInt I32) S ltac:(cbn; lia)); replace m with 206 by lia; apply (unsigned_item I32)|].
    destruct (m =? 207) eqn:M6; [destruct (ms_len v <? 9) eqn:LL; [discriminate E|]; apply (leaf_here m 8 (MUInt I64) S ltac:(cbn; lia)); replace m with 207 by lia; apply (unsigned_item I64)|].
    discriminate KM.
  Qed.
  Lemma dbl_here z : mp_is k_float v = Ok true -> mp_asDouble v = Ok z -> item_here.
  Proof.
    intros K E. destruct (marker _ K) as (m & EM & B & KM & L & S). unfold mp_asDouble in E. rewrite K in E. cbn [require bind] in E. rewrite EM in E. cbn [bind] in E.
    destruct (m =? 202) eqn:M3; [destruct (ms_len v <? 5) eqn:LL; [discriminate E|]; apply (leaf_here m 4 MF32 S ltac:(cbn; lia)); replace m with 202 by lia; intros x Hx; split; [exact Hx|reflexivity]|].
    destruct (m =? 203) eqn:M4; [destruct (ms_len v <? 9) eqn:LL; [discriminate E|]; apply (leaf_here m 8 MF64 S ltac:(cbn; lia)); replace m with 203 by lia; intros x Hx; split; [exact Hx|reflexivity]|].
    discriminate E.
  Qed.
  Lemma view_fits w s : rd_view (ms_buf v) w = Ok s -> fst w - ms_off v + snd w <= ms_len v /\ 0 <= snd w.
  Proof. unfold rd_view. destruct (_ && _) eqn:C; [|discriminate]. intros _. lia. Qed.
  Lemma str_here s : mp_is k_string v = Ok true -> (w <- str_info v ;; rd_view (ms_buf v) w) = Ok s -> item_here.
  Proof.
    intros K E. destruct (marker _ K) as (m & EM & B & KM & L & S). unfold str_info in E. rewrite EM in E. cbn [bind] in E.
    rewrite land224 in E by exact B. destruct ((160 <=? m) && (m <=? 191)) eqn:M1.
    { cbn [bind] in E. rewrite land31_eq in E by (try exact B; lia). apply view_fits in E. cbn [fst snd] in E. unfold sp_ptr in E. apply (here _ (str_sound v (m - 160) FFix W ltac:(cbn [str_cap]; lia) ltac:(cbn [str_hdr]; replace (160 + (m - 160)) with m by lia; exact S) ltac:(cbn [str_hdr]; rewrite zlen_cons, zlen_nil; lia))). }
    destruct (m =? 217) eqn:M2.
    { destruct (hdr8 m) as (x & EX & HX & SX); [intros U; rewrite U in E; discriminate E|exact S|]. rewrite EX in E. cbn [bind] in E. apply view_fits in E. cbn [fst snd] in E. unfold sp_ptr in E.
      refine (here _ (str_sound v x F8 W _ _ _)); cbn [str_cap str_hdr]; [lia|replace 217 with m by lia; exact SX|rewrite zlen_cons, zlen_be; lia]. }
    destruct (m =? 218) eqn:M3.
    { destruct (mp_read_be16 _ _) as [x| | |] eqn:EX in E; cbn [bind] in E; try discriminate E. destruct (hdr16 m x EX S) as [HX SX]. apply view_fits in E. cbn [fst snd] in E. unfold sp_ptr in E.
      refine (here _ (str_sound v x F16 W _ _ _)); cbn [str_cap str_hdr]; [lia|replace 218 with m by lia; exact SX|rewrite zlen_cons, zlen_be; lia]. }
    destruct (m =? 219) eqn:M4; [|discriminate E].
    destruct (mp_read_be32 _ _) as [x| | |] eqn:EX in E; cbn [bind] in E; try discriminate E. destruct (hdr32 m x EX S) as [HX SX]. apply view_fits in E. cbn [fst snd] in E. unfold sp_ptr in E.
    pose proof (huge_free _ _ m x NH ltac:(lia) HX (proj1 SX)) as HH. refine (here _ (str_sound v x F32 W _ _ _)); cbn [str_cap str_hdr]; [lia|replace 219 with m by lia; exact SX|rewrite zlen_cons, zlen_be; lia].
  Qed.
  Lemma bin_here s : mp_is k_blob v = Ok true -> (w <- bin_info v ;; rd_view (ms_buf v) w) = Ok s -> item_here.
  Proof.
    intros K E. destruct (marker _ K) as (m & EM & B & KM & L & S). unfold bin_info in E. rewrite EM in E. cbn [bind] in E.
    destruct (m =? 196) eqn:M2.
    { destruct (hdr8 m) as (x & EX & HX & SX); [intros U; rewrite U in E; discriminate E|exact S|]. rewrite EX in E. cbn [bind] in E. apply view_fits in E. cbn [fst snd] in E. unfold sp_ptr in E.
      refine (here _ (bin_sound v x F8 W _ _ _)); cbn [bin_cap bin_hdr]; [lia|replace 196 with m by lia; exact SX|rewrite zlen_cons, zlen_be; lia]. }
    destruct (m =? 197) eqn:M3.
    { destruct (mp_read_be16 _ _) as [x| | |] eqn:EX in E; cbn [bind] in E; try discriminate E. destruct (hdr16 m x EX S) as [HX SX]. apply view_fits in E. cbn [fst snd] in E. unfold sp_ptr in E.
      refine (here _ (bin_sound v x F16 W _ _ _)); cbn [bin_cap bin_hdr]; [lia|replace 197 with m by lia; exact SX|rewrite zlen_cons, zlen_be; lia]. }
    destruct (m =? 198) eqn:M4; [|discriminate E].
    destruct (mp_read_be32 _ _) as [x| | |] eqn:EX in E; cbn [bind] in E; try discriminate E. destruct (hdr32 m x EX S) as [HX SX]. apply view_fits in E. cbn [fst snd] in E. unfold sp_ptr in E.
    pose proof (huge_free _ _ m x NH ltac:(lia) HX (proj1 SX)) as HH. refine (here _ (bin_sound v x F32 W _ _ _)); cbn [bin_cap bin_hdr]; [lia|replace 198 with m by lia; exact SX|rewrite zlen_cons, zlen_be; lia].
  Qed.

  Lemma arr_hdr_here n off : mp_is k_array v = Ok true -> arr_info v = Ok (n, off) -> exists f, 0 <= n < seq_cap f /\ starts v (arr_hdr f n) /\ off = zlen (arr_hdr f n).
  Proof.
    intros K E. destruct (marker _ K) as (m & EM & B & KM & L & S). unfold arr_info in E. rewrite EM in E. cbn [bind] in E. rewrite land240a in E by exact B.
    destruct ((144 <=? m) && (m <=? 159)) eqn:M1.
    { rewrite land15a_eq in E by lia. injection E as <- <-. exists FFix. cbn [seq_cap arr_hdr]. replace (144 + (m - 144)) with m by lia. split; [lia|]. split; [exact S|reflexivity]. }
    destruct (m =? 220) eqn:M2.
    { destruct (mp_read_be16 _ _) as [x| | |] eqn:EX in E; cbn [bind] in E; try discriminate E. destruct (hdr16 m x EX S) as [HX SX]. assert (x = n /\ 3 = off) as [<- <-] by (split; congruence).
      exists F16. cbn [seq_cap arr_hdr]. replace 220 with m by lia. split; [lia|]. split; [exact SX|rewrite zlen_cons, zlen_be; lia]. }
    destruct (m =? 221) eqn:M3; [|discriminate E].
    destruct (mp_read_be32 _ _) as [x| | |] eqn:EX in E; cbn [bind] in E; try discriminate E. destruct (hdr32 m x EX S) as [HX SX]. assert (x = n /\ 5 = off) as [<- <-] by (split; congruence).
    exists F32. cbn [seq_cap arr_hdr]. replace 221 with m by lia. split; [lia|]. split; [exact SX|rewrite zlen_cons, zlen_be; lia].
  Qed.
  Lemma map_hdr_here n off : mp_is k_map v = Ok true -> map_info v = Ok (n, off) -> exists f, 0 <= n < seq_cap f /\ starts v (map_hdr f n) /\ off = zlen (map_hdr f n).
  Proof.
    intros K E. destruct (marker _ K) as (m & EM & B & KM & L & S). unfold map_info in E. rewrite EM in E. cbn [bind] in E. rewrite land240m in E by exact B.
    destruct ((128 <=? m) && (m <=? 143)) eqn:M1.
    { rewrite land15m_eq in E by lia. injection E as <- <-. exists FFix. cbn [seq_cap map_hdr]. replace (128 + (m - 128)) with m by lia. split; [lia|]. split; [exact S|reflexivity]. }
    destruct (m =? 222) eqn:M2.
    { destruct (mp_read_be16 _ _) as [x| | |] eqn:EX in E; cbn [bind] in E; try discriminate E. destruct (hdr16 m x EX S) as [HX SX]. assert (x = n /\ 3 = off) as [<- <-] by (split; congruence).
      exists F16. cbn [seq_cap map_hdr]. replace 222 with m by lia. split; [lia|]. split; [exact SX|rewrite zlen_cons, zlen_be; lia]. }
    destruct (m =? 223) eqn:M3; [|discriminate E].
    destruct (mp_read_be32 _ _) as [x| | |] eqn:EX in E; cbn [bind] in E; try discriminate E. destruct (hdr32 m x EX S) as [HX SX]. assert (x = n /\ 5 = off) as [<- <-] by (split; congruence).
    exists F32. cbn [seq_cap map_hdr]. replace 223 with m by lia. split; [lia|]. split; [exact SX|rewrite zlen_cons, zlen_be; lia].
  Qed.

  (** Reading the elements by index walks over all of them. *)
  Lemma elems_end n off0 : arr_info v = Ok (n, off0) -> forall l i off, 0 <= i -> skip_seq skip v i off0 = Ok off -> off <= ms_len v -> says_elems mp_reader v i l ->
    exists off', skip_seq skip v (i + zlen l) off0 = Ok off' /\ off' <= ms_len v.
  Proof.
    intros AI. induction l as [|x l IH]; intros i off HI SK LE SA; [rewrite zlen_nil, Z.add_0_r; eauto|].
    cbn [says_elems] in SA. destruct SA as ((c & EI & _) & SA). cbn [r_idx mp_reader] in EI.
    unfold mp_idx in EI. rewrite AI in EI. cbn [bind] in EI. destruct (require (negb (n <=? i)) EDeser) eqn:EN; cbn [bind] in EI; try discriminate EI.
    rewrite SK in EI. cbn [bind] in EI. destruct (subspan v off) as [w| | |] eqn:E1; cbn [bind] in EI; try discriminate EI.
    destruct (skip w) as [sz| | |] eqn:E2; cbn [bind] in EI; try discriminate EI. unfold subspan2 in EI. destruct (_ && _) eqn:C; [|discriminate EI].
    assert (SK' : skip_seq skip v (i + 1) off0 = Ok (off + sz)).
    { unfold skip_seq in *. rewrite zloop_nloop in *. replace (Z.to_nat (i + 1)) with (Z.to_nat i + 1)%nat by lia. rewrite nloop_add.
      destruct (nloop (R := unit) (Z.to_nat i) _ off0) as [[o|[]]| | |] eqn:EL in SK |- *; cbn [bind] in SK; try discriminate SK. injection SK as ->.
      cbn [bind nloop]. rewrite E1. cbn [bind]. rewrite E2. reflexivity. }
    rewrite zlen_cons. replace (i + (1 + zlen l)) with (i + 1 + zlen l) by lia. apply (IH (i + 1) (off + sz)); auto; lia.
  Qed.
  Lemma skip_sound' : sound (ms_buf v) skip.
  Proof. intros w s Ww E K. exact (skip_sound _ _ NH w s Ww E K). Qed.

  (** Looking up distinct keys reaches every value. *)
  Lemma entries_end : forall n off ws, ents v n off ws -> 0 <= off -> off <= ms_len v -> forall l : list (bytes * val), mp_rd_views (ms_buf v) ws = Ok (map fst l) -> NoDup (map fst l) ->
    Forall (fun kx => exists c, nloop n
         (fun off =>
            kspan <- subspan v off ;;
            ksz <- skip kspan ;;
            kd <- first kspan ksz ;;
            vspan <- subspan v (off + ksz) ;;
            vsz <- skip vspan ;;
            eq <- mp_key_is kd (fst kx) ;;
            if eq then c <- first vspan vsz ;; Ok (inr c) else Ok (inl (off + ksz + vsz))) off = Ok (inr c)) l ->
    forall e, nloop (R := unit) n
         (fun off =>
            w <- subspan v off ;; ks <- skip w ;;
            w2 <- subspan v (off + ks) ;; vs <- skip w2 ;;
            Ok (inl (off + ks + vs))) off = Ok (inl e) -> e <= ms_len v.
  Proof.
    induction 1 as [off|n off kspan ksz kd w vspan vsz ws E1 E2 E3 E4 E5 E6 _ IH]; intros HO LO l R ND F e SP.
    - cbn [nloop] in SP. injection SP as <-. exact LO.
    - cbn [mp_rd_views] in R. destruct (rd_view (ms_buf v) w) as [k| | |] eqn:RV; cbn [bind] in R; try discriminate R.
      destruct (mp_rd_views (ms_buf v) ws) as [ks'| | |] eqn:RS; cbn [bind] in R; try discriminate R. destruct l as [|[k0 x] l]; [discriminate R|].
      cbn [map fst] in R. assert (EK : k = k0) by (injection R; congruence). assert (EL : ks' = map fst l) by (injection R; congruence). subst k0 ks'. clear R.
      cbn [map fst] in ND. apply NoDup_cons_iff in ND. destruct ND as [NI ND].
      destruct (wfs_sub v off kspan W HO E1) as (Wk & Bk & Ok' & Lk). pose proof (skip_nonneg _ _ Wk E2) as K0.
      destruct (wfs_first _ _ _ Wk K0 E3) as (Wd & Bd & Od & Ld).
      destruct (wfs_sub v (off + ksz) vspan W ltac:(lia) E5) as (Wv & Bv & Ov & Lv). pose proof (skip_nonneg _ _ Wv E6) as V0.
      assert (KI : forall key, mp_key_is kd key = Ok (beq k key)) by (intros; apply (key_is_view kd w k key E4); rewrite Bd, Bk; exact RV).
      apply Forall_cons_iff in F. destruct F as [(c & FC) F]. cbn [fst snd nloop] in FC.
      rewrite E1 in FC. cbn [bind] in FC. rewrite E2 in FC. cbn [bind] in FC. rewrite E3 in FC. cbn [bind] in FC. rewrite E5 in FC. cbn [bind] in FC. rewrite E6 in FC. cbn [bind] in FC.
      rewrite KI, beq_refl in FC. cbn [bind] in FC. destruct (first vspan vsz) as [c'| | |] eqn:E7; cbn [bind] in FC; try discriminate FC.
      assert (VL : vsz <= ms_len vspan) by (unfold first in E7; destruct (vsz <=? ms_len vspan) eqn:FL; [lia|discriminate E7]).
      cbn [nloop] in SP. rewrite E1 in SP. cbn [bind] in SP. rewrite E2 in SP. cbn [bind] in SP. rewrite E5 in SP. cbn [bind] in SP. rewrite E6 in SP. cbn [bind] in SP.
      refine (IH _ _ l eq_refl ND _ e SP); [lia..|].
      rewrite Forall_forall in F |- *. intros [k1 x1] IN. destruct (F _ IN) as (c1 & FC1). exists c1. cbn [fst snd nloop] in FC1 |- *.
      rewrite E1 in FC1. cbn [bind] in FC1. rewrite E2 in FC1. cbn [bind] in FC1. rewrite E3 in FC1. cbn [bind] in FC1. rewrite E5 in FC1. cbn [bind] in FC1. rewrite E6 in FC1. cbn [bind] in FC1.
      rewrite KI in FC1. assert (NE : beq k k1 = false) by (destruct (beq k k1) eqn:Bk1; [apply beq_eq in Bk1; subst k1; exfalso; apply NI; exact (in_map fst _ _ IN)|reflexivity]).
      rewrite NE in FC1. exact FC1.
  Qed.

  Theorem says_here x : match x with VMap l => NoDup (map fst l) | _ => True end -> says mp_reader v x -> item_here.
  Proof.
    intros D SY. assert (Y := says_rank _ _ _ SY). destruct x; cbn [rank] in Y; destruct Y as [(q & Q & E) _]; cbn in Q; injection Q as <-.
    - destruct (marker _ E) as (m & _ & _ & K & _ & S). exists MNil. split; [exact I|]. unfold k_null in K. replace m with 192 in S by lia. exact S.
    - destruct (marker _ E) as (m & _ & _ & K & _ & S). unfold k_bool in K. destruct (m =? 195) eqn:M; [exists (MBool true)|exists (MBool false)]; (split; [exact I|]); cbn [enc]; [replace m with 195 in S by lia|replace m with 194 in S by lia]; exact S.
    - exact (int_here _ E (proj2 SY)).
    - exact (uint_here _ E (proj2 SY)).
    - exact (dbl_here _ E (proj2 SY)).
    - exact (str_here _ E (proj2 SY)).
    - exact (bin_here _ E (proj2 SY)).
    - apply says_arr in SY. destruct SY as (_ & N & SE). cbn [r_arraySize mp_reader] in N. unfold mp_arraySize in N. destruct (arr_info v) as [[n off0]| | |] eqn:AI; cbn [bind] in N; try discriminate N.
      assert (NL : n = zlen l) by congruence. destruct (arr_hdr_here n off0 E AI) as (f & HN & SH & HO).
      destruct (elems_end n off0 AI l 0 off0 ltac:(lia) eq_refl ltac:(subst off0; apply SH) SE) as (s & SK & LS). rewrite Z.add_0_l, <- NL in SK. subst off0.
      exact (here _ (arr_sound skip v n f s W skip_sound' HN SH SK LS)).
    - apply says_map in SY. destruct SY as (_ & K & SE).
      cbn [r_mapKeys mp_reader] in K. destruct (mp_keys v) as [ws| | |] eqn:MK; cbn [bind] in K; try discriminate K.
      unfold mp_keys in MK. cbn [r_isMap mp_reader] in E. rewrite E in MK. cbn [require bind] in MK.
      destruct (map_info v) as [[n off0]| | |] eqn:MI; cbn [bind] in MK; try discriminate MK.
      destruct (skip_pairs skip v n off0) as [e| | |] eqn:SP0 in MK; cbn [bind] in MK; try discriminate MK. pose proof (skip_pairs_inv _ _ _ _ _ SP0) as SP.
      destruct (map_hdr_here n off0 E MI) as (f & HN & SH & HO).
      rewrite zloop_nloop in MK. replace (Z.to_nat (n + 1)) with (Datatypes.S (Z.to_nat n)) in MK by lia.
      destruct (nloop (Datatypes.S (Z.to_nat n)) _ _) as [[r|r]| | |] eqn:KE in MK; cbn [bind] in MK; try discriminate MK.
      destruct (keys_ents v n e (Z.to_nat n) 0 off0 [] r ltac:(lia) KE SP) as (ws' & -> & EN). injection MK as <-. cbn [rev app] in K.
      assert (LE : e <= ms_len v).
      { refine (entries_end _ _ _ EN _ _ l K D _ e SP); [subst off0; apply zlen_nonneg|subst off0; apply SH|].
        clear K D KE EN. induction l as [|[k x] l IL]; constructor.
        - cbn [says_entries] in SE. destruct SE as ((c & EC & SC) & _). cbn [fst snd].
          cbn [r_key mp_reader] in EC. exists c.
          unfold mp_key in EC. rewrite E in EC. cbn [require bind] in EC. rewrite MI in EC. cbn [bind] in EC. rewrite zloop_nloop in EC.
          destruct (nloop (Z.to_nat n) _ off0) as [[o|c']| | |] eqn:EL in EC |- *; cbn [bind] in EC; try discriminate EC. now injection EC as ->.
        - cbn [says_entries] in SE. apply IL. apply SE. }
      subst off0. exact (here _ (map_sound skip v n f e W skip_sound' HN SH SP0 LE)).
  Qed.
End Root.

Lemma open_starts b l : starts (mp_open b) l <-> exists suf, b = l ++ suf.
Proof.
  unfold starts, mp_open. cbn [ms_buf ms_off ms_len]. split.
  - intros [(_ & _ & E) L]. exists (skipn (List.length l) b). unfold slice in E. change (Z.to_nat 0) with 0%nat in E. cbn [skipn] in E.
    unfold zlen in E. rewrite Nat2Z.id in E. rewrite <- E at 1. symmetry. apply firstn_skipn.
  - intros [suf ->]. split; [|rewrite zlen_app; pose proof (zlen_nonneg suf); lia]. exact (proj1 (proj1 (has_app (l ++ suf) 0 l suf) (has_self (l ++ suf)))).
Qed.

(** Every object at the beginning of a message is read for what it stands for. *)
Theorem msgpack_complete b it suf x : item_small it -> b = enc it ++ suf -> mp_meaning it = Some x -> says mp_reader (mp_open b) x.
Proof. intros IS E M. refine (proj2 (item_says it IS (mp_open b) x _) M). apply open_starts. eauto. Qed.
(** ... and nothing else is. *)
Theorem msgpack_sound b x : bytes_ok b -> no_huge b -> match x with VMap l => NoDup (map fst l) | _ => True end -> says mp_reader (mp_open b) x ->
  exists it suf, item_small it /\ b = enc it ++ suf /\ mp_meaning it = Some x.
Proof.
  intros B NH D SY. destruct (says_here (mp_open b) (wfs_open b B) eq_refl NH x D SY) as (it & IS & ST).
  pose proof (proj1 (item_says it IS _ x ST) SY) as M. apply open_starts in ST. destruct ST as [suf E]. exists it, suf. auto.
Qed.

(** Objects of a message below 4 GiB have no longer strings. *)
Lemma in_flat {A B} (g : A -> list B) x l : In x l -> zlen (g x) <= zlen (flat_map g l).
Proof. induction l as [|y l IH]; intros IN; [destruct IN|]. cbn [flat_map]. rewrite zlen_app. pose proof (zlen_nonneg (g y)). pose proof (zlen_nonneg (flat_map g l)). destruct IN as [-> |IN]; [lia|]. specialize (IH IN). lia. Qed.
Lemma ok_small : forall it, item_ok it -> zlen (enc it) < 2^32 - 5 -> item_small it.
Proof.
  unfold item_ok, item_small. induction it as [it Hl|f l IH|f l IH] using item_ind'; intros OK L.
  - destruct it; try contradiction; try exact OK; cbn [item_in enc] in *; rewrite zlen_app in L; (split; [apply OK|]); destruct OK as [_ OK]; destruct f; cbn [str_cap bin_cap] in *; try exact OK.
    all: match type of L with zlen ?h + _ < _ => pose proof (zlen_nonneg h) end; lia.
  - rewrite item_in_arr in *. destruct OK as [A B]. split; [exact A|]. rewrite Forall_forall in *. intros x IN. apply (IH x IN (B x IN)). cbn [enc] in L. rewrite zlen_app in L.
    match type of L with zlen ?h + _ < _ => pose proof (zlen_nonneg h) end. pose proof (in_flat enc x l IN). lia.
  - rewrite item_in_map in *. destruct OK as [A B]. split; [exact A|]. rewrite Forall_forall in *. intros x IN. specialize (IH x IN). specialize (B x IN). destruct IH as [I1 I2]. destruct B as [B1 B2]. cbn [enc] in L. rewrite zlen_app in L.
    match type of L with zlen ?h + _ < _ => pose proof (zlen_nonneg h) end. pose proof (in_flat (fun kx => enc (fst kx) ++ enc (snd kx)) x l IN) as HF. cbv beta in HF. rewrite zlen_app in HF.
    pose proof (zlen_nonneg (enc (fst x))). pose proof (zlen_nonneg (enc (snd x))). split; [apply I1; [exact B1|lia]|apply I2; [exact B2|lia]].
Qed.
Theorem msgpack_iff b it suf x : item_ok it -> b = enc it ++ suf -> zlen (enc it) < 2^32 - 5 -> says mp_reader (mp_open b) x <-> mp_meaning it = Some x.
Proof. intros OK E L. apply (item_says it (ok_small it OK L)). apply open_starts. eauto. Qed.
Lemma small_ok : forall it, item_small it -> item_ok it.
Proof.
  unfold item_ok, item_small. induction it as [it Hl|f l IH|f l IH] using item_ind'; intros OK.
  - destruct it; try contradiction; try exact OK; cbn [item_in] in *; (split; [apply OK|]); destruct OK as [_ OK]; destruct f; cbn [str_cap bin_cap] in *; lia.
  - rewrite item_in_arr in *. destruct OK as [A B]. split; [exact A|]. rewrite Forall_forall in *. auto.
  - rewrite item_in_map in *. destruct OK as [A B]. split; [exact A|]. rewrite Forall_forall in *. intros x IN. destruct (IH x IN) as [I1 I2]. destruct (B x IN). auto.
Qed.
