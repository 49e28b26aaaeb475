(** MsgSafe.v -- the MessagePack reader on arbitrary bytes: termination and progress of
    mp_skip, soundness of mp_skip, memory safety. *)

From Coq Require Import ZArith List Bool Lia ZifyBool ZifyNat.
From Verif Require Import Base BaseFacts Spec SpecFacts FloatModel MsgModel MsgSpec MsgFacts MsgMain.
Import ListNotations.
Open Scope Z_scope.
Ltac Zify.zify_post_hook ::= Z.div_mod_to_equations.

(** ** Raw reads *)
Lemma has_at {A} (b : list A) p n : 0 <= p -> 0 <= n -> p + n <= zlen b ->
  has b p (slice b p n) /\ zlen (slice b p n) = n.
Proof. intros. pose proof (zlen_slice b p n ltac:(lia) ltac:(lia) ltac:(lia)) as E. split; [|exact E]. unfold has. rewrite E. auto. Qed.
Lemma has_bytes b p l : bytes_ok b -> has b p l -> bytes_ok l.
Proof. intros B (_ & _ & E). rewrite <- E. now apply bytes_ok_slice. Qed.
Lemma be_mod k n v : (k <= n)%nat -> be k (v mod 256 ^ Z.of_nat n) = be k v.
Proof.
  induction k as [|k IH]; intros H; [reflexivity|]. cbn [be]. rewrite IH by lia. f_equal.
  replace (Z.of_nat n) with (Z.of_nat k + (1 + Z.of_nat (n - S k))) by lia.
  rewrite !Z.pow_add_r by lia. change (256 ^ 1) with 256.
  assert (0 < 256 ^ Z.of_nat k) by (apply Z.pow_pos_nonneg; lia).
  assert (0 < 256 ^ Z.of_nat (n - S k)) by (apply Z.pow_pos_nonneg; lia).
  rewrite Z.rem_mul_r by lia. rewrite (Z.mul_comm (256 ^ Z.of_nat k)), Z.div_add by lia.
  rewrite (Z.div_small (v mod 256 ^ Z.of_nat k)) by (apply Z.mod_pos_bound; lia). rewrite Z.add_0_l.
  rewrite Z.rem_mul_r by lia. rewrite (Z.mul_comm 256 (_ mod _)), Z.mod_add by lia.
  now rewrite Z.mod_mod by lia.
Qed.
Lemma horner_range l : bytes_ok l -> 0 <= horner l < 256 ^ zlen l.
Proof.
  induction l as [|b l IH]; intros B; [cbn; lia|]. apply bytes_ok_cons in B. destruct B as [B0 B]. specialize (IH B).
  rewrite horner_cons, zlen_cons, Z.pow_add_r by (auto; lia). change (256 ^ 1) with 256. unfold is_byte in B0.
  clear - B0 IH. nia.
Qed.
Lemma be_horner l : bytes_ok l -> be (length l) (horner l) = l.
Proof.
  induction l as [|b l IH]; intros B; [reflexivity|]. apply bytes_ok_cons in B. destruct B as [B0 B].
  cbn [be length]. pose proof (horner_range l B) as R. rewrite horner_cons. fold (zlen l).
  assert (0 < 256 ^ zlen l) by (apply Z.pow_pos_nonneg; auto; lia). unfold is_byte in B0.
  f_equal.
  - change (Z.of_nat (length l)) with (zlen l). rewrite Z.add_comm, Z.div_add by lia. rewrite Z.div_small by lia.
    apply Z.mod_small. lia.
  - rewrite <- (be_mod (length l) (length l)) by lia. change (Z.of_nat (length l)) with (zlen l).
    rewrite Z.add_comm, Z.mod_add by lia. rewrite Z.mod_small by lia. now apply IH.
Qed.
Lemma be_at b p n : bytes_ok b -> 0 <= p -> p + Z.of_nat n <= zlen b ->
  exists x, has b p (be n x) /\ 0 <= x < 256 ^ Z.of_nat n.
Proof.
  intros B P L. destruct (has_at b p (Z.of_nat n)) as [H E]; try lia. set (l := slice b p (Z.of_nat n)) in *.
  pose proof (has_bytes _ _ _ B H) as Bl. exists (horner l).
  assert (length l = n) by (unfold zlen in E; lia). pose proof (be_horner l Bl) as BH. pose proof (horner_range l Bl).
  rewrite E in *. rewrite H0 in BH. rewrite BH. auto.
Qed.
Lemma be16_at b p : bytes_ok b -> 0 <= p -> p + 2 <= zlen b ->
  exists x, has b p (be 2 x) /\ 0 <= x < 65536 /\ mp_read_be16 b p = Ok x.
Proof. intros B P L. destruct (be_at b p 2 B P ltac:(lia)) as (x & H & R). exists x. split; [exact H|]. split; [exact R|]. now apply read_be16_be. Qed.
Lemma be32_at b p : bytes_ok b -> 0 <= p -> p + 4 <= zlen b ->
  exists x, has b p (be 4 x) /\ 0 <= x < 2^32 /\ mp_read_be32 b p = Ok x.
Proof. intros B P L. destruct (be_at b p 4 B P ltac:(lia)) as (x & H & R). exists x. split; [exact H|]. split; [exact R|]. now apply read_be32_be. Qed.
Lemma be64_at b p : bytes_ok b -> 0 <= p -> p + 8 <= zlen b ->
  exists x, has b p (be 8 x) /\ 0 <= x < 2^64 /\ mp_read_be64 b p = Ok x.
Proof. intros B P L. destruct (be_at b p 8 B P ltac:(lia)) as (x & H & R). exists x. split; [exact H|]. split; [exact R|]. now apply read_be64_be. Qed.

(** ** Spans inside their buffer *)
Record wfs (v : mspan) : Prop := mkWfs {
  wf_bytes : bytes_ok (ms_buf v); wf_off : 0 <= ms_off v; wf_len : 0 <= ms_len v;
  wf_end : ms_off v + ms_len v <= zlen (ms_buf v)
}.
Lemma wfs_open b : bytes_ok b -> wfs (mp_open b).
Proof. intros B. constructor; cbn; auto; lia. Qed.
Lemma at_ok v i : wfs v -> 0 <= i < ms_len v -> exists m, sp_at v i = Ok m /\ is_byte m /\ has (ms_buf v) (ms_off v + i) [m].
Proof.
  intros W H. destruct W. destruct (has_at (ms_buf v) (ms_off v + i) 1) as [E L]; try lia.
  destruct (slice (ms_buf v) (ms_off v + i) 1) as [|m [|? ?]] eqn:Es; [discriminate L| |rewrite !zlen_cons in L; pose proof (zlen_nonneg l); lia].
  exists m. split; [unfold sp_at; replace ((0 <=? i) && (i <? ms_len v)) with true by lia; apply (has_rd _ _ _ _ E)|].
  split; [|exact E]. apply has_bytes in E; [|assumption]. apply bytes_ok_cons in E. apply E.
Qed.
Lemma wfs_sub v o w : wfs v -> 0 <= o -> subspan v o = Ok w ->
  wfs w /\ ms_buf w = ms_buf v /\ ms_off w = ms_off v + o /\ ms_len w = ms_len v - o.
Proof.
  intros [] H E. unfold subspan in E. destruct (o <=? ms_len v) eqn:L; [|discriminate]. injection E as <-.
  cbn [ms_buf ms_off ms_len]. repeat split; cbn [ms_buf ms_off ms_len]; auto; lia.
Qed.
Lemma wfs_first v n w : wfs v -> 0 <= n -> first v n = Ok w ->
  wfs w /\ ms_buf w = ms_buf v /\ ms_off w = ms_off v /\ ms_len w = n.
Proof.
  intros [] H E. unfold first in E. destruct (n <=? ms_len v) eqn:L; [|discriminate]. injection E as <-.
  cbn [ms_buf ms_off ms_len]. repeat split; cbn [ms_buf ms_off ms_len]; auto; lia.
Qed.

(** ** Every outcome of mp_skip *)

(** The only elements on which skipping does not advance: str32/bin32 with length 2^32-5. *)
Definition stuck (v : mspan) : Prop :=
  exists m, (m = 219 \/ m = 198) /\ has (ms_buf v) (ms_off v) [m; 255; 255; 255; 251] /\ 5 <= ms_len v.
Definition skip_out (fuel : nat) (v : mspan) (r : res Z) : Prop :=
  match r with
  | Ok s => 1 <= s \/ s = 0 /\ stuck v
  | Throw EDeser => True
  | UB => True
  | NoFuel => Z.of_nat fuel <= ms_len v
  | _ => False
  end.
Lemma seq_out f skipf v n off : wfs v -> 1 <= off ->
  (forall w, wfs w -> ms_len w < ms_len v -> skip_out f w (skipf w)) ->
  skip_out (S f) v (skip_seq skipf v n off).
Proof.
  intros W O H. unfold skip_seq.
  apply (zloop_inv _ (fun off => 1 <= off) (fun x => skip_out (S f) v (bind x (fun x => match x with inl o => Ok o | inr _ => UB end)))); auto.
  - intros o Ho. destruct (subspan v o) as [w|[]| |] eqn:E; cbn [bind]; try exact I; try (unfold subspan in E; destruct (_ <=? _); discriminate).
    destruct (wfs_sub v o w W ltac:(lia) E) as (Ww & _ & _ & L). specialize (H w Ww ltac:(lia)).
    destruct (skipf w) as [s|[]| |]; cbn [bind skip_out] in *; auto; lia.
  - intros s Hs. cbn. lia.
Qed.
Lemma pairs_out f skipf v n off : wfs v -> 1 <= off ->
  (forall w, wfs w -> ms_len w < ms_len v -> skip_out f w (skipf w)) ->
  skip_out (S f) v (skip_pairs skipf v n off).
Proof.
  intros W O H. unfold skip_pairs.
  apply (zloop_inv _ (fun off => 1 <= off) (fun x => skip_out (S f) v (bind x (fun x => match x with inl o => Ok o | inr _ => UB end)))); auto.
  - intros o Ho. destruct (subspan v o) as [w|[]| |] eqn:E; cbn [bind]; try exact I; try (unfold subspan in E; destruct (_ <=? _); discriminate).
    destruct (wfs_sub v o w W ltac:(lia) E) as (Ww & _ & _ & L). assert (H1 := H w Ww ltac:(lia)).
    destruct (skipf w) as [s|[]| |]; cbn [bind skip_out] in *; auto; try lia.
    destruct (subspan v (o + s)) as [w2|[]| |] eqn:E2; cbn [bind]; try exact I; try (unfold subspan in E2; destruct (_ <=? _); discriminate).
    destruct (wfs_sub v (o + s) w2 W ltac:(lia) E2) as (Ww2 & _ & _ & L2). assert (H2 := H w2 Ww2 ltac:(lia)).
    destruct (skipf w2) as [s2|[]| |]; cbn [bind skip_out] in *; auto; lia.
  - intros s Hs. cbn. lia.
Qed.

Lemma land_range m k : 0 <= k -> 0 <= Z.land m k.
Proof. intros H. apply Z.land_nonneg. now right. Qed.

Theorem skip_total : forall fuel v, wfs v -> skip_out fuel v (mp_skip fuel v).
Proof.
  induction fuel as [|f IH]; intros v W; [cbn; destruct W; lia|].
  cbn [mp_skip]. unfold require. destruct (sp_empty v) eqn:E0; cbn [negb bind]; [exact I|].
  assert (HL : 1 <= ms_len v) by (unfold sp_empty in E0; destruct W; lia).
  destruct (at_ok v 0 W ltac:(lia)) as (m & -> & Hm & Hh). cbn [bind]. rewrite Z.add_0_r in Hh.
  destruct (_ || _); [left; lia|].
  destruct (Z.land m 224 =? 160); [left; pose proof (land_range m 31 ltac:(lia)); lia|].
  destruct (Z.land m 240 =? 144); [apply seq_out; [exact W|lia|intros; now apply IH]|].
  destruct (Z.land m 240 =? 128); [apply pairs_out; [exact W|lia|intros; now apply IH]|].
  destruct ((m =? 204) || _); [left; lia|]. destruct ((m =? 205) || _); [left; lia|].
  destruct ((m =? 206) || _ || _); [left; lia|]. destruct ((m =? 207) || _ || _); [left; lia|].
  destruct ((m =? 217) || _).
  { destruct (ms_len v <? 2) eqn:E2; cbn [negb bind]; [exact I|].
    destruct (at_ok v 1 W ltac:(lia)) as (x & -> & Hx & _). cbn [bind]. left. unfold is_byte in Hx. lia. }
  assert (R16 : ms_len v <? 3 = false -> exists x, 0 <= x /\ mp_read_be16 (ms_buf v) (sp_ptr v 1) = Ok x).
  { intros L. destruct W. destruct (be16_at (ms_buf v) (sp_ptr v 1)) as (x & _ & ? & ?); unfold sp_ptr in *; eauto; try lia.
    exists x. split; [lia|assumption]. }
  assert (R32 : ms_len v <? 5 = false -> exists x, has (ms_buf v) (sp_ptr v 1) (be 4 x) /\ 0 <= x < 2^32 /\ mp_read_be32 (ms_buf v) (sp_ptr v 1) = Ok x).
  { intros L. destruct W. destruct (be32_at (ms_buf v) (sp_ptr v 1)) as (x & ? & ? & ?); unfold sp_ptr in *; eauto; try lia. }
  destruct ((m =? 218) || _).
  { destruct (ms_len v <? 3) eqn:E2; cbn [negb bind]; [exact I|]. destruct (R16 eq_refl) as (x & Hx & ->). left. lia. }
  destruct ((m =? 219) || _) eqn:E219.
  { destruct (ms_len v <? 5) eqn:E2; cbn [negb bind]; [exact I|]. destruct (R32 eq_refl) as (x & Hh2 & Hx & ->). cbn [bind skip_out].
    destruct (wrap32_range (5 + x)) as [RW _]. destruct (Z.eq_dec (wrap32 (5 + x)) 0) as [Ez|]; [right|left; lia].
    split; [exact Ez|]. exists m. split; [lia|]. split; [|lia]. apply has_cons. split; [exact Hh|].
    assert (x = 2^32 - 5) as -> by (unfold wrap32 in Ez; clear - Ez Hx; lia). exact Hh2. }
  destruct (m =? 220).
  { destruct (ms_len v <? 3) eqn:E2; cbn [negb bind]; [exact I|]. destruct (R16 eq_refl) as (x & Hx & ->). cbn [bind].
    apply seq_out; [exact W|lia|intros; now apply IH]. }
  destruct (m =? 221).
  { destruct (ms_len v <? 5) eqn:E2; cbn [negb bind]; [exact I|]. destruct (R32 eq_refl) as (x & _ & Hx & ->). cbn [bind].
    apply seq_out; [exact W|lia|intros; now apply IH]. }
  destruct (m =? 222).
  { destruct (ms_len v <? 3) eqn:E2; cbn [negb bind]; [exact I|]. destruct (R16 eq_refl) as (x & Hx & ->). cbn [bind].
    apply pairs_out; [exact W|lia|intros; now apply IH]. }
  destruct (m =? 223).
  { destruct (ms_len v <? 5) eqn:E2; cbn [negb bind]; [exact I|]. destruct (R32 eq_refl) as (x & _ & Hx & ->). cbn [bind].
    apply pairs_out; [exact W|lia|intros; now apply IH]. }
  exact I.
Qed.

(** ** Soundness: what mp_skip accepts is a well-formed object *)
Definition sound (b : bytes) (skipf : mspan -> res Z) : Prop :=
  forall w s, wfs w -> ms_buf w = b -> skipf w = Ok s ->
    0 <= s /\ (s <= ms_len w -> exists it, item_small it /\ starts w (enc it) /\ zlen (enc it) = s).

Lemma sub_starts v pre w l : starts v pre -> subspan v (zlen pre) = Ok w -> starts w l -> starts v (pre ++ l).
Proof.
  intros [H L] E [Hw Lw]. unfold subspan in E. destruct (_ <=? _); [|discriminate]. injection E as <-. cbn [ms_buf ms_off ms_len] in *.
  split; [apply has_app; auto|rewrite zlen_app; lia].
Qed.

Lemma seq_mono skipf v : wfs v -> sound (ms_buf v) skipf -> forall n off s, 0 <= off ->
  nloop (R := unit) n (fun off => w <- subspan v off ;; s <- skipf w ;; Ok (inl (off + s))) off = Ok (inl s) -> off <= s.
Proof.
  intros W SD. induction n as [|n IH]; intros off s O E; [cbn in E; injection E as <-; lia|].
  rewrite nloop_S in E. destruct (subspan v off) as [w|[]| |] eqn:Es; cbn [bind] in E; try discriminate.
  destruct (wfs_sub v off w W O Es) as (Ww & Eb & _ & L).
  destruct (skipf w) as [s1|[]| |] eqn:Ek; cbn [bind] in E; try discriminate.
  destruct (SD w s1 Ww Eb Ek) as [S1 _]. apply IH in E; lia.
Qed.
Lemma seq_sound skipf v : wfs v -> sound (ms_buf v) skipf -> forall n (pre : bytes) s, starts v pre ->
  nloop (R := unit) n (fun off => w <- subspan v off ;; s <- skipf w ;; Ok (inl (off + s))) (zlen pre) = Ok (inl s) ->
  s <= ms_len v ->
  exists l, length l = n /\ Forall item_small l /\ starts v (pre ++ flat_map enc l) /\ s = zlen pre + zlen (flat_map enc l).
Proof.
  intros W SD. induction n as [|n IH]; intros pre s SP E L.
  - cbn [nloop] in E. injection E as <-. exists []. cbn [flat_map]. rewrite app_nil_r, zlen_nil.
    split; [reflexivity|]. split; [constructor|]. split; [exact SP|lia].
  - rewrite nloop_S in E. pose proof (zlen_nonneg pre). destruct (subspan v (zlen pre)) as [w|[]| |] eqn:Es; cbn [bind] in E; try discriminate.
    destruct (wfs_sub v (zlen pre) w W ltac:(lia) Es) as (Ww & Eb & _ & Lw).
    destruct (skipf w) as [s1|[]| |] eqn:Ek; cbn [bind] in E; try discriminate.
    destruct (SD w s1 Ww Eb Ek) as [S1 X]. assert (M := E). apply (seq_mono skipf v W SD) in M; [|lia].
    destruct (X ltac:(lia)) as (it & OK & St & <-).
    pose proof (sub_starts _ _ _ _ SP Es St) as SP'. rewrite <- zlen_app in E.
    destruct (IH _ _ SP' E L) as (l & El & Fl & Sl & Hs). exists (it :: l). cbn [length flat_map].
    rewrite app_assoc. rewrite !zlen_app in *. split; [now f_equal|]. split; [now constructor|]. split; [exact Sl|lia].
Qed.
Lemma pairs_mono skipf v : wfs v -> sound (ms_buf v) skipf -> forall n off s, 0 <= off ->
  nloop (R := unit) n (fun off =>
            w <- subspan v off ;; ks <- skipf w ;;
            w2 <- subspan v (off + ks) ;; vs <- skipf w2 ;;
            Ok (inl (off + ks + vs))) off = Ok (inl s) -> off <= s.
Proof.
  intros W SD. induction n as [|n IH]; intros off s O E; [cbn in E; injection E as <-; lia|].
  rewrite nloop_S in E. destruct (subspan v off) as [w|[]| |] eqn:Es; cbn [bind] in E; try discriminate.
  destruct (wfs_sub v off w W O Es) as (Ww & Eb & _ & L).
  destruct (skipf w) as [s1|[]| |] eqn:Ek; cbn [bind] in E; try discriminate.
  destruct (SD w s1 Ww Eb Ek) as [S1 _].
  destruct (subspan v (off + s1)) as [w2|[]| |] eqn:Es2; cbn [bind] in E; try discriminate.
  destruct (wfs_sub v (off + s1) w2 W ltac:(lia) Es2) as (Ww2 & Eb2 & _ & L2).
  destruct (skipf w2) as [s2|[]| |] eqn:Ek2; cbn [bind] in E; try discriminate.
  destruct (SD w2 s2 Ww2 Eb2 Ek2) as [S2 _]. apply IH in E; lia.
Qed.
Lemma pairs_sound skipf v : wfs v -> sound (ms_buf v) skipf -> forall n (pre : bytes) s, starts v pre ->
  nloop (R := unit) n (fun off =>
            w <- subspan v off ;; ks <- skipf w ;;
            w2 <- subspan v (off + ks) ;; vs <- skipf w2 ;;
            Ok (inl (off + ks + vs))) (zlen pre) = Ok (inl s) ->
  s <= ms_len v ->
  exists l, length l = n /\ Forall (fun kx => item_small (fst kx) /\ item_small (snd kx)) l /\
    starts v (pre ++ encp l) /\ s = zlen pre + zlen (encp l).
Proof.
  intros W SD. induction n as [|n IH]; intros pre s SP E L.
  - cbn [nloop] in E. injection E as <-. exists []. cbn [flat_map]. rewrite app_nil_r, zlen_nil.
    split; [reflexivity|]. split; [constructor|]. split; [exact SP|lia].
  - rewrite nloop_S in E. pose proof (zlen_nonneg pre). destruct (subspan v (zlen pre)) as [w|[]| |] eqn:Es; cbn [bind] in E; try discriminate.
    destruct (wfs_sub v (zlen pre) w W ltac:(lia) Es) as (Ww & Eb & _ & Lw).
    destruct (skipf w) as [s1|[]| |] eqn:Ek; cbn [bind] in E; try discriminate.
    destruct (SD w s1 Ww Eb Ek) as [S1 X].
    destruct (subspan v (zlen pre + s1)) as [w2|[]| |] eqn:Es2; cbn [bind] in E; try discriminate.
    destruct (wfs_sub v (zlen pre + s1) w2 W ltac:(lia) Es2) as (Ww2 & Eb2 & _ & L2).
    destruct (skipf w2) as [s2|[]| |] eqn:Ek2; cbn [bind] in E; try discriminate.
    destruct (SD w2 s2 Ww2 Eb2 Ek2) as [S2 X2].
    assert (M := E). apply (pairs_mono skipf v W SD) in M; [|lia].
    destruct (X ltac:(lia)) as (k & OK & St & <-).
    destruct (X2 ltac:(lia)) as (x & OKx & Stx & <-).
    pose proof (sub_starts _ _ _ _ SP Es St) as SP'. rewrite <- zlen_app in Es2.
    pose proof (sub_starts _ _ _ _ SP' Es2 Stx) as SP2. rewrite <- !zlen_app in E.
    destruct (IH _ _ SP2 E L) as (l & El & Fl & Sl & Hs). exists ((k, x) :: l). cbn [length flat_map fst snd].
    rewrite !app_assoc. rewrite !zlen_app in *. split; [now f_equal|]. split; [constructor; auto|].
    split; [rewrite <- !app_assoc in *; exact Sl|lia].
Qed.

Lemma skip_seq_inv skipf v n off s : skip_seq skipf v n off = Ok s ->
  nloop (R := unit) (Z.to_nat n) (fun off => w <- subspan v off ;; s <- skipf w ;; Ok (inl (off + s))) off = Ok (inl s).
Proof.
  unfold skip_seq. rewrite zloop_nloop. destruct (nloop _ _ _) as [[o|r]|e| |]; cbn [bind]; try discriminate. now intros [= ->].
Qed.
Lemma skip_pairs_inv skipf v n off s : skip_pairs skipf v n off = Ok s ->
  nloop (R := unit) (Z.to_nat n) (fun off =>
            w <- subspan v off ;; ks <- skipf w ;;
            w2 <- subspan v (off + ks) ;; vs <- skipf w2 ;;
            Ok (inl (off + ks + vs))) off = Ok (inl s).
Proof.
  unfold skip_pairs. rewrite zloop_nloop. destruct (nloop _ _ _) as [[o|r]|e| |]; cbn [bind]; try discriminate. now intros [= ->].
Qed.
Lemma arr_sound skipf v n f s : wfs v -> sound (ms_buf v) skipf -> 0 <= n < seq_cap f ->
  starts v (arr_hdr f n) -> skip_seq skipf v n (zlen (arr_hdr f n)) = Ok s -> s <= ms_len v ->
  exists it, item_small it /\ starts v (enc it) /\ zlen (enc it) = s.
Proof.
  intros W SD N SP E L. apply skip_seq_inv in E.
  destruct (seq_sound skipf v W SD _ _ _ SP E L) as (l & El & Fl & Sl & ->).
  assert (zlen l = n) as El' by (unfold zlen; lia). exists (MArr f l).
  split; [apply item_in_arr; split; [lia|exact Fl]|]. cbn [enc]. rewrite El'. split; [exact Sl|now rewrite zlen_app].
Qed.
Lemma map_sound skipf v n f s : wfs v -> sound (ms_buf v) skipf -> 0 <= n < seq_cap f ->
  starts v (map_hdr f n) -> skip_pairs skipf v n (zlen (map_hdr f n)) = Ok s -> s <= ms_len v ->
  exists it, item_small it /\ starts v (enc it) /\ zlen (enc it) = s.
Proof.
  intros W SD N SP E L. apply skip_pairs_inv in E.
  destruct (pairs_sound skipf v W SD _ _ _ SP E L) as (l & El & Fl & Sl & ->).
  assert (zlen l = n) as El' by (unfold zlen; lia). exists (MMap f l).
  split; [apply item_in_map; split; [lia|exact Fl]|]. cbn [enc]. rewrite El'. split; [exact Sl|now rewrite zlen_app].
Qed.
Lemma str_sound v n f : wfs v -> 0 <= n < str_cap (2^32-5) f -> starts v (str_hdr f n) ->
  zlen (str_hdr f n) + n <= ms_len v ->
  exists it, item_small it /\ starts v (enc it) /\ zlen (enc it) = zlen (str_hdr f n) + n.
Proof.
  intros W N [SP L0] L. pose proof (zlen_nonneg (str_hdr f n)). destruct W.
  destruct (has_at (ms_buf v) (ms_off v + zlen (str_hdr f n)) n) as [H1 H2]; try lia.
  set (s := slice _ _ n) in *. exists (MStr f s). cbn [enc item_small item_in]. rewrite H2, zlen_app, H2.
  split; [split; [now apply (has_bytes _ _ _ wf_bytes0 H1)|lia]|]. split; [|reflexivity].
  split; [apply has_app; auto|rewrite zlen_app; lia].
Qed.
Lemma bin_sound v n f : wfs v -> 0 <= n < bin_cap (2^32-5) f -> starts v (bin_hdr f n) ->
  zlen (bin_hdr f n) + n <= ms_len v ->
  exists it, item_small it /\ starts v (enc it) /\ zlen (enc it) = zlen (bin_hdr f n) + n.
Proof.
  intros W N [SP L0] L. pose proof (zlen_nonneg (bin_hdr f n)). destruct W.
  destruct (has_at (ms_buf v) (ms_off v + zlen (bin_hdr f n)) n) as [H1 H2]; try lia.
  set (s := slice _ _ n) in *. exists (MBin f s). cbn [enc item_small item_in]. rewrite H2, zlen_app, H2.
  split; [split; [now apply (has_bytes _ _ _ wf_bytes0 H1)|lia]|]. split; [|reflexivity].
  split; [apply has_app; auto|rewrite zlen_app; lia].
Qed.
Lemma leaf_sound v m n (mk : Z -> item) : wfs v -> has (ms_buf v) (ms_off v) [m] -> 1 + Z.of_nat n <= ms_len v ->
  (forall x, 0 <= x < 256 ^ Z.of_nat n -> item_small (mk x) /\ enc (mk x) = m :: be n x) ->
  exists it, item_small it /\ starts v (enc it) /\ zlen (enc it) = 1 + Z.of_nat n.
Proof.
  intros W Hm L H. destruct W. destruct (be_at (ms_buf v) (ms_off v + 1) n) as (x & Hx & Rx); auto; try lia.
  destruct (H x Rx) as [OK E]. exists (mk x). rewrite E, zlen_cons, zlen_be. split; [exact OK|]. split; [|lia].
  split; [apply has_cons; auto|rewrite zlen_cons, zlen_be; lia].
Qed.

Lemma land31_eq m : is_byte m -> 160 <= m <= 191 -> Z.land m 31 = m - 160.
Proof. intros _ H. rewrite <- (land31 (m - 160)) by lia. f_equal. lia. Qed.
Lemma land15a_eq m : 144 <= m <= 159 -> Z.land m 15 = m - 144.
Proof. intros H. rewrite <- (land15a (m - 144)) by lia. f_equal. lia. Qed.
Lemma land15m_eq m : 128 <= m <= 143 -> Z.land m 15 = m - 128.
Proof. intros H. rewrite <- (land15m (m - 128)) by lia. f_equal. lia. Qed.

Definition signed_of (iw : iwidth) (x : Z) : Z := to_signed (ibits iw) x.
Lemma signed_item iw x : 0 <= x < 256 ^ Z.of_nat (ibytes iw) ->
  item_small (MSInt iw (signed_of iw x)) /\ enc (MSInt iw (signed_of iw x)) = wsel iw 208 :: be (ibytes iw) x.
Proof.
  intros H. unfold signed_of, to_signed, item_small. cbn [item_in enc].
  assert (R : 0 <= x < 2 ^ ibits iw) by (destruct iw; cbn in *; lia).
  rewrite (Z.mod_small x) by exact R.
  assert (P2 : 2 ^ ibits iw = 2 * 2 ^ (ibits iw - 1)) by (destruct iw; reflexivity).
  unfold smin, smax. destruct (x <? 2 ^ (ibits iw - 1)) eqn:E.
  - rewrite Z.mod_small by exact R. split; [|reflexivity]. assert (0 < 2 ^ (ibits iw - 1)) by (destruct iw; reflexivity). lia.
  - split; [lia|]. replace (x - 2 ^ ibits iw) with (x + (-1) * 2 ^ ibits iw) by lia. rewrite Z.mod_add by lia.
    now rewrite Z.mod_small by exact R.
Qed.
Lemma unsigned_item iw x : 0 <= x < 256 ^ Z.of_nat (ibytes iw) ->
  item_small (MUInt iw x) /\ enc (MUInt iw x) = wsel iw 204 :: be (ibytes iw) x.
Proof. intros H. split; [|reflexivity]. destruct iw; cbn in *; lia. Qed.

Lemma hdr_starts v m n x : has (ms_buf v) (ms_off v) [m] -> has (ms_buf v) (sp_ptr v 1) (be n x) -> 1 + Z.of_nat n <= ms_len v ->
  starts v (m :: be n x).
Proof. intros. split; [apply has_cons; auto|rewrite zlen_cons, zlen_be; lia]. Qed.
Lemma huge_free b p m n : no_huge b -> m = 219 \/ m = 198 -> 0 <= n < 2^32 -> has b p (m :: be 4 n) -> n < 2^32 - 5.
Proof. intros NH M N (P & _ & E). rewrite zlen_cons, zlen_be in E. eapply NH; eauto. Qed.

Theorem skip_sound : forall fuel b, no_huge b -> sound b (mp_skip fuel).
Proof.
  induction fuel as [|f IH]; intros b NH v s W Eb E; [discriminate|].
  split. { pose proof (skip_total (S f) v W) as T. rewrite E in T. cbn in T. lia. }
  intros LS. specialize (IH b NH). rewrite <- Eb in *. clear Eb b.
  cbn [mp_skip] in E. unfold require in E. destruct (sp_empty v) eqn:E0; cbn [negb bind] in E; [discriminate|].
  assert (HL : 1 <= ms_len v) by (unfold sp_empty in E0; destruct W; lia). clear E0.
  destruct (at_ok v 0 W ltac:(lia)) as (m & E1 & Hm & Hh). rewrite E1 in E. cbn [bind] in E. clear E1. rewrite Z.add_0_r in Hh.
  assert (S1 : starts v [m]) by (split; [exact Hh|exact HL]). unfold is_byte in Hm.
  rewrite land224, land240a, land240m in E by exact Hm.
  destruct (_ || _) eqn:C1.
  { injection E as <-. destruct (m <=? 127) eqn:M1.
    { exists (MFixInt m). cbn [enc item_small item_in]. rewrite Z.mod_small by lia. split; [lia|]. split; [exact S1|reflexivity]. }
    destruct (224 <=? m) eqn:M2.
    { exists (MFixInt (m - 256)). cbn [enc item_small item_in]. replace ((m - 256) mod 256) with m by (clear - Hm; lia).
      split; [lia|]. split; [exact S1|reflexivity]. }
    destruct (m =? 192) eqn:M3; [exists MNil; replace m with 192 in S1 by lia; split; [exact I|split; [exact S1|reflexivity]]|].
    destruct (m =? 194) eqn:M4; [exists (MBool false); replace m with 194 in S1 by lia; split; [exact I|split; [exact S1|reflexivity]]|].
    exists (MBool true); replace m with 195 in S1 by lia; split; [exact I|split; [exact S1|reflexivity]]. }
  destruct ((160 <=? m) && (m <=? 191)) eqn:C2.
  { rewrite land31_eq in E by (unfold is_byte; lia). injection E as <-. apply (str_sound v (m - 160) FFix); auto.
    - cbn [str_cap]. lia.
    - cbn [str_hdr]. replace (160 + (m - 160)) with m by lia. exact S1. }
  destruct ((144 <=? m) && (m <=? 159)) eqn:C3.
  { rewrite land15a_eq in E by lia. apply (arr_sound (mp_skip f) v (m - 144) FFix); auto.
    - cbn [seq_cap]. lia.
    - cbn [arr_hdr]. replace (144 + (m - 144)) with m by lia. exact S1. }
  destruct ((128 <=? m) && (m <=? 143)) eqn:C4.
  { rewrite land15m_eq in E by lia. apply (map_sound (mp_skip f) v (m - 128) FFix); auto.
    - cbn [seq_cap]. lia.
    - cbn [map_hdr]. replace (128 + (m - 128)) with m by lia. exact S1. }
  destruct ((m =? 204) || (m =? 208)) eqn:C5.
  { injection E as <-. destruct (m =? 204) eqn:M.
    - apply (leaf_sound v m 1 (MUInt I8)); auto. replace m with 204 by lia. apply (unsigned_item I8).
    - apply (leaf_sound v m 1 (fun x => MSInt I8 (signed_of I8 x))); auto. replace m with 208 by lia. apply (signed_item I8). }
  destruct ((m =? 205) || (m =? 209)) eqn:C6.
  { injection E as <-. destruct (m =? 205) eqn:M.
    - apply (leaf_sound v m 2 (MUInt I16)); auto. replace m with 205 by lia. apply (unsigned_item I16).
    - apply (leaf_sound v m 2 (fun x => MSInt I16 (signed_of I16 x))); auto. replace m with 209 by lia. apply (signed_item I16). }
  destruct ((m =? 206) || (m =? 210) || (m =? 202)) eqn:C7.
  { injection E as <-. destruct (m =? 206) eqn:M; [|destruct (m =? 210) eqn:M'].
    - apply (leaf_sound v m 4 (MUInt I32)); auto. replace m with 206 by lia. apply (unsigned_item I32).
    - apply (leaf_sound v m 4 (fun x => MSInt I32 (signed_of I32 x))); auto. replace m with 210 by lia. apply (signed_item I32).
    - apply (leaf_sound v m 4 MF32); auto. replace m with 202 by lia. intros x Hx. split; [exact Hx|reflexivity]. }
  destruct ((m =? 207) || (m =? 211) || (m =? 203)) eqn:C8.
  { injection E as <-. destruct (m =? 207) eqn:M; [|destruct (m =? 211) eqn:M'].
    - apply (leaf_sound v m 8 (MUInt I64)); auto. replace m with 207 by lia. apply (unsigned_item I64).
    - apply (leaf_sound v m 8 (fun x => MSInt I64 (signed_of I64 x))); auto. replace m with 211 by lia. apply (signed_item I64).
    - apply (leaf_sound v m 8 MF64); auto. replace m with 203 by lia. intros x Hx. split; [exact Hx|reflexivity]. }
  assert (R16 : ms_len v <? 3 = false -> exists x, 0 <= x < 65536 /\ mp_read_be16 (ms_buf v) (sp_ptr v 1) = Ok x /\ starts v (m :: be 2 x)).
  { intros L. assert (W' := W). destruct W'. destruct (be16_at (ms_buf v) (sp_ptr v 1)) as (x & Hx & Rx & ?); unfold sp_ptr in *; eauto; try lia.
    exists x. split; [lia|]. split; [assumption|]. apply hdr_starts; auto. cbn. lia. }
  assert (R32 : ms_len v <? 5 = false -> exists x, 0 <= x < 2^32 /\ mp_read_be32 (ms_buf v) (sp_ptr v 1) = Ok x /\ starts v (m :: be 4 x)).
  { intros L. assert (W' := W). destruct W'. destruct (be32_at (ms_buf v) (sp_ptr v 1)) as (x & Hx & Rx & ?); unfold sp_ptr in *; eauto; try lia.
    exists x. split; [lia|]. split; [assumption|]. apply hdr_starts; auto. cbn. lia. }
  destruct ((m =? 217) || (m =? 196)) eqn:C9.
  { destruct (ms_len v <? 2) eqn:E2; cbn [negb bind] in E; [discriminate|].
    destruct (at_ok v 1 W ltac:(lia)) as (x & Ex & Hx & Hhx). rewrite Ex in E. cbn [bind] in E. injection E as <-. unfold is_byte in Hx.
    assert (SX : starts v (m :: be 1 x)) by (apply hdr_starts; [exact Hh|rewrite be1 by lia; exact Hhx|cbn; lia]).
    destruct (m =? 217) eqn:M.
    - apply (str_sound v x F8); auto. cbn [str_hdr]. replace 217 with m by lia. exact SX.
    - apply (bin_sound v x F8); auto. cbn [bin_hdr]. replace 196 with m by lia. exact SX. }
  destruct ((m =? 218) || (m =? 197)) eqn:C10.
  { destruct (ms_len v <? 3) eqn:E2; cbn [negb bind] in E; [discriminate|]. destruct (R16 eq_refl) as (x & Hx & Ex & SX).
    rewrite Ex in E. cbn [bind] in E. injection E as <-. destruct (m =? 218) eqn:M.
    - apply (str_sound v x F16); auto. cbn [str_hdr]. replace 218 with m by lia. exact SX.
    - apply (bin_sound v x F16); auto. cbn [bin_hdr]. replace 197 with m by lia. exact SX. }
  destruct ((m =? 219) || (m =? 198)) eqn:C11.
  { destruct (ms_len v <? 5) eqn:E2; cbn [negb bind] in E; [discriminate|]. destruct (R32 eq_refl) as (x & Hx & Ex & SX).
    rewrite Ex in E. cbn [bind] in E.
    pose proof (huge_free _ _ m x NH ltac:(lia) Hx (proj1 SX)) as HH. rewrite wrap32_small in E by lia. injection E as <-. destruct (m =? 219) eqn:M.
    - apply (str_sound v x F32); auto; [cbn [str_cap]; lia|]. cbn [str_hdr]. replace 219 with m by lia. exact SX.
    - apply (bin_sound v x F32); auto; [cbn [bin_cap]; lia|]. cbn [bin_hdr]. replace 198 with m by lia. exact SX. }
  destruct (m =? 220) eqn:C12.
  { destruct (ms_len v <? 3) eqn:E2; cbn [negb bind] in E; [discriminate|]. destruct (R16 eq_refl) as (x & Hx & Ex & SX).
    rewrite Ex in E. cbn [bind] in E. apply (arr_sound (mp_skip f) v x F16); auto. cbn [arr_hdr]. replace 220 with m by lia. exact SX. }
  destruct (m =? 221) eqn:C13.
  { destruct (ms_len v <? 5) eqn:E2; cbn [negb bind] in E; [discriminate|]. destruct (R32 eq_refl) as (x & Hx & Ex & SX).
    rewrite Ex in E. cbn [bind] in E. apply (arr_sound (mp_skip f) v x F32); auto. cbn [arr_hdr]. replace 221 with m by lia. exact SX. }
  destruct (m =? 222) eqn:C14.
  { destruct (ms_len v <? 3) eqn:E2; cbn [negb bind] in E; [discriminate|]. destruct (R16 eq_refl) as (x & Hx & Ex & SX).
    rewrite Ex in E. cbn [bind] in E. apply (map_sound (mp_skip f) v x F16); auto. cbn [map_hdr]. replace 222 with m by lia. exact SX. }
  destruct (m =? 223) eqn:C15; [|discriminate].
  destruct (ms_len v <? 5) eqn:E2; cbn [negb bind] in E; [discriminate|]. destruct (R32 eq_refl) as (x & Hx & Ex & SX).
  rewrite Ex in E. cbn [bind] in E. apply (map_sound (mp_skip f) v x F32); auto. cbn [map_hdr]. replace 223 with m by lia. exact SX.
Qed.

(** ** Safety of all operations on well-formed objects *)
Definition inside (b : bytes) (w : mspan) : Prop :=
  ms_buf w = b /\ 0 <= ms_off w /\ 0 <= ms_len w /\ ms_off w + ms_len w <= zlen b.

(** Scalar operations, and all operations. *)
Definition mp_scalar_safe (w : mspan) : Prop :=
  safe any (r_isNull mp_reader w) /\ safe any (r_isBool mp_reader w) /\ safe any (r_isInt mp_reader w) /\
  safe any (r_isUInt mp_reader w) /\ safe any (r_isFloat mp_reader w) /\ safe any (r_isString mp_reader w) /\
  safe any (r_isBlob mp_reader w) /\ safe any (r_isMap mp_reader w) /\ safe any (r_isArray mp_reader w) /\
  safe any (r_asBool mp_reader w) /\ (forall iw, safe any (r_asInt mp_reader iw w)) /\
  (forall iw, safe any (r_asUInt mp_reader iw w)) /\ safe any (r_asDouble mp_reader w).
Definition mp_ops_safe (b : bytes) (w : mspan) : Prop :=
  inside b w /\ mp_scalar_safe w /\
  safe (view_in b) (mp_asStringView w) /\ safe (view_in b) (mp_asBlob w) /\
  safe any (mp_arraySize w) /\ (forall i, 0 <= i < 2^64 -> safe (inside b) (mp_idx w i)) /\
  (forall k, bytes_ok k -> safe (inside b) (mp_key w k)) /\ (forall k, bytes_ok k -> safe any (mp_contains w k)) /\
  safe (Forall (view_in b)) (mp_keys w).

Lemma safe_any {A} (r : res A) P : safe P r -> safe any r.
Proof. destruct r as [a|[]| |]; cbn; auto. intros _. exact I. Qed.
Lemma or_throw_safe {A} (o : option A) : safe any (or_throw o).
Proof. destruct o; exact I. Qed.
Lemma safe_rd b (m : res view) o : (x <- m ;; rd_view b x) = or_throw o -> safe (view_in b) m.
Proof.
  intros E. destruct m as [w|e| |]; cbn [bind] in E.
  - cbn. unfold rd_view in E. destruct (_ && _) eqn:C; [|destruct o; discriminate]. unfold view_in. lia.
  - destruct o; [discriminate|]. injection E as ->. exact I.
  - destruct o; discriminate.
  - destruct o; discriminate.
Qed.
Lemma rd_views_in b : forall l r, mp_rd_views b l = Ok r -> Forall (view_in b) l.
Proof.
  induction l as [|w l IH]; intros r E; [constructor|]. cbn [mp_rd_views] in E.
  destruct (rd_view b w) eqn:E1; cbn [bind] in E; try discriminate.
  destruct (mp_rd_views b l) eqn:E2; cbn [bind] in E; try discriminate. constructor; [|eapply IH; reflexivity].
  unfold rd_view in E1. destruct (_ && _) eqn:C; [|discriminate]. unfold view_in. lia.
Qed.
Lemma rd_views_out b : forall l, mp_rd_views b l = UB \/ exists r, mp_rd_views b l = Ok r.
Proof.
  induction l as [|w l IH]; [right; eexists; reflexivity|]. cbn [mp_rd_views].
  unfold rd_view. destruct (_ && _); [|now left]. cbn [bind].
  destruct IH as [->|[r ->]]; [now left|right; eexists; reflexivity].
Qed.
Lemma safe_rds b (m : res (list view)) o : (x <- m ;; mp_rd_views b x) = or_throw o -> safe (Forall (view_in b)) m.
Proof.
  intros E. destruct m as [w|e| |]; cbn [bind] in E.
  - cbn. destruct (rd_views_out b w) as [U|[r U]]; rewrite U in E; [destruct o; discriminate|]. eapply rd_views_in; eauto.
  - destruct o; [discriminate|]. injection E as ->. exact I.
  - destruct o; discriminate.
  - destruct o; discriminate.
Qed.

Lemma sub_buf v o w : subspan v o = Ok w -> ms_buf w = ms_buf v.
Proof. unfold subspan. destruct (_ <=? _); [|discriminate]. now intros [= <-]. Qed.
Lemma first_buf v o w : first v o = Ok w -> ms_buf w = ms_buf v.
Proof. unfold first. destruct (_ <=? _); [|discriminate]. now intros [= <-]. Qed.

(** A view produced by navigation is a skipped element: the span [w'] at its position was
    skipped and the view covers exactly the skipped bytes. *)
Definition child_of (v c : mspan) : Prop :=
  exists w o, wfs w /\ 0 <= o /\ subspan v o = Ok w /\ skip w = Ok (ms_len c) /\ ms_len c <= ms_len w /\
    ms_buf c = ms_buf v /\ ms_off c = ms_off w /\ 0 <= ms_len c.

Lemma skip_nonneg w s : wfs w -> skip w = Ok s -> 0 <= s.
Proof. intros W E. pose proof (skip_total (S (Z.to_nat (ms_len w))) w W) as T. unfold skip in E. rewrite E in T. cbn in T. lia. Qed.

Lemma arr_info_off v n o : arr_info v = Ok (n, o) -> 1 <= o.
Proof.
  unfold arr_info. destruct (sp_at v 0); cbn [bind]; try discriminate.
  destruct (_ =? 144); [intros [= _ <-]; lia|].
  destruct (_ =? 220); [destruct (mp_read_be16 _ _); cbn [bind]; try discriminate; intros [= _ <-]; lia|].
  destruct (_ =? 221); [destruct (mp_read_be32 _ _); cbn [bind]; try discriminate; intros [= _ <-]; lia|discriminate].
Qed.
Lemma map_info_off v n o : map_info v = Ok (n, o) -> 1 <= o.
Proof.
  unfold map_info. destruct (sp_at v 0); cbn [bind]; try discriminate.
  destruct (_ =? 128); [intros [= _ <-]; lia|].
  destruct (_ =? 222); [destruct (mp_read_be16 _ _); cbn [bind]; try discriminate; intros [= _ <-]; lia|].
  destruct (_ =? 223); [destruct (mp_read_be32 _ _); cbn [bind]; try discriminate; intros [= _ <-]; lia|discriminate].
Qed.

Lemma seq_ge v n o off : wfs v -> 0 <= o -> skip_seq skip v n o = Ok off -> o <= off.
Proof.
  intros W O E. unfold skip_seq in E.
  pose proof (zloop_inv (fun off => w <- subspan v off ;; s <- skip w ;; Ok (inl (off + s)))
    (fun s => o <= s) (fun r : res (Z + unit) => forall s, r = Ok (inl s) -> o <= s)) as ZI.
  destruct (zloop n _ o) as [[s|[]]|e| |] eqn:EZ in E; cbn [bind] in E; try discriminate. injection E as ->.
  refine (ZI _ _ n o (Z.le_refl o) off EZ).
  - intros x Hx. destruct (subspan v x) as [w|e| |] eqn:E1; cbn [bind]; try congruence.
    destruct (wfs_sub v x w W ltac:(lia) E1) as (Ww & _).
    destruct (skip w) as [s|e| |] eqn:E2; cbn [bind]; try congruence. apply (skip_nonneg _ _ Ww) in E2. lia.
  - intros s Hs s' [= <-]. exact Hs.
Qed.

Lemma idx_child v i c : wfs v -> mp_idx v i = Ok c -> child_of v c.
Proof.
  intros W E. unfold mp_idx in E. destruct (arr_info v) as [[n o]|[]| |] eqn:EA; cbn [bind] in E; try discriminate.
  apply arr_info_off in EA. unfold require in E. destruct (negb _); cbn [bind] in E; [|discriminate].
  destruct (skip_seq skip v i o) as [off|[]| |] eqn:ES; cbn [bind] in E; try discriminate.
  apply seq_ge in ES; [|exact W|lia].
  destruct (subspan v off) as [w|[]| |] eqn:E1; cbn [bind] in E; try discriminate.
  destruct (wfs_sub v off w W ltac:(lia) E1) as (Ww & Eb & Eo & El).
  destruct (skip w) as [sz|[]| |] eqn:E2; cbn [bind] in E; try discriminate.
  unfold subspan2 in E. destruct (_ && _) eqn:C; [|discriminate]. injection E as <-.
  exists w, off. cbn [ms_buf ms_off ms_len]. repeat split; auto; try apply Ww; try lia. apply (skip_nonneg _ _ Ww E2).
Qed.

Lemma key_child v k c : wfs v -> mp_key v k = Ok c -> child_of v c.
Proof.
  intros W E. unfold mp_key in E. destruct (mp_is k_map v) as [b|[]| |]; cbn [bind] in E; try discriminate.
  unfold require in E. destruct b; cbn [bind] in E; [|discriminate].
  destruct (map_info v) as [[n o]|[]| |] eqn:EA; cbn [bind] in E; try discriminate. apply map_info_off in EA.
  match type of E with bind (zloop n ?f o) _ = _ =>
    pose proof (zloop_inv f (fun s => 0 <= s) (fun r => forall c, r = Ok (inr c) -> child_of v c)) as ZI;
    destruct (zloop n f o) as [[s|r]|e| |] eqn:EZ end; cbn [bind] in E; try discriminate.
  injection E as ->. assert (O : 0 <= o) by lia. refine (ZI _ _ n o O c EZ); [|intros; discriminate].
  intros x Hx. destruct (subspan v x) as [w|e| |] eqn:E1; cbn [bind]; try congruence.
  destruct (wfs_sub v x w W ltac:(lia) E1) as (Ww & Eb & Eo & El).
  destruct (skip w) as [sz|e| |] eqn:E2; cbn [bind]; try congruence. pose proof (skip_nonneg _ _ Ww E2).
  destruct (first w sz) as [kd|e| |] eqn:E3; cbn [bind]; try congruence.
  destruct (subspan v (x + sz)) as [w2|e| |] eqn:E4; cbn [bind]; try congruence.
  destruct (wfs_sub v (x + sz) w2 W ltac:(lia) E4) as (Ww2 & Eb2 & Eo2 & El2).
  destruct (skip w2) as [sz2|e| |] eqn:E5; cbn [bind]; try congruence. pose proof (skip_nonneg _ _ Ww2 E5).
  destruct (mp_key_is kd k) as [[|]|e| |] eqn:E6; cbn [bind]; try congruence; [|lia].
  destruct (first w2 sz2) as [cc|e| |] eqn:E7; cbn [bind]; try congruence.
  intros c' [= <-]. destruct (wfs_first _ _ _ Ww2 H0 E7) as (_ & F1 & F2 & F3). subst sz2.
  exists w2, (x + sz). unfold first in E7. destruct (ms_len cc <=? ms_len w2) eqn:F; [|discriminate].
  repeat split; auto; try apply Ww2; try lia; congruence.
Qed.

Lemma child_wfs v c : wfs v -> child_of v c -> wfs c.
Proof.
  intros W (w & o & Ww & O & E & _ & L & Eb & Eo & L0). destruct (wfs_sub v o w W O E) as (_ & Eb' & Eo' & El).
  destruct W, Ww. constructor; rewrite ?Eb; auto; lia.
Qed.
Lemma child_item v c : wfs v -> no_huge (ms_buf v) -> child_of v c -> exists it, item_small it /\ spans c it.
Proof.
  intros W NH (w & o & Ww & O & E & K & L & Eb & Eo & L0). destruct (wfs_sub v o w W O E) as (_ & Eb' & Eo' & El).
  destruct (skip_sound _ _ NH w (ms_len c) Ww Eb' K) as [_ X]. destruct (X L) as (it & OK & [St _] & EL).
  exists it. split; [exact OK|]. split; [|now symmetry]. rewrite Eb, Eo. rewrite Eb' in St. exact St.
Qed.
Lemma child_inside v c : wfs v -> child_of v c -> inside (ms_buf v) c.
Proof.
  intros W C. pose proof (child_wfs v c W C) as Wc. destruct C as (w & o & _ & _ & _ & _ & _ & Eb & _).
  destruct Wc. rewrite Eb in *. repeat split; auto.
Qed.

(** ** Scalars on any span *)
Lemma mp_is_safe p v : wfs v -> safe any (mp_is p v).
Proof.
  intros W. unfold mp_is. destruct (sp_empty v) eqn:E; [exact I|]. destruct (at_ok v 0 W) as (m & -> & _); [|exact I].
  unfold sp_empty in E. destruct W. lia.
Qed.
Section Scalars.
  Context (v : mspan) (W : wfs v).
  Lemma s_at1 : safe any (require (negb (ms_len v <? 2)) EDeser ;;; sp_at v 1).
  Proof. unfold require. destruct (ms_len v <? 2) eqn:E; cbn [negb bind]; [exact I|]. destruct (at_ok v 1 W) as (m & -> & _); [lia|exact I]. Qed.
  Lemma s_16 : safe any (require (negb (ms_len v <? 3)) EDeser ;;; mp_read_be16 (ms_buf v) (sp_ptr v 1)).
  Proof.
    unfold require. destruct (ms_len v <? 3) eqn:E; cbn [negb bind]; [exact I|]. destruct W.
    destruct (be16_at (ms_buf v) (sp_ptr v 1)) as (m & _ & _ & ->); unfold sp_ptr; auto; try lia. exact I.
  Qed.
  Lemma s_32 : safe any (require (negb (ms_len v <? 5)) EDeser ;;; mp_read_be32 (ms_buf v) (sp_ptr v 1)).
  Proof.
    unfold require. destruct (ms_len v <? 5) eqn:E; cbn [negb bind]; [exact I|]. destruct W.
    destruct (be32_at (ms_buf v) (sp_ptr v 1)) as (m & _ & _ & ->); unfold sp_ptr; auto; try lia. exact I.
  Qed.
  Lemma s_64 : safe any (require (negb (ms_len v <? 9)) EDeser ;;; mp_read_be64 (ms_buf v) (sp_ptr v 1)).
  Proof.
    unfold require. destruct (ms_len v <? 9) eqn:E; cbn [negb bind]; [exact I|]. destruct W.
    destruct (be64_at (ms_buf v) (sp_ptr v 1)) as (m & _ & _ & ->); unfold sp_ptr; auto; try lia. exact I.
  Qed.
  Lemma s_map {A B} (c : res unit) (m : res A) (g : A -> B) : safe any (c ;;; m) -> safe any (c ;;; x <- m ;; Ok (g x)).
  Proof. destruct c as [[]|[]| |]; cbn [bind]; auto. destruct m as [a|[]| |]; cbn; auto. Qed.
  Lemma s_int64 : safe any (mp_asInt64 v).
  Proof.
    unfold mp_asInt64. unfold require at 1. destruct (sp_empty v) eqn:E; cbn [negb bind]; [exact I|].
    destruct (at_ok v 0 W) as (m & -> & _); [unfold sp_empty in E; destruct W; lia|]. cbn [bind].
    destruct (m <=? 127); [exact I|]. destruct (224 <=? m); [exact I|].
    destruct (m =? 208); [apply s_map, s_at1|]. destruct (m =? 209); [apply s_map, s_16|].
    destruct (m =? 210); [apply s_map, s_32|]. destruct (m =? 211); [apply s_map, s_64|].
    destruct (m =? 204); [apply s_at1|]. destruct (m =? 205); [apply s_16|]. destruct (m =? 206); [apply s_32|].
    destruct (m =? 207); [apply s_map, s_64|exact I].
  Qed.
  Lemma s_uint64 : safe any (mp_asUInt64 v).
  Proof.
    unfold mp_asUInt64. unfold require at 1. destruct (sp_empty v) eqn:E; cbn [negb bind]; [exact I|].
    destruct (at_ok v 0 W) as (m & -> & _); [unfold sp_empty in E; destruct W; lia|]. cbn [bind].
    destruct (m <=? 127); [exact I|].
    destruct (m =? 204); [apply s_at1|]. destruct (m =? 205); [apply s_16|]. destruct (m =? 206); [apply s_32|].
    destruct (m =? 207); [apply s_64|]. pose proof s_int64 as S. destruct (mp_asInt64 v) as [a|[]| |]; cbn in *; auto.
  Qed.
  Theorem scalars_safe : mp_scalar_safe v.
  Proof.
    unfold mp_scalar_safe. cbn [mp_reader r_isNull r_isBool r_isInt r_isUInt r_isFloat r_isString r_isBlob r_isMap r_isArray r_asBool r_asInt r_asUInt r_asDouble].
    repeat apply conj; try apply (mp_is_safe _ v W).
    - unfold mp_asBool, mp_is. destruct (sp_empty v) eqn:E; [exact I|].
      destruct (at_ok v 0 W) as (m & -> & _); [unfold sp_empty in E; destruct W; lia|]. cbn [bind].
      unfold require. destruct (k_bool m); exact I.
    - intros iw. unfold mp_asInt. pose proof s_int64 as S. destruct (mp_asInt64 v) as [a|[]| |]; cbn in *; auto.
      unfold require. destruct iw; auto; destruct (negb _); exact I.
    - intros iw. unfold mp_asUInt. pose proof s_uint64 as S. destruct (mp_asUInt64 v) as [a|[]| |]; cbn in *; auto.
      unfold require. destruct iw; auto; destruct (negb _); exact I.
    - unfold mp_asDouble. unfold mp_is. destruct (sp_empty v) eqn:E; [exact I|].
      destruct (at_ok v 0 W) as (m & -> & _); [unfold sp_empty in E; destruct W; lia|]. cbn [bind].
      unfold require at 1. destruct (k_float m); cbn [bind]; [|exact I].
      destruct (m =? 202); [apply s_map, s_32|]. destruct (m =? 203); [apply s_64|exact I].
  Qed.
End Scalars.

(** ** Everything on well-formed objects *)
Lemma idx_cases w f l i : item_small (MArr f l) -> starts w (enc (MArr f l)) -> 0 <= i ->
  mp_idx w i = Throw EDeser \/ exists x c, In x l /\ mp_idx w i = Ok c /\ spans c x.
Proof.
  intros OK S H. destruct (Z_lt_le_dec i (zlen l)) as [L|L]; [|left; eapply idx_out; eauto]. right.
  destruct (nth_error l (Z.to_nat i)) as [x|] eqn:N; [|apply nth_error_None in N; unfold zlen in L; lia].
  assert (IN := nth_error_In _ _ N). apply nth_error_split in N. destruct N as (l1 & l2 & -> & E).
  destruct (idx_item w f l1 x l2 OK S) as (c & Ec & Sc). exists x, c. replace (zlen l1) with i in Ec by (unfold zlen; lia). auto.
Qed.

Theorem item_ops_safe b w it : wfs w -> ms_buf w = b -> item_small it -> starts w (enc it) -> mp_ops_safe b w.
Proof.
  intros W Eb OK S. subst b. split; [destruct W; repeat split; auto|]. split; [now apply scalars_safe|].
  pose proof (observes_item w it (2^32-5) ltac:(lia) OK S) as O.
  destruct O as (_ & _ & _ & _ & _ & _ & _ & _ & _ & _ & _ & _ & _ & O1 & _ & O2).
  split; [apply (safe_rd _ _ _ O1)|]. split; [apply (safe_rd _ _ _ O2)|].
  split; [|split; [|split; [|split]]].
  - destruct (enc_marker _ _ OK) as (m & t & E & K). destruct it; try (assert (S' := S); rewrite E in S'; rewrite (no_size w m t S'); [exact I|]; unfold kinds, tkinds in K; injection K as _ _ _ _ _ _ _ _ K; rewrite K; reflexivity).
    rewrite (size_item w _ _ _ OK S). exact I.
  - intros i Hi. destruct (mp_idx w i) as [c|e| |] eqn:EI.
    + apply child_inside; [exact W|]. eapply idx_child; eauto.
    + destruct (enc_marker _ _ OK) as (m & t & E & K). destruct it; try (assert (S' := S); rewrite E in S'; rewrite (no_idx w m t S') in EI; [injection EI as <-; exact I|]; unfold kinds, tkinds in K; injection K as _ _ _ _ _ _ _ _ K; rewrite K; reflexivity).
      destruct (idx_cases w _ _ i OK S ltac:(lia)) as [X|(x & c & _ & X & _)]; rewrite X in EI; [injection EI as <-; exact I|discriminate].
    + destruct (enc_marker _ _ OK) as (m & t & E & K). destruct it; try (assert (S' := S); rewrite E in S'; rewrite (no_idx w m t S') in EI; [discriminate EI|]; unfold kinds, tkinds in K; injection K as _ _ _ _ _ _ _ _ K; rewrite K; reflexivity).
      destruct (idx_cases w _ _ i OK S ltac:(lia)) as [X|(x & c & _ & X & _)]; rewrite X in EI; discriminate.
    + destruct (enc_marker _ _ OK) as (m & t & E & K). destruct it; try (assert (S' := S); rewrite E in S'; rewrite (no_idx w m t S') in EI; [discriminate EI|]; unfold kinds, tkinds in K; injection K as _ _ _ _ _ _ _ _ K; rewrite K; reflexivity).
      destruct (idx_cases w _ _ i OK S ltac:(lia)) as [X|(x & c & _ & X & _)]; rewrite X in EI; discriminate.
  - intros k Hk. assert (X : mp_key w k = Throw EDeser \/ exists c, mp_key w k = Ok c).
    { destruct (enc_marker _ _ OK) as (m & t & E & K). destruct it; try (left; assert (S' := S); rewrite E in S'; apply (no_key w m t S'); unfold kinds, tkinds in K; injection K as _ _ _ _ _ _ _ K _; rewrite K; reflexivity).
      pose proof (key_item w _ _ OK S k) as KI. destruct (find (key_is k) l); [|now left]. destruct KI as (c & -> & _). eauto. }
    destruct X as [->|[c X]]; [exact I|]. rewrite X. apply child_inside; [exact W|]. eapply key_child; eauto.
  - intros k Hk. destruct (enc_marker _ _ OK) as (m & t & E & K). destruct it; try (assert (S' := S); rewrite E in S'; rewrite (no_contains w m t S'); [exact I|]; unfold kinds, tkinds in K; injection K as _ _ _ _ _ _ _ K _; rewrite K; reflexivity).
    rewrite (contains_item w _ _ OK S). exact I.
  - destruct (enc_marker _ _ OK) as (m & t & E & K). destruct it; try (assert (S' := S); rewrite E in S'; rewrite (no_keys w m t S'); [exact I|]; unfold kinds, tkinds in K; injection K as _ _ _ _ _ _ _ K _; rewrite K; reflexivity).
    pose proof (keys_item w _ _ OK S) as KI. cbn [mp_reader r_mapKeys] in KI. eapply safe_rds; eauto.
Qed.

Lemma item_reach w0 it0 : wfs w0 -> item_small it0 -> starts w0 (enc it0) -> forall w, reach mp_reader w0 w ->
  wfs w /\ ms_buf w = ms_buf w0 /\ exists it, item_small it /\ starts w (enc it).
Proof.
  intros W OK S w R. induction R as [|w1 i w2 R IH Hi E|w1 k w2 R IH Hk E]; [eauto|destruct IH as (W1 & B1 & it & OK1 & S1)..].
  - cbn [mp_reader r_idx] in E. pose proof (idx_child _ _ _ W1 E) as C. split; [eapply child_wfs; eauto|].
    split; [destruct C as (? & ? & _ & _ & _ & _ & _ & B & _); congruence|].
    destruct (enc_marker _ _ OK1) as (m & t & Em & K). destruct it; try (exfalso; assert (S' := S1); rewrite Em in S'; rewrite (no_idx w1 m t S') in E; [discriminate E|]; unfold kinds, tkinds in K; injection K as _ _ _ _ _ _ _ _ K; rewrite K; reflexivity).
    destruct (idx_cases w1 _ _ i OK1 S1 ltac:(lia)) as [X|(x & c & IN & X & Sc)]; rewrite X in E; [discriminate|]. injection E as <-.
    unfold item_small in OK1. apply item_in_arr in OK1. destruct OK1 as [_ OK1]. rewrite Forall_forall in OK1.
    exists x. split; [now apply OK1|now apply spans_starts].
  - cbn [mp_reader r_key] in E. pose proof (key_child _ _ _ W1 E) as C. split; [eapply child_wfs; eauto|].
    split; [destruct C as (? & ? & _ & _ & _ & _ & _ & B & _); congruence|].
    destruct (enc_marker _ _ OK1) as (m & t & Em & K). destruct it; try (exfalso; assert (S' := S1); rewrite Em in S'; rewrite (no_key w1 m t S') in E; [discriminate E|]; unfold kinds, tkinds in K; injection K as _ _ _ _ _ _ _ K _; rewrite K; reflexivity).
    pose proof (key_item w1 _ _ OK1 S1 k) as KI. destruct (find (key_is k) l) as [kx|] eqn:F; [|congruence].
    destruct KI as (c & X & Sc). rewrite X in E. injection E as <-. apply find_some in F. destruct F as [IN _].
    unfold item_small in OK1. apply item_in_map in OK1. destruct OK1 as [_ OK1]. rewrite Forall_forall in OK1.
    exists (snd kx). split; [now apply OK1|now apply spans_starts].
Qed.

(** Well-formed messages, followed by anything: every reachable view is safe. *)
Theorem message_safe it suf : item_small it -> bytes_ok (enc it ++ suf) ->
  forall w, reach mp_reader (mp_open (enc it ++ suf)) w -> mp_ops_safe (enc it ++ suf) w.
Proof.
  intros OK B w R. assert (S : starts (mp_open (enc it ++ suf)) (enc it)).
  { split; [apply (has_app_l _ suf), has_self|]. cbn. rewrite zlen_app. pose proof (zlen_nonneg suf). lia. }
  destruct (item_reach _ _ (wfs_open _ B) OK S w R) as (W & Eb & it' & OK' & S').
  apply (item_ops_safe _ _ it'); auto.
Qed.

(** Arbitrary bytes: a view obtained from any in-range view by one successful navigation
    step, and everything reachable from it, is safe. *)
Theorem child_safe b v c : bytes_ok b -> no_huge b -> inside b v ->
  (exists i, mp_idx v i = Ok c) \/ (exists k, mp_key v k = Ok c) ->
  forall w, reach mp_reader c w -> mp_ops_safe b w.
Proof.
  intros B NH (Eb & I1 & I2 & I3) N w R. assert (W : wfs v) by (constructor; rewrite ?Eb; auto).
  assert (C : child_of v c) by (destruct N as [[i E]|[k E]]; [eapply idx_child|eapply key_child]; eauto).
  rewrite <- Eb in *. destruct (child_item v c W NH C) as (it & OK & S). apply spans_starts in S.
  destruct (item_reach _ _ (child_wfs _ _ W C) OK S w R) as (Ww & Ew & it' & OK' & S').
  destruct (child_inside _ _ W C) as (Ec & _).
  apply (item_ops_safe _ _ it'); auto. congruence.
Qed.
Theorem root_safe b s : bytes_ok b -> no_huge b -> skip (mp_open b) = Ok s -> s <= zlen b ->
  forall w, reach mp_reader (mp_open b) w -> mp_ops_safe b w.
Proof.
  intros B NH E L w R. destruct (skip_sound _ b NH (mp_open b) s (wfs_open b B) eq_refl E) as [_ X].
  destruct (X L) as (it & OK & S & _).
  destruct (item_reach _ _ (wfs_open _ B) OK S w R) as (W & Eb & it' & OK' & S').
  apply (item_ops_safe _ _ it'); auto.
Qed.
