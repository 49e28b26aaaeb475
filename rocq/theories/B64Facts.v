(** B64Facts.v -- the base64 codec against RFC 4648. *)

From Coq Require Import ZArith List Bool Lia ZifyBool ZifyNat.
From Verif Require Import Base BaseFacts B64Model B64Spec.
Import ListNotations.
Open Scope Z_scope.
Ltac Zify.zify_post_hook ::= Z.div_mod_to_equations.

Definition res_eqb (r : res Z) (x : Z) : bool := match r with Ok y => y =? x | _ => false end.
Lemma res_eqb_eq r x : res_eqb r x = true -> r = Ok x.
Proof. destruct r; cbn; try discriminate. intros H. apply Z.eqb_eq in H. now subst. Qed.

Lemma char_alpha n : 0 <= n < 64 -> rd base64_chars n = Ok (alpha n).
Proof.
  intros H. apply res_eqb_eq.
  apply (forall_upto (fun n => res_eqb (rd base64_chars n) (alpha n)) 64); [vm_compute; reflexivity|lia].
Qed.
Lemma lookup_spec c : is_byte c -> rd lookup c = Ok (if in_alphabet c then sextet c else 64).
Proof.
  intros H. apply res_eqb_eq.
  apply (forall_upto (fun c => res_eqb (rd lookup c) (if in_alphabet c then sextet c else 64)) 256);
    [vm_compute; reflexivity|unfold is_byte in H; lia].
Qed.
Lemma alpha_ok n : 0 <= n < 64 -> in_alphabet (alpha n) = true /\ sextet (alpha n) = n /\ is_byte (alpha n) /\ (alpha n =? 61) = false.
Proof.
  intros H. unfold in_alphabet, sextet, is_byte.
  assert (E : (in_alphabet (alpha n) && (sextet (alpha n) =? n) && ((0 <=? alpha n) && (alpha n <? 256)) && negb (alpha n =? 61)) = true).
  { apply (forall_upto (fun n => in_alphabet (alpha n) && (sextet (alpha n) =? n) && ((0 <=? alpha n) && (alpha n <? 256)) && negb (alpha n =? 61)) 64);
      [vm_compute; reflexivity|lia]. }
  unfold in_alphabet, sextet in E. lia.
Qed.
Lemma sextet_range c : in_alphabet c = true -> 0 <= sextet c < 64.
Proof. unfold in_alphabet, sextet. intros H. repeat match goal with |- context [if ?b then _ else _] => destruct b eqn:? end; lia. Qed.

(** ** bit arithmetic *)
Lemma land_mask x n : 0 <= n -> Z.land x (Z.shiftl 1 n - 1) = x mod 2^n.
Proof.
  intros H. rewrite Z.shiftl_mul_pow2, Z.mul_1_l by lia. replace (2^n - 1) with (Z.ones n) by (rewrite Z.ones_equiv; lia).
  now apply Z.land_ones.
Qed.
Lemma land63 x : Z.land x 63 = x mod 64. Proof. change 63 with (Z.ones 6). now rewrite Z.land_ones by lia. Qed.
Lemma land255 x : Z.land x 255 = x mod 256. Proof. change 255 with (Z.ones 8). now rewrite Z.land_ones by lia. Qed.
Lemma push_bits v x n : 0 <= n <= 32 -> 0 <= x < 2^n -> Z.lor (wrap32 (Z.shiftl v n)) x = (v mod 2^(32-n)) * 2^n + x.
Proof.
  intros Hn H. unfold wrap32. rewrite Z.shiftl_mul_pow2 by lia.
  replace (2^32) with (2^n * 2^(32-n)) by (rewrite <- Z.pow_add_r by lia; f_equal; lia).
  rewrite (Z.mul_comm v), Z.mul_mod_distr_l by (apply Z.pow_nonzero; lia).
  rewrite Z.lor_comm, (Z.mul_comm (2^n)), <- Z.shiftl_mul_pow2 by lia.
  rewrite lor_shiftl by lia. rewrite Z.shiftl_mul_pow2 by lia. lia.
Qed.

(** ** Encoder *)
Lemma emit_step f value bits out : 6 <= bits ->
  enc_emit (S f) value bits out = enc_emit f value (bits - 6) (out ++ [alpha (value / 2^(bits-6) mod 64)]).
Proof.
  intros H. cbn [enc_emit]. replace (6 <=? bits) with true by lia. cbv zeta.
  rewrite land63, shiftr_div by lia. rewrite char_alpha by lia. reflexivity.
Qed.
Lemma emit_stop f value bits out : bits < 6 -> enc_emit (S f) value bits out = Ok (bits, out).
Proof. intros H. cbn [enc_emit]. now replace (6 <=? bits) with false by lia. Qed.

Lemma enc_loop_0 v a l out : 0 <= v -> is_byte a ->
  enc_loop (a :: l) v 0 out = enc_loop l (a mod 4) 2 (out ++ [alpha (a / 4)]).
Proof.
  unfold is_byte. intros Hv Ha. cbn [enc_loop]. rewrite push_bits by lia. change (0 + 8) with 8.
  rewrite emit_step by lia. change (8 - 6) with 2. rewrite emit_stop by lia. cbn [bind].
  change (0 <? 2) with true. cbv iota. rewrite land_mask by lia.
  change (2^(32-8)) with 16777216. change (2^8) with 256. change (2^2) with 4.
  f_equal; [|f_equal; f_equal; f_equal]; lia.
Qed.
Lemma enc_loop_2 r b l out : 0 <= r < 4 -> is_byte b ->
  enc_loop (b :: l) r 2 out = enc_loop l (b mod 16) 4 (out ++ [alpha (r * 16 + b / 16)]).
Proof.
  unfold is_byte. intros Hr Hb. cbn [enc_loop]. rewrite push_bits by lia. change (2 + 8) with 10.
  rewrite emit_step by lia. change (10 - 6) with 4. rewrite emit_stop by lia. cbn [bind].
  change (0 <? 4) with true. cbv iota. rewrite land_mask by lia.
  change (2^(32-8)) with 16777216. change (2^8) with 256. change (2^4) with 16.
  f_equal; [|f_equal; f_equal; f_equal]; lia.
Qed.
Lemma enc_loop_4 r c l out : 0 <= r < 16 -> is_byte c ->
  enc_loop (c :: l) r 4 out = enc_loop l (r * 256 + c) 0 (out ++ [alpha (r * 4 + c / 64); alpha (c mod 64)]).
Proof.
  unfold is_byte. intros Hr Hc. cbn [enc_loop]. rewrite push_bits by lia. change (4 + 8) with 12.
  rewrite emit_step by lia. change (12 - 6) with 6. rewrite emit_step by lia. change (6 - 6) with 0.
  rewrite emit_stop by lia. cbn [bind].
  change (0 <? 0) with false. cbv iota.
  change (2^(32-8)) with 16777216. change (2^8) with 256. change (2^6) with 64. change (2^0) with 1.
  rewrite <- app_assoc. cbn [app]. rewrite Z.div_1_r.
  f_equal; [|f_equal; f_equal; [|f_equal]; f_equal]; lia.
Qed.

Lemma bytes_ind3 (P : bytes -> Prop) :
  P [] -> (forall a, P [a]) -> (forall a b, P [a; b]) -> (forall a b c l, P l -> P (a :: b :: c :: l)) -> forall l, P l.
Proof.
  intros H0 H1 H2 H3. fix IH 1. intros [|a [|b [|c l]]]; [exact H0|apply H1|apply H2|apply H3, IH].
Qed.

Definition tail_enc (st : Z * Z * bytes) : res bytes :=
  let '(value, bits, out) := st in
  out1 <- (if 0 <? bits
           then c <- rd base64_chars (Z.land (wrap32 (Z.shiftl value (6 - bits))) 63) ;; Ok (out ++ [c])
           else Ok out) ;;
  enc_pad 4 out1.

Lemma pad_done f out : zlen out mod 4 = 0 -> enc_pad (S f) out = Ok out.
Proof. intros H. cbn [enc_pad]. rewrite H. reflexivity. Qed.
Lemma pad_more f out : zlen out mod 4 <> 0 -> enc_pad (S f) out = enc_pad f (out ++ [61]).
Proof. intros H. cbn [enc_pad]. now replace (zlen out mod 4 =? 0) with false by lia. Qed.

Lemma zlen_snoc {A} (l : list A) x : zlen (l ++ [x]) = zlen l + 1.
Proof. rewrite zlen_app. reflexivity. Qed.

Lemma encode_gen : forall l v out, bytes_ok l -> 0 <= v -> zlen out mod 4 = 0 ->
  (st <- enc_loop l v 0 out ;; tail_enc st) = Ok (out ++ rfc4648 l).
Proof.
  induction l as [|a|a b|a b c l IH] using bytes_ind3; intros v out Hb Hv Ho.
  - cbn [enc_loop bind tail_enc rfc4648]. change (0 <? 0) with false. cbv iota. cbn [bind].
    rewrite pad_done by exact Ho. now rewrite app_nil_r.
  - apply bytes_ok_cons in Hb. destruct Hb as [Ha _]. rewrite enc_loop_0 by assumption.
    cbn [enc_loop bind tail_enc rfc4648]. change (0 <? 2) with true. cbv iota.
    unfold is_byte in Ha. unfold wrap32. rewrite land63, Z.shiftl_mul_pow2 by lia. change (2^(6-2)) with 16.
    rewrite Z.mod_small by lia. rewrite (Z.mod_small (a mod 4 * 16)) by lia. rewrite char_alpha by lia. cbn [bind].
    rewrite pad_more by (rewrite !zlen_snoc; lia). rewrite pad_more by (rewrite !zlen_snoc; lia).
    rewrite pad_done by (rewrite !zlen_snoc; lia). f_equal. now rewrite <- !app_assoc.
  - apply bytes_ok_cons in Hb. destruct Hb as [Ha Hb]. apply bytes_ok_cons in Hb. destruct Hb as [Hb _].
    rewrite enc_loop_0 by assumption. rewrite enc_loop_2 by (try assumption; lia).
    cbn [enc_loop bind tail_enc rfc4648]. change (0 <? 4) with true. cbv iota.
    unfold is_byte in Ha, Hb. unfold wrap32. rewrite land63, Z.shiftl_mul_pow2 by lia. change (2^(6-4)) with 4.
    rewrite Z.mod_small by lia. rewrite (Z.mod_small (b mod 16 * 4)) by lia. rewrite char_alpha by lia. cbn [bind].
    rewrite pad_more by (rewrite !zlen_snoc; lia).
    rewrite pad_done by (rewrite !zlen_snoc; lia). f_equal. now rewrite <- !app_assoc.
  - apply bytes_ok_cons in Hb. destruct Hb as [Ha Hb]. apply bytes_ok_cons in Hb. destruct Hb as [Hb Hc].
    apply bytes_ok_cons in Hc. destruct Hc as [Hc Hl].
    rewrite enc_loop_0 by assumption. rewrite enc_loop_2 by (try assumption; lia).
    rewrite enc_loop_4 by (try assumption; lia). rewrite IH; auto.
    + cbn [rfc4648]. rewrite <- !app_assoc. reflexivity.
    + unfold is_byte in Hc. lia.
    + rewrite zlen_app, !zlen_snoc. change (zlen [alpha (b mod 16 * 4 + c / 64); alpha (c mod 64)]) with 2. lia.
Qed.
Theorem encode_rfc l : bytes_ok l -> base64Encode l = Ok (rfc4648 l).
Proof.
  intros H. pose proof (encode_gen l 0 [] H ltac:(lia) ltac:(reflexivity)) as E. cbn [app] in E.
  rewrite <- E. unfold base64Encode, tail_enc. destruct (enc_loop l 0 0 []) as [[[v b] o]|e| |]; reflexivity.
Qed.

(** ** Decoder *)
Lemma spelled_snoc p c : spelled (p ++ [c]) = 64 * spelled p + sextet c.
Proof. unfold spelled. now rewrite fold_left_app. Qed.
Lemma spelled_nonneg p : forallb in_alphabet p = true -> 0 <= spelled p.
Proof.
  induction p as [|c p IH] using rev_ind; intros H; [cbn; lia|].
  rewrite forallb_app in H. cbn [forallb] in H. rewrite spelled_snoc.
  assert (in_alphabet c = true) by (destruct (in_alphabet c); auto; rewrite andb_false_r in H; discriminate).
  pose proof (sextet_range c H0). assert (0 <= spelled p) by (apply IH; destruct (forallb in_alphabet p); auto). lia.
Qed.

Record dec_inv (p : bytes) (buf bits : Z) (out : bytes) : Prop := {
  di_bits : bits = 6 * zlen p mod 8;
  di_len : zlen out = 6 * zlen p / 8;
  di_buf0 : 0 <= buf < 2^32;
  di_buf : buf mod 2^bits = spelled p mod 2^bits;
  di_out : forall i, 0 <= i < zlen out -> get out i = Some (spelled p / 2^(6 * zlen p - 8 * (i + 1)) mod 256)
}.

Lemma mod_pow_mod x n m : 0 <= m <= n -> (x mod 2^n) mod 2^m = x mod 2^m.
Proof.
  intros H. replace (2^n) with (2^m * 2^(n-m)) by (rewrite <- Z.pow_add_r by lia; f_equal; lia).
  rewrite Z.rem_mul_r by (apply Z.pow_nonzero || apply Z.pow_pos_nonneg; lia).
  rewrite Z.mul_comm, Z.mod_add by (apply Z.pow_nonzero; lia). apply Z.mod_mod. apply Z.pow_nonzero; lia.
Qed.
Lemma div_pow_mod x n m : 0 <= n -> 0 <= m -> (x / 2^n) mod 2^m = (x mod 2^(n+m)) / 2^n.
Proof.
  intros Hn Hm. rewrite Z.pow_add_r by lia.
  rewrite Z.rem_mul_r by (apply Z.pow_nonzero || apply Z.pow_pos_nonneg; lia).
  rewrite Z.mul_comm, Z.div_add by (apply Z.pow_nonzero; lia).
  rewrite (Z.div_small (x mod 2^n)); [reflexivity|]. apply Z.mod_pos_bound. apply Z.pow_pos_nonneg; lia.
Qed.

Lemma push_mod buf N v b : 0 <= v < 64 -> 0 <= b -> buf mod 2^b = N mod 2^b ->
  (64 * buf + v) mod 2^(b+6) = (64 * N + v) mod 2^(b+6).
Proof.
  intros Hv Hb E. rewrite Z.pow_add_r by lia. change (2^6) with 64.
  assert (P : 0 < 2^b) by (apply Z.pow_pos_nonneg; lia).
  rewrite !(Z.mul_comm (2^b) 64). rewrite !Z.rem_mul_r by lia.
  replace ((64 * buf + v) mod 64) with v by lia. replace ((64 * N + v) mod 64) with v by lia.
  replace ((64 * buf + v) / 64) with buf by lia. replace ((64 * N + v) / 64) with N by lia. now rewrite E.
Qed.

Lemma shift_sextet N v e : 0 <= v < 64 -> 0 <= e -> (64 * N + v) / 2^(6+e) = N / 2^e.
Proof.
  intros Hv He. rewrite Z.pow_add_r by lia. change (2^6) with 64.
  rewrite <- Z.div_div; [|lia|apply Z.pow_pos_nonneg; lia]. f_equal. lia.
Qed.
Lemma get_snoc_last {A} (l : list A) x : get (l ++ [x]) (zlen l) = Some x.
Proof. rewrite get_app_r by lia. rewrite Z.sub_diag. apply get_cons_0. Qed.
Lemma get_snoc_old {A} (l : list A) x i : 0 <= i < zlen l -> get (l ++ [x]) i = get l i.
Proof.
  intros H. unfold get. rewrite zlen_snoc. replace ((0 <=? i) && (i <? zlen l + 1)) with true by lia.
  replace ((0 <=? i) && (i <? zlen l)) with true by lia. apply nth_error_app1. unfold zlen in H. lia.
Qed.

Lemma low32 x n v : 0 <= n -> 0 <= v < 64 -> 0 <= x mod 2^26 * 2^6 + v < 2^32.
Proof. intros. pose proof (Z.mod_pos_bound x (2^26) ltac:(lia)). lia. Qed.
Lemma mask32 x b : 0 <= b <= 32 -> 0 <= x mod 2^b < 2^32.
Proof.
  intros H. pose proof (Z.mod_pos_bound x (2^b) ltac:(apply Z.pow_pos_nonneg; lia)).
  pose proof (Z.pow_le_mono_r 2 b 32 ltac:(lia) ltac:(lia)). lia.
Qed.

Lemma dec_step p c s buf bits out : dec_inv p buf bits out -> is_byte c -> in_alphabet c = true ->
  exists buf' bits' out', dec_loop (c :: s) buf bits out = dec_loop s buf' bits' out' /\
    dec_inv (p ++ [c]) buf' bits' out'.
Proof.
  intros [DB DL D0 DM DO] Hc Ha. cbn [dec_loop].
  assert (E61 : (c =? 61) = false) by (clear - Ha; unfold in_alphabet in Ha; lia). rewrite E61.
  rewrite lookup_spec by exact Hc. rewrite Ha. cbn [bind].
  pose proof (sextet_range c Ha) as HS.
  assert (HR : require (negb (sextet c =? 64)) EDeser = Ok tt).
  { unfold require. replace (sextet c =? 64) with false; [reflexivity|]. clear - HS. lia. }
  rewrite HR. cbn [bind]. clear HR E61.
  rewrite push_bits; [|clear; lia|exact HS]. change (2^(32-6)) with (2^26).
  set (N := spelled p) in *. set (m := zlen p) in *.
  assert (Hm : 0 <= m) by apply zlen_nonneg.
  assert (HB : 0 <= bits <= 7) by (clear - DB; lia).
  set (buf1 := buf mod 2^26 * 2^6 + sextet c).
  assert (B0 : 0 <= buf1 < 2^32) by (exact (low32 buf 0 (sextet c) ltac:(clear; lia) HS)).
  assert (BM : buf1 mod 2^(bits+6) = (64 * N + sextet c) mod 2^(bits+6)).
  { unfold buf1. change (2^6) with 64. rewrite (Z.mul_comm _ 64).
    apply push_mod; [exact HS|clear - HB; lia|]. rewrite mod_pow_mod by (clear - HB; lia). exact DM. }
  assert (OLD : forall i, 0 <= i < zlen out ->
            get out i = Some ((64 * N + sextet c) / 2 ^ (6 * (m + 1) - 8 * (i + 1)) mod 256)).
  { intros i Hi. rewrite DO by exact Hi. f_equal. f_equal.
    replace (6 * (m + 1) - 8 * (i + 1)) with (6 + (6 * m - 8 * (i + 1))) by (clear; lia).
    symmetry. apply shift_sextet; [exact HS|]. clear - DL Hi. lia. }
  assert (ZL : zlen (p ++ [c]) = m + 1) by (rewrite zlen_snoc; reflexivity).
  assert (SN : spelled (p ++ [c]) = 64 * N + sextet c) by apply spelled_snoc.
  clearbody buf1 N m. clear D0 DM DO.
  destruct (8 <=? bits + 6) eqn:E8.
  - set (bits2 := bits + 6 - 8).
    assert (HB2 : 0 <= bits2 <= 5) by (clear - HB E8; unfold bits2; lia).
    set (x := Z.land (Z.shiftr buf1 bits2) 255).
    set (buf2 := if 0 <? bits2 then Z.land buf1 (Z.shiftl 1 bits2 - 1) else buf1).
    exists buf2, bits2, (out ++ [x]). split; [reflexivity|].
    split; rewrite ?ZL, ?SN.
    + clear - DB HB2. unfold bits2 in *. lia.
    + rewrite zlen_snoc. clear - DL DB HB2. unfold bits2 in *. lia.
    + unfold buf2. destruct (0 <? bits2) eqn:EB; [|exact B0]. rewrite land_mask by apply HB2.
      apply mask32. clear - HB2. lia.
    + assert (M2 : buf1 mod 2^bits2 = (64 * N + sextet c) mod 2^bits2).
      { assert (0 <= bits2 <= bits + 6) by (clear - HB2; unfold bits2 in *; lia).
        rewrite <- (mod_pow_mod buf1 (bits + 6) bits2), <- (mod_pow_mod (64 * N + sextet c) (bits + 6) bits2) by assumption.
        now rewrite BM. }
      unfold buf2. destruct (0 <? bits2) eqn:EB; [|exact M2]. rewrite land_mask by apply HB2.
      rewrite Z.mod_mod by (apply Z.pow_nonzero; [discriminate|apply HB2]). exact M2.
    + intros i Hi. rewrite zlen_snoc in Hi. destruct (Z.eq_dec i (zlen out)) as [->|NE].
      * rewrite get_snoc_last. f_equal. unfold x. rewrite land255, shiftr_div by apply HB2.
        replace (6 * (m + 1) - 8 * (zlen out + 1)) with bits2 by (clear - DB DL HB2; unfold bits2 in *; lia).
        change 256 with (2^8). rewrite !div_pow_mod by (discriminate || apply HB2).
        replace (bits2 + 8) with (bits + 6) by (clear; unfold bits2; lia). now rewrite BM.
      * assert (0 <= i < zlen out) by (clear - Hi NE; lia). rewrite get_snoc_old by assumption. now apply OLD.
  - assert (HB2 : bits = 0) by (clear - HB DB E8; lia).
    exists buf1, (bits + 6), out. split; [reflexivity|].
    split; rewrite ?ZL, ?SN; auto; clear - DB DL HB2; lia.
Qed.

Lemma dec_all : forall s p buf bits out, dec_inv p buf bits out -> bytes_ok s ->
  (forallb in_alphabet (before_pad s) = true ->
     exists out' buf' bits', dec_loop s buf bits out = Ok out' /\ dec_inv (p ++ before_pad s) buf' bits' out') /\
  (forallb in_alphabet (before_pad s) = false -> dec_loop s buf bits out = Throw EDeser).
Proof.
  induction s as [|c s IH]; intros p buf bits out D Hs.
  - cbn [before_pad forallb]. rewrite app_nil_r. split; [intros _|discriminate]. exists out, buf, bits. auto.
  - apply bytes_ok_cons in Hs. destruct Hs as [Hc Hs]. cbn [before_pad].
    destruct (c =? 61) eqn:E.
    { cbn [forallb dec_loop]. rewrite E, app_nil_r. split; [intros _|discriminate]. exists out, buf, bits. auto. }
    cbn [forallb]. destruct (in_alphabet c) eqn:A; cbn [andb].
    + destruct (dec_step p c s buf bits out D Hc A) as (buf' & bits' & out' & -> & D').
      destruct (IH _ _ _ _ D' Hs) as [I1 I2]. rewrite <- app_assoc in I1. auto.
    + split; [discriminate|]. intros _. cbn [dec_loop]. rewrite E, lookup_spec, A by exact Hc. reflexivity.
Qed.

Lemma dec_inv_init : dec_inv [] 0 0 [].
Proof. split; try reflexivity; try lia. intros i Hi. cbn in Hi. lia. Qed.

Theorem decode_spec s : bytes_ok s ->
  if forallb in_alphabet (before_pad s)
  then exists out, base64Decode s = Ok out /\ zlen out = 6 * zlen (before_pad s) / 8 /\
       forall i, 0 <= i < zlen out ->
         get out i = Some (spelled (before_pad s) / 2^(6 * zlen (before_pad s) - 8 * (i + 1)) mod 256)
  else base64Decode s = Throw EDeser.
Proof.
  intros Hs. destruct (dec_all s [] 0 0 [] dec_inv_init Hs) as [A B].
  destruct (forallb in_alphabet (before_pad s)); [|apply B; reflexivity].
  destruct (A eq_refl) as (out & buf & bits & E & D). cbn [app] in D. exists out. split; [exact E|].
  destruct D. auto.
Qed.

(** ** Round trip, directly by groups *)
Lemma dec_alpha n s buf bits out : 0 <= n < 64 ->
  dec_loop (alpha n :: s) buf bits out =
  let buf1 := buf mod 2^26 * 2^6 + n in
  if 8 <=? bits + 6 then
    dec_loop s (if 0 <? bits - 2 then buf1 mod 2^(bits-2) else buf1) (bits - 2) (out ++ [buf1 / 2^(bits-2) mod 256])
  else dec_loop s buf1 (bits + 6) out.
Proof.
  intros Hn. destruct (alpha_ok n Hn) as (A & B & C & D). cbn [dec_loop]. rewrite D, lookup_spec, A, B by exact C.
  cbn [bind]. unfold require. replace (negb (n =? 64)) with true by lia. cbn [bind].
  rewrite push_bits by lia. change (2^(32-6)) with (2^26). cbv zeta. destruct (8 <=? bits + 6) eqn:E; [|reflexivity].
  replace (bits + 6 - 8) with (bits - 2) by lia. rewrite land255, shiftr_div by lia.
  destruct (0 <? bits - 2) eqn:E2; [|reflexivity]. rewrite land_mask by lia. reflexivity.
Qed.

Lemma round_gen : forall l buf out, bytes_ok l -> 0 <= buf -> dec_loop (rfc4648 l) buf 0 out = Ok (out ++ l).
Proof.
  induction l as [|a|a b|a b c l IH] using bytes_ind3; intros buf out Hb Hv.
  - cbn. now rewrite app_nil_r.
  - apply bytes_ok_cons in Hb. destruct Hb as [Ha _]. unfold is_byte in Ha. cbn [rfc4648].
    rewrite dec_alpha by lia. change (8 <=? 0 + 6) with false. cbv zeta iota. change (0 + 6) with 6.
    rewrite dec_alpha by lia. change (8 <=? 6 + 6) with true. cbv zeta iota. change (6 - 2) with 4.
    change (0 <? 4) with true. cbv iota. cbn [dec_loop]. change (61 =? 61) with true. cbv iota.
    do 3 f_equal. lia.
  - apply bytes_ok_cons in Hb. destruct Hb as [Ha Hb]. apply bytes_ok_cons in Hb. destruct Hb as [Hb _].
    unfold is_byte in Ha, Hb. cbn [rfc4648].
    rewrite dec_alpha by lia. change (8 <=? 0 + 6) with false. cbv zeta iota. change (0 + 6) with 6.
    rewrite dec_alpha by lia. change (8 <=? 6 + 6) with true. cbv zeta iota. change (6 - 2) with 4.
    change (0 <? 4) with true. cbv iota.
    rewrite dec_alpha by lia. change (8 <=? 4 + 6) with true. cbv zeta iota. change (4 - 2) with 2.
    change (0 <? 2) with true. cbv iota. cbn [dec_loop]. change (61 =? 61) with true. cbv iota.
    rewrite <- app_assoc. cbn [app]. change (2^26) with 67108864. change (2^6) with 64. change (2^4) with 16. change (2^2) with 4. do 3 f_equal; [|f_equal]; lia.
  - apply bytes_ok_cons in Hb. destruct Hb as [Ha Hb]. apply bytes_ok_cons in Hb. destruct Hb as [Hb Hc].
    apply bytes_ok_cons in Hc. destruct Hc as [Hc Hl]. unfold is_byte in Ha, Hb, Hc. cbn [rfc4648].
    rewrite dec_alpha by lia. change (8 <=? 0 + 6) with false. cbv zeta iota. change (0 + 6) with 6.
    rewrite dec_alpha by lia. change (8 <=? 6 + 6) with true. cbv zeta iota. change (6 - 2) with 4.
    change (0 <? 4) with true. cbv iota.
    rewrite dec_alpha by lia. change (8 <=? 4 + 6) with true. cbv zeta iota. change (4 - 2) with 2.
    change (0 <? 2) with true. cbv iota.
    rewrite dec_alpha by lia. change (8 <=? 2 + 6) with true. cbv zeta iota. change (2 - 2) with 0.
    change (0 <? 0) with false. cbv iota.
    rewrite IH by (try assumption; lia). rewrite <- !app_assoc. cbn [app].
    change (2^26) with 67108864. change (2^6) with 64. change (2^4) with 16. change (2^2) with 4. change (2^0) with 1.
    rewrite Z.div_1_r. do 3 f_equal; [lia|]. f_equal; [lia|]. f_equal. lia.
Qed.
Theorem round_trip64 l : bytes_ok l -> (s <- base64Encode l ;; base64Decode s) = Ok l.
Proof. intros H. rewrite encode_rfc by exact H. cbn [bind]. unfold base64Decode. now rewrite round_gen by (auto; lia). Qed.

Lemma rfc_len : forall l, zlen (rfc4648 l) = 4 * ((zlen l + 2) / 3).
Proof.
  induction l as [|a|a b|a b c l IH] using bytes_ind3; try reflexivity.
  cbn [rfc4648]. rewrite !zlen_cons, IH. lia.
Qed.
(** Alphabet characters, then 0, 2 or 1 times '='. *)
Lemma rfc_form : forall l, bytes_ok l -> exists p k, rfc4648 l = p ++ repeat 61 k /\ Forall (fun c => in_alphabet c = true) p /\
  Z.of_nat k = (- zlen l) mod 3.
Proof.
  assert (AL : forall n, 0 <= n < 64 -> in_alphabet (alpha n) = true) by (intros; now apply alpha_ok).
  induction l as [|a|a b|a b c l IH] using bytes_ind3; intros Hb.
  - exists [], O. repeat split; constructor.
  - apply bytes_ok_cons in Hb. destruct Hb as [Ha _]. unfold is_byte in Ha.
    eexists [_; _], 2%nat. split; [reflexivity|]. split; [|reflexivity]. repeat constructor; apply AL; lia.
  - apply bytes_ok_cons in Hb. destruct Hb as [Ha Hb]. apply bytes_ok_cons in Hb. destruct Hb as [Hb _].
    unfold is_byte in Ha, Hb.
    eexists [_; _; _], 1%nat. split; [reflexivity|]. split; [|reflexivity]. repeat constructor; apply AL; lia.
  - apply bytes_ok_cons in Hb. destruct Hb as [Ha Hb]. apply bytes_ok_cons in Hb. destruct Hb as [Hb Hc].
    apply bytes_ok_cons in Hc. destruct Hc as [Hc Hl]. unfold is_byte in Ha, Hb, Hc.
    destruct (IH Hl) as (p & k & E & F & K).
    eexists (_ :: _ :: _ :: _ :: p), k. cbn [rfc4648]. rewrite E. split; [reflexivity|].
    split; [repeat (constructor; [apply AL; lia|]); exact F|]. rewrite !zlen_cons. lia.
Qed.
Lemma bytes_ok_rfc : forall l, bytes_ok l -> bytes_ok (rfc4648 l).
Proof.
  intros l Hl. destruct (rfc_form l Hl) as (p & k & -> & F & _). rewrite bytes_ok_app. split.
  - unfold bytes_ok. eapply Forall_impl; [|exact F]. intros c H. unfold in_alphabet in H. unfold is_byte. lia.
  - unfold bytes_ok. apply Forall_forall. intros x H. apply repeat_spec in H. subst. unfold is_byte. lia.
Qed.
