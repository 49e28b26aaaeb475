(** IdentMsg.v -- a MessagePack object is determined by its bytes, and encodings are prefix-free. *)

From Coq Require Import ZArith List Bool Lia ZifyBool ZifyNat.
From Verif Require Import Base BaseFacts Spec SpecFacts FloatModel MsgModel MsgSpec MsgFacts MsgMain TransSpec IdentFacts.
Import ListNotations.
Open Scope Z_scope.
Ltac Zify.zify_post_hook ::= Z.div_mod_to_equations.

(** ** Pieces *)
Lemma be_inj n a b : 0 <= a < 256 ^ Z.of_nat n -> 0 <= b < 256 ^ Z.of_nat n -> be n a = be n b -> a = b.
Proof. intros A B E. rewrite <- (horner_be_id n a A), <- (horner_be_id n b B). now rewrite E. Qed.
Lemma length_be n v : length (be n v) = n.
Proof. induction n as [|n IH]; [reflexivity|]. cbn [be length]. now rewrite IH. Qed.
Lemma be_app n a b s t : 0 <= a < 256 ^ Z.of_nat n -> 0 <= b < 256 ^ Z.of_nat n ->
  be n a ++ s = be n b ++ t -> a = b /\ s = t.
Proof.
  intros A B E. apply app_eq_len in E; [|now rewrite !length_be]. destruct E as [E ->]. split; [|reflexivity]. now apply (be_inj n).
Qed.
(** The kind of encoding, from the marker. *)
Definition cls (m : Z) : Z :=
  if m <? 128 then 2 else if m <? 144 then 30 else if m <? 160 then 20 else if m <? 192 then 10
  else if m =? 192 then 0 else if m =? 194 then 1 else if m =? 195 then 1
  else if m <? 224 then m else 2.
Definition tag (it : item) : Z :=
  match it with
  | MNil => 0
  | MBool _ => 1
  | MFixInt _ => 2
  | MUInt w _ => wsel w 204
  | MSInt w _ => wsel w 208
  | MF32 _ => 202
  | MF64 _ => 203
  | MStr f _ => match f with FFix => 10 | F8 => 217 | F16 => 218 | F32 => 219 end
  | MBin f _ => match f with FFix => -1 | F8 => 196 | F16 => 197 | F32 => 198 end
  | MArr f _ => match f with FFix => 20 | F8 => -2 | F16 => 220 | F32 => 221 end
  | MMap f _ => match f with FFix => 30 | F8 => -3 | F16 => 222 | F32 => 223 end
  end.
Ltac cls_go := unfold cls; repeat match goal with |- context [if ?c then _ else _] => destruct c eqn:?; try lia end.
Lemma enc_cls it : item_ok it -> exists m r, enc it = m :: r /\ cls m = tag it.
Proof.
  unfold item_ok. intros OK. destruct it as [|b|z|w z|w z|x|x|f s|f b|f l|f l]; cbn [enc tag].
  - eexists _, _. split; [reflexivity|reflexivity].
  - eexists _, _. split; [reflexivity|now destruct b].
  - eexists _, _. split; [reflexivity|]. cbn in OK. cls_go.
  - eexists _, _. split; [reflexivity|now destruct w].
  - eexists _, _. split; [reflexivity|now destruct w].
  - eexists _, _. split; reflexivity.
  - eexists _, _. split; reflexivity.
  - cbn [item_in] in OK. destruct OK as [_ OK]. pose proof (zlen_nonneg s). destruct f; cbn [str_hdr app]; (eexists _, _; split; [reflexivity|]); try reflexivity.
    cbn in OK. cls_go.
  - cbn [item_in] in OK. destruct OK as [_ OK]. pose proof (zlen_nonneg b). destruct f; cbn [bin_hdr app]; [cbn in OK; lia|..]; (eexists _, _; split; [reflexivity|]); reflexivity.
  - apply item_in_arr in OK. destruct OK as [OK _]. pose proof (zlen_nonneg l). destruct f; cbn [arr_hdr app]; [|cbn in OK; lia|..]; (eexists _, _; split; [reflexivity|]); try reflexivity.
    cbn in OK. cls_go.
  - apply item_in_map in OK. destruct OK as [OK _]. pose proof (zlen_nonneg l). destruct f; cbn [map_hdr app]; [|cbn in OK; lia|..]; (eexists _, _; split; [reflexivity|]); try reflexivity.
    cbn in OK. cls_go.
Qed.
Lemma same_tag x y s t : item_ok x -> item_ok y -> enc x ++ s = enc y ++ t -> tag x = tag y.
Proof.
  intros X Y E. destruct (enc_cls x X) as (m & r & Ex & Tx). destruct (enc_cls y Y) as (n & q & Ey & Ty).
  rewrite Ex, Ey in E. cbn [app] in E. injection E as -> _. congruence.
Qed.

(** Headers of the same kind. *)
Ltac hdr_go A B :=
  let E := fresh "E" in
  intros E; apply cons_eq in E; destruct E as [? E];
  first [ apply (be_app 1) in E; [exact E|exact A|exact B]
        | apply (be_app 2) in E; [exact E|exact A|exact B]
        | apply (be_app 4) in E; [exact E|exact A|exact B]
        | split; [lia|exact E] ].
Lemma str_hdr_inj f n n' s t : 0 <= n < str_cap (2^32) f -> 0 <= n' < str_cap (2^32) f ->
  str_hdr f n ++ s = str_hdr f n' ++ t -> n = n' /\ s = t.
Proof. intros A B. destruct f; cbn [str_hdr app str_cap] in *; hdr_go A B. Qed.
Lemma bin_hdr_inj f n n' s t : 0 <= n < bin_cap (2^32) f -> 0 <= n' < bin_cap (2^32) f ->
  bin_hdr f n ++ s = bin_hdr f n' ++ t -> n = n' /\ s = t.
Proof. intros A B. destruct f; cbn [bin_hdr app bin_cap] in *; [lia|hdr_go A B..]. Qed.
Lemma arr_hdr_inj f n n' s t : 0 <= n < seq_cap f -> 0 <= n' < seq_cap f ->
  arr_hdr f n ++ s = arr_hdr f n' ++ t -> n = n' /\ s = t.
Proof. intros A B. destruct f; cbn [arr_hdr app seq_cap] in *; try lia; hdr_go A B. Qed.
Lemma map_hdr_inj f n n' s t : 0 <= n < seq_cap f -> 0 <= n' < seq_cap f ->
  map_hdr f n ++ s = map_hdr f n' ++ t -> n = n' /\ s = t.
Proof. intros A B. destruct f; cbn [map_hdr app seq_cap] in *; try lia; hdr_go A B. Qed.

Theorem enc_delim : forall x, item_ok x -> delim item_ok enc x.
Proof.
  induction x as [it Hl|f l IH|f l IH] using item_ind'; intros OK y s t OKy E; pose proof (same_tag _ _ _ _ OK OKy E) as T;
    unfold item_ok in OK, OKy.
  - destruct it as [|b|z|w z|w z|x|x|f d|f d| |]; try contradiction Hl.
    + destruct y as [| | |[] ?|[] ?| | |[]|[]|[]|[]]; try discriminate T. cbn [enc app] in E. apply cons_eq in E. tauto.
    + destruct y as [|b'| |[] ?|[] ?| | |[]|[]|[]|[]]; try discriminate T. cbn [enc app] in E. apply cons_eq in E.
      destruct E as [E ->]. split; [|reflexivity]. f_equal. now destruct b, b'.
    + destruct y as [| |z'|[] ?|[] ?| | |[]|[]|[]|[]]; try discriminate T. cbn [enc app item_in] in *. apply cons_eq in E.
      destruct E as [E ->]. split; [|reflexivity]. f_equal. clear - E OK OKy. lia.
    + destruct y as [| | |w' z'|w' z'| | |[]|[]|[]|[]]; try (destruct w; discriminate T); [|destruct w, w'; discriminate T].
      assert (w' = w) as -> by (destruct w, w'; try reflexivity; discriminate T).
      cbn [enc app item_in] in *. apply cons_eq in E. destruct E as [_ E].
      assert (C : umax w + 1 = 256 ^ Z.of_nat (ibytes w)) by now destruct w.
      apply be_app in E; [|clear - OK C; lia|clear - OKy C; lia]. destruct E as [-> ->]. auto.
    + destruct y as [| | |w' z'|w' z'| | |[]|[]|[]|[]]; try (destruct w; discriminate T); [destruct w, w'; discriminate T|].
      assert (w' = w) as -> by (destruct w, w'; try reflexivity; discriminate T).
      cbn [enc app item_in] in *. apply cons_eq in E. destruct E as [_ E].
      assert (C : 2 ^ ibits w = 256 ^ Z.of_nat (ibytes w)) by now destruct w.
      assert (P : 0 < 2 ^ ibits w) by now destruct w.
      apply be_app in E; [|rewrite <- C; now apply Z.mod_pos_bound|rewrite <- C; now apply Z.mod_pos_bound].
      destruct E as [E ->]. split; [|reflexivity]. f_equal. clear - E OK OKy. destruct w; cbn in *; lia.
    + destruct y as [| | |[] ?|[] ?|x'| |[]|[]|[]|[]]; try discriminate T. cbn [enc app item_in] in *. apply cons_eq in E.
      destruct E as [_ E]. apply (be_app 4) in E; [|exact OK|exact OKy]. destruct E as [-> ->]. auto.
    + destruct y as [| | |[] ?|[] ?| |x'|[]|[]|[]|[]]; try discriminate T. cbn [enc app item_in] in *. apply cons_eq in E.
      destruct E as [_ E]. apply (be_app 8) in E; [|exact OK|exact OKy]. destruct E as [-> ->]. auto.
    + destruct y as [| | |[] ?|[] ?| | |f' d'|f' ?|f' ?|f' ?]; try (destruct f; discriminate T); try (destruct f, f'; discriminate T).
      assert (f' = f) as -> by (destruct f, f'; try reflexivity; discriminate T).
      cbn [enc item_in] in *. rewrite <- !app_assoc in E. destruct OK as [_ OK], OKy as [_ OKy].
      pose proof (zlen_nonneg d). pose proof (zlen_nonneg d').
      apply str_hdr_inj in E; [|lia|lia]. destruct E as [L E]. apply zlen_app_eq in E; [|exact L]. destruct E as [-> ->]. auto.
    + destruct y as [| | |[] ?|[] ?| | |f' ?|f' d'|f' ?|f' ?]; try (destruct f; discriminate T); try (destruct f, f'; discriminate T).
      assert (f' = f) as -> by (destruct f, f'; try reflexivity; discriminate T).
      cbn [enc item_in] in *. rewrite <- !app_assoc in E. destruct OK as [_ OK], OKy as [_ OKy].
      pose proof (zlen_nonneg d). pose proof (zlen_nonneg d').
      apply bin_hdr_inj in E; [|lia|lia]. destruct E as [L E]. apply zlen_app_eq in E; [|exact L]. destruct E as [-> ->]. auto.
  - destruct y as [| | |[] ?|[] ?| | |f' ?|f' ?|f' l'|f' ?]; try (destruct f; discriminate T); try (destruct f, f'; discriminate T).
    assert (f' = f) as -> by (destruct f, f'; try reflexivity; discriminate T). clear T.
    apply item_in_arr in OK. apply item_in_arr in OKy. destruct OK as [CL OK], OKy as [CL' OKy].
    cbn [enc] in E. rewrite <- !app_assoc in E. pose proof (zlen_nonneg l). pose proof (zlen_nonneg l').
    apply arr_hdr_inj in E; [|lia|lia]. destruct E as [L E].
    apply (delim_list item_ok) in E; [destruct E as [-> ->]; auto| |exact OKy|exact L].
    rewrite Forall_forall in *. intros x Hx. apply IH; [exact Hx|]. now apply OK.
  - destruct y as [| | |[] ?|[] ?| | |f' ?|f' ?|f' ?|f' l']; try (destruct f; discriminate T); try (destruct f, f'; discriminate T).
    assert (f' = f) as -> by (destruct f, f'; try reflexivity; discriminate T). clear T.
    apply item_in_map in OK. apply item_in_map in OKy. destruct OK as [CL OK], OKy as [CL' OKy].
    cbn [enc] in E. rewrite <- !app_assoc in E. pose proof (zlen_nonneg l). pose proof (zlen_nonneg l').
    apply map_hdr_inj in E; [|lia|lia]. destruct E as [L E].
    apply (delim_list (fun kx => item_ok (fst kx) /\ item_ok (snd kx))) in E; [destruct E as [-> ->]; auto| |exact OKy|exact L].
    rewrite Forall_forall in *. intros [k x] Hx [k' x'] u v [Ok' Ox'] E'. cbn [fst snd] in *. rewrite <- !app_assoc in E'.
    destruct (OK _ Hx) as [O1 O2]. destruct (IH _ Hx) as [I1 I2]. cbn [fst snd] in *.
    apply (I1 O1) in E'; [|exact Ok']. destruct E' as [-> E'].
    apply (I2 O2) in E'; [|exact Ox']. destruct E' as [-> ->]. auto.
Qed.

(** ** Written values *)
Lemma uint_ok d : 0 <= d < 2^64 -> item_ok (uint_item d).
Proof.
  intros H. destruct (emit_uint d H) as [_ S]. unfold item_ok, item_small, uint_item in *.
  destruct (d <? 2^7); [exact S|]. destruct (d <? 2^8); [exact S|]. destruct (d <? 2^16); [exact S|]. destruct (d <? 2^32); exact S.
Qed.
Lemma int_ok d : is_i64 d -> item_ok (int_item d).
Proof.
  intros H. destruct (emit_int d H) as [_ S]. unfold item_ok, item_small, int_item in *.
  destruct (d <? - 2^31); [exact S|]. destruct (d <? - 2^15); [exact S|]. destruct (d <? - 2^7); [exact S|].
  destruct (d <? - 2^5); [exact S|]. destruct (d <? 0) eqn:E; [exact S|]. apply uint_ok. unfold is_i64, i64_max in H. lia.
Qed.
Lemma str_ok s : bytes_ok s -> zlen s < 2^32 -> item_ok (str_item s).
Proof.
  intros B L. unfold str_item, item_ok. cbn [item_in]. split; [exact B|]. unfold str_fmt.
  destruct (zlen s <? 32) eqn:?; [cbn; lia|]. destruct (zlen s <? 256) eqn:?; [cbn; lia|]. destruct (zlen s <? 65536) eqn:?; cbn; lia.
Qed.
Lemma seq_fmt_cap n : n < 2^32 -> n < seq_cap (seq_fmt n).
Proof. intros L. unfold seq_fmt. destruct (n <? 16) eqn:?; [cbn; lia|]. destruct (n <? 65536) eqn:?; cbn; lia. Qed.
Lemma item_of_item_ok : forall v, val_ok v -> lengths_below (2^32) v -> item_ok (item_of v).
Proof.
  induction v as [| | | | | | |l IH|l IH] using val_ind'; intros OK LB; cbn [item_of].
  - exact I.
  - exact I.
  - apply int_ok, OK.
  - unfold val_ok, is_u64, u64_max in OK. apply uint_ok. lia.
  - unfold val_ok, is_u64, u64_max in OK. unfold item_ok. cbn. lia.
  - now apply str_ok.
  - cbn [lengths_below] in LB. unfold item_ok. cbn [item_in]. split; [exact OK|]. unfold bin_fmt.
    destruct (zlen b <? 256) eqn:?; [cbn; lia|]. destruct (zlen b <? 65536) eqn:?; cbn; lia.
  - apply val_ok_arr in OK. apply lengths_arr in LB. destruct LB as [L LB]. apply item_in_arr. rewrite zlen_map.
    split; [now apply seq_fmt_cap|]. rewrite Forall_forall in *. intros y Hy. apply in_map_iff in Hy. destruct Hy as (x & <- & Hx).
    apply IH; auto.
  - apply val_ok_map in OK. apply lengths_map in LB. destruct LB as [L LB]. apply item_in_map. rewrite zlen_map.
    split; [now apply seq_fmt_cap|]. rewrite Forall_forall in *. intros y Hy. apply in_map_iff in Hy. destruct Hy as ([k x] & <- & Hx).
    specialize (OK _ Hx). specialize (LB _ Hx). cbn [fst snd] in *. split; [now apply str_ok|]. apply (IH _ Hx); tauto.
Qed.

(** The value an object stands for. *)
Definition key_bytes (it : item) : bytes := match it with MStr _ s => s | _ => [] end.
Fixpoint value_of (it : item) : val :=
  match it with
  | MNil => VNull
  | MBool b => VBool b
  | MFixInt z | MUInt _ z | MSInt _ z => VInt z
  | MF32 x | MF64 x => VDbl x
  | MStr _ s => VStr s
  | MBin _ b => VBlob b
  | MArr _ l => VArr (map value_of l)
  | MMap _ l => VMap (map (fun kx => (key_bytes (fst kx), value_of (snd kx))) l)
  end.
Lemma value_uint z : value_of (uint_item z) = VInt z.
Proof. unfold uint_item. destruct (z <? 2^7); [reflexivity|]. destruct (z <? 2^8); [reflexivity|]. destruct (z <? 2^16); [reflexivity|]. now destruct (z <? 2^32). Qed.
Lemma value_int z : value_of (int_item z) = VInt z.
Proof.
  unfold int_item. destruct (z <? - 2^31); [reflexivity|]. destruct (z <? - 2^15); [reflexivity|]. destruct (z <? - 2^7); [reflexivity|].
  destruct (z <? - 2^5); [reflexivity|]. destruct (z <? 0); [reflexivity|]. apply value_uint.
Qed.
Lemma value_of_item : forall v, value_of (item_of v) = unsign v.
Proof.
  induction v as [| | | | | | |l IH|l IH] using val_ind'; cbn [item_of unsign same_num]; try reflexivity.
  - apply value_int.
  - apply value_uint.
  - cbn [value_of]. f_equal. rewrite map_map. apply map_ext_in. rewrite Forall_forall in IH. exact IH.
  - cbn [value_of]. f_equal. rewrite map_map. apply map_ext_in. rewrite Forall_forall in IH. intros [k x] Hx.
    cbn [fst snd key_bytes str_item]. f_equal. exact (IH _ Hx).
Qed.

Lemma mp_bytes v : val_ok v -> lengths_below (2^32) v -> serialize mp_writer v = Ok (enc (item_of v)).
Proof.
  intros OK LB. unfold serialize. rewrite mp_run. cbn [mp_writer w_finish w_init snd app]. now rewrite emit_events.
Qed.

(** Written messages: one followed by anything determines the value and where it ends. *)
Theorem mp_ident v1 v2 b1 b2 s t : val_ok v1 -> val_ok v2 -> lengths_below (2^32) v1 -> lengths_below (2^32) v2 ->
  serialize mp_writer v1 = Ok b1 -> serialize mp_writer v2 = Ok b2 -> b1 ++ s = b2 ++ t -> same_value v1 v2 /\ s = t.
Proof.
  intros O1 O2 L1 L2 S1 S2 E. rewrite mp_bytes in S1 by assumption. rewrite mp_bytes in S2 by assumption.
  assert (b1 = enc (item_of v1)) as -> by congruence. assert (b2 = enc (item_of v2)) as -> by congruence.
  apply (enc_delim _ (item_of_item_ok _ O1 L1)) in E; [|now apply item_of_item_ok]. destruct E as [E ->].
  split; [|reflexivity]. unfold same_value. rewrite <- !value_of_item. now rewrite E.
Qed.

(** ** Above 4 GiB the length is cut to 32 bits and two different values share one message. *)
Lemma mp_ser_ev v : serialize mp_writer v = Ok (flat_map mp_emit (events v)).
Proof. unfold serialize. now rewrite mp_run. Qed.
Lemma emit_long s : 65536 <= zlen s -> mp_emit (EStr s) = 219 :: be32 (wrap32 (zlen s)) ++ s.
Proof.
  intros H. cbn [mp_emit]. unfold pack_str. destruct (zlen s <? 32) eqn:?; [lia|]. destruct (zlen s <? 256) eqn:?; [lia|].
  destruct (zlen s <? 65536) eqn:?; [lia|]. reflexivity.
Qed.
Lemma some_bytes n : 0 <= n -> exists l : bytes, bytes_ok l /\ zlen l = n.
Proof.
  intros H. exists (repeat 0 (Z.to_nat n)). split; [|unfold zlen; rewrite repeat_length; lia].
  apply Forall_forall. intros x Hx. apply repeat_spec in Hx. subst. unfold is_byte. lia.
Qed.
Lemma collide a t : zlen a = 65536 -> zlen t = 2^32 - 5 ->
  serialize mp_writer (VArr [VStr (a ++ 219 :: be32 (2^32 - 4) ++ t); VNull]) =
  serialize mp_writer (VArr [VStr a; VStr (t ++ [192])]).
Proof.
  intros A T. rewrite !mp_ser_ev. f_equal. cbn [events flat_map app].
  assert (B4 : zlen (be32 (2^32 - 4)) = 4) by reflexivity.
  rewrite !emit_long by (rewrite ?zlen_app, ?zlen_cons, ?zlen_app, ?zlen_nil, ?B4, ?A, ?T; lia).
  rewrite !zlen_app, !zlen_cons, !zlen_app, B4, A, T. change (zlen (@nil Z)) with 0.
  replace (wrap32 (65536 + (1 + (4 + (2 ^ 32 - 5))))) with (wrap32 65536) by reflexivity.
  replace (wrap32 (2 ^ 32 - 5 + (1 + 0))) with (2^32 - 4) by reflexivity.
  change (mp_emit ENull) with [192]. change (mp_emit EEndArr) with (@nil Z).
  generalize (be32 (2^32 - 4)). generalize (be32 (wrap32 65536)). intros p q.
  f_equal. cbn [app]. rewrite !app_nil_r. rewrite <- !app_assoc. cbn [app]. f_equal. f_equal. f_equal. f_equal. rewrite <- !app_assoc. reflexivity.
Qed.
Theorem mp_collision : exists v1 v2 b, val_ok v1 /\ val_ok v2 /\
  serialize mp_writer v1 = Ok b /\ serialize mp_writer v2 = Ok b /\ ~ same_value v1 v2.
Proof.
  destruct (some_bytes 65536) as (a & BA & A); [lia|]. destruct (some_bytes (2^32 - 5)) as (t & BT & T); [lia|].
  exists (VArr [VStr (a ++ 219 :: be32 (2^32 - 4) ++ t); VNull]), (VArr [VStr a; VStr (t ++ [192])]).
  eexists. split; [|split; [|split; [|split; [apply mp_ser_ev|]]]].
  - apply val_ok_arr. apply Forall_cons_iff. split; [|repeat constructor].
    apply bytes_ok_app. split; [exact BA|]. apply bytes_ok_cons. split; [unfold is_byte; lia|].
    apply bytes_ok_app. split; [|exact BT]. rewrite be32_be. apply bytes_ok_be.
  - apply val_ok_arr. apply Forall_cons_iff. split; [exact BA|]. apply Forall_cons_iff. split; [|constructor].
    apply bytes_ok_app. split; [exact BT|]. apply bytes_ok_cons. split; [unfold is_byte; lia|constructor].
  - rewrite collide by assumption. apply mp_ser_ev.
  - unfold same_value. cbn [unsign map same_num]. intros E. injection E as _ E. discriminate E.
Qed.
