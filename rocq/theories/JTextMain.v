(** JTextMain.v -- JSON messages as bytes: written texts, accepted texts, trailing and missing bytes. *)

From Coq Require Import ZArith List Bool String Lia ZifyBool ZifyNat.
From Verif Require Import Base BaseFacts Spec SpecFacts B64Spec B64Facts Utf8Spec Utf8Model Utf8Facts HalfModel B64Model TextSpec JsonSpec JsonModel JsonFacts JsonWrite JsonMain
  JTextModel JTextSpec JTextFacts JTextPrint.
Import ListNotations.
Open Scope Z_scope.
Ltac Zify.zify_post_hook ::= idtac.
Notation text_of := (text dec_double).

(** ** Reading *)
Lemma open_text_iff b w : json_open_text b = Ok w <-> exists t, text_of b t /\ json_open t = Ok w.
Proof.
  unfold json_open_text. split.
  - destruct (yy_parse b) as [t|] eqn:P; [|discriminate]. intros H. exists t. split; [now apply parse_iff|exact H].
  - intros (t & T & O). apply parse_iff in T. now rewrite T.
Qed.
Lemma open_text_of b t : text_of b t -> json_open_text b = json_open t.
Proof. intros T. apply parse_iff in T. unfold json_open_text. now rewrite T. Qed.
Lemma open_text_total b : (exists w, json_open_text b = Ok w) \/ json_open_text b = Throw EDeser.
Proof. unfold json_open_text, json_open. destruct (yy_parse b) as [t|]; [|now right]. destruct (yy_read t); [left; eauto|now right]. Qed.
Lemma open_text_not b : (forall t, ~ text_of b t) -> json_open_text b = Throw EDeser.
Proof. intros N. unfold json_open_text. destruct (yy_parse b) as [t|] eqn:P; [|reflexivity]. apply parse_iff in P. now destruct (N t). Qed.

(** ** The trees of texts *)
Lemma decimal_pos l : Forall digit l -> 0 <= decimal l.
Proof. induction 1 as [|c l C H IH]; cbn [decimal]; [lia|]. unfold digit in C. assert (0 <= 10 ^ zlen l) by (apply Z.pow_nonneg; lia). nia. Qed.
Lemma utf8_code_ok u : scalar u -> bytes_ok (utf8_code u).
Proof.
  intros S. unfold scalar in S. unfold utf8_code, bytes_ok.
  destruct (u <? 128) eqn:A; [repeat constructor; unfold is_byte; lia|].
  assert (0 <= u mod 64 < 64) by (apply Z.mod_pos_bound; lia).
  assert (0 <= u / 64 mod 64 < 64) by (apply Z.mod_pos_bound; lia).
  assert (0 <= u / 4096 mod 64 < 64) by (apply Z.mod_pos_bound; lia).
  destruct (u <? 2048) eqn:B.
  { assert (0 <= u / 64 < 32) by (split; [apply Z.div_pos; lia|apply Z.div_lt_upper_bound; lia]). repeat constructor; unfold is_byte; lia. }
  destruct (u <? 65536) eqn:C.
  { assert (0 <= u / 4096 < 16) by (split; [apply Z.div_pos; lia|apply Z.div_lt_upper_bound; lia]). repeat constructor; unfold is_byte; lia. }
  assert (0 <= u / 262144 < 5) by (split; [apply Z.div_pos; lia|apply Z.div_lt_upper_bound; lia]). repeat constructor; unfold is_byte; lia.
Qed.
Lemma short_byte e c : short_escape e c -> is_byte c.
Proof. unfold short_escape. cbn [In]. intros H. repeat (destruct H as [H|H]; [inversion H; subst; unfold is_byte; lia|]). contradiction. Qed.
Lemma chars_ok s l : chars s l -> bytes_ok l -> bytes_ok s.
Proof.
  induction 1 as [|c s l C1 C2 C3 H IH|e c s l E H IH|u h s l H4 SC H IH|hi lo h1 h2 s l H1 H2 R1 R2 H IH]; intros B.
  - constructor.
  - inversion B; subst. constructor; auto. now apply IH.
  - inversion B as [|? ? _ B']; inversion B'; subst. constructor; [now apply (short_byte e)|now apply IH].
  - apply Forall_app. split; [now apply utf8_code_ok|]. apply IH. inversion B as [|? ? _ B']; inversion B' as [|? ? _ B2]; subst. apply Forall_app in B2. tauto.
  - apply Forall_app. split; [apply utf8_code_ok; unfold scalar; lia|]. apply IH.
    inversion B as [|? ? _ B']; inversion B' as [|? ? _ B2]; subst. apply Forall_app in B2. destruct B2 as [_ B2].
    inversion B2 as [|? ? _ B3]; inversion B3 as [|? ? _ B4]; subst. apply Forall_app in B4. tauto.
Qed.
Ltac inb := repeat match goal with
  | H : bytes_ok (_ :: _) |- _ => inversion H; clear H; subst
  | H : Forall is_byte (_ :: _) |- _ => inversion H; clear H; subst
  | H : bytes_ok (_ ++ _) |- _ => apply Forall_app in H; destruct H
  | H : Forall is_byte (_ ++ _) |- _ => apply Forall_app in H; destruct H
  end.
Definition both (t : val) : Prop := json_text t /\ tree_ok t.
Lemma both_arr l : Forall both l -> both (VArr l).
Proof.
  intros F. split; apply every_arr; (split; [exact I|]); eapply Forall_impl; try exact F; intros x [A B]; assumption.
Qed.
Lemma both_map l : Forall (fun kx => bytes_ok (fst kx) /\ both (snd kx)) l -> both (VMap l).
Proof.
  intros F. split; apply every_map.
  - split; [exact I|]. eapply Forall_impl; try exact F. intros x (K & A & B). assumption.
  - split; (eapply Forall_impl; try exact F; intros x (K & A & B); assumption).
Qed.
Lemma value_tree : (forall t l, value dec_double t l -> bytes_ok l -> both t) /\
  (forall xs l, elems dec_double xs l -> bytes_ok l -> Forall both xs) /\
  (forall xs l, members dec_double xs l -> bytes_ok l -> Forall (fun kx => bytes_ok (fst kx) /\ both (snd kx)) xs).
Proof.
  apply grammar_ind; try (intros; repeat split; exact I).
  - intros l P _. apply int_part_digits, decimal_pos in P. split; split; try exact I; exact P.
  - intros l P _. apply int_part_digits, decimal_pos in P. split; split; try exact I. lia.
  - intros s l C B. inb. assert (bytes_ok s) by (eapply chars_ok; [exact C|assumption]). split; split; try exact I; assumption.
  - intros w xs l W E IH B. inb. apply both_arr. auto.
  - intros w W B. apply both_map. constructor.
  - intros w xs l W E IH B. inb. apply both_map. auto.
  - intros x l w V IH W B. inb. constructor; [auto|constructor].
  - intros x l w1 w2 xs r V IH W1 W2 E IHe B. inb. constructor; auto.
  - intros k lk x l w1 w2 w3 C V IH W1 W2 W3 B. inb. constructor; [|constructor]. split; [eapply chars_ok; [exact C|assumption]|auto].
  - intros k lk x l w1 w2 w3 w4 xs r C V IH W1 W2 W3 W4 E IHe B. inb. constructor; [|auto]. split; [eapply chars_ok; [exact C|assumption]|cbn; auto].
Qed.
Lemma text_tree b t : bytes_ok b -> text_of b t -> both t.
Proof. intros B (w1 & l & w2 & -> & _ & V & _). inb. destruct value_tree as (VT & _). eapply VT; [exact V|assumption]. Qed.

Lemma open_text_any b : bytes_ok b ->
  json_open_text b = Throw EDeser \/ exists w, json_open_text b = Ok w /\ json_doc w /\ shows json_reader json_table w w.
Proof.
  intros B. destruct (open_text_total b) as [(w & O)|O]; [|now left]. apply open_text_iff in O. destruct O as (t & T & O).
  rewrite (open_text_of b t T). apply json_any. now apply (text_tree b).
Qed.

(** ** Writing *)
Lemma signless_json v : signless (as_json v) = as_json v.
Proof.
  induction v as [| |z|z| | |b|l IH|l IH] using val_ind'; try reflexivity.
  - cbn [as_json]. destruct (z <? 0) eqn:N; cbn [signless]; [now rewrite N|reflexivity].
  - cbn [as_json signless]. f_equal. rewrite map_map. apply map_ext_in. rewrite Forall_forall in IH. exact IH.
  - cbn [as_json signless]. f_equal. rewrite map_map. apply map_ext_in. rewrite Forall_forall in IH. intros kx IN. cbn [fst snd]. now rewrite (IH _ IN).
Qed.
Lemma tree_json v : val_ok v -> tree_ok (as_json (cut_keys v)).
Proof.
  induction v as [| |z|z|d|s|b|l IH|l IH] using val_ind'; intros OK; cbn [cut_keys as_json]; try (split; [exact I|exact I]); try (split; [exact OK|exact I]).
  - destruct (z <? 0) eqn:E; (split; [|exact I]); [exact I|lia].
  - cbn [val_ok] in OK. split; [unfold is_u64 in OK; lia|exact I].
  - apply every_arr. split; [exact I|]. repeat constructor; cbn [every]; try (unfold is_byte; lia). now apply bytes_ok_rfc.
  - apply every_arr. split; [exact I|]. apply val_ok_arr in OK. rewrite Forall_forall in *. intros y H. apply in_map_iff in H. destruct H as (y' & <- & H).
    apply in_map_iff in H. destruct H as (x & <- & H). apply IH; auto.
  - apply every_map. apply val_ok_map in OK. rewrite Forall_forall in IH, OK. split; apply Forall_forall; intros y H; apply in_map_iff in H; destruct H as (y' & <- & H);
      apply in_map_iff in H; destruct H as (x & <- & H); cbn [fst snd].
    + apply to_nul_ok. apply (OK x H).
    + apply IH; auto. apply (OK x H).
Qed.
Lemma spells_json dtext v : spells_doubles dec_double dtext v -> spells_doubles dec_double dtext (as_json (cut_keys v)).
Proof.
  induction v as [| |z|z|d|s|b|l IH|l IH] using val_ind'; intros OK; cbn [cut_keys as_json]; try exact OK.
  - destruct (z <? 0); split; exact I.
  - apply every_arr. split; [exact I|]. repeat constructor.
  - apply every_arr in OK. apply every_arr. split; [exact I|]. destruct OK as [_ OK]. rewrite Forall_forall in *. intros y H. apply in_map_iff in H. destruct H as (y' & <- & H).
    apply in_map_iff in H. destruct H as (x & <- & H). apply IH; [exact H|exact (OK x H)].
  - apply every_map in OK. apply every_map. split; [exact I|]. destruct OK as [_ OK]. rewrite Forall_forall in *. intros y H. apply in_map_iff in H. destruct H as (y' & <- & H).
    apply in_map_iff in H. destruct H as (x & <- & H). apply IH; [exact H|exact (OK x H)].
Qed.
Lemma serialized dbg v d : val_ok v -> serialize (json_writer dbg) v = Ok d ->
  d = as_json (cut_keys v) /\ doubles_finite v /\ texts_utf8 (cut_keys v).
Proof.
  intros V S. destruct (json_write dbg v V) as [(_ & F & T & d' & S' & O)|[(_ & _ & S')|(_ & S')]]; rewrite S' in S; try discriminate.
  assert (d' = d) by congruence. subst d'. repeat split; auto.
  pose proof (calls_outcome dbg v (events v) (events_calls v) (events_ev_ok v V)) as H. unfold serialize in S'.
  change (w_init (json_writer dbg)) with js_init in S'. destruct (run (json_writer dbg) js_init (events v)) as [s [u|e| |]]; try discriminate.
  destruct H as [K [(_ & _ & E)|(N & E)]]; [|exfalso]; cbn in S', E; rewrite E in S'; congruence.
Qed.
Lemma written_value dbg dtext v d : val_ok v -> spells_doubles dec_double dtext v -> serialize (json_writer dbg) v = Ok d ->
  value dec_double d (jprint dtext d).
Proof.
  intros V SP S. apply (serialized dbg v d V) in S. destruct S as (-> & _). rewrite <- signless_json at 1.
  apply print_value; [now apply tree_json|now apply spells_json].
Qed.
Lemma value_text t l : value dec_double t l -> text_of l t.
Proof. intros V. exists [], l, []. repeat split; [now rewrite app_nil_r|constructor|exact V|constructor]. Qed.
Lemma written_text dbg dtext v d : val_ok v -> spells_doubles dec_double dtext v -> serialize (json_writer dbg) v = Ok d ->
  text_of (jprint dtext d) d /\ json_open_text (jprint dtext d) = json_open d.
Proof.
  intros V SP S. pose proof (value_text _ _ (written_value dbg dtext v d V SP S)) as T. split; [exact T|now apply open_text_of].
Qed.
Lemma text_round_trip dbg dtext v : val_ok v -> json_ok v -> spells_doubles dec_double dtext v ->
  exists b w, json_finish_text dtext (serialize (json_writer dbg) v) = Ok b /\ json_open_text b = Ok w /\ shows json_reader json_table w (as_json v).
Proof.
  intros V J SP. destruct (json_round_trip dbg v V J) as (d & w & S & O & SH). exists (jprint dtext d), w.
  split; [now rewrite S|]. split; [|exact SH]. destruct (written_text dbg dtext v d V SP S) as (_ & ->). exact O.
Qed.

(** ** Printable bytes only *)
Definition visible (c : Z) : Prop := 32 <= c <= 255.
Lemma digits_visible l : Forall digit l -> Forall visible l.
Proof. apply Forall_impl. unfold digit, visible. lia. Qed.
Lemma number_visible t l : number_token t l -> Forall visible l.
Proof.
  intros (neg & sign & i & f & x & lf & lx & SG & I & F & X & -> & _). repeat rewrite Forall_app. repeat split.
  - destruct SG as [(_ & ->)|(_ & ->)]; repeat constructor; unfold visible; lia.
  - now apply digits_visible, int_part_digits.
  - destruct F as [(_ & ->)|(_ & D & ->)]; [constructor|constructor; [unfold visible; lia|now apply digits_visible]].
  - destruct X as [(_ & ->)|(c & sg & d & C & _ & D & -> & SG')]; [constructor|]. constructor; [unfold visible; lia|].
    apply Forall_app. split; [|now apply digits_visible]. destruct SG' as [(-> & _)|[(-> & _)|(-> & _)]]; repeat constructor; unfold visible; lia.
Qed.
Lemma number_value_visible t l : value dec_double t l -> is_number t -> Forall visible l.
Proof. intros V N. eapply number_visible, value_token; eauto. Qed.
Lemma hex_digit_visible d : 0 <= d < 16 -> visible (hex_digit d).
Proof. unfold hex_digit, visible. destruct (d <? 10) eqn:E; lia. Qed.
Lemma jescape_visible c : is_byte c -> Forall visible (jescape c).
Proof.
  intros C. unfold is_byte in C. unfold jescape.
  repeat match goal with |- context [if c =? ?k then _ else _] => destruct (c =? k); [repeat constructor; unfold visible; lia|] end.
  destruct (c <? 32) eqn:L; [|repeat constructor; unfold visible; lia].
  assert (0 <= Z.shiftr c 4 < 16 /\ 0 <= Z.land c 15 < 16) as [R1 R2].
  { change 15 with (Z.ones 4). rewrite Z.land_ones, Z.shiftr_div_pow2 by lia. change (2 ^ 4) with 16.
    pose proof (Z.mod_pos_bound c 16). pose proof (Z.div_pos c 16). assert (c / 16 < 16) by (apply Z.div_lt_upper_bound; lia). lia. }
  do 4 (constructor; [unfold visible; lia|]). constructor; [now apply hex_digit_visible|]. constructor; [now apply hex_digit_visible|constructor].
Qed.
Lemma jstring_visible s : bytes_ok s -> Forall visible (jstring s).
Proof.
  intros B. unfold jstring. constructor; [unfold visible; lia|]. apply Forall_app. split; [|repeat constructor; unfold visible; lia].
  induction B as [|c s C B IH]; [constructor|]. cbn [flat_map]. apply Forall_app. split; [now apply jescape_visible|exact IH].
Qed.
Lemma sep_visible ls : Forall (Forall visible) ls -> Forall visible (sep_by [44] ls).
Proof.
  induction 1 as [|x ls X F IH]; [constructor|]. destruct ls as [|y ls]; [exact X|]. cbn [sep_by]. cbn [sep_by] in IH.
  apply Forall_app. split; [exact X|]. apply Forall_app. split; [repeat constructor; unfold visible; lia|exact IH].
Qed.
Lemma print_visible dtext t : tree_ok t -> spells_doubles dec_double dtext t -> Forall visible (jprint dtext t).
Proof.
  induction t as [|b|z|z|d|s|b|l IH|l IH] using val_ind'; intros T S.
  - unfold jprint, codes; cbn; repeat constructor; unfold visible; lia.
  - destruct b; unfold jprint, codes; cbn; repeat constructor; unfold visible; lia.
  - pose proof (print_value dtext (VInt z) T S) as V. apply (number_value_visible _ _ V). cbn [signless]. destruct (z <? 0); exact I.
  - pose proof (print_value dtext (VUInt z) T S) as V. apply (number_value_visible _ _ V). exact I.
  - pose proof (print_value dtext (VDbl d) T S) as V. apply (number_value_visible _ _ V). exact I.
  - apply jstring_visible. apply T.
  - destruct T as [[] _].
  - apply every_arr in T, S. destruct T as (_ & T), S as (_ & S). cbn [jprint]. constructor; [unfold visible; lia|].
    apply Forall_app. split; [|repeat constructor; unfold visible; lia]. apply sep_visible.
    induction l as [|x l IHl]; cbn [map]; constructor; inversion IH; inversion T; inversion S; subst; auto.
  - apply every_map in T, S. destruct T as (K & T), S as (_ & S). cbn [jprint]. constructor; [unfold visible; lia|].
    apply Forall_app. split; [|repeat constructor; unfold visible; lia]. apply sep_visible.
    induction l as [|[k x] l IHl]; cbn [map]; constructor; inversion IH; inversion T; inversion S; inversion K; subst; auto.
    cbn [fst snd] in *. rewrite !Forall_app. repeat split; auto; [now apply jstring_visible|repeat constructor; unfold visible; lia].
Qed.
Lemma written_visible dbg dtext v d : val_ok v -> spells_doubles dec_double dtext v -> serialize (json_writer dbg) v = Ok d ->
  Forall visible (jprint dtext d).
Proof.
  intros V SP S. apply (serialized dbg v d V) in S. destruct S as (-> & _). apply print_visible; [now apply tree_json|now apply spells_json].
Qed.

(** ** Bytes after and bytes missing *)
Lemma text_after b t x : text_of b t -> (is_number t -> stops x) -> yy_parse (b ++ x) = match skip_ws x with [] => Some t | _ => None end.
Proof.
  intros (w1 & l & w2 & -> & W1 & V & W2) ST. unfold yy_parse. rewrite <- !app_assoc, skip_app by exact W1.
  rewrite skip_solid by now apply (value_solid t).
  destruct parse_complete as (PC & _). rewrite (PC t l V); [|len|].
  - now rewrite skip_app.
  - intros N. destruct W2 as [|c w2 C W2]; [now apply ST|]. cbn. unfold digit. lia.
Qed.
Lemma trailing_iff b t x w : text_of b t -> ~ is_number t -> json_open_text (b ++ x) = Ok w <-> ws x /\ json_open t = Ok w.
Proof.
  intros T N. unfold json_open_text. rewrite (text_after b t x T) by tauto. destruct (skip_ws x) as [|c r] eqn:S.
  - apply skip_nil_ws in S. tauto.
  - split; [discriminate|]. intros (W & _). now rewrite (skip_ws_nil x W) in S.
Qed.
Lemma trailing_ws b t x : text_of b t -> ws x -> json_open_text (b ++ x) = json_open t.
Proof.
  intros T W. unfold json_open_text. rewrite (text_after b t x T) by (intros _; now apply ws_stops). now rewrite (skip_ws_nil x W).
Qed.
Lemma prefix_fails t l p r : value dec_double t l -> ~ is_number t -> l = p ++ r -> r <> [] -> forall t', ~ text_of p t'.
Proof.
  intros V N E R t' (w1 & l' & w2 & -> & W1 & V' & W2).
  destruct (value_opens _ _ V) as (c & q & -> & O). destruct (value_opens _ _ V') as (c' & q' & -> & O').
  destruct W1 as [|a w1 A W1].
  - cbn [app] in E. assert (c = c') by congruence. subst c'.
    assert (N' : ~ is_number t') by (rewrite (opens_same t' t c O' O); exact N).
    destruct parse_complete as (PC & _).
    pose proof (PC t (c :: q) V (2 * List.length (c :: q))%nat []) as P1. pose proof (PC t' (c :: q') V' (2 * List.length (c :: q))%nat (w2 ++ r)) as P2.
    rewrite app_nil_r in P1. specialize (P1 ltac:(lia) ltac:(tauto)).
    assert (E2 : (c :: q') ++ w2 ++ r = c :: q) by (rewrite E, <- app_assoc; reflexivity).
    rewrite E2 in P2. specialize (P2 ltac:(lia) ltac:(tauto)). rewrite P1 in P2.
    assert (w2 ++ r = []) as X by congruence. apply app_eq_nil in X. tauto.
  - cbn [app] in E. assert (c = a) by congruence. subst. destruct t as [|[]| | | | | | |]; cbn in O; unfold digit in O; lia.
Qed.
Lemma truncated dbg dtext v d p r : val_ok v -> spells_doubles dec_double dtext v -> serialize (json_writer dbg) v = Ok d ->
  ~ is_number v -> jprint dtext d = p ++ r -> r <> [] -> json_open_text p = Throw EDeser.
Proof.
  intros V SP S N E R. apply open_text_not. apply (prefix_fails d _ p r (written_value dbg dtext v d V SP S)); auto.
  apply (serialized dbg v d V) in S. destruct S as (-> & _). destruct v; cbn in *; tauto.
Qed.

(** ** Equal texts *)
Lemma same_text dbg1 dbg2 dtext v1 v2 d1 d2 : val_ok v1 -> val_ok v2 -> json_ok v1 -> json_ok v2 -> no_blob_form v1 -> no_blob_form v2 ->
  spells_doubles dec_double dtext v1 -> spells_doubles dec_double dtext v2 ->
  serialize (json_writer dbg1) v1 = Ok d1 -> serialize (json_writer dbg2) v2 = Ok d2 -> jprint dtext d1 = jprint dtext d2 -> signless v1 = signless v2.
Proof.
  intros V1 V2 J1 J2 N1 N2 P1 P2 S1 S2 E.
  pose proof (written_text dbg1 dtext v1 d1 V1 P1 S1) as (T1 & _). pose proof (written_text dbg2 dtext v2 d2 V2 P2 S2) as (T2 & _).
  rewrite E in T1. pose proof (text_unique _ _ _ T1 T2) as D.
  apply (serialized dbg1 v1 d1 V1) in S1. apply (serialized dbg2 v2 d2 V2) in S2. destruct S1 as (-> & _), S2 as (-> & _).
  rewrite (json_ok_cut v1 J1), (json_ok_cut v2 J2) in D. now apply json_injective.
Qed.

(** ** to_string *)
Lemma write_read t : tree_ok t -> forall w, yy_read t = Some w -> every (fun x => yy_write x = Some (signless x) /\ tree_ok x) w.
Proof.
  assert (BIG : forall z w, yy_big z = Some w -> every (fun x => yy_write x = Some (signless x) /\ tree_ok x) w).
  { intros z w. unfold yy_big. destruct (is_finite _) eqn:F; [|discriminate]. intros H. injection H as <-. cbn [every yy_write signless].
    rewrite F. repeat split; exact I. }
  induction t as [| |z|z|d|s| |l IH|l IH] using val_ind'; intros OK w H.
  - injection H as <-. repeat split; exact I.
  - injection H as <-. repeat split; exact I.
  - cbn [yy_read] in H. destruct (i64_min <=? z) eqn:E; [|now apply (BIG z)]. injection H as <-. repeat split; exact I.
  - cbn [yy_read] in H. destruct (z <=? u64_max) eqn:E; [|now apply (BIG z)]. injection H as <-. repeat split; try exact I. apply OK.
  - cbn [yy_read] in H. destruct (is_finite d) eqn:F; [|discriminate]. injection H as <-. repeat split; try exact I. cbn [yy_write signless]. now rewrite F.
  - cbn [yy_read] in H. destruct (utf8_valid s) eqn:U; [|discriminate]. injection H as <-. repeat split; try exact I; [|apply OK]. cbn [yy_write signless]. now rewrite U.
  - discriminate.
  - apply every_arr in OK. destruct OK as [_ OK]. change (option_map VArr (read_list l) = Some w) in H. destruct (read_list l) as [l'|] eqn:E; [|discriminate].
    injection H as <-.
    assert (F : Forall (every (fun x => yy_write x = Some (signless x) /\ tree_ok x)) l').
    { revert l' E. induction l as [|x l IHl]; intros l' E; [injection E as <-; constructor|].
      cbn [read_list] in E. fold read_list in E. inversion IH; inversion OK; subst. destruct (yy_read x) eqn:Ex; [|discriminate]. destruct (read_list l) eqn:El; [|discriminate].
      injection E as <-. constructor; [exact (H1 ltac:(assumption) _ eq_refl)|exact (IHl ltac:(assumption) ltac:(assumption) _ eq_refl)]. }
    apply every_arr. split; [|exact F]. split.
    + change (option_map VArr (write_list l') = Some (VArr (map signless l'))). clear -F.
      enough (write_list l' = Some (map signless l')) as -> by reflexivity.
      induction F as [|x l X F IH]; [reflexivity|]. cbn [write_list map]. fold write_list. rewrite IH.
      assert (yy_write x = Some (signless x)) as -> by (destruct x; apply X). reflexivity.
    + apply every_arr. split; [exact I|]. eapply Forall_impl; [|exact F]. intros x X. destruct x; apply X.
  - apply every_map in OK. destruct OK as [K OK]. change (option_map VMap (read_entries l) = Some w) in H. destruct (read_entries l) as [l'|] eqn:E; [|discriminate].
    injection H as <-.
    assert (F : Forall (fun kx => every (fun x => yy_write x = Some (signless x) /\ tree_ok x) (snd kx) /\ utf8_valid (fst kx) = true /\ bytes_ok (fst kx)) l').
    { revert l' E. induction l as [|[k x] l IHl]; intros l' E; [injection E as <-; constructor|].
      cbn [read_entries] in E. fold read_entries in E. inversion IH; inversion OK; inversion K; subst. destruct (utf8_valid k) eqn:U; [|discriminate].
      destruct (yy_read x) eqn:Ex; [|discriminate]. destruct (read_entries l) eqn:El; [|discriminate].
      injection E as <-. constructor; [|exact (IHl ltac:(assumption) ltac:(assumption) ltac:(assumption) _ eq_refl)].
      split; [exact (H1 ltac:(assumption) _ Ex)|split; assumption]. }
    apply every_map. split; [|eapply Forall_impl; [|exact F]; intros x X; apply X]. split.
    + change (option_map VMap (write_entries l') = Some (VMap (map (fun kx => (fst kx, signless (snd kx))) l'))). clear -F.
      enough (write_entries l' = Some (map (fun kx => (fst kx, signless (snd kx))) l')) as -> by reflexivity.
      induction F as [|[k x] l X F IH]; [reflexivity|]. cbn [write_entries map fst snd] in *. fold write_entries. destruct X as (X & U & _). rewrite U, IH.
      assert (yy_write x = Some (signless x)) as -> by (destruct x; apply X). reflexivity.
    + apply every_map. split; [eapply Forall_impl; [|exact F]; intros x X; apply X|].
      eapply Forall_impl; [|exact F]. intros [k x] (X & _). destruct x; apply X.
Qed.
Lemma signless_twice v : signless (signless v) = signless v.
Proof.
  induction v as [| |z|z| | |b|l IH|l IH] using val_ind'; try reflexivity.
  - cbn [signless]. destruct (z <? 0) eqn:N; cbn [signless]; [now rewrite N|reflexivity].
  - cbn [signless]. f_equal. rewrite map_map. apply map_ext_in. rewrite Forall_forall in IH. exact IH.
  - cbn [signless]. f_equal. rewrite map_map. apply map_ext_in. rewrite Forall_forall in IH. intros kx IN. cbn [fst snd]. now rewrite (IH _ IN).
Qed.
Lemma tree_signless v : tree_ok v -> tree_ok (signless v).
Proof.
  induction v as [| |z|z|d|s|b|l IH|l IH] using val_ind'; intros OK; try exact OK.
  - cbn [signless]. destruct (z <? 0) eqn:N; split; try exact I. lia.
  - cbn [signless]. apply every_arr in OK. apply every_arr. split; [exact I|]. destruct OK as [_ OK]. rewrite Forall_forall in *. intros y H. apply in_map_iff in H. destruct H as (x & <- & H). apply IH; [exact H|exact (OK x H)].
  - cbn [signless]. apply every_map in OK. apply every_map. destruct OK as [K OK]. rewrite Forall_forall in IH, OK, K. split; apply Forall_forall; intros y H; apply in_map_iff in H; destruct H as (x & <- & H); cbn [fst snd]; [exact (K x H)|exact (IH x H (OK x H))].
Qed.
Lemma spells_signless dtext v : spells_doubles dec_double dtext v -> spells_doubles dec_double dtext (signless v).
Proof.
  induction v as [| |z|z|d|s|b|l IH|l IH] using val_ind'; intros OK; try exact OK.
  - cbn [signless]. destruct (z <? 0) eqn:N; split; exact I.
  - cbn [signless]. apply every_arr in OK. apply every_arr. split; [exact I|]. destruct OK as [_ OK]. rewrite Forall_forall in *. intros y H. apply in_map_iff in H. destruct H as (x & <- & H). apply IH; [exact H|exact (OK x H)].
  - cbn [signless]. apply every_map in OK. apply every_map. destruct OK as [_ OK]. rewrite Forall_forall in *. split; [exact I|]. intros y H; apply in_map_iff in H; destruct H as (x & <- & H); cbn [fst snd]. exact (IH x H (OK x H)).
Qed.
Lemma every_both (P Q : val -> Prop) v : every P v -> every Q v -> every (fun x => P x /\ Q x) v.
Proof.
  induction v as [| | | | | | |l IH|l IH] using val_ind'; try (cbn [every]; tauto).
  - rewrite !every_arr. intros (A & B) (C & D). split; [auto|]. rewrite Forall_forall in *. auto.
  - rewrite !every_map. intros (A & B) (C & D). split; [auto|]. rewrite Forall_forall in *. auto.
Qed.
Lemma every_deep (P : val -> Prop) v : every P v -> every (every P) v.
Proof.
  induction v as [| | | | | | |l IH|l IH] using val_ind'; try (cbn [every]; tauto).
  - intros H. pose proof H as H'. apply every_arr in H'. apply every_arr. split; [exact H|]. destruct H' as [_ H']. rewrite Forall_forall in *. auto.
  - intros H. pose proof H as H'. apply every_map in H'. apply every_map. split; [exact H|]. destruct H' as [_ H']. rewrite Forall_forall in *. auto.
Qed.
Lemma to_string_text dtext b w : bytes_ok b -> json_open_text b = Ok w -> spells_doubles dec_double dtext w ->
  every (fun x => forall pretty, text_of (j_to_string dtext pretty x) (signless x)) w.
Proof.
  intros B O SP. apply open_text_iff in O. destruct O as (t & T & O). apply (text_tree b t B) in T. destruct T as (_ & T).
  unfold json_open in O. destruct (yy_read t) as [w'|] eqn:R; [|discriminate]. injection O as ->.
  pose proof (write_read t T w R) as W. pose proof (every_both _ _ _ W (every_deep _ _ SP)) as E.
  eapply every_mono; [|exact E]. cbn beta. intros x ((WX & TX) & SX) pretty. unfold j_to_string. rewrite WX.
  apply value_text. rewrite <- signless_twice at 1. apply tree_signless in TX. apply spells_signless in SX. destruct pretty; [now apply pretty_value|now apply print_value].
Qed.
