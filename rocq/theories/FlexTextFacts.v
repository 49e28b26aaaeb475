(** FlexTextFacts.v -- what to_string and dump_flex print for a laid-out FlexBuffers message. *)

From Coq Require Import ZArith List Bool String Lia ZifyBool ZifyNat.
From Verif Require Import Base BaseFacts Spec SpecFacts NarrowModel NarrowSpec NarrowFacts TextSpec TextModel TextFacts FlexModel FlexSpec FlexFacts FloatModel FlexBModel FlexBSpec FlexBFormat FlexBFacts FlexBWrite FlexBSim FlexBMain FlexBSize FlexBConf
  FlexTextSpec FlexTextModel.
Import ListNotations.
Open Scope Z_scope.
Ltac Zify.zify_post_hook ::= idtac.

(** ** A laid-out value is a value *)
Lemma lies_bytes B p l : bytes_ok B -> lies B p l -> bytes_ok l.
Proof. intros OK (a & c & -> & _). apply bytes_ok_app in OK. destruct OK as (_ & OK). now apply bytes_ok_app in OK. Qed.
Lemma little_range l : bytes_ok l -> 0 <= little l < 2 ^ (8 * zlen l).
Proof.
  induction 1 as [|b l Hb Hl IH]; [cbn; lia|]. cbn [little]. rewrite zlen_cons. unfold is_byte in Hb. pose proof (zlen_nonneg l). replace (8 * (1 + zlen l)) with (8 + 8 * zlen l) by lia. rewrite Z.pow_add_r by lia. change (2 ^ 8) with 256. lia.
Qed.
Lemma number_range al B p w n : bytes_ok B -> number al B p w n -> 0 <= n < 2 ^ (8 * w) /\ In w [1; 2; 4; 8].
Proof. intros OK (W & _ & l & L & <- & <-). split; [|exact W]. apply little_range. now apply (lies_bytes B p). Qed.
Lemma number_u64 al B p w n : bytes_ok B -> number al B p w n -> is_u64 n.
Proof. intros OK N. unfold is_u64, u64_max. apply number_range in N; [|exact OK]. destruct N as (R & W). assert (8 * w <= 64) by (destruct W as [<-|[<-|[<-|[<-|[]]]]]; lia). pose proof (Z.pow_le_mono_r 2 (8 * w) 64 ltac:(lia) H). lia. Qed.
Lemma signed_i64 al B p w z : bytes_ok B -> signed al B p w z -> is_i64 z.
Proof.
  unfold is_i64, i64_min, i64_max.
  intros OK (R & N). apply number_range in N; [|exact OK]. destruct N as (_ & W). assert (8 * w - 1 <= 63) by (destruct W as [<-|[<-|[<-|[<-|[]]]]]; lia). pose proof (Z.pow_le_mono_r 2 (8 * w - 1) 63 ltac:(lia) H). lia.
Qed.
Lemma real_u64 al B p w d : bytes_ok B -> real al B p w d -> is_u64 d.
Proof. intros OK [(_ & N)|(_ & f & N & ->)]; [now apply (number_u64 al B p 8)|]. enough (0 <= f32_to_f64 f < 2 ^ 64) by (unfold is_u64, u64_max; lia). apply widen_u64. apply number_range in N; [|exact OK]. unfold is_f32. change (2 ^ 32) with (2 ^ (8 * 4)). apply N. Qed.
Lemma lays_val_ok al B far p w t v : bytes_ok B -> lays al B far false p w t v -> val_ok v.
Proof.
  intros OK. induction 1 as [p w e E|p w e n E N|p w e z E N|p w e n E N|p w e d E N|p w e q z E FA O N|p w e q n E FA O N|p w e q d E FA O N|p w e q s E O N L|p w e q s E O N L
    |p w e q t l E O N L LY IH|p w e q kq kw t l E O N OK' NK KS OR L LY IH|]; try discriminate.
  all: try (cbn; eauto using number_u64, signed_i64, real_u64; fail).
  - cbn. apply lies_bytes in L; [|exact OK]. now apply bytes_ok_app in L.
  - cbn. now apply lies_bytes in L.
  - apply val_ok_arr. apply Forall_forall. intros x X. destruct (in_get _ _ X) as (i & G). now apply (IH i).
  - apply val_ok_map. apply Forall_forall. intros x X. destruct (in_get _ _ X) as (i & G). split; [|now apply (IH i)].
    destruct KS as (_ & KS). destruct (KS i (fst x)) as (kp & _ & LK & _); [now rewrite get_map, G|]. apply lies_bytes in LK; [|exact OK]. now apply bytes_ok_app in LK.
Qed.

(** ** The loops *)
Lemma rows_loop (step : Z * bytes -> res ((Z * bytes) + unit)) rs :
  (forall i out x, get rs i = Some x -> step (i, out) = Ok (inl (i + 1, out ++ x ++ (if i + 1 <? zlen rs then comma else []) ++ nl))) ->
  forall out, zloop (zlen rs) step (0, out) = Ok (inl (zlen rs, out ++ rows rs)).
Proof.
  intros K out. rewrite zloop_nloop. unfold zlen at 1. rewrite Nat2Z.id.
  enough (G : forall l pre out, rs = pre ++ l -> nloop (List.length l) step (zlen pre, out) = Ok (inl (zlen rs, out ++ rows l))) by exact (G rs [] out eq_refl).
  induction l as [|x l IH]; intros pre o E.
  - cbn. rewrite app_nil_r in *. now subst.
  - cbn [List.length nloop]. rewrite (K _ _ x) by (subst rs; apply get_mid). replace (zlen pre + 1) with (zlen (pre ++ [x])) by (rewrite zlen_app, zlen_cons, zlen_nil; lia).
    cbn [bind]. rewrite (IH (pre ++ [x])) by (now rewrite <- app_assoc). do 3 f_equal. rewrite rows_cons. unfold tail. rewrite <- !app_assoc. do 2 f_equal.
    replace (zlen (pre ++ [x]) <? zlen rs) with (match l with [] => false | _ => true end); [now destruct l|].
    subst rs. unfold zlen. rewrite !app_length. cbn [List.length]. destruct l as [|y l]; cbn [List.length]; lia.
Qed.

Section Text.
Variables (fl : Z -> bytes) (al : Z -> Z -> Prop) (B : bytes).

Lemma sized_size r s t : sized al B r s t -> exists loc, indirect B (f_data r) (f_pw r) = Ok loc /\ size_at B loc (f_bw r) = Ok (zlen s) /\ rd_view B (loc, zlen s) = Ok s.
Proof.
  intros (loc & A1 & A2 & A3). exists loc. split; [exact (offset_rd _ _ _ _ _ A1)|]. split; [exact (number_rd _ _ _ _ _ A2)|]. apply lies_has in A3. apply has_app in A3. exact (has_rd_view _ _ _ (proj1 A3)).
Qed.
(** What the loops need to know about a vector and a map *)
Lemma vec_rd far l r : rep al far B (XVec (map emb l)) r -> exists loc, f_ty r = 10 /\ fb_vec B r = Ok (loc, f_bw r) /\ size_at B loc (f_bw r) = Ok (zlen l) /\
  forall i x, get l i = Some x -> exists r', fb_at B loc (f_bw r) i = Ok r' /\ rep al far B (emb x) r'.
Proof.
  intros H. apply rep_vec in H. destruct H as (T & loc & O & N & E). rewrite zlen_map in *. exists loc. split; [exact T|]. assert (SZ : size_at B loc (f_bw r) = Ok (zlen l)) by exact (number_rd _ _ _ _ _ N).
  split; [unfold fb_vec; now rewrite (offset_rd _ _ _ _ _ O)|]. split; [exact SZ|].
  intros i x G. destruct (E i (emb x)) as (r' & E1 & E2); [now rewrite get_map, G|]. exists r'. split; [|exact E2]. pose proof (get_some _ _ _ G). apply (at_eq B loc (f_bw r) (zlen l)); auto; lia.
Qed.
Lemma map_rd far l r : rep al far B (XMap (map (fun kx => (fst kx, emb (snd kx))) l)) r -> exists loc kd kbw, f_ty r = 9 /\ fb_vec B r = Ok (loc, f_bw r) /\ fb_keys B loc (f_bw r) = Ok (kd, kbw) /\
  size_at B loc (f_bw r) = Ok (zlen l) /\ size_at B kd kbw = Ok (zlen l) /\
  forall i kx, get l i = Some kx -> fb_key_at B kd kbw i = Ok (fst kx) /\ exists r', fb_at B loc (f_bw r) i = Ok r' /\ rep al far B (emb (snd kx)) r'.
Proof.
  intros H. apply rep_map in H. destruct H as (T & loc & kd & kbw & O1 & N2 & O3 & N4 & K5 & E). rewrite zlen_map, map_map in *. cbn [fst] in *. exists loc, kd, kbw. split; [exact T|].
  assert (SZ : size_at B loc (f_bw r) = Ok (zlen l)) by exact (number_rd _ _ _ _ _ N2). split; [unfold fb_vec; now rewrite (offset_rd _ _ _ _ _ O1)|]. destruct (keys_rd _ _ _ _ _ K5) as (A4 & A5). rewrite zlen_map in A4. split.
  { unfold fb_keys. destruct O3 as (o & O3 & ->). rewrite (number_rd _ _ _ _ _ O3), (number_rd _ _ _ _ _ N4). cbn [bind]. do 2 f_equal. apply Z.mod_small. destruct K5 as ((W & _) & _). destruct W as [<-|[<-|[<-|[<-|[]]]]]; lia. }
  split; [exact SZ|]. split; [exact A4|]. intros i kx G. split; [apply A5; now rewrite get_map, G|].
  destruct (E i (fst kx, emb (snd kx))) as (r' & E1 & E2); [now rewrite get_map, G|]. exists r'. split; [|exact E2]. pose proof (get_some _ _ _ G). apply (at_eq B loc (f_bw r) (zlen l)); auto; lia.
Qed.
Lemma int_rd far z r : rep al far B (XInt z) r -> is_i64 z -> fb_asInt B I64 r = Ok z.
Proof.
  intros H R. destruct (rep_same al far B O 1 (XInt z) r H) as (_ & _ & _ & _ & _ & _ & _ & _ & _ & _ & AI & _). specialize (AI I64). cbn [flexb_reader flex_reader r_asInt] in AI. rewrite AI. unfold x_asInt. cbn [ibits]. f_equal. unfold is_i64, i64_min, i64_max in R. apply to_signed_id; lia.
Qed.
Lemma uint_rd far z r : rep al far B (XUInt z) r -> is_u64 z -> fb_asUInt B I64 r = Ok z.
Proof.
  intros H R. destruct (rep_same al far B O 1 (XUInt z) r H) as (_ & _ & _ & _ & _ & _ & _ & _ & _ & _ & _ & AU & _). specialize (AU I64). cbn [flexb_reader flex_reader r_asUInt] in AU. rewrite AU. unfold x_asUInt. cbn [ibits]. f_equal. unfold is_u64, u64_max in R. apply Z.mod_small; lia.
Qed.
Lemma dbl_rd far d r : rep al far B (XDbl d) r -> fb_asDouble B r = Ok d.
Proof. intros H. destruct (rep_same al far B O 1 (XDbl d) r H) as (_ & _ & _ & _ & _ & _ & _ & _ & _ & _ & _ & _ & AD & _). exact AD. Qed.
Lemma bool_rd far b r : rep al far B (XBool b) r -> fb_asBool B r = Ok b.
Proof. intros H. destruct (rep_same al far B O 1 (XBool b) r H) as (_ & _ & _ & _ & _ & _ & _ & _ & _ & AB & _). exact AB. Qed.
Lemma str_rd far s r : rep al far B (XStr s) r -> fb_sized B 5 r = Ok s.
Proof. intros H. destruct (rep_same al far B O 1 (XStr s) r H) as (_ & _ & _ & _ & _ & _ & _ & _ & _ & _ & _ & _ & _ & AS & _). exact AS. Qed.

Lemma blob_rd far s r : rep al far B (XBlob s) r -> f_ty r = 25 /\ exists loc, fb_vec B r = Ok (loc, f_bw r) /\ size_at B loc (f_bw r) = Ok (zlen s).
Proof. intros (T & H). split; [exact T|]. apply sized_size in H. destruct H as (loc & A1 & A2 & _). exists loc. unfold fb_vec. now rewrite A1. Qed.

Local Notation P := (pretty (bar_leaf fl as_written escaped) escaped).
Ltac ty T := rewrite T; cbn [Z.eqb Pos.eqb Z.leb Z.compare Pos.compare Pos.compare_cont orb andb any_vector].
(** ** to_string *)
Lemma dump_ok far : forall v fuel r pad, val_ok v -> rep al far B (emb v) r -> (levels v < fuel)%nat -> fb_dump fl B fuel r pad = Ok (P pad v).
Proof.
  induction v as [|b|z|z|d|s|s|l IH|l IH] using val_ind'; intros [|fuel] r pad OK H F; try lia; cbn [fb_dump]; cbv zeta.
  - cbn in H. now ty H.
  - assert (T : f_ty r = 26) by apply H. ty T. now rewrite (bool_rd _ _ _ H).
  - assert (T : f_ty r = 1 \/ f_ty r = 6) by (destruct H as [(T & _)|(T & _)]; auto). rewrite (int_rd _ _ _ H OK). destruct T as [T|T]; ty T; reflexivity.
  - assert (T : f_ty r = 2 \/ f_ty r = 7) by (destruct H as [(T & _)|(T & _)]; auto). rewrite (uint_rd _ _ _ H OK). destruct T as [T|T]; ty T; reflexivity.
  - assert (T : f_ty r = 3 \/ f_ty r = 8) by (destruct H as [(T & _)|(T & _)]; auto). rewrite (dbl_rd _ _ _ H). destruct T as [T|T]; ty T; reflexivity.
  - assert (T : f_ty r = 5) by apply H. ty T. rewrite (str_rd _ _ _ H). cbn [bind pretty bar_leaf]. now rewrite (esc_spec s OK).
  - destruct (blob_rd _ _ _ H) as (T & loc & E1 & E2). ty T. rewrite E1. cbn [bind]. rewrite E2. reflexivity.
  - cbn [emb] in H. destruct (vec_rd _ _ _ H) as (loc & T & E1 & E2 & E3). ty T. rewrite E1. cbn [bind]. rewrite E2. cbn [bind]. set (rs := map (fun x => spaces (pad + 2) ++ P (pad + 2) x) l).
    assert (ZL : zlen l = zlen rs) by (unfold rs; now rewrite zlen_map). rewrite ZL, rows_loop.
    + cbn [closed bind pretty]. now rewrite <- !app_assoc.
    + intros i out x G. unfold rs in G. rewrite get_map in G. destruct (get l i) as [y|] eqn:GY; [|discriminate]. injection G as <-. destruct (E3 i y GY) as (r' & A & R). unfold fd_elem. rewrite A. cbn [bind].
      pose proof (get_In _ _ _ GY) as IN. rewrite Forall_forall in IH. rewrite (IH y IN); [cbn [bind]; now rewrite <- !app_assoc| |exact R|].
      * apply val_ok_arr in OK. rewrite Forall_forall in OK. now apply OK.
      * cbn [levels] in F. pose proof (max_in levels l y IN). lia.
  - cbn [emb] in H. destruct (map_rd _ _ _ H) as (loc & kd & kbw & T & E1 & EK & E2 & E2' & E3). ty T. rewrite E1. cbn [bind]. rewrite EK. cbn [bind]. rewrite E2'. cbn [bind].
    set (rs := map (fun kx => spaces (pad + 2) ++ quote ++ escaped (fst kx) ++ quote ++ txt ": " ++ P (pad + 2) (snd kx)) l).
    assert (ZL : zlen l = zlen rs) by (unfold rs; now rewrite zlen_map). rewrite ZL, rows_loop.
    + cbn [closed bind pretty]. now rewrite <- !app_assoc.
    + intros i out x G. unfold rs in G. rewrite get_map in G. destruct (get l i) as [y|] eqn:GY; [|discriminate]. injection G as <-. destruct (E3 i y GY) as (EQ & r' & A & R). unfold fd_entry. rewrite EQ. cbn [bind]. rewrite A. cbn [bind].
      pose proof (get_In _ _ _ GY) as IN. rewrite Forall_forall in IH. apply val_ok_map in OK. rewrite Forall_forall in OK. rewrite (IH y IN); [cbn [bind]| |exact R|].
      * rewrite (esc_spec (fst y)) by now apply OK. change (txt """: ") with (quote ++ txt ": "). unfold quote. now rewrite <- !app_assoc; cbn [app]; rewrite <- ?app_assoc; cbn [app].
      * now apply OK.
      * cbn [levels] in F. pose proof (max_in (fun kx => levels (snd kx)) l y IN). cbn beta in *. lia.
Qed.

(** ** dump_flex, numbers in line *)
Lemma std_quoted_spec s : std_quoted s = quoted s.
Proof.
  unfold std_quoted, quoted. do 2 f_equal. induction s as [|c s IH]; [reflexivity|]. cbn [flat_map]. rewrite IH. f_equal. unfold protect.
  destruct (c =? 34) eqn:E1; [now replace c with 34 by lia|]. destruct (c =? 92) eqn:E2; [now replace c with 92 by lia|]. cbn [orb]. destruct c as [|p|p]; try reflexivity. do 7 (destruct p as [p|p|]; try reflexivity; try (cbn in E1, E2; discriminate)).
Qed.
Lemma print_ok : forall v fuel r pad, val_ok v -> rep al false B (emb v) r -> (levels v < fuel)%nat -> fb_print fl B fuel r pad = Ok (listing fl pad v).
Proof.
  induction v as [|b|z|z|d|s|s|l IH|l IH] using val_ind'; intros [|fuel] r pad OK H F; try lia; cbn [fb_print]; cbv zeta.
  - cbn in H. now ty H.
  - assert (T : f_ty r = 26) by apply H. ty T. now rewrite (bool_rd _ _ _ H).
  - assert (T : f_ty r = 1) by (destruct H as [(T & _)|(T & ? & _)]; [exact T|discriminate]). rewrite (int_rd _ _ _ H OK). now ty T.
  - assert (T : f_ty r = 2) by (destruct H as [(T & _)|(T & ? & _)]; [exact T|discriminate]). rewrite (uint_rd _ _ _ H OK). now ty T.
  - assert (T : f_ty r = 3) by (destruct H as [(T & _)|(T & ? & _)]; [exact T|discriminate]). rewrite (dbl_rd _ _ _ H). now ty T.
  - assert (T : f_ty r = 5) by apply H. ty T. rewrite (str_rd _ _ _ H). cbn [bind listing]. now rewrite std_quoted_spec.
  - destruct (blob_rd _ _ _ H) as (T & loc & E1 & E2). ty T. rewrite E1. cbn [bind]. rewrite E2. reflexivity.
  - cbn [emb] in H. destruct (vec_rd _ _ _ H) as (loc & T & E1 & E2 & E3). ty T. rewrite E1. cbn [bind]. rewrite E2. cbn [bind]. set (rs := map (fun x => spaces (pad + 2) ++ listing fl (pad + 2) x) l).
    assert (ZL : zlen l = zlen rs) by (unfold rs; now rewrite zlen_map). rewrite ZL, rows_loop.
    + cbn [closed bind listing]. now rewrite <- !app_assoc.
    + intros i out x G. unfold rs in G. rewrite get_map in G. destruct (get l i) as [y|] eqn:GY; [|discriminate]. injection G as <-. destruct (E3 i y GY) as (r' & A & R). unfold fd_elem. rewrite A. cbn [bind].
      pose proof (get_In _ _ _ GY) as IN. rewrite Forall_forall in IH. rewrite (IH y IN); [cbn [bind]; now rewrite <- !app_assoc| |exact R|].
      * apply val_ok_arr in OK. rewrite Forall_forall in OK. now apply OK.
      * cbn [levels] in F. pose proof (max_in levels l y IN). lia.
  - cbn [emb] in H. destruct (map_rd _ _ _ H) as (loc & kd & kbw & T & E1 & EK & E2 & E2' & E3). ty T. rewrite E1. cbn [bind]. rewrite EK. cbn [bind]. rewrite E2. cbn [bind].
    set (rs := map (fun kx => spaces (pad + 2) ++ quoted (fst kx) ++ txt ": " ++ listing fl (pad + 2) (snd kx)) l).
    assert (ZL : zlen l = zlen rs) by (unfold rs; now rewrite zlen_map). rewrite ZL, rows_loop.
    + cbn [closed bind listing]. now rewrite <- !app_assoc.
    + intros i out x G. unfold rs in G. rewrite get_map in G. destruct (get l i) as [y|] eqn:GY; [|discriminate]. cbn [option_map] in G. assert (GX : spaces (pad + 2) ++ quoted (fst y) ++ txt ": " ++ listing fl (pad + 2) (snd y) = x) by congruence. rewrite <- GX. clear GX G. destruct (E3 i y GY) as (EQ & r' & A & R). unfold fp_entry. rewrite EQ. cbn [bind]. rewrite A. cbn [bind].
      pose proof (get_In _ _ _ GY) as IN. rewrite Forall_forall in IH. apply val_ok_map in OK. rewrite Forall_forall in OK. rewrite (IH y IN); [cbn [bind]| |exact R|].
      * rewrite std_quoted_spec. generalize (quoted (fst y)) (listing fl (pad + 2) (snd y)) (txt ": ") (spaces (pad + 2)). intros.
        now rewrite <- !app_assoc.
      * now apply OK.
      * cbn [levels] in F. pose proof (max_in (fun kx => levels (snd kx)) l y IN). cbn beta in *. lia.
Qed.
End Text.

(** ** Messages *)
Theorem message_text fl al far B v : message al B far false v -> bytes_ok B -> exists r, fb_open B = Ok r /\
  forall fuel, (levels v < fuel)%nat -> fb_to_string fl B fuel r = Ok (txt "Flex " ++ pretty (bar_leaf fl as_written escaped) escaped 0 v).
Proof.
  intros (w & t & L & LY) OK. eexists. split; [exact (message_opens al B w t L)|]. intros fuel F. unfold fb_to_string. rewrite (dump_ok fl al B far v); [reflexivity| |now apply lays_rep|exact F]. now apply (lays_val_ok _ _ _ _ _ _ _ OK LY).
Qed.
Theorem message_listing fl al B v : message al B false false v -> bytes_ok B ->
  forall fuel, (levels v < fuel)%nat -> dump_flex fl fuel B = Ok (listing fl 0 v ++ nl).
Proof.
  intros (w & t & L & LY) OK fuel F. unfold dump_flex. apply lies_has in L. pose proof (has_rd _ _ _ _ L) as R1. apply has_cons in L. destruct L as (_ & L). apply has_rd in L. replace (zlen B - 2 + 1) with (zlen B - 1) in L by lia.
  rewrite L. cbn [bind]. rewrite R1. cbn [bind]. rewrite (print_ok fl al B v); [reflexivity| |now apply lays_rep|exact F]. now apply (lays_val_ok _ _ _ _ _ _ _ OK LY).
Qed.
