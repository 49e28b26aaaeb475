(** FlexBConf.v -- FlexBuffers: bytes laid out as the format says are read as what they lay out; written bytes are. *)

From Coq Require Import ZArith List Bool Lia ZifyBool ZifyNat Sorted.
From Verif Require Import Base BaseFacts Spec SpecFacts FlexModel FlexSpec FlexFacts FlexBModel FlexBSpec FlexBFormat FlexBFacts FlexBWrite FlexBSim FlexBMain.
Import ListNotations.
Open Scope Z_scope.
Ltac Zify.zify_post_hook ::= idtac.

Lemma get_map {A C} (f : A -> C) l i : get (map f l) i = option_map f (get l i).
Proof. unfold get. rewrite zlen_map. destruct (_ && _); [apply nth_error_map|reflexivity]. Qed.
Lemma in_get {A} (l : list A) x : In x l -> exists i, get l i = Some x.
Proof. intros H. apply in_split in H. destruct H as (a & c & ->). exists (zlen a). apply get_mid. Qed.
Lemma packed_of p w t e : 0 <= e <= 3 -> packed_ref p w (4 * t + e) = mkRef p w (2 ^ e) t.
Proof. intros E. unfold packed_ref. rewrite (Z.mul_comm 4), Z.add_comm, Z.mod_add, Z.div_add by lia. now rewrite Z.mod_small, Z.div_small by lia. Qed.
Lemma packed_split t : t = 4 * (t / 4) + t mod 4 /\ 0 <= t mod 4 <= 3.
Proof. pose proof (Z.mod_pos_bound t 4 ltac:(lia)). split; [apply Z.div_mod|]; lia. Qed.

Section Conf.
Variables (al : Z -> Z -> Prop) (B : bytes) (far : bool).

(** ** Layouts are represented trees *)
Lemma lays_rep p w t v : lays al B far false p w t v -> rep al far B (emb v) (packed_ref p w t).
Proof.
  induction 1 as [p w e E|p w e n E N|p w e z E N|p w e n E N|p w e d E N|p w e q z E FA O N|p w e q n E FA O N|p w e q d E FA O N|p w e q s E O N L|p w e q s E O N L
    |p w e q t l E O N L LY IH|p w e q kq kw t l E O N OK NK KS OR L LY IH|]; try rewrite packed_of by exact E; cbn [emb]; try discriminate.
  1-10: cbn [rep f_ty f_data f_pw f_bw].
  - reflexivity.
  - split; [reflexivity|]. now exists n.
  - left. auto.
  - left. auto.
  - left. auto.
  - right. split; [reflexivity|]. split; [exact FA|]. now exists q.
  - right. split; [reflexivity|]. split; [exact FA|]. now exists q.
  - right. split; [reflexivity|]. split; [exact FA|]. now exists q.
  - split; [reflexivity|]. exists q. auto.
  - split; [reflexivity|]. exists q. rewrite app_nil_r. auto.
  - apply rep_vec. cbn [f_ty f_data f_pw f_bw]. split; [reflexivity|]. exists q. rewrite zlen_map. split; [exact O|]. split; [exact N|]. intros i y G. rewrite get_map in G.
    destruct (get l i) as [x|] eqn:GX; [|discriminate]. injection G as <-. exists (packed_ref (q + i * 2 ^ e) (2 ^ e) (t i)). split; [exists (t i); split; [now apply (L i x)|reflexivity]|now apply IH].
  - apply rep_map. cbn [f_ty f_data f_pw f_bw]. split; [reflexivity|]. exists q, kq, kw. rewrite zlen_map, map_map. cbn [fst]. repeat (split; [assumption|]). intros i y G. rewrite get_map in G.
    destruct (get l i) as [x|] eqn:GX; [|discriminate]. injection G as <-. exists (packed_ref (q + i * 2 ^ e) (2 ^ e) (t i)). split; [exists (t i); split; [now apply (L i x)|reflexivity]|now apply IH].
Qed.
Lemma lays_tidy p w t v : zlen B < 2 ^ 63 -> lays al B far false p w t v -> tidy v.
Proof.
  intros LB. induction 1 as [p w e E|p w e n E N|p w e z E N|p w e n E N|p w e d E N|p w e q z E FA O N|p w e q n E FA O N|p w e q d E FA O N|p w e q s E O N L|p w e q s E O N L
    |p w e q t l E O N L LY IH|p w e q kq kw t l E O N OK NK KS OR L LY IH|]; try (split; exact I); try discriminate.
  - apply every_arr. split; [exact I|]. apply Forall_forall. intros x X. destruct (in_get _ _ X) as (i & G). now apply (IH i).
  - apply every_map. split; [split; [exact OR|]|].
    + destruct (Z_le_gt_dec (zlen l) 0) as [|C]; [lia|]. destruct (get_in l (zlen l - 1) ltac:(lia)) as (x & G). specialize (L _ _ G). apply lies_has in L. apply has_bound in L.
      destruct (get_in l 0 ltac:(lia)) as (x0 & G0). destruct N as (W & _ & bs & Q & LQ & _). apply lies_has, has_bound in Q. pose proof (pow_range e E). change (zlen [t (zlen l - 1)]) with 1 in L. nia.
    + apply Forall_forall. intros x X. destruct (in_get _ _ X) as (i & G). now apply (IH i).
Qed.

(** ** Represented trees are layouts *)
Definition byte_at (p : Z) : Z := match get B p with Some b => b | None => 0 end.
Lemma lies_byte p b : lies B p [b] -> byte_at p = b.
Proof. intros (a & c & E & <-). unfold byte_at. rewrite E. cbn [app]. now rewrite get_mid. Qed.
Lemma rep_lays v : forall p w t, tidy v -> rep al far B (emb v) (packed_ref p w t) -> lays al B far false p w t v.
Proof.
  induction v as [|b|z|z|d|s|s|l IH|l IH] using val_ind'; intros p w t TD H; destruct (packed_split t) as (ET & RT); set (e := t mod 4) in *; set (u := t / 4) in *; clearbody e u; subst t; rewrite packed_of in H by exact RT.
  - cbn in H. subst u. now constructor.
  - cbn [emb rep f_ty f_data f_pw] in H. destruct H as (-> & n & N & <-). now constructor.
  - cbn [emb rep] in H. destruct H as [(T & N)|(T & FA & q & O & N)]; cbn [f_ty f_data f_pw f_bw] in *; subst u; [now constructor|econstructor; eauto].
  - cbn [emb rep] in H. destruct H as [(T & N)|(T & FA & q & O & N)]; cbn [f_ty f_data f_pw f_bw] in *; subst u; [now constructor|econstructor; eauto].
  - cbn [emb rep] in H. destruct H as [(T & N)|(T & FA & q & O & N)]; cbn [f_ty f_data f_pw f_bw] in *; subst u; [now constructor|econstructor; eauto].
  - cbn [emb rep f_ty] in H. destruct H as (-> & q & O & N & L). cbn [f_data f_pw f_bw] in *. econstructor; eauto.
  - cbn [emb rep f_ty] in H. destruct H as (-> & q & O & N & L). cbn [f_data f_pw f_bw] in *. rewrite app_nil_r in L. econstructor; eauto.
  - cbn [emb] in H. apply rep_vec in H. cbn [f_ty f_data f_pw f_bw] in H. destruct H as (-> & q & O & N & EL). rewrite zlen_map in *. apply every_arr in TD. destruct TD as (_ & TD).
    apply (lays_arr al B far false p w e q (fun i => byte_at (q + zlen l * 2 ^ e + i))); auto; intros i x G.
    + destruct (EL i (emb x)) as (r' & (pt & L & _) & _); [now rewrite get_map, G|]. now rewrite (lies_byte _ _ L).
    + destruct (EL i (emb x)) as (r' & (pt & L & ->) & R); [now rewrite get_map, G|]. rewrite (lies_byte _ _ L). rewrite Forall_forall in *. pose proof (get_In _ _ _ G). apply IH; [assumption|now apply TD|exact R].
  - cbn [emb] in H. apply rep_map in H. cbn [f_ty f_data f_pw f_bw] in H. destruct H as (-> & q & kq & kw & O & N & OK & NK & KS & EL). rewrite zlen_map, map_map in *. cbn [fst] in *. apply every_map in TD. destruct TD as ((OR & _) & TD).
    apply (lays_map al B far false p w e q kq kw (fun i => byte_at (q + zlen l * 2 ^ e + i))); auto; intros i x G.
    + destruct (EL i (fst x, emb (snd x))) as (r' & (pt & L & _) & _); [now rewrite get_map, G|]. now rewrite (lies_byte _ _ L).
    + destruct (EL i (fst x, emb (snd x))) as (r' & (pt & L & ->) & R); [now rewrite get_map, G|]. rewrite (lies_byte _ _ L). rewrite Forall_forall in *. pose proof (get_In _ _ _ G). apply (IH x); [assumption|now apply TD|exact R].
Qed.

(** ** Reading *)
Lemma message_opens w t : lies B (zlen B - 2) [t; w] -> fb_open B = Ok (packed_ref (zlen B - 2 - w) w t).
Proof.
  intros L. apply lies_has in L. pose proof (has_bound _ _ _ L) as R. change (zlen [t; w]) with 2 in R. unfold fb_open. replace (zlen B =? 0) with false by lia. pose proof (has_rd _ _ _ _ L) as R1.
  apply has_cons in L. destruct L as (_ & L). apply has_rd in L. replace (zlen B - 2 + 1) with (zlen B - 1) in L by lia. rewrite L. cbn [bind]. rewrite R1. reflexivity.
Qed.
Theorem message_shows fuel v : message al B far false v -> zlen B < 2 ^ 63 -> (64 <= fuel)%nat -> exists r, fb_open B = Ok r /\ shows (flexb_reader B fuel) flex_table r v.
Proof.
  intros (w & t & L & LY) LB F. eexists. split; [exact (message_opens w t L)|]. apply (shows_same (flexb_reader B fuel) (flex_reader fuel) flex_table v _ (emb v)).
  - intros n. apply (rep_same al far). now apply lays_rep.
  - apply flex_shows; [now apply (lays_tidy _ _ _ _ LB LY)|exact F].
Qed.
End Conf.

(** ** Writing *)
Theorem written_message dbg srt (KS : key_sort srt) v es : flex_ok v -> calls v es -> Forall ev_ok es ->
  let WB := flexb_writer dbg (srt (bval * bval)%type) in
  exists s b, run WB (w_init WB) es = (s, Ok tt) /\ snd (w_finish WB s) = Ok b /\ (zlen b < 2 ^ 62 -> message aligned b false false (in_key_order v)).
Proof.
  intros OK C EV WB. destruct (flex_calls dbg (srt fx) v es C) as (ts & RT & FT).
  destruct (run_like dbg (srt (bval * bval)%type) (srt fx) es _ _ (likes_init dbg (srt _) (srt _))) as (R & _). rewrite RT in R. cbn [snd] in R.
  pose proof (run_is_catch WB es (w_init WB) R) as CB. pose proof (run_is_catch (flex_writer dbg (srt fx)) es (w_init (flex_writer dbg (srt fx)))) as CT. rewrite RT in CT. specialize (CT eq_refl). cbn [fst] in CT.
  pose proof (histories_rep dbg srt KS es EV) as A. rewrite CT, FT in A. fold WB in R. destruct (run WB (w_init WB) es) as [s r] eqn:RB. cbn [fst snd] in *. subst r. fold WB in A. rewrite CB in A.
  destruct (snd (w_finish WB s)) as [b|e| |] eqn:FB; cbn [alike] in A; try contradiction. exists s, b. split; [reflexivity|]. split; [exact FB|]. intros L.
  destruct (A L) as (r & RP & w & t & LI & ->). exists w, t. split; [exact LI|]. cbn [flex_open] in RP. rewrite (built_emb (srt fx) v (proj1 KS fx) OK) in RP. apply rep_lays; [now apply key_order_tidy|exact RP].
Qed.

(** ** Bytes lay out one value *)
Definition ty_in (v : val) (t : Z) : Prop :=
  match v with VNull => t = 0 | VBool _ => t = 26 | VInt _ => t = 1 \/ t = 6 | VUInt _ => t = 2 \/ t = 7 | VDbl _ => t = 3 \/ t = 8 | VStr _ => t = 5 | VBlob _ => t = 25 | VArr _ => t = 10 | VMap _ => t = 9 end.
Lemma rep_ty al far B v r : rep al far B (emb v) r -> ty_in v (f_ty r).
Proof. destruct v; cbn [emb rep ty_in]; intros H; try (destruct H as [(T & _)|(T & _)]; auto; fail); try (destruct H as (T & _); exact T); exact H. Qed.
Lemma number_fun al1 al2 B p w n1 n2 : number al1 B p w n1 -> number al2 B p w n2 -> n1 = n2.
Proof. intros H1 H2. apply number_rd in H1. apply number_rd in H2. congruence. Qed.
Lemma offset_fun al1 al2 B p w n1 n2 : offset al1 B p w n1 -> offset al2 B p w n2 -> n1 = n2.
Proof. intros H1 H2. apply offset_rd in H1. apply offset_rd in H2. congruence. Qed.
Lemma lies_fun B p l1 l2 : lies B p l1 -> lies B p l2 -> zlen l1 = zlen l2 -> l1 = l2.
Proof. intros H1 H2 E. apply lies_has, has_rd_view in H1. apply lies_has, has_rd_view in H2. rewrite E in H1. congruence. Qed.
Lemma get_ext {A} (l1 : list A) : forall l2, zlen l1 = zlen l2 -> (forall i, get l1 i = get l2 i) -> l1 = l2.
Proof.
  induction l1 as [|x l1 IH]; intros [|y l2] L G; [reflexivity|unfold zlen in L; cbn in L; lia|unfold zlen in L; cbn in L; lia|]. rewrite !zlen_cons in L.
  pose proof (G 0) as G0. rewrite !get_cons_0 in G0. f_equal; [congruence|]. apply IH; [lia|]. intros i. destruct (Z_lt_ge_dec i 0) as [N|N].
  - unfold get. replace ((0 <=? i) && (i <? zlen l1)) with false by lia. now replace ((0 <=? i) && (i <? zlen l2)) with false by lia.
  - specialize (G (i + 1)). rewrite !get_cons in G. replace (i + 1 =? 0) with false in G by lia. now replace (i + 1 - 1) with i in G by lia.
Qed.
Lemma indir_fun al1 al2 f1 f2 B r t1 t2 (P1 P2 : Z -> Z -> Prop) (Q : Prop) : t1 <> t2 -> (forall p w, P1 p w -> P2 p w -> Q) -> indir al1 f1 B r t1 t2 P1 -> indir al2 f2 B r t1 t2 P2 -> Q.
Proof.
  intros N PQ [(T & H)|(T & _ & q & O & H)] [(T' & H')|(T' & _ & q' & O' & H')]; try congruence; [eauto|]. rewrite (offset_fun _ _ _ _ _ _ _ O' O) in H'. eauto.
Qed.
Lemma elem_fun B loc bw n i r1 r2 : elem_at B loc bw n i r1 -> elem_at B loc bw n i r2 -> r1 = r2.
Proof. intros (a & L1 & ->) (b & L2 & ->). pose proof (lies_fun _ _ _ _ L1 L2 eq_refl) as E. congruence. Qed.
Lemma rep_det al1 al2 f1 f2 B : forall v1 v2 r, rep al1 f1 B (emb v1) r -> rep al2 f2 B (emb v2) r -> v1 = v2.
Proof.
  intros v1. induction v1 as [|b|z|z|d|s|s|l IH|l IH] using val_ind'; intros v2 r H1 H2; pose proof (rep_ty _ _ _ _ _ H1) as T1; pose proof (rep_ty _ _ _ _ _ H2) as T2; destruct v2; cbn [ty_in] in T1, T2; try (exfalso; lia); clear T1 T2.
  - reflexivity.
  - cbn [emb rep] in *. destruct H1 as (_ & n1 & N1 & <-), H2 as (_ & n2 & N2 & <-). now rewrite (number_fun _ _ _ _ _ _ _ N1 N2).
  - cbn [emb rep] in *. f_equal. revert H1 H2. apply indir_fun; [lia|]. intros p w S1 S2. apply signed_rd in S1. apply signed_rd in S2. congruence.
  - cbn [emb rep] in *. f_equal. revert H1 H2. apply indir_fun; [lia|]. intros p w. apply number_fun.
  - cbn [emb rep] in *. f_equal. revert H1 H2. apply indir_fun; [lia|]. intros p w S1 S2. apply real_rd in S1. apply real_rd in S2. congruence.
  - cbn [emb rep] in *. f_equal. destruct H1 as (_ & q1 & O1 & N1 & L1), H2 as (_ & q2 & O2 & N2 & L2). rewrite (offset_fun _ _ _ _ _ _ _ O2 O1) in *. pose proof (number_fun _ _ _ _ _ _ _ N1 N2) as Z.
    pose proof (lies_fun _ _ _ _ L1 L2) as E. rewrite !zlen_app in E. specialize (E ltac:(lia)). now apply app_inj_tail in E.
  - cbn [emb rep] in *. f_equal. destruct H1 as (_ & q1 & O1 & N1 & L1), H2 as (_ & q2 & O2 & N2 & L2). rewrite (offset_fun _ _ _ _ _ _ _ O2 O1) in *. pose proof (number_fun _ _ _ _ _ _ _ N1 N2) as Z.
    rewrite !app_nil_r in *. exact (lies_fun _ _ _ _ L1 L2 Z).
  - cbn [emb] in *. apply rep_vec in H1. apply rep_vec in H2. destruct H1 as (_ & q1 & O1 & N1 & E1), H2 as (_ & q2 & O2 & N2 & E2). rewrite (offset_fun _ _ _ _ _ _ _ O2 O1) in *. pose proof (number_fun _ _ _ _ _ _ _ N1 N2) as Z.
    rewrite Z in *. rewrite !zlen_map in *. f_equal. apply get_ext; [exact Z|]. intros i. destruct (get l i) as [x|] eqn:G1.
    + pose proof (get_some _ _ _ G1). destruct (get_in l0 i ltac:(lia)) as (y & G2). rewrite G2. f_equal. destruct (E1 i (emb x)) as (r1 & A1 & R1); [now rewrite get_map, G1|]. destruct (E2 i (emb y)) as (r2 & A2 & R2); [now rewrite get_map, G2|].
      rewrite (elem_fun _ _ _ _ _ _ _ A2 A1) in R2. rewrite Forall_forall in IH. apply (IH x (get_In _ _ _ G1) y r1); assumption.
    + destruct (get l0 i) as [y|] eqn:G2; [|reflexivity]. pose proof (get_some _ _ _ G2). destruct (get_in l i ltac:(lia)). congruence.
  - cbn [emb] in *. apply rep_map in H1. apply rep_map in H2. destruct H1 as (_ & q1 & k1 & w1 & O1 & N1 & KO1 & KW1 & K1 & E1), H2 as (_ & q2 & k2 & w2 & O2 & N2 & KO2 & KW2 & K2 & E2).
    rewrite (offset_fun _ _ _ _ _ _ _ O2 O1) in *. rewrite (offset_fun _ _ _ _ _ _ _ KO2 KO1) in *. rewrite (number_fun _ _ _ _ _ _ _ KW2 KW1) in *. pose proof (number_fun _ _ _ _ _ _ _ N1 N2) as Z.
    rewrite Z in *. rewrite !zlen_map in *. f_equal. apply get_ext; [exact Z|]. intros i. rewrite !map_map in *. cbn [fst] in *. destruct (keys_rd _ _ _ _ _ K1) as (_ & F1). destruct (keys_rd _ _ _ _ _ K2) as (_ & F2).
    destruct (get l i) as [[k x]|] eqn:G1.
    + pose proof (get_some _ _ _ G1). destruct (get_in l0 i ltac:(lia)) as ([k' y] & G2). rewrite G2. destruct (E1 i (k, emb x)) as (r1 & A1 & R1); [now rewrite get_map, G1|]. destruct (E2 i (k', emb y)) as (r2 & A2 & R2); [now rewrite get_map, G2|].
      rewrite (elem_fun _ _ _ _ _ _ _ A2 A1) in R2. rewrite Forall_forall in IH. assert (XY : x = y) by exact (IH (k, x) (get_In _ _ _ G1) y r1 R1 R2). subst y.
      specialize (F1 i k). specialize (F2 i k'). rewrite get_map, G1 in F1. rewrite get_map, G2 in F2. specialize (F1 eq_refl). specialize (F2 eq_refl). congruence.
    + destruct (get l0 i) as [y|] eqn:G2; [|reflexivity]. pose proof (get_some _ _ _ G2). destruct (get_in l i ltac:(lia)). congruence.
Qed.
Theorem message_det al1 al2 f1 f2 B v1 v2 : message al1 B f1 false v1 -> message al2 B f2 false v2 -> v1 = v2.
Proof.
  intros (w1 & t1 & L1 & H1) (w2 & t2 & L2 & H2). pose proof (lies_fun _ _ _ _ L1 L2 eq_refl) as E. injection E as -> ->. apply lays_rep in H1. apply lays_rep in H2. exact (rep_det _ _ _ _ _ _ _ _ H1 H2).
Qed.
Lemma message_pre far pre B v : tidy v -> message aligned B far false v -> message anywhere (pre ++ B) far false v.
Proof.
  intros TD (w & t & L & H). exists w, t. rewrite zlen_app. replace (zlen pre + zlen B - 2) with (zlen pre + (zlen B - 2)) by lia. split; [now apply lies_shift|].
  apply lays_rep in H. apply (rep_shift pre) in H. unfold shift, packed_ref in H. cbn [f_data f_pw f_bw f_ty] in H. replace (zlen pre + (zlen B - 2) - w) with (zlen pre + (zlen B - 2 - w)) by lia. now apply rep_lays.
Qed.
Lemma serialized_bytes dbg srt (KS : key_sort srt) v b : val_ok v -> serialize (flexb_writer dbg (srt (bval * bval)%type)) v = Ok b -> bytes_ok b.
Proof.
  intros V H. pose proof (events_ev_ok v V) as EV. unfold serialize in H. destruct (run _ _ (events v)) as [s r] eqn:R. destruct r; try discriminate. apply (histories_bytes dbg srt KS (events v)); [exact EV|].
  rewrite run_is_catch; rewrite R; [exact H|now destruct u].
Qed.
