(** JTextFacts.v -- the parser accepts exactly the grammar. *)

From Coq Require Import ZArith List Bool String Lia ZifyBool ZifyNat.
From Verif Require Import Base BaseFacts Spec Utf8Spec HalfModel B64Model JsonModel JTextModel JTextSpec.
Import ListNotations.
Open Scope Z_scope.
Ltac Zify.zify_post_hook ::= idtac.

(** ** White space *)
Lemma jws_iff c : jws c = true <-> c = 32 \/ c = 9 \/ c = 10 \/ c = 13.
Proof. unfold jws. rewrite !orb_true_iff, !Z.eqb_eq. tauto. Qed.
Definition solid (l : bytes) : Prop := match l with c :: _ => jws c = false | [] => True end.
Lemma skip_app w l : ws w -> skip_ws (w ++ l) = skip_ws l.
Proof. induction 1 as [|c w C W IH]; [reflexivity|]. cbn. apply jws_iff in C. now rewrite C. Qed.
Lemma skip_solid l : solid l -> skip_ws l = l.
Proof. destruct l as [|c l]; [reflexivity|]. cbn. now intros ->. Qed.
Lemma skip_split l : exists w, ws w /\ l = w ++ skip_ws l.
Proof.
  induction l as [|c l (w & W & E)]; [exists []; now split; [constructor|]|]. cbn. destruct (jws c) eqn:J.
  - exists (c :: w). split; [constructor; [now apply jws_iff|exact W]|]. cbn. now rewrite <- E.
  - exists []. split; [constructor|reflexivity].
Qed.
Lemma skip_is_solid l : solid (skip_ws l).
Proof. induction l as [|c l IH]; [exact I|]. cbn. destruct (jws c) eqn:J; [exact IH|exact J]. Qed.
Lemma skip_ws_nil w : ws w -> skip_ws w = [].
Proof. intros W. rewrite <- (app_nil_r w), skip_app by exact W. reflexivity. Qed.
Lemma skip_nil_ws l : skip_ws l = [] -> ws l.
Proof. intros E. destruct (skip_split l) as (w & W & X). rewrite E, app_nil_r in X. now subst. Qed.

(** ** Literals *)
Lemma strip_app p l : strip p (p ++ l) = Some l.
Proof. induction p as [|x p IH]; [now destruct l|]. cbn. now rewrite Z.eqb_refl. Qed.
Lemma strip_some : forall p l r, strip p l = Some r -> l = p ++ r.
Proof.
  induction p as [|x p IH]; intros l r H; [now inversion H|].
  destruct l as [|c l]; [discriminate|]. cbn in H. destruct (c =? x) eqn:E; [|discriminate].
  apply Z.eqb_eq in E. subst. cbn. f_equal. now apply IH.
Qed.

(** ** Digits *)
Lemma jdigit_iff c : jdigit c = true <-> digit c.
Proof. unfold jdigit, digit. lia. Qed.
Definition nodigit (l : bytes) : Prop := match l with c :: _ => jdigit c = false | [] => True end.
Lemma take_app d l : Forall digit d -> nodigit l -> take_digits (d ++ l) = (d, l).
Proof.
  induction 1 as [|c d C D IH]; intros N.
  - destruct l as [|c l]; [reflexivity|]. cbn in *. now rewrite N.
  - cbn. apply jdigit_iff in C. rewrite C, IH by exact N. reflexivity.
Qed.
Lemma take_sound : forall l d r, take_digits l = (d, r) -> l = d ++ r /\ Forall digit d /\ nodigit r.
Proof.
  induction l as [|c l IH]; intros d r H; cbn in H; [inversion H; repeat split; constructor|].
  destruct (jdigit c) eqn:J.
  - destruct (take_digits l) as [d' r'] eqn:T. inversion H; subst. destruct (IH d' r eq_refl) as (-> & D & N).
    repeat split; [|exact N]. constructor; [now apply jdigit_iff|exact D].
  - inversion H; subst. repeat split; [constructor|exact J].
Qed.
Lemma num_acc : forall l a, fold_left (fun a c => 10 * a + (c - 48)) l a = a * 10 ^ zlen l + decimal l.
Proof.
  induction l as [|c l IH]; intros a; [cbn; lia|].
  cbn [fold_left decimal]. rewrite IH, zlen_cons. unfold zlen. rewrite Z.pow_add_r by lia. ring.
Qed.
Lemma num_decimal l : num_of l = decimal l.
Proof. unfold num_of. rewrite num_acc. lia. Qed.
Lemma int_ok_iff i : Forall digit i -> int_ok i = true <-> int_part i.
Proof.
  intros D. unfold int_part. destruct i as [|c [|c' i]]; cbn.
  - split; [discriminate|intros [H|(c & l & H & _)]; discriminate].
  - split; [intros _|reflexivity]. inversion D as [|? ? C _]; subst. unfold digit in C.
    destruct (Z.eq_dec c 48) as [->|N]; [now left|right]. exists c, []. repeat split; [lia|lia|constructor].
  - inversion D as [|? ? C D']; subst. unfold digit in C. rewrite negb_true_iff, Z.eqb_neq. split.
    + intros N. right. exists c, (c' :: i). repeat split; [lia|lia|exact D'].
    + intros [H|(a & l & H & A & _)]; [discriminate|]. inversion H; subst. lia.
Qed.
Lemma int_part_digits i : int_part i -> Forall digit i.
Proof.
  intros [->|(c & l & -> & C & D)]; [constructor; [unfold digit; lia|constructor]|].
  constructor; [unfold digit; lia|exact D].
Qed.
Lemma int_part_head i l : int_part i -> exists c r, i ++ l = c :: r /\ digit c.
Proof.
  intros [->|(c & r & -> & C & D)]; [exists 48, l; split; [reflexivity|unfold digit; lia]|].
  exists c, (r ++ l). split; [reflexivity|unfold digit; lia].
Qed.

(** ** Numbers *)
(** What may follow a number. *)
Definition stops (l : bytes) : Prop :=
  match l with c :: _ => ~ digit c /\ c <> 46 /\ c <> 101 /\ c <> 69 | [] => True end.
Lemma stops_nodigit l : stops l -> nodigit l.
Proof. destruct l as [|c l]; [easy|]. cbn. intros (D & _). destruct (jdigit c) eqn:J; [|reflexivity]. now apply jdigit_iff in J. Qed.
Lemma exp_complete x lx rest : exponent x lx -> stops rest -> parse_exp (lx ++ rest) = Some (x, rest).
Proof.
  intros [(-> & ->)|(c & sign & d & C & Nd & D & -> & S)] ST.
  - cbn. destruct rest as [|c r]; [reflexivity|]. cbn. cbn in ST. replace ((c =? 101) || (c =? 69)) with false by lia. reflexivity.
  - cbn [app parse_exp]. replace ((c =? 101) || (c =? 69)) with true by lia.
    pose proof (take_app d rest D (stops_nodigit _ ST)) as T. destruct d as [|a d]; [easy|].
    destruct S as [(-> & ->)|[(-> & ->)|(-> & ->)]]; cbn [app].
    + inversion D as [|? ? A _]; subst. unfold digit in A. cbn [strip app].
      replace (a =? 43) with false by lia. replace (a =? 45) with false by lia.
      rewrite <- app_comm_cons in T. rewrite T. now rewrite num_decimal.
    + cbn [strip]. rewrite Z.eqb_refl. rewrite <- app_comm_cons in T. cbn [app]. rewrite T. now rewrite num_decimal.
    + cbn [strip]. rewrite Z.eqb_refl. change (45 =? 43) with false. rewrite <- app_comm_cons in T. cbn [app]. rewrite T. now rewrite num_decimal.
Qed.
Lemma exp_sound l x r : parse_exp l = Some (x, r) -> exists lx, l = lx ++ r /\ exponent x lx.
Proof.
  unfold parse_exp. destruct l as [|c l]; [intros H; inversion H; subst; exists []; split; [reflexivity|now left]|].
  destruct ((c =? 101) || (c =? 69)) eqn:C; [|intros H; inversion H; subst; exists []; split; [reflexivity|now left]].
  intros H.
  assert (exists sign (neg : bool) l'', l = sign ++ l'' /\ (neg = false /\ sign = [] \/ neg = false /\ sign = [43] \/ neg = true /\ sign = [45]) /\
    match take_digits l'' with ([], _) => None | (d, r) => Some (Some (if neg then - num_of d else num_of d), r) end = Some (x, r)) as (sg & neg & l'' & -> & SG & H').
  { destruct (strip [43] l) as [l1|] eqn:S1.
    - apply strip_some in S1. subst. exists [43], false, l1. repeat split; auto.
    - destruct (strip [45] l) as [l1|] eqn:S2.
      + apply strip_some in S2. subst. exists [45], true, l1. repeat split; auto.
      + exists [], false, l. repeat split; auto. }
  clear H. destruct (take_digits l'') as [d r'] eqn:T. apply take_sound in T. destruct T as (-> & D & N).
  destruct d as [|a d]; [discriminate|]. rewrite num_decimal in H'. inversion H'; subst. clear H'.
  exists (c :: sg ++ a :: d). split; [cbn; f_equal; rewrite <- app_assoc; reflexivity|].
  right. exists c, sg, (a :: d). repeat split; [lia|discriminate|exact D|].
  destruct SG as [(-> & ->)|[(-> & ->)|(-> & ->)]]; auto.
Qed.
Lemma frac_complete f lf lx rest x : fraction f lf -> exponent x lx -> stops rest ->
  parse_frac (lf ++ lx ++ rest) = Some (f, lx ++ rest) /\ nodigit (lx ++ rest).
Proof.
  intros F X ST.
  assert (ND : nodigit (lx ++ rest)).
  { destruct X as [(-> & ->)|(c & sign & d & C & _ & _ & -> & _)]; [now apply stops_nodigit|]. cbn. unfold jdigit. lia. }
  split; [|exact ND]. destruct F as [(-> & ->)|(Nf & D & ->)].
  - cbn. unfold parse_frac. cbn [app]. destruct (strip [46] (lx ++ rest)) as [r|] eqn:S; [|reflexivity].
    apply strip_some in S. exfalso. destruct X as [(-> & ->)|(c & sign & d & C & _ & _ & -> & _)].
    + cbn in S. subst rest. cbn in ST. lia.
    + cbn in S. inversion S; subst. lia.
  - unfold parse_frac. cbn [app strip]. rewrite Z.eqb_refl.
    pose proof (take_app f (lx ++ rest) D ND) as T. destruct f as [|a f]; [easy|]. cbn [app] in *. now rewrite T.
Qed.
Lemma frac_sound l f r : parse_frac l = Some (f, r) -> exists lf, l = lf ++ r /\ fraction f lf.
Proof.
  unfold parse_frac. destruct (strip [46] l) as [l1|] eqn:S.
  - apply strip_some in S. subst. destruct (take_digits l1) as [d r'] eqn:T. apply take_sound in T. destruct T as (-> & D & N).
    destruct d as [|a d]; [discriminate|]. intros H. inversion H; subst. exists (46 :: a :: d). split; [reflexivity|].
    right. repeat split; [discriminate|exact D].
  - intros H. inversion H; subst. exists []. split; [reflexivity|now left].
Qed.

Notation val_of := (value dec_double).
(** The four forms of a number token. *)
Definition number_token (t : val) (l : bytes) : Prop :=
  exists neg sign i f x lf lx, (neg = false /\ sign = [] \/ neg = true /\ sign = [45]) /\ int_part i /\ fraction f lf /\ exponent x lx /\
    l = sign ++ i ++ lf ++ lx /\
    t = match f, x with
        | [], None => if neg : bool then VInt (- decimal i) else VUInt (decimal i)
        | _, _ => VDbl (dec_double neg (decimal (i ++ f)) (match x with Some x => x | None => 0 end - zlen f))
        end.
Lemma token_value t l : number_token t l -> val_of t l.
Proof.
  intros (neg & sign & i & f & x & lf & lx & SG & I & F & X & -> & ->).
  destruct (match f with [] => match x with None => true | _ => false end | _ => false end) eqn:K.
  - destruct f; [|discriminate]. destruct x; [discriminate|].
    destruct F as [(_ & ->)|(N & _)]; [|easy]. destruct X as [(_ & ->)|(c & sg & d & _ & _ & _ & _ & [(_ & X)|[(_ & X)|(_ & X)]])]; try discriminate.
    rewrite !app_nil_r. destruct SG as [(-> & ->)|(-> & ->)]; cbn; [now constructor|now constructor].
  - replace (match f, x with [], None => if neg then VInt (- decimal i) else VUInt (decimal i) | _, _ => VDbl (dec_double neg (decimal (i ++ f)) (match x with Some x => x | None => 0 end - zlen f)) end)
      with (VDbl (dec_double neg (decimal (i ++ f)) (match x with Some x => x | None => 0 end - zlen f))) by (destruct f, x; try discriminate; reflexivity).
    apply v_real; auto. destruct f; [|left; discriminate]. destruct x; [right; discriminate|discriminate].
Qed.
Lemma value_token t l : val_of t l -> is_number t -> number_token t l.
Proof.
  intros H N. destruct H; try contradiction.
  - exists false, [], l, [], None, [], []. repeat split; auto; try (now left). cbn. now rewrite app_nil_r.
  - exists true, [45], l, [], None, [], []. repeat split; auto; try (now left). cbn. now rewrite app_nil_r.
  - exists neg, sign, i, f, x, lf, lx. repeat split; auto. destruct f, x; auto. destruct H3 as [H3|H3]; congruence.
Qed.
Lemma number_complete t l rest : number_token t l -> stops rest -> parse_number (l ++ rest) = Some (t, rest).
Proof.
  intros (neg & sign & i & f & x & lf & lx & SG & I & F & X & -> & ->) ST. unfold parse_number.
  replace (match strip [45] ((sign ++ i ++ lf ++ lx) ++ rest) with Some r => (true, r) | None => (false, (sign ++ i ++ lf ++ lx) ++ rest) end)
    with (neg, i ++ lf ++ lx ++ rest).
  2:{ rewrite <- !app_assoc. destruct SG as [(-> & ->)|(-> & ->)]; [|cbn; reflexivity]. cbn [app].
      destruct (int_part_head i (lf ++ lx ++ rest) I) as (c & r & E & C). rewrite E. unfold digit in C. cbn [strip].
      replace (c =? 45) with false by lia. reflexivity. }
  destruct (frac_complete f lf lx rest x F X ST) as (PF & ND).
  assert (ND' : nodigit (lf ++ lx ++ rest)).
  { destruct F as [(_ & ->)|(_ & _ & ->)]; [exact ND|reflexivity]. }
  rewrite (take_app i _ (int_part_digits _ I) ND').
  replace (int_ok i) with true by (symmetry; apply int_ok_iff; [now apply int_part_digits|exact I]). cbn [negb].
  rewrite PF, (exp_complete x lx rest X ST), !num_decimal. destruct f, x; reflexivity.
Qed.
Lemma number_sound l t r : parse_number l = Some (t, r) -> exists l', l = l' ++ r /\ number_token t l'.
Proof.
  unfold parse_number. intros H.
  assert (exists sign (neg : bool) l1, l = sign ++ l1 /\ (neg = false /\ sign = [] \/ neg = true /\ sign = [45]) /\
     match strip [45] l with Some r => (true, r) | None => (false, l) end = (neg, l1)) as (sg & neg & l1 & E & SG & M).
  { destruct (strip [45] l) as [l1|] eqn:S; [apply strip_some in S; exists [45], true, l1|exists [], false, l]; auto. }
  rewrite M in H. clear M. destruct (take_digits l1) as [i l2] eqn:T. apply take_sound in T. destruct T as (-> & D & N).
  destruct (int_ok i) eqn:IO; [|discriminate]. cbn [negb] in H. apply int_ok_iff in IO; [|exact D].
  destruct (parse_frac l2) as [[f l3]|] eqn:PF; [|discriminate]. apply frac_sound in PF. destruct PF as (lf & -> & F).
  destruct (parse_exp l3) as [[x l4]|] eqn:PX; [|discriminate]. apply exp_sound in PX. destruct PX as (lx & -> & X).
  rewrite !num_decimal in H.
  exists (sg ++ i ++ lf ++ lx). split.
  - rewrite E, <- !app_assoc. destruct f, x; inversion H; subst; reflexivity.
  - exists neg, sg, i, f, x, lf, lx. repeat split; auto. destruct f, x; inversion H; subst; reflexivity.
Qed.

(** ** Strings *)
Lemma simple_iff e c : simple_escape e = Some c <-> short_escape e c.
Proof.
  unfold short_escape, simple_escape. split.
  - intros H. cbn [In]. destruct ((e =? 34) || (e =? 92) || (e =? 47)) eqn:A.
    + inversion H; subst. assert (c = 34 \/ c = 92 \/ c = 47) as [-> | [-> | ->]] by lia; auto.
    + repeat match goal with HH : (if ?e =? ?k then _ else _) = _ |- _ => let X := fresh in destruct (e =? k) eqn:X;
        [apply Z.eqb_eq in X; inversion HH; subst; tauto|] end. discriminate.
  - cbn [In]. intros H. repeat (destruct H as [H|H]; [inversion H; reflexivity|]). contradiction.
Qed.
Lemma hex_iff c h : hex_val c = Some h <-> hex c h.
Proof.
  unfold hex_val. split.
  - intros H. destruct ((48 <=? c) && (c <=? 57)) eqn:A; [inversion H; constructor; lia|].
    destruct ((65 <=? c) && (c <=? 70)) eqn:B; [inversion H; constructor; lia|].
    destruct ((97 <=? c) && (c <=? 102)) eqn:C; [inversion H; constructor; lia|discriminate].
  - intros [x X|x X|x X].
    + replace ((48 <=? x) && (x <=? 57)) with true by lia. reflexivity.
    + replace ((48 <=? x) && (x <=? 57)) with false by lia. replace ((65 <=? x) && (x <=? 70)) with true by lia. reflexivity.
    + replace ((48 <=? x) && (x <=? 57)) with false by lia. replace ((65 <=? x) && (x <=? 70)) with false by lia.
      replace ((97 <=? x) && (x <=? 102)) with true by lia. reflexivity.
Qed.
Lemma hex_range c h : hex c h -> 0 <= h < 16. Proof. intros []; lia. Qed.
Lemma hex4_range u l : hex4 u l -> 0 <= u < 65536.
Proof.
  intros (a & b & c & d & a' & b' & c' & d' & _ & A & B & C & D & ->).
  apply hex_range in A, B, C, D. lia.
Qed.
Lemma hex4_complete u h r : hex4 u h -> parse_hex4 (h ++ r) = Some (u, r).
Proof.
  intros (a & b & c & d & a' & b' & c' & d' & -> & A & B & C & D & ->). cbn [app parse_hex4].
  apply hex_iff in A, B, C, D. rewrite A, B, C, D. reflexivity.
Qed.
Lemma hex4_sound l u r : parse_hex4 l = Some (u, r) -> exists h, l = h ++ r /\ hex4 u h.
Proof.
  unfold parse_hex4. destruct l as [|a [|b [|c [|d l]]]]; try discriminate.
  destruct (hex_val a) as [a'|] eqn:A; [|discriminate]. destruct (hex_val b) as [b'|] eqn:B; [|discriminate].
  destruct (hex_val c) as [c'|] eqn:C; [|discriminate]. destruct (hex_val d) as [d'|] eqn:D; [|discriminate].
  intros H. assert (4096 * a' + 256 * b' + 16 * c' + d' = u /\ l = r) as [U ->] by (split; congruence).
  exists [a; b; c; d]. split; [reflexivity|]. exists a, b, c, d, a', b', c', d'.
  repeat split; auto; now apply hex_iff.
Qed.
Lemma yy_utf8_code u : 0 <= u -> yy_utf8 u = utf8_code u.
Proof.
  intros U. unfold yy_utf8, utf8_code.
  change 63 with (Z.ones 6). rewrite !Z.land_ones, !Z.shiftr_div_pow2 by lia.
  change (2 ^ 6) with 64. change (2 ^ 12) with 4096. change (2 ^ 18) with 262144. reflexivity.
Qed.
(** One character between the quotes. *)
Inductive char1 : bytes -> bytes -> Prop :=
  | c1_plain c : 32 <= c -> c <> 34 -> c <> 92 -> char1 [c] [c]
  | c1_short e c : short_escape e c -> char1 [c] [92; e]
  | c1_unicode u h : hex4 u h -> scalar u -> char1 (utf8_code u) (92 :: 117 :: h)
  | c1_pair hi lo h1 h2 : hex4 hi h1 -> hex4 lo h2 -> 55296 <= hi < 56320 -> 56320 <= lo < 57344 ->
      char1 (utf8_code (65536 + (hi - 55296) * 1024 + (lo - 56320))) (92 :: 117 :: h1 ++ 92 :: 117 :: h2).
Lemma chars_cons u l s r : char1 u l -> chars s r -> chars (u ++ s) (l ++ r).
Proof.
  intros H C. destruct H; cbn [app].
  - now constructor.
  - now constructor.
  - now constructor.
  - rewrite <- app_assoc. cbn [app]. now constructor.
Qed.
Lemma escape_complete u l r : char1 u (92 :: l) -> parse_escape (l ++ r) = Some (u, r).
Proof.
  intros H. inversion H; subst.
  - lia.
  - cbn [app parse_escape]. replace (e =? 117) with false.
    + match goal with HH : short_escape _ _ |- _ => apply simple_iff in HH; now rewrite HH end.
    + symmetry. apply Z.eqb_neq. intros ->.
      match goal with HH : short_escape _ _ |- _ => apply simple_iff in HH; discriminate HH end.
  - cbn [app parse_escape]. rewrite Z.eqb_refl, (hex4_complete _ _ _ H1).
    pose proof (hex4_range _ _ H1). unfold scalar in *. replace ((u0 <? 55296) || (57343 <? u0)) with true by lia.
    rewrite yy_utf8_code by lia. reflexivity.
  - cbn [app parse_escape]. rewrite Z.eqb_refl, <- app_assoc. cbn [app]. rewrite (hex4_complete _ _ _ H1).
    replace ((hi <? 55296) || (57343 <? hi)) with false by lia. replace (hi <? 56320) with true by lia.
    cbn [strip]. rewrite !Z.eqb_refl, (hex4_complete _ _ _ H2).
    replace ((56320 <=? lo) && (lo <=? 57343)) with true by lia. rewrite yy_utf8_code by lia. reflexivity.
Qed.
Lemma escape_sound l u r : parse_escape l = Some (u, r) -> exists l', l = l' ++ r /\ char1 u (92 :: l').
Proof.
  unfold parse_escape. destruct l as [|e l]; [discriminate|]. destruct (e =? 117) eqn:E.
  - apply Z.eqb_eq in E. subst e. destruct (parse_hex4 l) as [[x r1]|] eqn:H4; [|discriminate].
    apply hex4_sound in H4. destruct H4 as (h & -> & H4). pose proof (hex4_range _ _ H4) as RX.
    destruct ((x <? 55296) || (57343 <? x)) eqn:SC.
    + intros H. inversion H; subst. exists (117 :: h). split; [reflexivity|]. rewrite yy_utf8_code by lia.
      constructor; [exact H4|unfold scalar; lia].
    + destruct (x <? 56320) eqn:HI; [|discriminate]. destruct (strip [92; 117] r1) as [r2|] eqn:SP; [|discriminate].
      apply strip_some in SP. subst r1. destruct (parse_hex4 r2) as [[w r3]|] eqn:H5; [|discriminate].
      apply hex4_sound in H5. destruct H5 as (h2 & -> & H5).
      destruct ((56320 <=? w) && (w <=? 57343)) eqn:LO; [|discriminate].
      intros H. assert (u = yy_utf8 (65536 + (x - 55296) * 1024 + (w - 56320)) /\ r = r3) as [-> ->] by (split; congruence).
      exists (117 :: h ++ 92 :: 117 :: h2). split; [cbn; rewrite <- app_assoc; reflexivity|].
      rewrite yy_utf8_code by lia. constructor; auto; lia.
  - destruct (simple_escape e) as [c|] eqn:S; [|discriminate]. intros H. inversion H; subst.
    exists [e]. split; [reflexivity|]. constructor. now apply simple_iff.
Qed.
Lemma chars_complete : forall s l, chars s l -> forall n rest, (List.length l < n)%nat ->
  parse_chars n (l ++ 34 :: rest) = Some (s, rest).
Proof.
  induction 1 as [|c s l C1 C2 C3 H IH|e c s l E H IH|u h s l H4 SC H IH|hi lo h1 h2 s l H1 H2 R1 R2 H IH]; intros n rest L;
    (destruct n as [|n]; [cbn in L; lia|]); cbn [app parse_chars].
  - rewrite Z.eqb_refl. reflexivity.
  - replace (c =? 34) with false by lia. replace (c =? 92) with false by lia. replace (c <? 32) with false by lia.
    rewrite IH by (cbn in L; lia). reflexivity.
  - change (92 =? 34) with false. rewrite Z.eqb_refl.
    change (e :: l ++ 34 :: rest) with ([e] ++ l ++ 34 :: rest).
    rewrite (escape_complete [c] [e]) by now constructor. rewrite IH by (cbn in L; lia). reflexivity.
  - change (92 =? 34) with false. rewrite Z.eqb_refl.
    replace (117 :: (h ++ l) ++ 34 :: rest) with ((117 :: h) ++ l ++ 34 :: rest) by (cbn; now rewrite <- app_assoc).
    rewrite (escape_complete (utf8_code u) (117 :: h)) by now constructor.
    rewrite IH by (cbn in L; rewrite app_length in L; lia). reflexivity.
  - change (92 =? 34) with false. rewrite Z.eqb_refl.
    replace (117 :: (h1 ++ 92 :: 117 :: h2 ++ l) ++ 34 :: rest) with ((117 :: h1 ++ 92 :: 117 :: h2) ++ l ++ 34 :: rest)
      by (cbn; rewrite <- !app_assoc; cbn; now rewrite <- app_assoc).
    rewrite (escape_complete (utf8_code (65536 + (hi - 55296) * 1024 + (lo - 56320))) (117 :: h1 ++ 92 :: 117 :: h2)) by now constructor.
    rewrite IH by (cbn in L; rewrite app_length in L; cbn in L; rewrite app_length in L; lia). reflexivity.
Qed.
Lemma chars_sound : forall n l s r, parse_chars n l = Some (s, r) -> exists l', l = l' ++ 34 :: r /\ chars s l'.
Proof.
  induction n as [|n IH]; intros l s r H; [discriminate|]. cbn in H. destruct l as [|c l]; [discriminate|].
  destruct (c =? 34) eqn:Q; [apply Z.eqb_eq in Q; inversion H; subst; exists []; split; [reflexivity|constructor]|].
  destruct (c =? 92) eqn:B.
  - apply Z.eqb_eq in B. subst c. destruct (parse_escape l) as [[u r1]|] eqn:E; [|discriminate].
    apply escape_sound in E. destruct E as (l1 & -> & C1).
    destruct (parse_chars n r1) as [[s' r2]|] eqn:P; [|discriminate]. inversion H; subst.
    destruct (IH _ _ _ P) as (l' & -> & C). exists ((92 :: l1) ++ l'). split; [cbn; now rewrite <- app_assoc|now apply chars_cons].
  - destruct (c <? 32) eqn:L; [discriminate|]. destruct (parse_chars n l) as [[s' r2]|] eqn:P; [|discriminate]. inversion H; subst.
    destruct (IH _ _ _ P) as (l' & -> & C). exists (c :: l'). split; [reflexivity|constructor; auto; lia].
Qed.
Lemma string_complete s l rest : chars s l -> parse_string (34 :: l ++ 34 :: rest) = Some (s, rest).
Proof.
  intros C. unfold parse_string. cbn [strip]. rewrite Z.eqb_refl. apply chars_complete; [exact C|].
  rewrite app_length. cbn. lia.
Qed.
Lemma string_sound b s r : parse_string b = Some (s, r) -> exists l, b = 34 :: l ++ 34 :: r /\ chars s l.
Proof.
  unfold parse_string. destruct (strip [34] b) as [b1|] eqn:S; [|discriminate]. apply strip_some in S. subst.
  intros H. apply chars_sound in H. destruct H as (l & -> & C). exists l. split; [reflexivity|exact C].
Qed.

(** ** Values *)
Scheme value_ind2 := Induction for value Sort Prop
  with elems_ind2 := Induction for elems Sort Prop
  with members_ind2 := Induction for members Sort Prop.
Combined Scheme grammar_ind from value_ind2, elems_ind2, members_ind2.

(** Which byte a value begins with. *)
Definition opens (t : val) (c : Z) : Prop :=
  match t with
  | VNull => c = 110 | VBool true => c = 116 | VBool false => c = 102
  | VInt _ => c = 45 | VUInt _ => digit c | VDbl _ => c = 45 \/ digit c
  | VStr _ => c = 34 | VArr _ => c = 91 | VMap _ => c = 123 | VBlob _ => False
  end.
Lemma value_opens t l : val_of t l -> exists c r, l = c :: r /\ opens t c.
Proof.
  intros []; try (do 2 eexists; split; [reflexivity|reflexivity]).
  - destruct (int_part_head l0 [] H) as (c & r & E & D). rewrite app_nil_r in E. subst. exists c, r. split; [reflexivity|exact D].
  - destruct (int_part_head i (lf ++ lx) H0) as (c & r & E & D). rewrite E.
    destruct H as [(-> & ->)|(-> & ->)]; cbn [app]; do 2 eexists; (split; [reflexivity|cbn; auto]).
Qed.
Lemma opens_solid t c r : opens t c -> solid (c :: r).
Proof. cbn. unfold jws, digit. destruct t as [|[]| | | | | | |]; cbn; unfold digit; lia. Qed.
Lemma value_solid t l rest : val_of t l -> solid (l ++ rest).
Proof. intros H. apply value_opens in H. destruct H as (c & r & -> & O). now apply (opens_solid t). Qed.
Lemma opens_same t t' c : opens t c -> opens t' c -> is_number t <-> is_number t'.
Proof. unfold is_number. destruct t as [|[]| | | | | | |], t' as [|[]| | | | | | |]; cbn; unfold digit; try tauto; intros; subst; lia. Qed.
Lemma elems_opens xs l : elems dec_double xs l -> exists t c r, l = c :: r /\ opens t c.
Proof. intros []; destruct (value_opens _ _ H) as (c0 & r0 & -> & O); cbn [app]; eauto. Qed.
Lemma stops_ws w c r : ws w -> (c = 93 \/ c = 44 \/ c = 125) -> stops (w ++ c :: r).
Proof. intros W C. destruct W as [|x w X W]; cbn; unfold digit; lia. Qed.
Lemma ws_stops w : ws w -> stops w.
Proof. intros [|x l X W]; [exact I|cbn]. unfold digit. lia. Qed.

Lemma parse_number_first n c r : (c = 45 \/ digit c) -> parse_value (S n) (c :: r) = parse_number (c :: r).
Proof.
  intros C. unfold digit in C. cbn [parse_value].
  replace (c =? 110) with false by lia. replace (c =? 116) with false by lia. replace (c =? 102) with false by lia.
  replace (c =? 34) with false by lia. replace (c =? 91) with false by lia. replace (c =? 123) with false by lia. reflexivity.
Qed.
Definition value_done (t : val) (l : bytes) : Prop := forall n rest, (2 * List.length (l ++ rest) <= n)%nat -> (is_number t -> stops rest) ->
  parse_value n (l ++ rest) = Some (t, rest).
Definition elems_done (xs : list val) (l : bytes) : Prop := forall n rest, (2 * List.length (l ++ rest) < n)%nat ->
  parse_elems n (l ++ rest) = Some (xs, rest).
Definition members_done (xs : list (bytes * val)) (l : bytes) : Prop := forall n rest, (2 * List.length (l ++ rest) < n)%nat ->
  parse_members n (l ++ rest) = Some (xs, rest).
Ltac len := repeat (rewrite app_length in * || cbn [List.length] in * ); lia.
Lemma number_done t l : val_of t l -> is_number t -> value_done t l.
Proof.
  intros V N n rest L ST. pose proof (value_token _ _ V N) as T. destruct (value_opens _ _ V) as (c & r & -> & O).
  destruct n as [|n]; [cbn in L; lia|]. cbn [app]. rewrite parse_number_first.
  - rewrite app_comm_cons. apply number_complete; auto.
  - destruct t; cbn in *; try contradiction; auto.
Qed.
Lemma parse_complete : (forall t l, val_of t l -> value_done t l) /\ (forall xs l, elems dec_double xs l -> elems_done xs l) /\
  (forall xs l, members dec_double xs l -> members_done xs l).
Proof.
  apply grammar_ind.
  - intros n rest L _. destruct n as [|n]; [cbn in L; lia|]. reflexivity.
  - intros n rest L _. destruct n as [|n]; [cbn in L; lia|]. reflexivity.
  - intros n rest L _. destruct n as [|n]; [cbn in L; lia|]. reflexivity.
  - intros l I. apply number_done; [now constructor|exact Logic.I].
  - intros l I. apply number_done; [now constructor|exact Logic.I].
  - intros. apply number_done; [now constructor|exact Logic.I].
  - intros s l C n rest L _. destruct n as [|n]; [cbn in L; lia|]. cbn [app parse_value].
    change (34 =? 110) with false. change (34 =? 116) with false. change (34 =? 102) with false. change (34 =? 34) with true. cbv iota.
    rewrite <- app_assoc. cbn [app]. rewrite (string_complete _ _ _ C). reflexivity.
  - intros w W n rest L _. destruct n as [|n]; [cbn in L; lia|]. cbn [app parse_value].
    change (91 =? 110) with false. change (91 =? 116) with false. change (91 =? 102) with false. change (91 =? 34) with false. change (91 =? 91) with true. cbv iota.
    rewrite <- app_assoc, skip_app by exact W. cbn [app]. rewrite skip_solid by reflexivity. reflexivity.
  - intros w xs l W E IH n rest L _. destruct n as [|n]; [cbn in L; lia|]. cbn [app parse_value].
    change (91 =? 110) with false. change (91 =? 116) with false. change (91 =? 102) with false. change (91 =? 34) with false. change (91 =? 91) with true. cbv iota.
    destruct (elems_opens _ _ E) as (t & c & r & -> & O).
    rewrite <- app_assoc, skip_app by exact W. cbn [app]. rewrite skip_solid by now apply (opens_solid t).
    replace (strip [93] (c :: r ++ rest)) with (@None bytes).
    + rewrite app_comm_cons, IH by len. reflexivity.
    + cbn [strip]. replace (c =? 93) with false; [reflexivity|]. destruct t as [|[]| | | | | | |]; cbn in O; unfold digit in O; lia.
  - intros w W n rest L _. destruct n as [|n]; [cbn in L; lia|]. cbn [app parse_value].
    change (123 =? 110) with false. change (123 =? 116) with false. change (123 =? 102) with false. change (123 =? 34) with false. change (123 =? 91) with false. change (123 =? 123) with true. cbv iota.
    rewrite <- app_assoc, skip_app by exact W. cbn [app]. rewrite skip_solid by reflexivity. reflexivity.
  - intros w xs l W E IH n rest L _. destruct n as [|n]; [cbn in L; lia|]. cbn [app parse_value].
    change (123 =? 110) with false. change (123 =? 116) with false. change (123 =? 102) with false. change (123 =? 34) with false. change (123 =? 91) with false. change (123 =? 123) with true. cbv iota.
    assert (exists r, l = 34 :: r) as (r & ->) by (destruct E; eauto).
    rewrite <- app_assoc, skip_app by exact W. cbn [app]. rewrite skip_solid by reflexivity.
    cbn [strip]. change (34 =? 125) with false. cbv iota. rewrite app_comm_cons, IH by len. reflexivity.
  - intros x l w V IH W n rest L. destruct n as [|n]; [lia|]. cbn [parse_elems]. rewrite <- !app_assoc.
    rewrite IH; [|len|intros _; cbn [app]; apply stops_ws; auto].
    rewrite skip_app by exact W. reflexivity.
  - intros x l w1 w2 xs r V IH W1 W2 E IHe n rest L. destruct n as [|n]; [lia|]. cbn [parse_elems]. rewrite <- !app_assoc.
    rewrite IH; [|len|intros _; cbn [app]; apply stops_ws; auto].
    rewrite skip_app by exact W1. cbn [app]. rewrite skip_solid by reflexivity.
    change (44 =? 93) with false. change (44 =? 44) with true. cbv iota. rewrite <- app_assoc, skip_app by exact W2.
    destruct (elems_opens _ _ E) as (t & c & q & -> & O). cbn [app]. rewrite skip_solid by now apply (opens_solid t).
    rewrite app_comm_cons, IHe by len. reflexivity.
  - intros k lk x l w1 w2 w3 C V IH W1 W2 W3 n rest L. destruct n as [|n]; [lia|]. cbn [parse_members app].
    rewrite <- !app_assoc. cbn [app]. rewrite (string_complete _ _ _ C).
    rewrite <- !app_assoc. rewrite skip_app by exact W1. cbn [app]. rewrite skip_solid by reflexivity. cbn [strip]. rewrite Z.eqb_refl.
    rewrite <- !app_assoc. rewrite skip_app by exact W2. rewrite skip_solid by now apply (value_solid x).
    rewrite IH; [|len|intros _; cbn [app]; apply stops_ws; auto].
    rewrite skip_app by exact W3. reflexivity.
  - intros k lk x l w1 w2 w3 w4 xs r C V IH W1 W2 W3 W4 E IHe n rest L. destruct n as [|n]; [lia|]. cbn [parse_members app].
    rewrite <- !app_assoc. cbn [app]. rewrite (string_complete _ _ _ C).
    rewrite <- !app_assoc. rewrite skip_app by exact W1. cbn [app]. rewrite skip_solid by reflexivity. cbn [strip]. rewrite Z.eqb_refl.
    rewrite <- !app_assoc. rewrite skip_app by exact W2. rewrite skip_solid by now apply (value_solid x).
    rewrite IH; [|len|intros _; cbn [app]; apply stops_ws; auto].
    rewrite skip_app by exact W3. cbn [app]. rewrite skip_solid by reflexivity.
    change (44 =? 125) with false. change (44 =? 44) with true. cbv iota. rewrite <- app_assoc, skip_app by exact W4.
    assert (exists q, r = 34 :: q) as (q & ->) by (destruct E; eauto).
    cbn [app]. rewrite skip_solid by reflexivity. rewrite app_comm_cons, IHe by len. reflexivity.
Qed.

Lemma map_fst_some {A B} (f : A -> B) o x r : map_fst f o = Some (x, r) -> exists a, o = Some (a, r) /\ x = f a.
Proof. destruct o as [[a r']|]; [|discriminate]. intros H. inversion H; subst. eauto. Qed.
Lemma parse_sound : forall n,
  (forall l t r, parse_value n l = Some (t, r) -> exists l', l = l' ++ r /\ val_of t l') /\
  (forall l xs r, parse_elems n l = Some (xs, r) -> exists l', l = l' ++ r /\ elems dec_double xs l') /\
  (forall l xs r, parse_members n l = Some (xs, r) -> exists l', l = l' ++ r /\ members dec_double xs l').
Proof.
  induction n as [|n (IV & IE & IM)]; [repeat split; discriminate|]. repeat split.
  - intros l t r H. destruct l as [|c l]; [discriminate|]. cbn [parse_value] in H.
    destruct (c =? 110) eqn:E1; [apply Z.eqb_eq in E1; subst|clear E1].
    { destruct (strip _ l) as [r'|] eqn:S; [|discriminate]. apply strip_some in S. inversion H; subst. exists (110 :: codes "ull"). split; [reflexivity|constructor]. }
    destruct (c =? 116) eqn:E1; [apply Z.eqb_eq in E1; subst|clear E1].
    { destruct (strip _ l) as [r'|] eqn:S; [|discriminate]. apply strip_some in S. inversion H; subst. exists (116 :: codes "rue"). split; [reflexivity|constructor]. }
    destruct (c =? 102) eqn:E1; [apply Z.eqb_eq in E1; subst|clear E1].
    { destruct (strip _ l) as [r'|] eqn:S; [|discriminate]. apply strip_some in S. inversion H; subst. exists (102 :: codes "alse"). split; [reflexivity|constructor]. }
    destruct (c =? 34) eqn:E1; [clear E1|clear E1].
    { apply map_fst_some in H. destruct H as (s & H & ->). apply string_sound in H. destruct H as (l' & E & C).
      exists (34 :: l' ++ [34]). split; [rewrite E; cbn; now rewrite <- app_assoc|now constructor]. }
    destruct (c =? 91) eqn:E1; [apply Z.eqb_eq in E1; subst|clear E1].
    { destruct (skip_split l) as (w & W & E). destruct (strip [93] (skip_ws l)) as [r'|] eqn:S.
      - apply strip_some in S. inversion H; subst. rewrite E, S. exists (91 :: w ++ [93]). split; [cbn; now rewrite <- app_assoc|now constructor].
      - apply map_fst_some in H. destruct H as (xs & H & ->). apply IE in H. destruct H as (l' & E' & X). rewrite E, E'.
        exists (91 :: w ++ l'). split; [cbn; now rewrite <- app_assoc|now constructor]. }
    destruct (c =? 123) eqn:E1; [apply Z.eqb_eq in E1; subst|clear E1].
    { destruct (skip_split l) as (w & W & E). destruct (strip [125] (skip_ws l)) as [r'|] eqn:S.
      - apply strip_some in S. inversion H; subst. rewrite E, S. exists (123 :: w ++ [125]). split; [cbn; now rewrite <- app_assoc|now constructor].
      - apply map_fst_some in H. destruct H as (xs & H & ->). apply IM in H. destruct H as (l' & E' & X). rewrite E, E'.
        exists (123 :: w ++ l'). split; [cbn; now rewrite <- app_assoc|now constructor]. }
    apply number_sound in H. destruct H as (l' & E & T). exists l'. split; [exact E|now apply token_value].
  - intros l xs r H. cbn [parse_elems] in H. destruct (parse_value n l) as [[x r1]|] eqn:P; [|discriminate].
    apply IV in P. destruct P as (lx & -> & V). destruct (skip_split r1) as (w & W & E). destruct (skip_ws r1) as [|c r2]; [discriminate|].
    destruct (c =? 93) eqn:C; [apply Z.eqb_eq in C; subst c; inversion H; subst xs r2; rewrite E|].
    { exists (lx ++ w ++ [93]). split; [now rewrite <- !app_assoc|now constructor]. }
    destruct (c =? 44) eqn:C'; [apply Z.eqb_eq in C'; subst c|discriminate].
    apply map_fst_some in H. destruct H as (ys & H & ->). apply IE in H. destruct H as (l' & E' & X).
    destruct (skip_split r2) as (w2 & W2 & E2). rewrite E, E2, E'.
    exists (lx ++ w ++ 44 :: w2 ++ l'). split; [now repeat (rewrite <- ?app_assoc; cbn)|now constructor].
  - intros l xs r H. cbn [parse_members] in H. destruct (parse_string l) as [[k r0]|] eqn:PS; [|discriminate].
    apply string_sound in PS. destruct PS as (lk & -> & CK).
    destruct (skip_split r0) as (w1 & W1 & E1). destruct (strip [58] (skip_ws r0)) as [r1|] eqn:S; [|discriminate]. apply strip_some in S.
    destruct (skip_split r1) as (w2 & W2 & E2).
    destruct (parse_value n (skip_ws r1)) as [[x r2]|] eqn:P; [|discriminate]. apply IV in P. destruct P as (lx & E3 & V).
    destruct (skip_split r2) as (w3 & W3 & E4). destruct (skip_ws r2) as [|c r3]; [discriminate|].
    destruct (c =? 125) eqn:C; [apply Z.eqb_eq in C; subst c; inversion H; subst xs r3; rewrite E1, S, E2, E3, E4|].
    { exists (34 :: lk ++ 34 :: w1 ++ 58 :: w2 ++ lx ++ w3 ++ [125]). split; [now repeat (rewrite <- ?app_assoc; cbn)|now constructor]. }
    destruct (c =? 44) eqn:C'; [apply Z.eqb_eq in C'; subst c|discriminate].
    apply map_fst_some in H. destruct H as (ys & H & ->). apply IM in H. destruct H as (l' & E' & X).
    destruct (skip_split r3) as (w4 & W4 & E5). rewrite E1, S, E2, E3, E4, E5, E'.
    exists (34 :: lk ++ 34 :: w1 ++ 58 :: w2 ++ lx ++ w3 ++ 44 :: w4 ++ l').
    split; [now repeat (rewrite <- ?app_assoc; cbn)|now constructor].
Qed.

Notation text_of := (text dec_double).
Lemma parse_iff b t : yy_parse b = Some t <-> text_of b t.
Proof.
  unfold yy_parse. split.
  - destruct (parse_value _ (skip_ws b)) as [[x r]|] eqn:P; [|discriminate].
    destruct (skip_ws r) as [|c r'] eqn:SK; [|discriminate]. intros H. inversion H; subst.
    destruct (parse_sound (S (2 * List.length b)%nat)) as (PS & _). apply PS in P. destruct P as (l & E & V).
    destruct (skip_split b) as (w & W & EB). exists w, l, r. rewrite EB, E. repeat split; auto. now apply skip_nil_ws.
  - intros (w1 & l & w2 & -> & W1 & V & W2). rewrite skip_app by exact W1. rewrite skip_solid by now apply (value_solid t).
    destruct parse_complete as (PC & _). rewrite (PC t l V); [|len|intros _; now apply ws_stops].
    now rewrite skip_ws_nil.
Qed.
Lemma text_unique b t t' : text_of b t -> text_of b t' -> t = t'.
Proof. intros H H'. apply parse_iff in H, H'. congruence. Qed.
