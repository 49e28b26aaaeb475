(** JTextPrint.v -- what is printed is a JSON text for the tree. *)

From Coq Require Import ZArith List Bool String Lia ZifyBool ZifyNat DecimalPos DecimalZ DecimalFacts.
From Verif Require Import Base BaseFacts Spec SpecFacts Utf8Spec Utf8Facts HalfModel B64Model TextSpec JsonSpec JsonModel JsonWrite JsonMain
  JTextModel JTextSpec JTextFacts.
Import ListNotations.
Open Scope Z_scope.
Ltac Zify.zify_post_hook ::= idtac.

(** ** Integers *)
Lemma digits_digit : forall u, Forall digit (digits u).
Proof. induction u; cbn [digits]; constructor; auto; unfold digit; lia. Qed.
Lemma digits_len u : zlen (digits u) = Z.of_nat (Decimal.nb_digits u).
Proof. induction u; cbn [digits Decimal.nb_digits]; rewrite ?zlen_cons, ?IHu; try lia. reflexivity. Qed.
Lemma digits_acc : forall u p, Zpos (Pos.of_uint_acc u p) = Zpos p * 10 ^ zlen (digits u) + decimal (digits u).
Proof.
  induction u; intros p; cbn [Pos.of_uint_acc digits decimal]; [cbn; lia|..];
    (rewrite IHu, zlen_cons; rewrite Z.pow_add_r by (unfold zlen; lia);
     rewrite ?Pos2Z.inj_add, Pos2Z.inj_mul; ring).
Qed.
Lemma digits_value : forall u, Z.of_N (Pos.of_uint u) = decimal (digits u).
Proof.
  induction u; cbn [Pos.of_uint digits decimal]; try (cbn [Z.of_N]; rewrite digits_acc; ring); [reflexivity|].
  rewrite IHu. ring.
Qed.
Lemma to_uint_norm p : Decimal.unorm (Pos.to_uint p) = Pos.to_uint p.
Proof. pose proof (DecimalPos.Unsigned.to_of (Pos.to_uint p)) as H. rewrite DecimalPos.Unsigned.of_to in H. cbn in H. now rewrite <- H. Qed.
Lemma nzhead_no0 u v : Decimal.nzhead u <> Decimal.D0 v.
Proof. induction u; cbn; congruence. Qed.
Lemma pos_digits p : int_part (digits (Pos.to_uint p)) /\ decimal (digits (Pos.to_uint p)) = Zpos p.
Proof.
  split.
  - assert (N : forall u, Pos.to_uint p <> Decimal.D0 u).
    { intros u E. pose proof (to_uint_norm p) as H. unfold Decimal.unorm in H. destruct (Decimal.nzhead (Pos.to_uint p)) eqn:Z0; rewrite E in H; try discriminate.
      - apply (DecimalPos.Unsigned.to_uint_nonzero p). rewrite E. now rewrite <- H.
      - now apply nzhead_no0 in Z0. }
    pose proof (DecimalPos.Unsigned.to_uint_nonnil p) as NN.
    right. destruct (Pos.to_uint p) as [|u|u|u|u|u|u|u|u|u|u] eqn:E; [easy|now destruct (N u)|..]; cbn [digits];
      do 2 eexists; (split; [reflexivity|split; [lia|apply digits_digit]]).
  - rewrite <- digits_value, DecimalPos.Unsigned.of_to. reflexivity.
Qed.
Lemma dec_nat n : 0 <= n -> int_part (dec n) /\ decimal (dec n) = n.
Proof.
  intros N. unfold dec. destruct n as [|p|p]; [split; [now left|reflexivity]| |lia]. cbn. apply pos_digits.
Qed.
Lemma dec_neg n : n < 0 -> dec n = 45 :: dec (- n).
Proof. intros N. destruct n as [|p|p]; [lia|lia|reflexivity]. Qed.

(** ** Strings *)
Lemma hex_digit_hex d : 0 <= d < 16 -> hex (hex_digit d) d.
Proof.
  intros D. unfold hex_digit. destruct (d <? 10) eqn:E.
  - replace d with (48 + d - 48) at 2 by lia. constructor. lia.
  - replace d with (55 + d - 55) at 2 by lia. apply hex_AF. lia.
Qed.
Lemma jescape_char c : 0 <= c -> char1 [c] (jescape c).
Proof.
  intros C. unfold jescape.
  repeat match goal with |- context [if c =? ?k then _ else _] => let X := fresh in destruct (c =? k) eqn:X;
    [apply Z.eqb_eq in X; subst; apply c1_short; unfold short_escape; cbn; tauto|] end.
  destruct (c <? 32) eqn:L; [|apply c1_plain; lia].
  replace [c] with (utf8_code c) by (unfold utf8_code; replace (c <? 128) with true by lia; reflexivity).
  constructor; [|unfold scalar; lia].
  assert (R : 0 <= Z.shiftr c 4 < 16 /\ 0 <= Z.land c 15 < 16 /\ c = 16 * Z.shiftr c 4 + Z.land c 15).
  { change 15 with (Z.ones 4). rewrite Z.land_ones, Z.shiftr_div_pow2 by lia. change (2 ^ 4) with 16.
    pose proof (Z.div_mod c 16). pose proof (Z.mod_pos_bound c 16). pose proof (Z.div_pos c 16).
    assert (c / 16 < 16) by (apply Z.div_lt_upper_bound; lia). lia. }
  exists 48, 48, (hex_digit (Z.shiftr c 4)), (hex_digit (Z.land c 15)), 0, 0, (Z.shiftr c 4), (Z.land c 15).
  destruct R as (R1 & R2 & R3). repeat split; try (now apply hex_digit_hex).
  - change 0 with (48 - 48). constructor. lia.
  - change 0 with (48 - 48). constructor. lia.
  - lia.
Qed.
Lemma escaped_chars s : Forall (fun c => 0 <= c) s -> chars s (flat_map jescape s).
Proof.
  induction 1 as [|c s C H IH]; [constructor|]. cbn [flat_map]. change (c :: s) with ([c] ++ s).
  apply chars_cons; [now apply jescape_char|exact IH].
Qed.
Lemma bytes_pos s : bytes_ok s -> Forall (fun c => 0 <= c) s.
Proof. apply Forall_impl. intros c. unfold is_byte. lia. Qed.

(** ** Containers *)
Notation val_of := (value dec_double).
Lemma elems_sep w2 w xs ls : ws w2 -> ws w -> Forall2 val_of xs ls -> xs <> [] ->
  elems dec_double xs (sep_by (44 :: w2) ls ++ w ++ [93]).
Proof.
  intros W2 W F. induction F as [|x l xs ls V F IH]; [easy|]. intros _. destruct F as [|x' l' xs ls V' F].
  - cbn [sep_by]. now constructor.
  - cbn [sep_by]. cbn [sep_by] in IH.
    replace ((l ++ (44 :: w2) ++ match ls with [] => l' | _ => l' ++ (44 :: w2) ++ sep_by (44 :: w2) ls end) ++ w ++ [93])
      with (l ++ [] ++ 44 :: w2 ++ (match ls with [] => l' | _ => l' ++ (44 :: w2) ++ sep_by (44 :: w2) ls end) ++ w ++ [93])
      by (now repeat (rewrite <- ?app_assoc; cbn [app])).
    apply e_more; [exact V|constructor|exact W2|]. apply IH. discriminate.
Qed.
Lemma members_sep w1 w2 w (xs : list (bytes * val)) ls : ws w1 -> ws w2 -> ws w ->
  Forall2 (fun kx l => exists lk lx, chars (fst kx) lk /\ val_of (snd kx) lx /\ l = (34 :: lk ++ [34]) ++ (58 :: w1) ++ lx) xs ls -> xs <> [] ->
  members dec_double xs (sep_by (44 :: w2) ls ++ w ++ [125]).
Proof.
  intros W1 W2 W F. induction F as [|[k x] l xs ls (lk & lx & C & V & ->) F IH]; [easy|]. intros _. destruct F as [|x' l' xs ls V' F].
  - cbn [sep_by]. cbn [fst snd] in *.
    replace (((34 :: lk ++ [34]) ++ (58 :: w1) ++ lx) ++ w ++ [125]) with (34 :: lk ++ 34 :: [] ++ 58 :: w1 ++ lx ++ w ++ [125])
      by (now repeat (rewrite <- ?app_assoc; cbn [app])).
    constructor; auto. constructor.
  - cbn [sep_by]. cbn [sep_by] in IH. cbn [fst snd] in *.
    replace ((((34 :: lk ++ [34]) ++ (58 :: w1) ++ lx) ++ (44 :: w2) ++ match ls with [] => l' | _ => l' ++ (44 :: w2) ++ sep_by (44 :: w2) ls end) ++ w ++ [125])
      with (34 :: lk ++ 34 :: [] ++ 58 :: w1 ++ lx ++ [] ++ 44 :: w2 ++ (match ls with [] => l' | _ => l' ++ (44 :: w2) ++ sep_by (44 :: w2) ls end) ++ w ++ [125])
      by (now repeat (rewrite <- ?app_assoc; cbn [app])).
    apply m_more; auto; try constructor. apply IH. discriminate.
Qed.
Lemma sep_indent ind w ls : ls <> [] -> sep_by (44 :: w) (map (app ind) ls) = ind ++ sep_by (44 :: w ++ ind) ls.
Proof.
  induction ls as [|x ls IH]; [easy|]. intros _. destruct ls as [|y ls]; [reflexivity|].
  cbn [map sep_by] in *. rewrite IH by discriminate.
  repeat (rewrite <- ?app_assoc; cbn [app]). reflexivity.
Qed.

(** ** Trees *)
Notation spells := (spells_doubles dec_double).
Definition tree_ok : val -> Prop :=
  every (fun v => match v with
                  | VUInt z => 0 <= z
                  | VStr s => bytes_ok s
                  | VBlob _ => False
                  | VMap l => Forall (fun kx => bytes_ok (fst kx)) l
                  | _ => True
                  end).
Lemma ws_repeat n : ws (repeat 32 n).
Proof. induction n; constructor; auto. Qed.
Lemma ws_nl l : ws l -> ws (10 :: l). Proof. constructor; auto. Qed.
Lemma map_nonempty {A B} (f : A -> B) l : l <> [] -> map f l <> []. Proof. destruct l; [easy|discriminate]. Qed.

Lemma print_value dtext t : tree_ok t -> spells dtext t -> val_of (signless t) (jprint dtext t).
Proof.
  induction t as [|b|z|z|d|s|b|l IH|l IH] using val_ind'; intros T S.
  - constructor.
  - destruct b; constructor.
  - cbn [signless jprint]. destruct (z <? 0) eqn:N.
    + rewrite dec_neg by lia. destruct (dec_nat (- z)) as (I & D); [lia|]. replace z with (- decimal (dec (- z))) at 1 by lia. now constructor.
    + destruct (dec_nat z) as (I & D); [lia|]. rewrite <- D at 1. now constructor.
  - cbn in T. cbn [signless jprint]. destruct (dec_nat z) as (I & D); [lia|]. rewrite <- D at 1. now constructor.
  - destruct S as [S _]; exact S.
  - destruct T as [T _]. cbn [signless jprint]. unfold jstring. constructor. now apply escaped_chars, bytes_pos.
  - destruct T as [[] _].
  - apply every_arr in T, S. destruct T as (_ & T), S as (_ & S). cbn [signless jprint].
    destruct l as [|x l]; [apply (v_arr0 _ []); constructor|].
    apply (v_arr _ [] _ (sep_by [44] (map (jprint dtext) (x :: l)) ++ [93])); [constructor|].
    apply (elems_sep [] [] _ (map (jprint dtext) (x :: l))); [constructor|constructor| |discriminate].
    clear -IH T S. induction (x :: l) as [|y ys IHl]; cbn [map]; constructor; inversion IH; inversion T; inversion S; subst; auto.
  - apply every_map in T, S. destruct T as (K & T), S as (_ & S). cbn [signless jprint].
    destruct l as [|x l]; [apply (v_map0 _ []); constructor|].
    set (f := fun kx : bytes * val => jstring (fst kx) ++ [58] ++ jprint dtext (snd kx)).
    apply (v_map _ [] _ (sep_by [44] (map f (x :: l)) ++ [125])); [constructor|].
    apply (members_sep [] [] [] _ (map f (x :: l))); [constructor|constructor|constructor| |discriminate].
    clear -IH T S K. induction (x :: l) as [|[k y] ys IHl]; cbn [map]; constructor; inversion IH; inversion T; inversion S; inversion K; subst; auto.
    cbn [fst snd] in *. exists (flat_map jescape k), (jprint dtext y). repeat split; auto.
    now apply escaped_chars, bytes_pos.
Qed.
Lemma pretty_value dtext t : tree_ok t -> spells dtext t -> forall lev, val_of (signless t) (jpretty dtext lev t).
Proof.
  induction t as [|b|z|z|d|s|b|l IH|l IH] using val_ind'; intros T S lev; try (now apply (print_value dtext)).
  - destruct l as [|x l]; [now apply (print_value dtext)|].
    apply every_arr in T, S. destruct T as (_ & T), S as (_ & S). cbn [signless].
    change (jpretty dtext lev (VArr (x :: l))) with
      ([91; 10] ++ sep_by [44; 10] (map (fun x => indent (Datatypes.S lev) ++ jpretty dtext (Datatypes.S lev) x) (x :: l)) ++ [10] ++ indent lev ++ [93]).
    rewrite <- (map_map (jpretty dtext (Datatypes.S lev)) (app (indent (Datatypes.S lev)))), sep_indent by discriminate.
    set (ls := map (jpretty dtext (Datatypes.S lev)) (x :: l)).
    replace ([91; 10] ++ (indent (Datatypes.S lev) ++ sep_by (44 :: [10] ++ indent (Datatypes.S lev)) ls) ++ [10] ++ indent lev ++ [93])
      with (91 :: (10 :: indent (Datatypes.S lev)) ++ sep_by (44 :: 10 :: indent (Datatypes.S lev)) ls ++ (10 :: indent lev) ++ [93])
      by (cbn [app]; now repeat (rewrite <- ?app_assoc; cbn [app])).
    apply v_arr; [apply ws_nl, ws_repeat|]. apply elems_sep; [apply ws_nl, ws_repeat|apply ws_nl, ws_repeat| |discriminate].
    subst ls. clear -IH T S. induction (x :: l) as [|y ys IHl]; cbn [map]; constructor; inversion IH; inversion T; inversion S; subst; auto.
  - destruct l as [|x l]; [now apply (print_value dtext)|].
    apply every_map in T, S. destruct T as (K & T), S as (_ & S). cbn [signless].
    set (f := fun kx : bytes * val => jstring (fst kx) ++ [58; 32] ++ jpretty dtext (Datatypes.S lev) (snd kx)).
    change (jpretty dtext lev (VMap (x :: l))) with
      ([123; 10] ++ sep_by [44; 10] (map (fun kx => indent (Datatypes.S lev) ++ f kx) (x :: l)) ++ [10] ++ indent lev ++ [125]).
    rewrite <- (map_map f (app (indent (Datatypes.S lev)))), sep_indent by discriminate.
    set (ls := map f (x :: l)).
    replace ([123; 10] ++ (indent (Datatypes.S lev) ++ sep_by (44 :: [10] ++ indent (Datatypes.S lev)) ls) ++ [10] ++ indent lev ++ [125])
      with (123 :: (10 :: indent (Datatypes.S lev)) ++ sep_by (44 :: 10 :: indent (Datatypes.S lev)) ls ++ (10 :: indent lev) ++ [125])
      by (cbn [app]; now repeat (rewrite <- ?app_assoc; cbn [app])).
    apply v_map; [apply ws_nl, ws_repeat|].
    apply (members_sep [32]); [repeat constructor|apply ws_nl, ws_repeat|apply ws_nl, ws_repeat| |discriminate].
    subst ls. clear -IH T S K. induction (x :: l) as [|[k y] ys IHl]; cbn [map]; constructor; inversion IH; inversion T; inversion S; inversion K; subst; auto.
    subst f. cbn [fst snd] in *. exists (flat_map jescape k), (jpretty dtext (Datatypes.S lev) y). repeat split; auto.
    now apply escaped_chars, bytes_pos.
Qed.
