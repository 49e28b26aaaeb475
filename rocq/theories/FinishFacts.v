(** FinishFacts.v -- root serializers after finish(). *)

From Coq Require Import ZArith List Bool Lia ZifyBool.
From Verif Require Import Base BaseFacts Spec SpecFacts ZeraModel ZeraSpec ZeraHist JsonModel FlexModel.
From Verif Require Import B64Model Utf8Model.
From Verif Require MsgModel CborModel.
Import ListNotations.
Open Scope Z_scope.

(** ** The calls of a value are not a proper prefix of those of another *)
Definition opens (e : ev) : Prop := match e with EKey _ | EEndArr | EEndMap => False | _ => True end.
Lemma calls_head v es : calls v es -> exists e t, es = e :: t /\ opens e.
Proof. destruct 1; eexists _, _; (split; [reflexivity|exact I]). Qed.
Lemma calls_prefix :
  (forall v e1, calls v e1 -> forall w e2 r1 r2, calls w e2 -> e1 ++ r1 = e2 ++ r2 -> r1 = r2) /\
  (forall l e1, calls_list l e1 -> forall m e2 r1 r2, calls_list m e2 -> e1 ++ EEndArr :: r1 = e2 ++ EEndArr :: r2 -> r1 = r2) /\
  (forall l e1, calls_entries l e1 -> forall m e2 r1 r2, calls_entries m e2 -> e1 ++ EEndMap :: r1 = e2 ++ EEndMap :: r2 -> r1 = r2).
Proof.
  apply calls_mutind; intros.
  1-7: match goal with C : calls _ _ |- _ => destruct C; cbn [app] in *; try discriminate; congruence end.
  - match goal with C : calls _ _ |- _ => destruct C as [| | | | | | |n' l' es' C|n' l' es' C]; cbn [app] in *; try discriminate end.
    injection H1 as _ H1. rewrite <- !app_assoc in H1. cbn [app] in H1. eapply H; eauto.
  - match goal with C : calls _ _ |- _ => destruct C as [| | | | | | |n' l' es' C|n' l' es' C]; cbn [app] in *; try discriminate end.
    injection H1 as _ H1. rewrite <- !app_assoc in H1. cbn [app] in H1. eapply H; eauto.
  - match goal with C : calls_list _ _ |- _ => destruct C as [|x l a b C1 C2]; cbn [app] in * end; [congruence|].
    exfalso. destruct (calls_head _ _ C1) as (e & t & -> & OP). cbn [app] in *. injection H0 as <- _. exact OP.
  - match goal with C : calls_list _ (_) |- _ => idtac end. inversion H1; subst; clear H1.
    + exfalso. destruct (calls_head _ _ c) as (e & t & -> & OP). cbn [app] in *. injection H2 as -> _. exact OP.
    + rewrite <- !app_assoc in H2. eapply H0; [eassumption|]. eapply H; eassumption.
  - inversion H; subst; cbn [app] in *; [congruence|discriminate].
  - inversion H1; subst; clear H1; cbn [app] in *; [discriminate|]. injection H2 as _ H2. rewrite <- !app_assoc in H2. eapply H0; [eassumption|]. eapply H; eassumption.
Qed.
Lemma calls_whole v es w r : calls v es -> calls w (es ++ r) -> r = [].
Proof. intros A B. apply (proj1 calls_prefix v es A w (es ++ r) r [] B). now rewrite app_nil_r. Qed.

(** ** ZERA *)
Lemma zera_finish_again s s' b : zw_finish s = (s', Ok b) -> zw_finish s' = (s', Ok b) /\
  match zw_root s with Some _ => s' = s | None => zw_step s ENull = (s', Ok tt) end.
Proof.
  unfold zw_finish at 1. destruct (zw_st s) eqn:ES; [|discriminate]. unfold wbind, wret.
  destruct (zw_root s) as [r|] eqn:ER.
  - intros H. assert (s' = s) as ->.
    { repeat match type of H with (if ?c then _ else _) = _ => destruct c; [discriminate|] end. now injection H as <- _. }
    split; [|reflexivity]. unfold zw_finish. rewrite ES. unfold wbind, wret. rewrite ER. cbv beta iota. rewrite ER. rewrite ?ER in H. exact H.
  - unfold zw_step, deliver_vr. rewrite ES. destruct (write_root_vr (make_vr TNull 0 0 0 0 0) s) as [s1 [u|e| |]] eqn:W; try discriminate. intros H.
    assert (s' = s1) as ->.
    { repeat match type of H with (if ?c then _ else _) = _ => destruct c; [discriminate|] end. now injection H as <- _. }
    assert (R1 : zw_root s1 <> None /\ zw_st s1 = []).
    { unfold write_root_vr, wbind in W. rewrite ER in W. destruct (append_env_payload (make_vr TNull 0 0 0 0 0) s) as [s2 [o|e| |]] eqn:A; try discriminate.
      injection W as <- _. cbn [set_root zw_root zw_st]. split; [discriminate|].
      unfold append_env_payload, wbind in A. repeat match type of A with context [if ?c then _ else _] => destruct c end; try discriminate; injection A as <- _; cbn; assumption. }
    destruct R1 as (R1 & S1). split; [|now destruct u]. unfold zw_finish. rewrite S1. unfold wbind, wret. destruct (zw_root s1) as [r|] eqn:E1; [|contradiction]. cbv beta iota. rewrite E1. exact H.
Qed.
Lemma zera_no_second es s s' b es2 s2 b2 : Forall ev_ok es -> Forall ev_ok es2 -> run zera_writer zw_init es = (s, Ok tt) -> zw_finish s = (s', Ok b) ->
  run zera_writer s' es2 = (s2, Ok tt) -> snd (zw_finish s2) = Ok b2 -> es2 = [] /\ b2 = b.
Proof.
  intros E1 E2 R F R2 F2. destruct (zera_finish_again _ _ _ F) as (AG & ST).
  assert (M : exists es0, Forall ev_ok es0 /\ run zera_writer zw_init es0 = (s', Ok tt) /\ exists v, calls v es0).
  { destruct (run_calls es s b E1 R ltac:(now rewrite F)) as (v & w & CV & _ & _). destruct CV as [(-> & ->)|CV].
    - injection R as <-. cbn [zw_root zw_init] in ST. exists [ENull]. split; [repeat constructor|]. split; [|exists VNull; constructor].
      cbn [run zera_writer w_step]. cbn [zw_root zw_init] in ST. unfold zw_init in ST |- *. cbn [zw_root] in ST. rewrite ST. reflexivity.
    - exists es. split; [exact E1|]. split; [|eauto]. rewrite R. f_equal. destruct (zw_root s) eqn:ER; [now subst|]. exfalso.
      (* a complete value has set the root: otherwise null() would be accepted after it *)
      assert (R3 : run zera_writer zw_init (es ++ [ENull]) = (s', Ok tt)) by (rewrite run_app, R; cbn [run zera_writer w_step]; now rewrite ST).
      destruct (run_calls (es ++ [ENull]) s' b) as (v' & w' & CV' & _ & _); [apply Forall_app; split; [exact E1|repeat constructor]|exact R3|now rewrite AG|].
      destruct CV' as [(CN & _)|CV']; [now destruct es|]. pose proof (calls_whole _ _ _ _ CV CV'). discriminate. }
  destruct M as (es0 & E0 & R0 & v & CV).
  assert (RA : run zera_writer zw_init (es0 ++ es2) = (s2, Ok tt)) by (rewrite run_app, R0; exact R2).
  destruct (run_calls (es0 ++ es2) s2 b2 ltac:(apply Forall_app; auto) RA F2) as (v' & w' & CV' & _ & _).
  assert (es2 = []) as ->.
  { destruct CV' as [(CN & _)|CV']; [apply app_eq_nil in CN; tauto|]. exact (calls_whole _ _ _ _ CV CV'). }
  split; [reflexivity|]. injection R2 as <-. rewrite AG in F2. cbn in F2. congruence.
Qed.

(** ** JSON: nothing is accepted any more *)
Lemma json_step_doc dbg s e : js_doc s = false -> js_doc (fst (j_step dbg s e)) = false.
Proof.
  intros D.
  assert (A : j_accept dbg s = Throw EBadAlloc) by (unfold j_accept; now rewrite D).
  assert (P : forall v, j_push dbg v s = (s, Throw EBadAlloc)) by (intros v; unfold j_push; now rewrite A).
  assert (B : forall o, j_begin dbg o s = (s, Throw EBadAlloc)) by (intros o; unfold j_begin; now rewrite A).
  assert (Q : js_doc (j_pop s) = js_doc s) by (unfold j_pop; destruct (js_st s) as [|c [|p st]]; reflexivity).
  destruct e; cbn [j_step]; rewrite ?P, ?B; try exact D.
  - unfold j_binary. destruct (base64Encode b); try exact D. unfold j_seq at 1. rewrite B. exact D.
  - unfold j_setkey. destruct (js_st s); [exact D|]. destruct (jc_obj j); [|exact D]. destruct (nonempty _); exact D.
  - unfold j_end_array. destruct (j_in false s); cbn [ok fst]; [now rewrite Q|exact D].
  - unfold j_end_map. destruct (js_st s); [exact D|]. destruct (jc_obj j); [|exact D]. destruct (nonempty _); cbn [ok fst]; [exact D|now rewrite Q].
Qed.
Lemma json_finished dbg s es : let W := json_writer dbg in
  snd (w_finish W (fst (run_catch W (fst (w_finish W s)) es))) = Throw ERuntime.
Proof.
  intros W. assert (D : js_doc (fst (w_finish W s)) = false).
  { cbn [W json_writer w_finish]. unfold j_finish. destruct (js_doc s); [|reflexivity]. destruct (js_tree s); reflexivity. }
  revert D. generalize (fst (w_finish W s)). induction es as [|e es IH]; intros t D; cbn [run_catch].
  - cbn [fst W json_writer w_finish]. unfold j_finish. now rewrite D.
  - pose proof (json_step_doc dbg t e D) as D'. change (j_step dbg t e) with (w_step W t e) in D'. destruct (w_step W t e) as [t1 r]. cbn [fst] in D'.
    specialize (IH t1 D'). destruct (run_catch W t1 es) as [t2 rs]. exact IH.
Qed.

(** ** CBOR: like new *)
Import CborModel.
Lemma cbor_step_root o st r e : opens e \/ r = true -> forall s' x, cw_step (mkCW o st r) e = (s', x) ->
  cw_step (mkCW o st true) e = (mkCW (cw_out s') (cw_st s') true, x) /\ (x = Ok tt -> cw_root s' = true).
Proof.
  intros OP s' x. destruct e; cbn [cw_step cw_value cw_out cw_st cw_root cw_begin cw_end];
    try (intros H; injection H as <- <-; cbn [cw_out cw_st cw_root]; split; [reflexivity|auto]; fail).
  all: unfold cw_value, cw_begin, cw_end; cbn [cw_out cw_st cw_root].
  all: repeat match goal with |- context [if ?c then _ else _] => destruct c | |- context [match ?c with [] => _ | _ => _ end] => destruct c as [|[[? ?] ?] ?] end;
    intros H; injection H as <- <-; cbn [cw_out cw_st cw_root]; split; auto; try discriminate; destruct OP as [OP| ->]; try contradiction; auto.
Qed.
Lemma cbor_run_root es : forall s s' x, cw_root s = true -> run cbor_writer s es = (s', x) -> x = Ok tt -> cw_root s' = true.
Proof.
  induction es as [|e es IH]; intros s s' x D H X; cbn [run] in H; [now injection H as <- _|].
  cbn [cbor_writer w_step] in H. destruct s as [o st r]. cbn [cw_root] in D. subst r. destruct (cw_step (mkCW o st true) e) as [s1 y] eqn:E.
  destruct (cbor_step_root o st true e (or_intror eq_refl) s1 y E) as (_ & RT).
  destruct y as [[]| | |]; try (injection H as _ <-; discriminate). now apply (IH s1 s' x (RT eq_refl) H).
Qed.
(** A complete value leaves no container open. *)
Lemma cbor_calls_stack :
  (forall v es, calls v es -> forall s s', run cbor_writer s es = (s', Ok tt) -> cw_st s' = bump (cw_st s)) /\
  (forall l es, calls_list l es -> forall s s', run cbor_writer s es = (s', Ok tt) -> tl (cw_st s') = tl (cw_st s) /\ (cw_st s = [] -> cw_st s' = []) /\ (cw_st s <> [] -> cw_st s' <> [])) /\
  (forall l es, calls_entries l es -> forall s s', run cbor_writer s es = (s', Ok tt) -> tl (cw_st s') = tl (cw_st s) /\ (cw_st s = [] -> cw_st s' = []) /\ (cw_st s <> [] -> cw_st s' <> [])).
Proof.
  assert (BT : forall st, tl (bump st) = tl st /\ (st = [] -> bump st = []) /\ (st <> [] -> bump st <> [])).
  { intros [|[[? ?] ?] ?]; cbn; repeat split; try discriminate; auto. }
  apply calls_mutind; intros.
  1-7: cbn [run cbor_writer w_step cw_step] in H; unfold cw_value in H; try (destruct (utf8_valid _)); cbn in H; try discriminate H; injection H as <-; reflexivity.
  - cbn [run cbor_writer w_step cw_step] in H0. unfold cw_begin in H0. destruct (max_depth <? _); [discriminate|].
    rewrite run_app in H0. match type of H0 with context [run ?W ?s0 es] => destruct (run W s0 es) as [s1 [[]| | |]] eqn:R end; try discriminate.
    destruct (H _ _ R) as (T & _ & NE). cbn [cw_st tl] in T, NE. cbn [run cbor_writer w_step cw_step] in H0. unfold cw_end in H0.
    destruct (cw_st s1) as [|[[k1 n1] c1] st1]; [now destruct NE|]. destruct (cw_count k1 c1 =? n1); [|discriminate]. injection H0 as <-. cbn [cw_st tl] in *. now subst.
  - cbn [run cbor_writer w_step cw_step] in H0. unfold cw_begin in H0. destruct (max_depth <? _); [discriminate|].
    rewrite run_app in H0. match type of H0 with context [run ?W ?s0 es] => destruct (run W s0 es) as [s1 [[]| | |]] eqn:R end; try discriminate.
    destruct (H _ _ R) as (T & _ & NE). cbn [cw_st tl] in T, NE. cbn [run cbor_writer w_step cw_step] in H0. unfold cw_end in H0.
    destruct (cw_st s1) as [|[[k1 n1] c1] st1]; [now destruct NE|]. destruct (cw_count k1 c1 =? n1); [|discriminate]. injection H0 as <-. cbn [cw_st tl] in *. now subst.
  - injection H as <-. auto.
  - rewrite run_app in H1. destruct (run cbor_writer s es1) as [s1 [[]| | |]] eqn:R; try discriminate.
    destruct (H0 _ _ H1) as (T & N1 & N2). rewrite (H _ _ R) in T, N1, N2. destruct (BT (cw_st s)) as (B1 & B2 & B3). rewrite T, B1. auto.
  - injection H as <-. auto.
  - cbn [run cbor_writer w_step cw_step] in H1. destruct (utf8_valid k); [|discriminate].
    rewrite run_app in H1. match type of H1 with context [run ?W ?s0 es1] => destruct (run W s0 es1) as [s1 [[]| | |]] eqn:R end; try discriminate.
    destruct (H0 _ _ H1) as (T & N1 & N2). rewrite (H _ _ R) in T, N1, N2. cbn [cw_st] in *. destruct (BT (cw_st s)) as (B1 & B2 & B3).
    destruct (BT (bump (cw_st s))) as (C1 & C2 & C3). rewrite T, C1, B1. repeat split; [intros Q; apply N1; now rewrite Q|intros NE; apply N2, C3, B3, NE].
Qed.
Lemma cbor_afresh v w es1 es2 s : calls v es1 -> calls w es2 -> run cbor_writer (w_init cbor_writer) es1 = (s, Ok tt) ->
  match run cbor_writer (w_init cbor_writer) es2, run cbor_writer (fst (w_finish cbor_writer s)) es2 with
  | (a, Ok _), (b, Ok _) => snd (w_finish cbor_writer a) = snd (w_finish cbor_writer b)
  | (_, x), (_, y) => x = y
  end.
Proof.
  intros C1 C2 R. pose proof (proj1 cbor_calls_stack _ _ C1 _ _ R) as ST. cbn [cbor_writer w_init cw_st bump] in ST.
  assert (FS : fst (w_finish cbor_writer s) = mkCW [] [] true) by (cbn [cbor_writer w_finish]; unfold cw_finish; rewrite ST; destruct (cw_root s); reflexivity).
  rewrite FS. destruct (calls_head _ _ C2) as (e & t & -> & OP). cbn [run cbor_writer w_step w_init].
  destruct (cw_step (mkCW [] [] false) e) as [s1 y] eqn:E. destruct (cbor_step_root [] [] false e (or_introl OP) s1 y E) as (E2 & RT). rewrite E2.
  destruct y as [[]| | |]; try reflexivity. specialize (RT eq_refl). destruct s1 as [o1 st1 r1]. cbn [cw_root cw_out cw_st] in *. subst r1.
  fold cbor_writer. destruct (run _ (mkCW o1 st1 true) t) as [a [[]| | |]]; reflexivity.
Qed.
