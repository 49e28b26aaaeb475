(** JsonSeq.v -- which call sequences the JSON writer accepts. *)

From Coq Require Import ZArith List Bool String Lia ZifyBool ZifyNat.
From Verif Require Import Base BaseFacts Spec SpecFacts B64Model B64Facts Utf8Spec JsonModel JsonSpec JsonFacts JsonWrite JsonMain.
Import ListNotations.
Open Scope Z_scope.

(** [open st es]: after [es] the containers [st] are open (innermost first; [true] = map), and no key is
    pending.  [slot st es]: a value may come next. *)
Inductive open : list bool -> list ev -> Prop :=
| open_arr st es n l es1 : slot st es -> calls_list l es1 -> open (false :: st) (es ++ EBeginArr n :: es1)
| open_map st es n l es1 : slot st es -> calls_entries l es1 -> open (true :: st) (es ++ EBeginMap n :: es1)
with slot : list bool -> list ev -> Prop :=
| slot_root : slot [] []
| slot_arr st es : open (false :: st) es -> slot (false :: st) es
| slot_map st es k : open (true :: st) es -> slot (true :: st) (es ++ [EKey k]).

Lemma put st es v ev : slot st es -> calls v ev ->
  match st with [] => es = [] | _ => open st (es ++ ev) end.
Proof.
  intros S C. destruct S as [|st es O|st es k O]; [reflexivity|..]; inversion O as [? es0 n l es1 S CL|? es0 n l es1 S CL]; subst.
  - rewrite <- app_assoc. cbn [app]. econstructor; [exact S|]. eapply calls_list_app; [exact CL|]. eapply calls_list_one. exact C.
  - rewrite <- !app_assoc. cbn [app]. econstructor; [exact S|]. eapply calls_entries_app; [exact CL|]. eapply calls_entries_one. exact C.
Qed.
Lemma shut_arr st es : open (false :: st) es -> exists es0 ev v, es ++ [EEndArr] = es0 ++ ev /\ slot st es0 /\ calls v ev.
Proof.
  intros O. inversion O as [? es0 n l es1 S CL|]; subst. exists es0, (EBeginArr n :: es1 ++ [EEndArr]), (VArr l). rewrite <- app_assoc. repeat split; auto. now constructor.
Qed.
Lemma shut_map st es : open (true :: st) es -> exists es0 ev v, es ++ [EEndMap] = es0 ++ ev /\ slot st es0 /\ calls v ev.
Proof.
  intros O. inversion O as [|? es0 n l es1 S CL]; subst. exists es0, (EBeginMap n :: es1 ++ [EEndMap]), (VMap l). rewrite <- app_assoc. repeat split; auto. now constructor.
Qed.
(** Open containers can be closed. *)
Lemma completable st : forall es, open st es -> exists es' v, calls v (es ++ es').
Proof.
  induction st as [|b st IH]; intros es O; [inversion O|].
  assert (E : exists e es0 ev v, es ++ [e] = es0 ++ ev /\ slot st es0 /\ calls v ev).
  { destruct b; [exists EEndMap; now apply shut_map|exists EEndArr; now apply shut_arr]. }
  destruct E as (e & es0 & ev & v & E & S & C). pose proof (put _ _ _ _ S C) as P. destruct st as [|b' st'].
  - subst es0. exists [e], v. rewrite E. exact C.
  - destruct (IH _ P) as (es' & w & H). exists (e :: es'), w. rewrite <- E, <- app_assoc in H. exact H.
Qed.
Lemma slot_completable st es : slot st es -> exists es' v, calls v (es ++ es').
Proof.
  intros S. pose proof (put st es VNull [ENull] S calls_null) as P. destruct st as [|b st].
  - subst es. exists [ENull], VNull. constructor.
  - destruct (completable _ _ P) as (es' & w & H). exists (ENull :: es'), w. rewrite <- app_assoc in H. exact H.
Qed.

Definition frames (s : jst) : list bool := map jc_obj (js_st s).
Definition idle (st : list jctx) : Prop := Forall (fun c => jc_pending c = []) st.
(** What the state knows about the calls made so far. *)
Definition Inv (s : jst) (es : list ev) : Prop :=
  js_doc s = true /\
  match js_st s with
  | [] => if js_wrote s then exists v, calls v es else es = []
  | c :: st => js_wrote s = true /\ idle st /\
      (if nonempty (jc_pending c) then jc_obj c = true /\ slot (frames s) es else open (frames s) es)
  end.
Lemma inv_init : Inv js_init []. Proof. split; reflexivity. Qed.
Lemma idle_nonempty c : nonempty (jc_pending c) = false -> jc_pending c = [].
Proof. destruct (jc_pending c); [reflexivity|discriminate]. Qed.

Lemma accept_slot dbg s es k s1 : Inv s es -> j_accept dbg s = Ok (k, s1) ->
  slot (frames s) es /\ js_doc s1 = true /\ js_wrote s1 = true /\ idle (js_st s1) /\ frames s1 = frames s.
Proof.
  intros (D & I) A. pose proof (accept_doc _ _ _ _ A) as [_ D1]. unfold j_accept in A. rewrite D in A. cbn [negb] in A. unfold frames in *. destruct (js_st s) as [|c st] eqn:E.
  - destruct (js_wrote s); [discriminate|]. injection A as <- <-. subst es. repeat split; try constructor.
  - destruct I as (W & I & H). destruct (jc_obj c) eqn:OB.
    + destruct (nonempty (jc_pending c)) eqn:NE; cbn [negb] in A; [|discriminate]. destruct (dbg && has_nul _); [discriminate|]. injection A as <- <-.
      destruct H as [_ H]. repeat split; auto; cbn [js_st map jc_obj]; [constructor; auto|now rewrite OB].
    + injection A as <- <-. destruct (nonempty (jc_pending c)) eqn:NE; [destruct H; congruence|]. rewrite E. split; [|repeat split; auto].
      * cbn [map] in *. rewrite OB in *. now constructor.
      * constructor; [now apply idle_nonempty|exact I].
Qed.
(** A complete value placed in a slot. *)
Lemma inv_place st es0 v ev s k x : slot st es0 -> calls v ev -> js_doc s = true -> js_wrote s = true -> idle (js_st s) -> frames s = st ->
  Inv (place k x s) (es0 ++ ev).
Proof.
  intros S C D W I <-. pose proof (put _ _ _ _ S C) as P. unfold frames, place, Inv in *. destruct (js_st s) as [|c st] eqn:E; cbn [map] in *.
  - cbn [js_doc js_st js_wrote]. split; [exact D|]. rewrite W. subst es0. exists v. exact C.
  - cbn [js_doc js_st js_wrote map jc_obj jc_pending add_kid]. split; [exact D|]. inversion I as [|? ? I1 I2]; subst. repeat split; auto. rewrite I1. exact P.
Qed.
Lemma pop_is_place s c st : js_st s = c :: st -> j_pop s = place (jc_slot c) (node_of c) (mkJst (js_doc s) (js_root s) (js_wrote s) st).
Proof. intros E. unfold j_pop, place. rewrite E. destruct st; reflexivity. Qed.

Lemma inv_step dbg s es e s' : e <> EKey [] -> (match e with EBin b => bytes_ok b | _ => True end) ->
  Inv s es -> j_step dbg s e = (s', Ok tt) -> Inv s' (es ++ [e]).
Proof.
  intros NK BO I H.
  assert (PUSH : forall v x, calls v [e] -> j_push dbg x s = (s', Ok tt) -> Inv s' (es ++ [e])).
  { intros v x C P. destruct (j_accept dbg s) as [[k s1]|? | |] eqn:A; [|unfold j_push in P; rewrite A in P; discriminate..].
    rewrite (push_place _ _ _ _ _ A) in P. injection P as <-. destruct (accept_slot _ _ _ _ _ I A) as (S & D & W & ID & F). eapply inv_place; eauto. }
  assert (BEGIN : forall obj, j_begin dbg obj s = (s', Ok tt) -> (slot (frames s) es -> open (obj :: frames s) (es ++ [e])) -> Inv s' (es ++ [e])).
  { intros obj P O. unfold j_begin in P. destruct (j_accept dbg s) as [[k s1]|? | |] eqn:A; [|discriminate..].
    destruct (accept_slot _ _ _ _ _ I A) as (S & D & W & ID & F). injection P as <-. split; [exact D|]. cbn [js_st js_wrote nonempty jc_pending]. repeat split; auto.
    unfold frames in *. cbn [js_st map jc_obj]. rewrite F. auto. }
  destruct e; cbn [j_step] in H; try (eapply PUSH; [constructor|eassumption]).
  - (* binary *)
    destruct (j_accept dbg s) as [[k s1]|? | |] eqn:A.
    + rewrite (binary_place _ _ _ _ _ BO A) in H. injection H as <-. destruct (accept_slot _ _ _ _ _ I A) as (S & D & W & ID & F). eapply inv_place; eauto. constructor.
    + exfalso. unfold j_binary in H. destruct (base64Encode b); try discriminate. unfold j_seq at 1, j_begin in H. rewrite A in H. discriminate.
    + exfalso. unfold j_binary in H. destruct (base64Encode b); try discriminate. unfold j_seq at 1, j_begin in H. rewrite A in H. discriminate.
    + exfalso. unfold j_binary in H. destruct (base64Encode b); try discriminate. unfold j_seq at 1, j_begin in H. rewrite A in H. discriminate.
  - (* key *)
    unfold j_setkey in H. destruct I as (D & I). destruct (js_st s) as [|c st] eqn:E; [discriminate|]. destruct (jc_obj c) eqn:OB; [|discriminate].
    destruct (nonempty (jc_pending c)) eqn:NE; [discriminate|]. injection H as <-. destruct I as (W & I & O). split; [exact D|]. cbn [js_st js_wrote jc_pending jc_obj].
    repeat split; auto. destruct k as [|a k]; [congruence|]. cbn [nonempty]. split; [reflexivity|]. unfold frames in *. cbn [js_st map jc_obj]. rewrite E in O. cbn [map] in O. rewrite OB in O.
    now constructor.
  - (* begin array *)
    apply (BEGIN false H). intros S. econstructor; [exact S|constructor].
  - (* end array *)
    unfold j_end_array, j_in in H. destruct I as (D & I). destruct (js_st s) as [|c st] eqn:E; [discriminate|]. destruct (jc_obj c) eqn:OB; [discriminate|]. cbn [Bool.eqb] in H. injection H as <-.
    destruct I as (W & I & O). destruct (nonempty (jc_pending c)); [destruct O; congruence|]. unfold frames in O. rewrite E in O. cbn [map] in O. rewrite OB in O.
    destruct (shut_arr _ _ O) as (es0 & ev & v & EQ & S & C). rewrite EQ, (pop_is_place _ _ _ E). eapply inv_place; eauto.
  - (* begin map *)
    apply (BEGIN true H). intros S. econstructor; [exact S|constructor].
  - (* end map *)
    unfold j_end_map in H. destruct I as (D & I). destruct (js_st s) as [|c st] eqn:E; [discriminate|]. destruct (jc_obj c) eqn:OB; [|discriminate].
    destruct (nonempty (jc_pending c)) eqn:NE; [discriminate|]. injection H as <-. destruct I as (W & I & O). unfold frames in O. rewrite E in O. cbn [map] in O. rewrite OB in O.
    destruct (shut_map _ _ O) as (es0 & ev & v & EQ & S & C). rewrite EQ, (pop_is_place _ _ _ E). eapply inv_place; eauto.
Qed.
Lemma inv_run dbg es : Forall ev_ok es -> Forall (fun e => e <> EKey []) es -> forall s es0 s', Inv s es0 -> run (json_writer dbg) s es = (s', Ok tt) -> Inv s' (es0 ++ es).
Proof.
  induction es as [|e es IH]; intros OK NK s es0 s' I R.
  - cbn [run] in R. injection R as <-. now rewrite app_nil_r.
  - inversion OK; inversion NK; subst. rewrite run_one in R. destruct (j_step dbg s e) as [s1 [[]|? | |]] eqn:E; try discriminate.
    replace (es0 ++ e :: es) with ((es0 ++ [e]) ++ es) by now rewrite <- app_assoc. eapply IH; [assumption|assumption| |exact R].
    eapply inv_step; eauto. destruct e; auto.
Qed.
Lemma accepted_prefix dbg es s : Forall ev_ok es -> ~ In (EKey []) es -> run (json_writer dbg) js_init es = (s, Ok tt) ->
  es = [] \/ exists es' v, calls v (es ++ es').
Proof.
  intros OK NK R. assert (NK' : Forall (fun e => e <> EKey []) es) by (rewrite Forall_forall; intros e H ->; contradiction).
  pose proof (inv_run dbg es OK NK' js_init [] s inv_init R) as (_ & I). cbn [app] in I. destruct (js_st s) as [|c st].
  - destruct (js_wrote s); [|now left]. right. destruct I as [v C]. exists [], v. now rewrite app_nil_r.
  - right. destruct I as (_ & _ & O). destruct (nonempty (jc_pending c)); [eapply slot_completable|eapply completable]; apply O.
Qed.

(** ** A rejected call changes nothing *)
Lemma step_throw dbg s e s' x : ev_ok e -> j_step dbg s e = (s', Throw x) -> s' = s.
Proof.
  intros OK H.
  assert (P : forall v, j_push dbg v s = (s', Throw x) -> s' = s).
  { intros v. unfold j_push. destruct (j_accept dbg s) as [[k s1]|? | |]; try congruence. destruct (js_st s1); discriminate. }
  assert (B : forall o, j_begin dbg o s = (s', Throw x) -> s' = s).
  { intros v. unfold j_begin. destruct (j_accept dbg s) as [[k s1]|? | |]; try congruence. discriminate. }
  destruct e; cbn [j_step] in H; eauto.
  - destruct (j_accept dbg s) as [[k s1]|y| |] eqn:A; [rewrite (binary_place _ _ _ _ _ OK A) in H; discriminate|..];
      unfold j_binary in H; (destruct (base64Encode b); [|congruence..]); unfold j_seq at 1, j_begin in H; rewrite A in H; congruence.
  - unfold j_setkey in H. destruct (js_st s); [congruence|]. destruct (jc_obj j); [|congruence]. destruct (nonempty _); [congruence|discriminate].
  - unfold j_end_array in H. destruct (j_in _ _); [discriminate|congruence].
  - unfold j_end_map in H. destruct (js_st s); [congruence|]. destruct (jc_obj j); [|congruence]. destruct (nonempty _); [congruence|discriminate].
Qed.
Lemma step_total dbg s e : ev_ok e -> exists s' r, j_step dbg s e = (s', r) /\ (r = Ok tt \/ s' = s /\ (r = Throw ELogic \/ js_doc s = false /\ r = Throw EBadAlloc)).
Proof.
  intros OK.
  assert (A : (exists p, j_accept dbg s = Ok p) \/ j_accept dbg s = Throw ELogic \/ js_doc s = false /\ j_accept dbg s = Throw EBadAlloc).
  { unfold j_accept. destruct (js_doc s); [|right; right; auto]. cbn [negb]. destruct (js_st s) as [|c st]; [destruct (js_wrote s); eauto|].
    destruct (jc_obj c); [|eauto]. destruct (negb _); [auto|]. destruct (_ && _); eauto. }
  assert (P : forall v, exists s' r, j_push dbg v s = (s', r) /\ (r = Ok tt \/ s' = s /\ (r = Throw ELogic \/ js_doc s = false /\ r = Throw EBadAlloc))).
  { intros v. destruct A as [[[k s1] A]|[A|[D A]]].
    - rewrite (push_place _ _ _ _ _ A). eauto.
    - unfold j_push. rewrite A. eauto 8.
    - unfold j_push. rewrite A. eauto 9. }
  assert (B : forall o, exists s' r, j_begin dbg o s = (s', r) /\ (r = Ok tt \/ s' = s /\ (r = Throw ELogic \/ js_doc s = false /\ r = Throw EBadAlloc))).
  { intros v. unfold j_begin. destruct A as [[[k s1] A]|[A|[D A]]]; rewrite A; unfold ok; eauto 9. }
  destruct e; cbn [j_step]; auto.
  - destruct A as [[[k s1] A]|[A|[D A]]]; [rewrite (binary_place _ _ _ _ _ OK A); eauto|..];
      unfold j_binary; rewrite encode_rfc by exact OK; unfold j_seq at 1, j_begin; rewrite A; eauto 9.
  - unfold j_setkey, ok. destruct (js_st s); [eauto 8|]. destruct (jc_obj j); [|eauto 8]. destruct (nonempty _); eauto 8.
  - unfold j_end_array, ok. destruct (j_in _ _); eauto 8.
  - unfold j_end_map, ok. destruct (js_st s); [eauto 8|]. destruct (jc_obj j); [|eauto 8]. destruct (nonempty _); eauto 8.
Qed.

Lemma accept_same_doc dbg s k s1 : j_accept dbg s = Ok (k, s1) -> js_doc s1 = js_doc s.
Proof. intros A. destruct (accept_doc _ _ _ _ A). congruence. Qed.
Lemma place_doc k v s : js_doc (place k v s) = js_doc s.
Proof. unfold place. destruct (js_st s); reflexivity. Qed.
Lemma step_doc dbg s e s' : ev_ok e -> j_step dbg s e = (s', Ok tt) -> js_doc s' = js_doc s.
Proof.
  intros OK H.
  assert (P : forall v, j_push dbg v s = (s', Ok tt) -> js_doc s' = js_doc s).
  { intros v P. destruct (j_accept dbg s) as [[k s1]|? | |] eqn:A; [|unfold j_push in P; rewrite A in P; discriminate..].
    rewrite (push_place _ _ _ _ _ A) in P. injection P as <-. rewrite place_doc. eauto using accept_same_doc. }
  assert (B : forall o, j_begin dbg o s = (s', Ok tt) -> js_doc s' = js_doc s).
  { intros o P0. unfold j_begin in P0. destruct (j_accept dbg s) as [[k s1]|? | |] eqn:A; try discriminate. injection P0 as <-. cbn [js_doc]. eauto using accept_same_doc. }
  assert (Q : j_pop s = s' -> js_doc s' = js_doc s). { intros <-. unfold j_pop. destruct (js_st s) as [|c [|p st]]; reflexivity. }
  destruct e; cbn [j_step] in H; eauto.
  - destruct (j_accept dbg s) as [[k s1]|? | |] eqn:A; [rewrite (binary_place _ _ _ _ _ OK A) in H; injection H as <-; rewrite place_doc; eauto using accept_same_doc|..];
      unfold j_binary in H; (destruct (base64Encode b); [|congruence..]); unfold j_seq at 1, j_begin in H; rewrite A in H; discriminate.
  - unfold j_setkey in H. destruct (js_st s); [discriminate|]. destruct (jc_obj j); [|discriminate]. destruct (nonempty _); [discriminate|]. injection H as <-. reflexivity.
  - unfold j_end_array in H. destruct (j_in _ _); [|discriminate]. injection H as <-. auto.
  - unfold j_end_map in H. destruct (js_st s) eqn:E; [discriminate|]. destruct (jc_obj j); [|discriminate]. destruct (nonempty _); [discriminate|]. injection H as <-. auto.
Qed.
Lemma history dbg es : Forall ev_ok es -> forall s0 s outs, js_doc s0 = true -> run_catch (json_writer dbg) s0 es = (s, outs) ->
  Forall (fun r => r = Ok tt \/ r = Throw ELogic) outs /\ run (json_writer dbg) s0 (returned es outs) = (s, Ok tt).
Proof.
  induction 1 as [|e es OK _ IH]; intros s0 s outs D R.
  - cbn [run_catch] in R. injection R as <- <-. split; [constructor|reflexivity].
  - cbn [run_catch] in R. change (w_step (json_writer dbg) s0 e) with (j_step dbg s0 e) in R. destruct (step_total dbg s0 e OK) as (s1 & r & E & H). rewrite E in R.
    destruct (run_catch (json_writer dbg) s1 es) as [s2 rs] eqn:ER. injection R as <- <-. destruct H as [->|(-> & [->|[D' _]])].
    + pose proof (step_doc _ _ _ _ OK E) as D1. rewrite D in D1. destruct (IH _ _ _ D1 ER) as [F G]. split; [constructor; auto|].
      unfold returned in *. cbn [combine filter snd map fst]. rewrite run_one, E. exact G.
    + destruct (IH _ _ _ D ER) as [F G]. split; [constructor; auto|exact G].
    + congruence.
Qed.

(** ** finish() closes what is open *)
Lemma tree_pop s c st : js_st s = c :: st -> js_tree (j_pop s) = js_tree s.
Proof. intros E. unfold js_tree, j_pop. rewrite E. destruct st; reflexivity. Qed.
Lemma close_run dbg : forall n s, List.length (js_st s) = n -> js_st s <> [] -> idle (js_st s) ->
  exists cl s', Forall is_end cl /\ run (json_writer dbg) s cl = (s', Ok tt) /\ js_st s' = [] /\ js_tree s' = js_tree s /\ js_doc s' = js_doc s.
Proof.
  induction n as [|n IH]; intros s L N I; [destruct (js_st s); [congruence|discriminate]|].
  destruct (js_st s) as [|c st] eqn:E; [congruence|]. inversion I as [|? ? Ic Ist]; subst.
  set (e := if jc_obj c then EEndMap else EEndArr).
  assert (S1 : j_step dbg s e = (j_pop s, Ok tt)).
  { unfold e. destruct (jc_obj c) eqn:OB; cbn [j_step].
    - unfold j_end_map. rewrite E, OB, Ic. reflexivity.
    - unfold j_end_array, j_in. rewrite E, OB. reflexivity. }
  assert (IE : is_end e) by (unfold e, is_end; destruct (jc_obj c); auto).
  assert (D : js_doc (j_pop s) = js_doc s) by (unfold j_pop; rewrite E; destruct st; reflexivity).
  destruct st as [|p st].
  - exists [e], (j_pop s). repeat split; [constructor; [exact IE|constructor]|rewrite run_one, S1; reflexivity|unfold j_pop; now rewrite E|now apply tree_pop with (c := c) (st := [])|exact D].
  - destruct (IH (j_pop s)) as (cl & s' & F & R & A & B & C).
    + unfold j_pop. rewrite E. cbn [js_st]. cbn [List.length] in *. lia.
    + unfold j_pop. rewrite E. discriminate.
    + unfold j_pop. rewrite E. cbn [js_st]. inversion Ist; subst. constructor; [assumption|assumption].
    + exists (e :: cl), s'. repeat split; auto; [rewrite run_one, S1; exact R|rewrite B; eapply tree_pop; exact E|congruence].
Qed.
Lemma finish_tree s s' : js_tree s' = js_tree s -> js_doc s' = js_doc s -> snd (j_finish s') = snd (j_finish s).
Proof. unfold j_finish. intros -> ->. destruct (js_doc s); [|reflexivity]. destruct (js_tree s); reflexivity. Qed.
Lemma finish_idle dbg es s : Forall ev_ok es -> Forall (fun e => e <> EKey []) es -> run (json_writer dbg) js_init es = (s, Ok tt) -> idle (js_st s) -> es <> [] ->
  exists cl v, Forall is_end cl /\ calls v (es ++ cl) /\ document v (snd (j_finish s)).
Proof.
  intros OK NK R I NE.
  assert (H : exists cl s', Forall is_end cl /\ run (json_writer dbg) s cl = (s', Ok tt) /\ js_st s' = [] /\ js_tree s' = js_tree s /\ js_doc s' = js_doc s).
  { destruct (js_st s) as [|c st] eqn:E.
    - exists [], s. repeat split; auto.
    - apply (close_run dbg _ s eq_refl); rewrite E; [discriminate|exact I]. }
  destruct H as (cl & s' & IE & R' & E' & T & D).
  assert (OKc : Forall ev_ok cl) by (eapply Forall_impl; [|exact IE]; intros e [->| ->]; exact Logic.I).
  assert (NKc : Forall (fun e => e <> EKey []) cl) by (eapply Forall_impl; [|exact IE]; intros e [->| ->]; discriminate).
  assert (RR : run (json_writer dbg) js_init (es ++ cl) = (s', Ok tt)) by (rewrite run_app, R; exact R').
  assert (OK2 : Forall ev_ok (es ++ cl)) by (apply Forall_app; auto).
  assert (NK2 : Forall (fun e => e <> EKey []) (es ++ cl)) by (apply Forall_app; auto).
  pose proof (inv_run dbg _ OK2 NK2 js_init [] s' inv_init RR) as (_ & IV). rewrite E' in IV. cbn [app] in IV.
  destruct (js_wrote s'); [|destruct es; [congruence|discriminate]]. destruct IV as [v C]. exists cl, v. repeat split; auto.
  pose proof (calls_outcome dbg v _ C OK2) as O. rewrite RR in O. destruct O as [_ O]. rewrite (finish_tree _ _ T D) in O. exact O.
Qed.
Lemma tree_key dbg s k s' : j_step dbg s (EKey k) = (s', Ok tt) -> js_tree s' = js_tree s /\ js_doc s' = js_doc s.
Proof.
  cbn [j_step]. unfold j_setkey. destruct (js_st s) as [|c st] eqn:E; [discriminate|]. destruct (jc_obj c) eqn:OB; [|discriminate]. destruct (nonempty _); [discriminate|].
  intros H. injection H as <-. split; [|reflexivity]. unfold js_tree. rewrite E. cbn [js_st]. unfold node_of. cbn [jc_obj jc_kids jc_slot]. now rewrite OB.
Qed.
Lemma finish_any dbg es s : Forall ev_ok es -> ~ In (EKey []) es -> run (json_writer dbg) js_init es = (s, Ok tt) ->
  es = [] /\ snd (j_finish s) = Ok VNull \/
  exists es1 cl v, (es = es1 \/ exists k, es = es1 ++ [EKey k]) /\ Forall is_end cl /\ calls v (es1 ++ cl) /\ document v (snd (j_finish s)).
Proof.
  intros OK NK0 R. assert (NK : Forall (fun e => e <> EKey []) es) by (rewrite Forall_forall; intros e H ->; contradiction).
  destruct es as [|e0 es0] eqn:EE; [left; cbn [run] in R; injection R as <-; auto|]. rewrite <- EE in *. assert (NE : es <> []) by (rewrite EE; discriminate). clear EE e0 es0. right.
  pose proof (inv_run dbg es OK NK js_init [] s inv_init R) as (_ & I). cbn [app] in I. destruct (js_st s) as [|c st] eqn:E.
  - destruct (finish_idle dbg es s OK NK R) as (cl & v & A & B & C); [rewrite E; constructor|exact NE|]. exists es, cl, v. auto.
  - destruct I as (_ & I & O). destruct (nonempty (jc_pending c)) eqn:P.
    + destruct O as [OB O]. unfold frames in O. rewrite E in O. cbn [map] in O. rewrite OB in O. inversion O as [| |? es1 k O1]; subst.
      rewrite run_app in R. destruct (run (json_writer dbg) js_init es1) as [s1 [[]|? | |]] eqn:R1; try discriminate. rewrite run_one in R.
      destruct (j_step dbg s1 (EKey k)) as [s2 [[]|? | |]] eqn:S; try discriminate. cbn [run] in R. injection R as ->.
      destruct (tree_key _ _ _ _ S) as [T D]. apply Forall_app in OK, NK. destruct OK as [OK _], NK as [NK _].
      assert (ID : idle (js_st s1)).
      { cbn [j_step] in S. unfold j_setkey in S. destruct (js_st s1) as [|c1 st1] eqn:E1; [discriminate|]. destruct (jc_obj c1); [|discriminate].
        destruct (nonempty (jc_pending c1)) eqn:P1; [discriminate|]. injection S as S. rewrite <- S in E. cbn [js_st] in E. injection E as _ E. subst st1. constructor; [now apply idle_nonempty|exact I]. }
      assert (NE1 : es1 <> []) by (intros ->; inversion O1; destruct es; discriminate).
      destruct (finish_idle dbg es1 s1 OK NK R1 ID NE1) as (cl & v & A & B & C). exists es1, cl, v. rewrite (finish_tree _ _ T D). eauto 6.
    + destruct (finish_idle dbg es s OK NK R) as (cl & v & A & B & C); [rewrite E; constructor; [now apply idle_nonempty|exact I]|exact NE|]. exists es, cl, v. auto.
Qed.
