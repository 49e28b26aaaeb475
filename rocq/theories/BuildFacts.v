(** BuildFacts.v -- builders and dynamic values make the calls of the value they denote. *)

From Coq Require Import ZArith List Bool Lia ZifyBool.
From Verif Require Import Base BaseFacts Spec SpecFacts FloatModel BuildModel BuildSpec.
Import ListNotations.
Open Scope Z_scope.

(** ** Induction over expressions *)
Section Ind.
  Variable P : bexp -> Prop.
  Variable Q : dyn -> Prop.
  Hypothesis HB : forall e, match e with
    | BSeq l | BVec l => Forall P l
    | BAssoc l | BZmap l => Forall (fun kx => P (snd kx)) l
    | BDyn d => Q d
    | _ => True end -> P e.
  Hypothesis HD : forall d, match d with
    | DArr l => Forall Q l
    | DMap l => Forall (fun kx => Q (snd kx)) l
    | DSer e => P e
    | _ => True end -> Q d.
  Fixpoint bexp_ind2 (e : bexp) : P e :=
    HB e match e with
    | BSeq l | BVec l => (fix go l : Forall P l := match l with [] => Forall_nil P | x :: l' => Forall_cons x (bexp_ind2 x) (go l') end) l
    | BAssoc l | BZmap l => (fix go l : Forall (fun kx : bytes * bexp => P (snd kx)) l :=
                               match l with [] => Forall_nil _ | kx :: l' => Forall_cons kx (bexp_ind2 (snd kx)) (go l') end) l
    | BDyn d => dyn_ind2 d
    | _ => I
    end
  with dyn_ind2 (d : dyn) : Q d :=
    HD d match d with
    | DArr l => (fix go l : Forall Q l := match l with [] => Forall_nil Q | x :: l' => Forall_cons x (dyn_ind2 x) (go l') end) l
    | DMap l => (fix go l : Forall (fun kx : bytes * dyn => Q (snd kx)) l :=
                               match l with [] => Forall_nil _ | kx :: l' => Forall_cons kx (dyn_ind2 (snd kx)) (go l') end) l
    | DSer e => bexp_ind2 e
    | _ => I
    end.
  Lemma both : (forall e, P e) /\ (forall d, Q d).
  Proof. split; [exact bexp_ind2|exact dyn_ind2]. Qed.
End Ind.

(** ** Loops over members, named *)
Section Each.
  Context {S : Type}.
  Definition each {X} (f : X -> S -> S * res unit) : list X -> S -> S * res unit :=
    fix go l s := match l with [] => (s, Ok tt) | x :: l' => andthen (f x s) (go l') end.
  Lemma each_cons {X} (f : X -> S -> S * res unit) x l s : each f (x :: l) s = andthen (f x s) (each f l).
  Proof. reflexivity. Qed.
  Lemma andthen_ext (r r' : S * res unit) k k' : r = r' -> (forall s, k s = k' s) -> andthen r k = andthen r' k'.
  Proof. intros -> H. destruct r' as [s []]; cbn [andthen]; auto. Qed.
  Lemma each_ext {X Y} (f : X -> S -> S * res unit) (g : Y -> S -> S * res unit) l m : Forall2 (fun x y => forall s, f x s = g y s) l m -> forall s, each f l s = each g m s.
  Proof. induction 1 as [|x y l m H F IH]; intros s; [reflexivity|]. rewrite !each_cons. apply andthen_ext; auto. Qed.
  Lemma andthen_assoc (r : S * res unit) k k' : andthen (andthen r k) k' = andthen r (fun s => andthen (k s) k').
  Proof. destruct r as [s []]; reflexivity. Qed.
End Each.

Definition arr {S X} (step : S -> ev -> S * res unit) (f : X -> S -> S * res unit) (l : list X) (s : S) : S * res unit :=
  andthen (step s (EBeginArr (zlen l))) (fun s1 => andthen (each f l s1) (fun s2 => step s2 EEndArr)).
Definition obj {S X} (step : S -> ev -> S * res unit) (f : X -> S -> S * res unit) (l : list X) (s : S) : S * res unit :=
  andthen (step s (EBeginMap (zlen l))) (fun s1 => andthen (each f l s1) (fun s2 => step s2 EEndMap)).
Lemma arr_ext {S X Y} step step' (f : X -> S -> S * res unit) (g : Y -> S -> S * res unit) l m s :
  (forall s e, step s e = step' s e) -> Forall2 (fun x y => forall s, f x s = g y s) l m -> arr step f l s = arr step' g m s.
Proof.
  intros E F. unfold arr. replace (zlen m) with (zlen l) by (unfold zlen; clear - F; induction F; cbn [List.length]; lia). apply andthen_ext; [apply E|]. intros s1. apply andthen_ext; [now apply each_ext|]. intros; apply E.
Qed.
Lemma obj_ext {S X Y} step step' (f : X -> S -> S * res unit) (g : Y -> S -> S * res unit) l m s :
  (forall s e, step s e = step' s e) -> Forall2 (fun x y => forall s, f x s = g y s) l m -> obj step f l s = obj step' g m s.
Proof.
  intros E F. unfold obj. replace (zlen m) with (zlen l) by (unfold zlen; clear - F; induction F; cbn [List.length]; lia). apply andthen_ext; [apply E|]. intros s1. apply andthen_ext; [now apply each_ext|]. intros; apply E.
Qed.
Definition entry {S X} (step : S -> ev -> S * res unit) (f : X -> S -> S * res unit) (kx : bytes * X) (s : S) : S * res unit := andthen (step s (EKey (fst kx))) (fun s' => f (snd kx) s').
Definition zentry {S X} (step : S -> ev -> S * res unit) (f : X -> S -> S * res unit) (kx : bytes * X) (s : S) : S * res unit := andthen (step s (EKey (fs_view (fst kx)))) (fun s' => f (snd kx) s').

Section Put.
  Context {S : Type} (step : S -> ev -> S * res unit).
  Let pu (e : bexp) (s : S) := put e step s.
  Let pd (d : dyn) (s : S) := put_dyn d step s.
  Lemma put_seq l s : put (BSeq l) step s = arr step (fun x s => put x step s) l s. Proof. reflexivity. Qed.
  Lemma put_vec l s : put (BVec l) step s = arr step (fun x s => put x step s) l s. Proof. reflexivity. Qed.
  Lemma put_darr l s : put_dyn (DArr l) step s = arr step (fun x s => put_dyn x step s) l s. Proof. reflexivity. Qed.
  Lemma loop_entry {X} (k : bytes -> bytes) (f : X -> S -> S * res unit) l : forall s,
    (fix each (l : list (bytes * X)) (s : S) := match l with [] => (s, Ok tt) | (n, x) :: l' => andthen (step s (EKey (k n))) (fun s' => andthen (f x s') (each l')) end) l s
    = each (fun kx s => andthen (step s (EKey (k (fst kx)))) (fun s' => f (snd kx) s')) l s.
  Proof.
    induction l as [|[n x] l IH]; intros s; [reflexivity|]. rewrite each_cons, andthen_assoc. cbn [fst snd]. apply andthen_ext; [reflexivity|]. intros s'. apply andthen_ext; [reflexivity|exact IH].
  Qed.
  Lemma put_assoc l s : put (BAssoc l) step s = obj step (entry step (fun x s => put x step s)) l s.
  Proof. cbn [put]. unfold obj. apply andthen_ext; [reflexivity|]. intros s1. apply andthen_ext; [exact (loop_entry (fun k => k) _ l s1)|reflexivity]. Qed.
  Lemma put_zmap l s : put (BZmap l) step s = obj step (zentry step (fun x s => put x step s)) l s.
  Proof. cbn [put]. unfold obj. apply andthen_ext; [reflexivity|]. intros s1. apply andthen_ext; [exact (loop_entry fs_view _ l s1)|reflexivity]. Qed.
  Lemma put_dmap l s : put_dyn (DMap l) step s = obj step (entry step (fun x s => put_dyn x step s)) l s.
  Proof. cbn [put_dyn]. unfold obj. apply andthen_ext; [reflexivity|]. intros s1. apply andthen_ext; [exact (loop_entry (fun k => k) _ l s1)|reflexivity]. Qed.
End Put.

Lemma Forall2_mono {X Y} (P Q : X -> Y -> Prop) l m : (forall x y, P x y -> Q x y) -> Forall2 P l m -> Forall2 Q l m.
Proof. intros H. induction 1; constructor; auto. Qed.
Lemma Forall2_same {X} (R : X -> X -> Prop) l : Forall (fun x => R x x) l -> Forall2 R l l.
Proof. induction 1; constructor; auto. Qed.
Lemma steps_ext {S} (a b : S -> ev -> S * res unit) es : (forall s e, a s e = b s e) -> forall s, steps a es s = steps b es s.
Proof. intros H. induction es as [|e es IH]; intros s; [reflexivity|]. cbn [steps]. apply andthen_ext; auto. Qed.

(** Only the writer's behaviour matters. *)
Lemma put_ext : (forall e S (a b : S -> ev -> S * res unit) s, (forall s e, a s e = b s e) -> put e a s = put e b s) /\
                (forall d S (a b : S -> ev -> S * res unit) s, (forall s e, a s e = b s e) -> put_dyn d a s = put_dyn d b s).
Proof.
  apply both.
  - intros e H S a b s E. destruct e; try apply E; try (cbn [put]; apply E).
    + cbn [put]. destruct (c_string mem); try reflexivity. apply E.
    + rewrite !put_seq. apply arr_ext; [exact E|]. apply Forall2_same. eapply Forall_impl; [|exact H]. cbn beta. auto.
    + rewrite !put_assoc. apply obj_ext; [exact E|]. apply Forall2_same. eapply Forall_impl; [|exact H]. intros kx Hx s'. apply andthen_ext; [apply E|]. intros; now apply Hx.
    + rewrite !put_vec. apply arr_ext; [exact E|]. apply Forall2_same. eapply Forall_impl; [|exact H]. cbn beta. auto.
    + rewrite !put_zmap. apply obj_ext; [exact E|]. apply Forall2_same. eapply Forall_impl; [|exact H]. intros kx Hx s'. apply andthen_ext; [apply E|]. intros; now apply Hx.
    + cbn [put]. now apply H.
    + cbn [put]. now apply steps_ext.
  - intros d H S a b s E. destruct d; try apply E; try (cbn [put_dyn]; apply E).
    + rewrite !put_darr. apply arr_ext; [exact E|]. apply Forall2_same. eapply Forall_impl; [|exact H]. cbn beta. auto.
    + rewrite !put_dmap. apply obj_ext; [exact E|]. apply Forall2_same. eapply Forall_impl; [|exact H]. intros kx Hx s'. apply andthen_ext; [apply E|]. intros; now apply Hx.
    + cbn [put_dyn]. apply H. intros s' []; cbn [wv_step wv_make null_fn bool_fn i64_fn u64_fn dbl_fn str_fn bin_fn key_fn begin_arr_fn end_arr_fn begin_map_fn end_map_fn]; apply E.
Qed.
Lemma wv_same {S} (step : S -> ev -> S * res unit) s e : wv_step (wv_make step) s e = step s e.
Proof. now destruct e. Qed.

(** ** Dynamic values *)
Theorem dyn_static : forall d S (step : S -> ev -> S * res unit) s, put_dyn d step s = put (static d) step s.
Proof.
  refine (dyn_ind2 (fun _ => True) (fun d => forall S (step : S -> ev -> S * res unit) s, put_dyn d step s = put (static d) step s) (fun _ _ => I) _).
  intros d H S step s. destruct d; try reflexivity.
  - rewrite put_darr. cbn [static]. rewrite put_vec. apply arr_ext; [reflexivity|]. induction H; cbn [map]; constructor; auto.
  - rewrite put_dmap. cbn [static]. rewrite put_zmap. apply obj_ext; [reflexivity|]. induction H as [|[k x] l Hx H IH]; cbn [map]; constructor; auto. intros s'. unfold entry, zentry, fs_view. cbn [fst snd]. rewrite removelast_last. apply andthen_ext; [reflexivity|]. intros; apply Hx.
  - cbn [put_dyn static]. apply (proj1 put_ext). apply wv_same.
Qed.

(** ** The calls made *)
Lemma steps_app {S} (step : S -> ev -> S * res unit) a b : forall s, steps step (a ++ b) s = andthen (steps step a s) (steps step b).
Proof. induction a as [|e a IH]; intros s; [reflexivity|]. cbn [app steps]. rewrite andthen_assoc. apply andthen_ext; auto. Qed.
Lemma steps_run {S O} (W : writer S O) es : forall s, steps (w_step W) es s = run W s es.
Proof. induction es as [|e es IH]; intros s; [reflexivity|]. cbn [steps run]. destruct (w_step W s e) as [s' []]; cbn [andthen]; auto. Qed.
Lemma steps_one {S} (step : S -> ev -> S * res unit) e s : steps step [e] s = step s e.
Proof. cbn [steps]. destruct (step s e) as [s' [[]| | |]]; reflexivity. Qed.
Lemma arr_steps {S X} (step : S -> ev -> S * res unit) (f : X -> S -> S * res unit) l vs s : Forall2 (fun x v => forall s, f x s = steps step (events v) s) l vs ->
  arr step f l s = steps step (events (VArr vs)) s.
Proof.
  intros F. cbn [events steps]. unfold arr. replace (zlen vs) with (zlen l) by (unfold zlen; clear - F; induction F; cbn [List.length]; lia). apply andthen_ext; [reflexivity|]. intros s1. rewrite steps_app. apply andthen_ext.
  - clear s. revert s1. induction F as [|x v l vs H F IH]; intros s1; [reflexivity|]. rewrite each_cons. cbn [flat_map]. rewrite steps_app. apply andthen_ext; auto.
  - intros s2. now rewrite steps_one.
Qed.
Lemma obj_steps {S X} (step : S -> ev -> S * res unit) (f : X -> S -> S * res unit) l vs s :
  Forall2 (fun x kv => forall s, f x s = andthen (step s (EKey (fst kv))) (fun s' => steps step (events (snd kv)) s')) l vs ->
  obj step f l s = steps step (events (VMap vs)) s.
Proof.
  intros F. cbn [events steps]. unfold obj. replace (zlen vs) with (zlen l) by (unfold zlen; clear - F; induction F; cbn [List.length]; lia). apply andthen_ext; [reflexivity|]. intros s1. rewrite steps_app. apply andthen_ext.
  - clear s. revert s1. induction F as [|x v l vs H F IH]; intros s1; [reflexivity|]. rewrite each_cons. cbn [flat_map]. rewrite steps_app. cbn [steps]. apply andthen_ext; auto.
  - intros s2. now rewrite steps_one.
Qed.
Lemma c_string_app t rest : ~ In 0 t -> c_string (t ++ 0 :: rest) = Ok t.
Proof.
  intros H. unfold c_string. replace (existsb _ _) with true by (symmetry; apply existsb_exists; exists 0; split; [apply in_or_app; right; now left|reflexivity]). f_equal.
  induction t as [|x t IH]; [reflexivity|]. cbn [app c_str]. destruct (x =? 0) eqn:E; [exfalso; apply H; left; lia|]. f_equal. apply IH. intros X. apply H. now right.
Qed.

Lemma put_steps : (forall e v, denotes e v -> forall S (step : S -> ev -> S * res unit) s, put e step s = steps step (events v) s) /\
                  (forall d v, denotes_dyn d v -> forall S (step : S -> ev -> S * res unit) s, put_dyn d step s = steps step (events v) s).
Proof.
  assert (F2 : forall X Y (R : X -> Y -> Prop) (P : X -> Prop) l m, Forall2 R l m -> Forall P l -> Forall2 (fun x y => R x y /\ P x) l m) by (induction 1; intros HP; inversion HP; subst; constructor; auto).
  apply both.
  - intros e H v D S step s. inversion D; subst; try (cbn [put]; symmetry; exact (steps_one _ _ _)).
    + cbn [put]. rewrite c_string_app by assumption. symmetry. exact (steps_one _ _ _).
    + rewrite put_seq. apply arr_steps. eapply Forall2_mono; [|exact (F2 _ _ _ _ _ _ H0 H)]. intros x y [A B] s'. now apply B.
    + rewrite put_assoc. apply obj_steps. eapply Forall2_mono; [|exact (F2 _ _ _ _ _ _ H0 H)]. intros x y [[A B] C] s'. unfold entry. rewrite A. apply andthen_ext; [reflexivity|]. intros; now apply C.
    + rewrite put_vec. apply arr_steps. eapply Forall2_mono; [|exact (F2 _ _ _ _ _ _ H0 H)]. intros x y [A B] s'. now apply B.
    + rewrite put_zmap. apply obj_steps. eapply Forall2_mono; [|exact (F2 _ _ _ _ _ _ H0 H)]. intros x y [[A B] C] s'. unfold zentry, fs_view. rewrite A, removelast_last. apply andthen_ext; [reflexivity|]. intros; now apply C.
    + cbn [put]. now apply H.
    + reflexivity.
  - intros d H v D S step s. inversion D; subst; try (cbn [put_dyn]; symmetry; exact (steps_one _ _ _)).
    + rewrite put_darr. apply arr_steps. eapply Forall2_mono; [|exact (F2 _ _ _ _ _ _ H0 H)]. intros x y [A B] s'. now apply B.
    + rewrite put_dmap. apply obj_steps. eapply Forall2_mono; [|exact (F2 _ _ _ _ _ _ H0 H)]. intros x y [[A B] C] s'. unfold entry. rewrite A. apply andthen_ext; [reflexivity|]. intros; now apply C.
    + cbn [put_dyn]. rewrite (H v H0). apply steps_ext. apply wv_same.
Qed.
Theorem put_run e v S O (W : writer S O) s : denotes e v -> put e (w_step W) s = run W s (events v).
Proof. intros D. rewrite (proj1 put_steps e v D). apply steps_run. Qed.
Theorem build_serialize e v S O (W : writer S O) : denotes e v -> build W e = serialize W v.
Proof. intros D. unfold build, serialize. rewrite (put_run e v S O W _ D). reflexivity. Qed.

(** ** Every sound expression denotes a value *)
Lemma split_nul mem : In 0 mem -> exists s rest, mem = s ++ 0 :: rest /\ ~ In 0 s.
Proof.
  induction mem as [|x mem IH]; intros H; [destruct H|]. destruct (Z.eq_dec x 0) as [-> |N]; [exists [], mem; split; [reflexivity|intros []]|].
  destruct H as [H|H]; [congruence|]. destruct (IH H) as (s & rest & -> & NI). exists (x :: s), rest. split; [reflexivity|]. intros [E|E]; [congruence|auto].
Qed.
Lemma sound_denotes : (forall e, sound e -> exists v, denotes e v) /\ (forall d, sound_dyn d -> exists v, denotes_dyn d v).
Proof.
  apply both.
  - intros e H SO. destruct e; try (eexists; constructor; fail).
    + cbn [sound] in SO. destruct (split_nul mem SO) as (s & rest & -> & N). eexists. now constructor.
    + assert (F : exists vs, Forall2 denotes l vs) by (induction H as [|x l Hx H IH]; [eexists; constructor|]; destruct SO as [S1 S2]; destruct (Hx S1) as [v V], (IH S2) as [vs VS]; exists (v :: vs); now constructor).
      destruct F as [vs F]. eexists. exact (d_seq _ _ F).
    + assert (F : exists vs, Forall2 (fun kx ky => fst kx = fst ky /\ denotes (snd kx) (snd ky)) l vs).
      { induction H as [|[k x] l Hx H IH]; [eexists; constructor|]. destruct SO as [S1 S2]. destruct (Hx S1) as [v V], (IH S2) as [vs VS]. exists ((k, v) :: vs). constructor; auto. }
      destruct F as [vs F]. eexists. exact (d_assoc _ _ F).
    + assert (F : exists vs, Forall2 denotes l vs) by (induction H as [|x l Hx H IH]; [eexists; constructor|]; destruct SO as [S1 S2]; destruct (Hx S1) as [v V], (IH S2) as [vs VS]; exists (v :: vs); now constructor).
      destruct F as [vs F]. eexists. exact (d_vec _ _ F).
    + assert (F : exists vs, Forall2 (fun kx ky => fst kx = fst ky ++ [0] /\ denotes (snd kx) (snd ky)) l vs).
      { induction H as [|[k x] l Hx H IH]; [eexists; constructor|]. destruct SO as ([t ->] & S1 & S2). destruct (Hx S1) as [v V], (IH S2) as [vs VS]. exists ((t, v) :: vs). constructor; auto. }
      destruct F as [vs F]. eexists. exact (d_zmap _ _ F).
    + destruct (H SO) as [v V]. eexists. constructor. exact V.
    + destruct SO as [v ->]. eexists. constructor.
  - intros d H SO. destruct d; try (eexists; constructor; fail).
    + assert (F : exists vs, Forall2 denotes_dyn l vs) by (induction H as [|x l Hx H IH]; [eexists; constructor|]; destruct SO as [S1 S2]; destruct (Hx S1) as [v V], (IH S2) as [vs VS]; exists (v :: vs); now constructor).
      destruct F as [vs F]. eexists. exact (dd_arr _ _ F).
    + assert (F : exists vs, Forall2 (fun kx ky => fst kx = fst ky /\ denotes_dyn (snd kx) (snd ky)) l vs).
      { induction H as [|[k x] l Hx H IH]; [eexists; constructor|]. destruct SO as [S1 S2]. destruct (Hx S1) as [v V], (IH S2) as [vs VS]. exists ((k, v) :: vs). constructor; auto. }
      destruct F as [vs F]. eexists. exact (dd_map _ _ F).
    + destruct (H SO) as [v V]. eexists. constructor. exact V.
Qed.
