(** SpecFacts.v -- induction principle for values, lemmas about events/run/shows. *)

From Coq Require Import ZArith List Bool Lia ZifyBool ZifyNat.
From Verif Require Import Base BaseFacts Spec.
Import ListNotations.
Open Scope Z_scope.

Section ValInd.
  Variable P : val -> Prop.
  Hypothesis Hnull : P VNull.
  Hypothesis Hbool : forall b, P (VBool b).
  Hypothesis Hint : forall z, P (VInt z).
  Hypothesis Huint : forall z, P (VUInt z).
  Hypothesis Hdbl : forall b, P (VDbl b).
  Hypothesis Hstr : forall s, P (VStr s).
  Hypothesis Hblob : forall b, P (VBlob b).
  Hypothesis Harr : forall l, Forall P l -> P (VArr l).
  Hypothesis Hmap : forall l, Forall (fun kx => P (snd kx)) l -> P (VMap l).

  Fixpoint val_ind' (v : val) : P v :=
    match v with
    | VNull => Hnull | VBool b => Hbool b | VInt z => Hint z | VUInt z => Huint z
    | VDbl b => Hdbl b | VStr s => Hstr s | VBlob b => Hblob b
    | VArr l => Harr l ((fix go l : Forall P l :=
                           match l with
                           | [] => Forall_nil _
                           | x :: l' => Forall_cons x (val_ind' x) (go l')
                           end) l)
    | VMap l => Hmap l ((fix go l : Forall (fun kx => P (snd kx)) l :=
                           match l with
                           | [] => Forall_nil _
                           | kx :: l' => Forall_cons kx (val_ind' (snd kx)) (go l')
                           end) l)
    end.
End ValInd.

Lemma run_app {S O} (W : writer S O) s es1 es2 :
  run W s (es1 ++ es2) =
  match run W s es1 with
  | (s', Ok _) => run W s' es2
  | (s', r) => (s', r)
  end.
Proof.
  revert s; induction es1 as [|e es1 IH]; intros s; cbn [run app]; [reflexivity|].
  destruct (w_step W s e) as [s1 [u|x| |]]; auto.
Qed.

(** val_ok as a Forall *)
Lemma val_ok_arr l : val_ok (VArr l) <-> Forall val_ok l.
Proof.
  cbn. induction l as [|x l IH]; [split; constructor|].
  split; [intros [A B]; constructor; tauto|inversion 1; subst; tauto].
Qed.
Lemma val_ok_map l : val_ok (VMap l) <-> Forall (fun kx => bytes_ok (fst kx) /\ val_ok (snd kx)) l.
Proof.
  cbn. induction l as [|[k x] l IH]; [split; constructor|].
  split; [intros (A & B & C); constructor; tauto|inversion 1; subst; cbn in *; tauto].
Qed.

(** The element clauses of [shows], as relations on lists. *)
Fixpoint elems_ok {V} (R : reader V) (T : val -> table) (w : V) (i : Z) (l : list val) : Prop :=
  match l with
  | [] => True
  | x :: l' => (exists w', r_idx R w i = Ok w' /\ shows R T w' x) /\ elems_ok R T w (i + 1) l'
  end.
Fixpoint entries_ok {V} (R : reader V) (T : val -> table) (w : V) (seen : list bytes)
         (l : list (bytes * val)) : Prop :=
  match l with
  | [] => True
  | (k, x) :: l' =>
      (existsb (beq k) seen = false -> exists w', r_key R w k = Ok w' /\ shows R T w' x) /\
      entries_ok R T w (k :: seen) l'
  end.

Lemma shows_arr {V} (R : reader V) T w l :
  shows R T w (VArr l) <->
  observes R w (T (VArr l)) /\
  r_arraySize R w = Ok (zlen l) /\
  (forall i, zlen l <= i < 2^64 -> r_idx R w i = Throw EDeser) /\
  elems_ok R T w 0 l /\
  (forall k, r_key R w k = Throw EDeser) /\
  (forall k, r_contains R w k = Ok false) /\
  r_mapKeys R w = Throw EDeser.
Proof.
  cbn [shows].
  assert (forall i, (fix go (i : Z) (l : list val) : Prop :=
         match l with
         | [] => True
         | x :: l' => (exists w', r_idx R w i = Ok w' /\ shows R T w' x) /\ go (i + 1) l'
         end) i l <-> elems_ok R T w i l) as E.
  { induction l as [|x l IH]; intros i; cbn [elems_ok]; [tauto|]. rewrite IH. tauto. }
  rewrite E. tauto.
Qed.
Lemma shows_map {V} (R : reader V) T w l :
  shows R T w (VMap l) <->
  observes R w (T (VMap l)) /\
  r_mapKeys R w = Ok (map fst l) /\
  (forall k, bytes_ok k -> r_contains R w k = Ok (existsb (beq k) (map fst l))) /\
  (forall k, bytes_ok k -> existsb (beq k) (map fst l) = false -> r_key R w k = Throw EDeser) /\
  entries_ok R T w [] l /\
  r_arraySize R w = Throw EDeser /\
  (forall i, 0 <= i < 2^64 -> r_idx R w i = Throw EDeser).
Proof.
  cbn [shows].
  assert (forall seen, (fix go (seen : list bytes) (l : list (bytes * val)) : Prop :=
         match l with
         | [] => True
         | (k, x) :: l' =>
             (existsb (beq k) seen = false ->
              exists w', r_key R w k = Ok w' /\ shows R T w' x) /\
             go (k :: seen) l'
         end) seen l <-> entries_ok R T w seen l) as E.
  { induction l as [|[k x] l IH]; intros seen; cbn [entries_ok]; [tauto|]. rewrite IH. tauto. }
  rewrite E. tauto.
Qed.

(** A value that is neither array nor map. *)
Definition is_leaf (v : val) : Prop :=
  match v with VArr _ | VMap _ => False | _ => True end.
Lemma shows_leaf {V} (R : reader V) T w v :
  is_leaf v ->
  (shows R T w v <->
   observes R w (T v) /\
   r_arraySize R w = Throw EDeser /\
   (forall i, 0 <= i < 2^64 -> r_idx R w i = Throw EDeser) /\
   (forall k, r_key R w k = Throw EDeser) /\
   (forall k, r_contains R w k = Ok false) /\
   r_mapKeys R w = Throw EDeser).
Proof. destruct v; cbn [is_leaf shows]; tauto. Qed.

(** ** Call sequences *)
Scheme calls_mut := Induction for calls Sort Prop
  with calls_list_mut := Induction for calls_list Sort Prop
  with calls_entries_mut := Induction for calls_entries Sort Prop.
Combined Scheme calls_mutind from calls_mut, calls_list_mut, calls_entries_mut.

Lemma events_calls : forall v, calls v (events v).
Proof.
  induction v as [| | | | | | |l IH|l IH] using val_ind'; cbn [events]; try constructor.
  - induction IH as [|x l Hx Hl IHl]; cbn [flat_map]; constructor; auto.
  - induction IH as [|[k x] l Hx Hl IHl]; cbn [flat_map fst snd]; constructor; auto.
Qed.

Lemma calls_list_app l1 es1 l2 es2 :
  calls_list l1 es1 -> calls_list l2 es2 -> calls_list (l1 ++ l2) (es1 ++ es2).
Proof.
  induction 1 as [|x l es es' Hx Hl IH]; intros H; cbn [app]; [exact H|].
  rewrite <- app_assoc. constructor; auto.
Qed.
Lemma calls_list_one x es : calls x es -> calls_list [x] es.
Proof. intros H. rewrite <- (app_nil_r es). repeat constructor. exact H. Qed.
Lemma calls_entries_app l1 es1 l2 es2 :
  calls_entries l1 es1 -> calls_entries l2 es2 -> calls_entries (l1 ++ l2) (es1 ++ es2).
Proof.
  induction 1 as [|k x l es es' Hx Hl IH]; intros H; cbn [app]; [exact H|].
  rewrite <- app_assoc. constructor; auto.
Qed.
Lemma calls_entries_one k x es : calls x es -> calls_entries [(k, x)] (EKey k :: es).
Proof. intros H. rewrite <- (app_nil_r es). repeat constructor. exact H. Qed.

(** Closed instances of val_ok / bytes_ok / ev_ok. *)
Ltac okay := cbn [val_ok]; unfold is_i64, is_u64, i64_min, i64_max, u64_max, bytes_ok, is_byte;
  repeat first [exact I | split | apply Forall_nil | apply Forall_cons | lia | progress cbn ].

(** ** Narrow integer accessors *)
Lemma fits_s_spec iw z : is_i64 z ->
  bind (Ok z) (fun x => match iw with
     | I64 => Ok x
     | _ => bind (if negb ((x <? smin iw) || (smax iw <? x)) then Ok tt else Throw EDeser)
                 (fun _ => Ok (to_signed (ibits iw) x)) end)
  = or_throw (fits_s iw z).
Proof.
  unfold is_i64, i64_min, i64_max. intros H. cbn [bind]. unfold fits_s.
  destruct ((smin iw <=? z) && (z <=? smax iw)) eqn:E.
  - assert (to_signed (ibits iw) z = z) as ET.
    { apply to_signed_id; [destruct iw; cbn; lia|].
      unfold smin, smax in E. lia. }
    rewrite ET. replace (negb ((z <? smin iw) || (smax iw <? z))) with true by lia.
    destruct iw; reflexivity.
  - destruct iw; cbn [or_throw]; try (replace (negb _) with false by lia; reflexivity).
    exfalso. unfold smin, smax in E. cbn in E. lia.
Qed.
Lemma fits_u_spec iw z : is_u64 z ->
  bind (Ok z) (fun x => match iw with
     | I64 => Ok x
     | _ => bind (if negb (umax iw <? x) then Ok tt else Throw EDeser)
                 (fun _ => Ok (x mod 2 ^ ibits iw)) end)
  = or_throw (fits_u iw z).
Proof.
  unfold is_u64, u64_max. intros H. cbn [bind]. unfold fits_u.
  destruct ((0 <=? z) && (z <=? umax iw)) eqn:E.
  - assert (z mod 2 ^ ibits iw = z) as ET.
    { apply Z.mod_small. unfold umax in E. lia. }
    rewrite ET. replace (negb (umax iw <? z)) with true by lia.
    destruct iw; reflexivity.
  - destruct iw; cbn [or_throw]; try (replace (negb _) with false by lia; reflexivity).
    exfalso. unfold umax in E. cbn in E. lia.
Qed.
Lemma fits_s_none iw z : is_u64 z -> i64_max < z -> fits_s iw z = None.
Proof.
  unfold is_u64, u64_max, i64_max, fits_s. intros.
  replace (z <=? smax iw) with false; [now rewrite andb_false_r|].
  destruct iw; unfold smax; cbn; lia.
Qed.
Lemma fits_u_none iw z : z < 0 -> fits_u iw z = None.
Proof. intros. unfold fits_u. now replace (0 <=? z) with false by lia. Qed.


(** ** Introducing the element clauses position by position *)
Lemma elems_intro {V} (R : reader V) T w l :
  (forall l1 x l2, l = l1 ++ x :: l2 -> exists w', r_idx R w (zlen l1) = Ok w' /\ shows R T w' x) ->
  elems_ok R T w 0 l.
Proof.
  intros H. assert (G : forall l2 l1, l = l1 ++ l2 -> elems_ok R T w (zlen l1) l2); [|apply (G l []); reflexivity].
  induction l2 as [|x l2 IH]; intros l1 E; cbn [elems_ok]; [exact I|]. split; [now apply (H l1 x l2)|].
  specialize (IH (l1 ++ [x])). rewrite zlen_app in IH. apply IH. now rewrite <- app_assoc.
Qed.
Lemma existsb_rev {A} (f : A -> bool) l : existsb f (rev l) = existsb f l.
Proof.
  induction l as [|x l IH]; [reflexivity|]. cbn [rev existsb]. rewrite existsb_app, IH. cbn.
  destruct (f x), (existsb f l); reflexivity.
Qed.
Lemma entries_intro {V} (R : reader V) T w l :
  (forall l1 k x l2, l = l1 ++ (k, x) :: l2 -> existsb (beq k) (map fst l1) = false ->
     exists w', r_key R w k = Ok w' /\ shows R T w' x) ->
  entries_ok R T w [] l.
Proof.
  intros H. assert (G : forall l2 l1, l = l1 ++ l2 -> entries_ok R T w (rev (map fst l1)) l2); [|apply (G l []); reflexivity].
  induction l2 as [|[k x] l2 IH]; intros l1 E; cbn [entries_ok]; [exact I|]. split.
  - rewrite existsb_rev. now apply (H l1 k x l2).
  - specialize (IH (l1 ++ [(k, x)])). rewrite map_app, rev_app_distr in IH. apply IH. now rewrite <- app_assoc.
Qed.

Lemma every_arr P l : every P (VArr l) <-> P (VArr l) /\ Forall (every P) l.
Proof.
  cbn [every]. apply and_iff_compat_l. induction l as [|x l IH]; [split; constructor|].
  rewrite Forall_cons_iff, <- IH. tauto.
Qed.
Lemma every_map P l : every P (VMap l) <-> P (VMap l) /\ Forall (fun kx => every P (snd kx)) l.
Proof.
  cbn [every]. apply and_iff_compat_l. induction l as [|[k x] l IH]; [split; constructor|].
  rewrite Forall_cons_iff, <- IH. cbn. tauto.
Qed.

(** ** Arguments of the calls of a value *)
Lemma calls_ev_ok :
  (forall v es, calls v es -> val_ok v -> Forall (fun e => match e with EBeginArr n | EBeginMap n => 0 <= n | _ => True end) es -> Forall ev_ok es) /\
  (forall l es, calls_list l es -> Forall val_ok l -> Forall (fun e => match e with EBeginArr n | EBeginMap n => 0 <= n | _ => True end) es -> Forall ev_ok es) /\
  (forall l es, calls_entries l es -> Forall (fun kx => bytes_ok (fst kx) /\ val_ok (snd kx)) l -> Forall (fun e => match e with EBeginArr n | EBeginMap n => 0 <= n | _ => True end) es -> Forall ev_ok es).
Proof.
  apply calls_mutind; try (intros; constructor; [assumption || exact I|constructor]; fail).
  - intros n l es C IH V H. rewrite val_ok_arr in V. inversion H as [|x y H1 H2]; subst.
    apply Forall_app in H2. destruct H2 as [H2 _].
    constructor; [exact H1|]. apply Forall_app. split; [auto|repeat constructor].
  - intros n l es C IH V H. rewrite val_ok_map in V. inversion H as [|x y H1 H2]; subst.
    apply Forall_app in H2. destruct H2 as [H2 _].
    constructor; [exact H1|]. apply Forall_app. split; [auto|repeat constructor].
  - constructor.
  - intros x l es1 es2 C1 IH1 C2 IH2 V H. inversion V; subst. apply Forall_app in H.
    apply Forall_app. tauto.
  - constructor.
  - intros k x l es1 es2 C1 IH1 C2 IH2 V H. inversion V as [|y z [V1 V2] V3]; subst. cbn [fst snd] in *.
    inversion H; subst. constructor; [exact V1|]. rewrite Forall_app in *. tauto.
Qed.

Lemma events_hints_nonneg : forall v, Forall (fun e => match e with EBeginArr n | EBeginMap n => 0 <= n | _ => True end) (events v).
Proof.
  induction v as [| | | | | | |l IH|l IH] using val_ind'; cbn [events]; try (repeat constructor; fail).
  - constructor; [apply zlen_nonneg|]. apply Forall_app. split; [|repeat constructor].
    induction IH; cbn [flat_map]; [constructor|]. apply Forall_app. auto.
  - constructor; [apply zlen_nonneg|]. apply Forall_app. split; [|repeat constructor].
    induction IH; cbn [flat_map]; [constructor|]. cbn [app]. constructor; [exact I|]. apply Forall_app. auto.
Qed.

Lemma events_ev_ok v : val_ok v -> Forall ev_ok (events v).
Proof.
  intros V. apply (proj1 calls_ev_ok v); auto using events_calls, events_hints_nonneg.
Qed.

Lemma calls_val_ok :
  (forall v es, calls v es -> Forall ev_ok es -> val_ok v) /\
  (forall l es, calls_list l es -> Forall ev_ok es -> Forall val_ok l) /\
  (forall l es, calls_entries l es -> Forall ev_ok es -> Forall (fun kx => bytes_ok (fst kx) /\ val_ok (snd kx)) l).
Proof.
  apply calls_mutind; try (intros; exact I); try (intros ? H; inversion H; assumption).
  - intros n l es C IH H. inversion H as [|? ? _ H2]; subst. apply Forall_app in H2. apply val_ok_arr, IH. tauto.
  - intros n l es C IH H. inversion H as [|? ? _ H2]; subst. apply Forall_app in H2. apply val_ok_map, IH. tauto.
  - constructor.
  - intros x l es1 es2 C1 IH1 C2 IH2 H. apply Forall_app in H. constructor; [apply IH1|apply IH2]; tauto.
  - constructor.
  - intros k x l es1 es2 C1 IH1 C2 IH2 H. inversion H as [|? ? Hk H']; subst. apply Forall_app in H'. constructor; [split; [exact Hk|apply IH1]|apply IH2]; tauto.
Qed.
