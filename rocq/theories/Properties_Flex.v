(** Properties_Flex.v -- C32, C33, C55..C57: FlexBuffers.

    [dbg] is the build without NDEBUG; [srt] is any function that sorts by key.  Messages are trees (see
    FlexModel.v).  64 steps are enough for the binary search. *)

From Coq Require Import ZArith List Bool Lia ZifyBool Permutation Sorted.
From Verif Require Import Base BaseFacts Spec SpecFacts FlexModel FlexSpec FlexFacts.
Import ListNotations.
Open Scope Z_scope.

Definition fdemo : val :=
  VMap [ ([98], VArr [VNull; VBool true; VUInt (2^64 - 1); VInt (-300); VBlob [0; 255]]); ([97], VInt (-5));
         ([97; 98], VStr [195; 169]); ([], VDbl (2^62)); ([255], VMap []) ].

(** ** C32: lookups *)
Theorem C32_flex_lookup : forall fuel l k, ordered (map fst l) -> zlen l < 2^63 -> (64 <= fuel)%nat ->
  let R := flex_reader fuel in
  (r_contains R (XMap l) k = Ok true <-> In k (map fst l)) /\
  (r_contains R (XMap l) k = Ok false <-> ~ In k (map fst l)) /\
  (forall x, r_key R (XMap l) k = Ok x <-> In (k, x) l) /\
  (r_key R (XMap l) k = Throw EDeser <-> ~ In k (map fst l)).
Proof.
  intros fuel l k S L F R. destruct (key_lookup fuel l k S L F) as (C & N & Y). cbn [R flex_reader r_contains r_key].
  pose proof (existsb_in k (map fst l)) as E. rewrite C. destruct (existsb (beq k) (map fst l)) eqn:B.
  - assert (I : In k (map fst l)) by now apply E. assert (X : exists x, In (k, x) l) by (apply in_map_iff in I; destruct I as ([k' x] & <- & I); now exists x).
    destruct X as (x & X). specialize (Y x X) as Y'. split; [easy|]. split; [easy|]. split.
    + intros y. split; [|apply Y]. rewrite Y'. intros Q. injection Q as <-. exact X.
    + rewrite Y'. split; [discriminate|]. now intros ?.
  - assert (I : ~ In k (map fst l)) by (intros I; apply E in I; discriminate). rewrite (N eq_refl). split; [now split; [discriminate|]|]. split; [easy|]. split; [|easy].
    intros y. split; [discriminate|]. intros Q. exfalso. apply I, in_map_iff. now exists (k, y).
Qed.
Print Assumptions C32_flex_lookup.
Example C32_case : ordered (map fst [([], XNull); ([97], XInt 1); ([97; 98], XInt 2); ([98], XInt 3); ([255], XInt 4)]) /\
  r_key (flex_reader 64) (XMap [([], XNull); ([97], XInt 1); ([97; 98], XInt 2); ([98], XInt 3); ([255], XInt 4)]) [97; 98] = Ok (XInt 2) /\
  r_contains (flex_reader 64) (XMap [([], XNull); ([97], XInt 1); ([97; 98], XInt 2); ([98], XInt 3); ([255], XInt 4)]) [97; 97] = Ok false.
Proof. split; [repeat constructor|split; vm_compute; reflexivity]. Qed.

(** ** C33: round trip, for every sequence of calls that describes the value (any size hints) *)
Theorem C33_flex_round_trip : forall dbg srt fuel v es, sorts srt -> flex_ok v -> (64 <= fuel)%nat -> calls v es ->
  exists s b, run (flex_writer dbg srt) (w_init (flex_writer dbg srt)) es = (s, Ok tt) /\ snd (w_finish (flex_writer dbg srt) s) = Ok b /\
    shows (flex_reader fuel) flex_table (flex_open b) (in_key_order v).
Proof. exact flex_round_trip. Qed.
Print Assumptions C33_flex_round_trip.
Theorem C33_flex_serialize : forall dbg srt fuel v, sorts srt -> flex_ok v -> (64 <= fuel)%nat ->
  exists b, serialize (flex_writer dbg srt) v = Ok b /\ shows (flex_reader fuel) flex_table (flex_open b) (in_key_order v).
Proof.
  intros dbg srt fuel v S OK F. destruct (flex_round_trip dbg srt fuel v _ S OK F (events_calls v)) as (s & b & R & FI & SH). exists b. unfold serialize. now rewrite R.
Qed.
Print Assumptions C33_flex_serialize.
(** The entries are the same ones, in increasing key order. *)
Theorem C33_in_key_order : forall l, flex_ok (VMap l) ->
  exists l', in_key_order (VMap l) = VMap l' /\ ordered (map fst l') /\ Permutation l' (map (fun kx => (fst kx, in_key_order (snd kx))) l).
Proof.
  intros l OK. eexists. split; [reflexivity|]. split; [|apply by_key_perm]. exact (proj1 (proj1 (proj1 (every_map _ _) (key_order_tidy _ OK)))).
Qed.
Print Assumptions C33_in_key_order.
Example C33_case : sorts (@by_key fx) /\ flex_ok fdemo /\ exists l, in_key_order fdemo = VMap (([], VDbl (2^62)) :: ([97], VInt (-5)) :: l) /\
  serialize (flex_writer true (@by_key fx)) fdemo = Ok (Some (emb (in_key_order fdemo))).
Proof.
  split; [apply by_key_sorts|]. split.
  - cbn. repeat split; repeat constructor; cbn; intuition discriminate.
  - eexists. split; vm_compute; reflexivity.
Qed.
(** The condition on keys is needed: {"a":1, "a":2} reads back as 2 under "a" (every other protocol: 1),
    and the keys "a\0b" and "a\0c" become one. *)
Theorem C33_flex_duplicate_keys_refuted :
  (exists w, serialize (flex_writer true (@by_key fx)) (VMap [([97], VInt 1); ([97], VInt 2)]) = Ok (Some w) /\ r_key (flex_reader 64) w [97] = Ok (XInt 2)) /\
  (exists w, serialize (flex_writer true (@by_key fx)) (VMap [([97; 0; 98], VInt 1); ([97; 0; 99], VInt 2)]) = Ok (Some w) /\
     r_mapKeys (flex_reader 64) w = Ok [[97]; [97]] /\ r_contains (flex_reader 64) w [97; 0; 98] = Ok false).
Proof. split; eexists; repeat split; vm_compute; reflexivity. Qed.
Print Assumptions C33_flex_duplicate_keys_refuted.

(** ** C55: integers

    Full statement: every accessor returns the stored integer or throws.  Proved when it fits the accessor,
    for the 64-bit accessors, and for accessors of the other signedness (which throw); refuted otherwise. *)
Theorem C55_flex_ints_partial : forall fuel iw z, let R := flex_reader fuel in
  (smin iw <= z <= smax iw -> r_asInt R iw (XInt z) = Ok z) /\
  (0 <= z <= umax iw -> r_asUInt R iw (XUInt z) = Ok z) /\
  (is_i64 z -> r_asInt R I64 (XInt z) = Ok z) /\ (is_u64 z -> r_asUInt R I64 (XUInt z) = Ok z) /\
  r_asInt R iw (XUInt z) = Throw EDeser /\ r_asUInt R iw (XInt z) = Throw EDeser.
Proof.
  intros fuel iw z R. cbn [R flex_reader r_asInt r_asUInt x_asInt x_asUInt]. unfold smin, smax, umax. repeat split.
  - intros H. f_equal. apply to_signed_id; [destruct iw; cbn; lia|clear - H; lia].
  - intros H. f_equal. apply Z.mod_small. lia.
  - intros H. f_equal. apply to_signed_id; [cbn; lia|unfold is_i64, i64_min, i64_max in H; cbn [ibits]; replace (64 - 1) with 63 by lia; lia].
  - intros H. f_equal. apply Z.mod_small. unfold is_u64, u64_max in H; cbn [ibits]; lia.
Qed.
Print Assumptions C55_flex_ints_partial.
Example C55_case : smin I16 <= -300 <= smax I16 /\ 0 <= 65535 <= umax I16.
Proof. cbn. lia. Qed.
Theorem C55_flex_ints_refuted : forall dbg srt fuel,
  (exists w, serialize (flex_writer dbg srt) (VInt 300) = Ok (Some w) /\ r_asInt (flex_reader fuel) I8 w = Ok 44) /\
  (exists w, serialize (flex_writer dbg srt) (VUInt (2^32)) = Ok (Some w) /\ r_asUInt (flex_reader fuel) I32 w = Ok 0).
Proof. intros. split; eexists; split; reflexivity. Qed.
Print Assumptions C55_flex_ints_refuted.

(** ** C56: writer call sequences

    Full statement: misuse is reported by an exception, everything else yields the described value.
    Proved: calls that describe a value always succeed (C33); mismatched ends throw logic_error and
    change nothing; in builds without NDEBUG no call sequence is undefined (misuse of a map, an empty or
    a double root abort).  Refuted: unterminated containers, keys outside maps and keys as values are
    accepted in every build; with NDEBUG so is a dangling key, and values without keys are undefined. *)
Lemma f_pairs_debug l : f_pairs true l <> UB.
Proof.
  cut (forall n l, (List.length l <= n)%nat -> f_pairs true l <> UB); [intros H; eapply H; constructor|]. clear l. induction n as [|n IH]; intros l L.
  - destruct l; [discriminate|cbn in L; lia].
  - destruct l as [|x [|y l]]; [discriminate|destruct x; discriminate|]. cbn [f_pairs]. destruct x; try discriminate. assert (L' : (List.length l <= n)%nat) by (cbn in L; lia).
    specialize (IH l L'). destruct (f_pairs true l); cbn [bind]; congruence.
Qed.
Lemma f_step_debug srt s e : snd (f_step true srt s e) <> UB.
Proof.
  destruct e; cbn [f_step]; unfold f_push, f_key, f_begin, f_end_array, f_end_map; try discriminate.
  - destruct (fs_st s) as [|[[] ?] ?]; discriminate.
  - destruct (fs_st s) as [|[[] ?] ?]; try discriminate. pose proof (f_pairs_debug (skipn (Z.to_nat z) (fs_stack s))). destruct (f_pairs _ _); cbn [snd]; congruence.
Qed.
Lemma f_run_debug srt es : forall s, snd (run (flex_writer true srt) s es) <> UB.
Proof.
  induction es as [|e es IH]; intros s; [discriminate|]. rewrite frun_one. pose proof (f_step_debug srt s e). destruct (f_step true srt s e) as [s' []]; cbn [snd] in *; try congruence; apply IH.
Qed.
Theorem C56_flex_misuse_partial :
  (forall srt es, snd (run (flex_writer true srt) (w_init (flex_writer true srt)) es) <> UB /\
     snd (w_finish (flex_writer true srt) (fst (run (flex_writer true srt) (w_init (flex_writer true srt)) es))) <> UB) /\
  (forall dbg srt s, ~ (exists st h, fs_st s = (false, h) :: st) -> w_step (flex_writer dbg srt) s EEndArr = (s, Throw ELogic)) /\
  (forall dbg srt s, ~ (exists st h, fs_st s = (true, h) :: st) -> w_step (flex_writer dbg srt) s EEndMap = (s, Throw ELogic)).
Proof.
  split; [|split].
  - intros srt es. split; [apply f_run_debug|]. set (s := fst _). cbn [flex_writer w_finish]. unfold f_finish. destruct (fs_finished s); [discriminate|]. cbn [snd].
    destruct (if fs_wrote s then _ else _) as [|x [|y l]]; discriminate.
  - intros dbg srt s N. cbn [flex_writer w_step f_step]. unfold f_end_array. destruct (fs_st s) as [|[[] h] st] eqn:E; try reflexivity. exfalso. apply N. eauto.
  - intros dbg srt s N. cbn [flex_writer w_step f_step]. unfold f_end_map. destruct (fs_st s) as [|[[] h] st] eqn:E; try reflexivity. exfalso. apply N. eauto.
Qed.
Print Assumptions C56_flex_misuse_partial.
Example C56_case : let W := flex_writer true (@by_key fx) in
  snd (run W (w_init W) [EBeginMap 1; ENull; EEndMap]) = Throw ETerminate /\ snd (run W (w_init W) [EBeginMap 0; EEndArr]) = Throw ELogic.
Proof. split; reflexivity. Qed.
Theorem C56_flex_misuse_refuted :
  (* begin_array(1), null(), finish(): the message is null *)
  (forall dbg srt, let W := flex_writer dbg srt in exists s, run W (w_init W) [EBeginArr 1; ENull] = (s, Ok tt) /\ snd (w_finish W s) = Ok (Some XNull)) /\
  (* begin_array(1), key("a"), end_array(): an array holding a key, which answers no type question *)
  (forall dbg srt, let W := flex_writer dbg srt in exists s, run W (w_init W) [EBeginArr 1; EKey [97]; EEndArr] = (s, Ok tt) /\ snd (w_finish W s) = Ok (Some (XVec [XKey [97]]))) /\
  (* with NDEBUG: begin_map(1), key("a"), end_map(): an empty map *)
  (let W := flex_writer false (@by_key fx) in exists s, run W (w_init W) [EBeginMap 1; EKey [97]; EEndMap] = (s, Ok tt) /\ snd (w_finish W s) = Ok (Some (XMap []))) /\
  (* with NDEBUG: two roots -- the second is dropped *)
  (forall srt, let W := flex_writer false srt in exists s, run W (w_init W) [EInt 1; EInt 2] = (s, Ok tt) /\ snd (w_finish W s) = Ok (Some (XInt 1))) /\
  (* with NDEBUG: begin_map(1), null(), null(), end_map(): undefined *)
  (forall srt, let W := flex_writer false srt in snd (run W (w_init W) [EBeginMap 1; ENull; ENull; EEndMap]) = UB).
Proof. repeat split; intros; try (eexists; split; reflexivity); reflexivity. Qed.
Print Assumptions C56_flex_misuse_refuted.

(** ** C57: arrays in messages from other FlexBuffers writers

    Full statement: a view that is an array shows all its elements.  True of untyped vectors; typed vectors
    (which the standard FlexBuffers writers produce for arrays of numbers) are arrays of size 0. *)
Theorem C57_flex_arrays_partial : forall fuel l, let R := flex_reader fuel in
  r_isArray R (XVec l) = Ok true /\ r_arraySize R (XVec l) = Ok (zlen l) /\
  (forall i x, 0 <= i -> (r_idx R (XVec l) i = Ok x <-> get l i = Some x)) /\
  (forall i, zlen l <= i -> r_idx R (XVec l) i = Throw EDeser).
Proof.
  intros fuel l R. split; [reflexivity|]. split; [reflexivity|]. cbn [R flex_reader r_idx]. unfold x_idx. cbn [x_isArray require bind AsVector]. split.
  - intros i x I. destruct (i <? zlen l) eqn:E; cbn [require bind].
    + unfold vec_at. destruct (get_in l i ltac:(lia)) as (y & Y). rewrite Y. split; congruence.
    + split; [discriminate|]. intros G. apply get_some in G. lia.
  - intros i I. replace (i <? zlen l) with false by lia. reflexivity.
Qed.
Print Assumptions C57_flex_arrays_partial.
Example C57_case : r_idx (flex_reader 0) (XVec [XNull; XInt 7]) 1 = Ok (XInt 7).
Proof. reflexivity. Qed.
Theorem C57_flex_arrays_refuted : forall fuel, let R := flex_reader fuel in
  r_isArray R (XTyped [XInt 1; XInt 2]) = Ok true /\ r_arraySize R (XTyped [XInt 1; XInt 2]) = Ok 0 /\ r_idx R (XTyped [XInt 1; XInt 2]) 0 = Throw EDeser.
Proof. repeat split. Qed.
Print Assumptions C57_flex_arrays_refuted.
