(** Properties_Calls.v -- C81: arbitrary call sequences on the MessagePack and CBOR writers

    Full statement: if every call and finish() return, then the calls described exactly one value ([calls]), with the right
    lengths, and the buffer is its message.  Refuted for both writers (C81_misuse_unreported_refuted).  Proved: exactly which
    call sequences give a buffer that is one MessagePack object or CBOR item ([whole], CallSpec.v), and that the CBOR writer
    reports wrong lengths. *)

From Coq Require Import ZArith List Bool Lia.
From Verif Require Import Base BaseFacts Spec SpecFacts CallSpec CallFacts.
From Verif Require MsgModel MsgSpec CallMsg CborModel CborSpec CallCbor.
Import ListNotations.
Open Scope Z_scope.

(** The calls that describe a value make one thing. *)
Lemma events_whole : forall v, whole (drop_ends (events v)).
Proof.
  assert (L : forall l, Forall (fun v => whole (drop_ends (events v))) l -> wholes (zlen l) (drop_ends (flat_map events l))).
  { induction 1 as [|x l X F IH]; [constructor|]. cbn [flat_map]. rewrite drop_app, zlen_cons. replace (1 + zlen l) with (zlen l + 1) by lia. now constructor. }
  induction v as [| | | | | | |l IH|l IH] using val_ind'; try (constructor; reflexivity).
  - cbn [events]. change (EBeginArr (zlen l) :: flat_map events l ++ [EEndArr]) with ([EBeginArr (zlen l)] ++ flat_map events l ++ [EEndArr]).
    rewrite !drop_app. cbn [drop_ends filter is_end negb app]. rewrite app_nil_r. constructor. now apply L.
  - cbn [events]. set (f := fun kx : bytes * val => EKey (fst kx) :: events (snd kx)).
    change (EBeginMap (zlen l) :: flat_map f l ++ [EEndMap]) with ([EBeginMap (zlen l)] ++ flat_map f l ++ [EEndMap]).
    rewrite !drop_app. cbn [drop_ends filter is_end negb app]. rewrite app_nil_r. constructor.
    induction IH as [|kx l X F IHl]; [constructor|]. cbn [flat_map]. rewrite drop_app, zlen_cons.
    replace (2 * (1 + zlen l)) with (2 * zlen l + 1 + 1) by lia. unfold f at 1. change (EKey (fst kx) :: events (snd kx)) with ([EKey (fst kx)] ++ events (snd kx)).
    rewrite drop_app, <- app_assoc. constructor; [constructor; reflexivity|]. now constructor.
Qed.

(** MessagePack: no call throws, and the buffer is one object exactly if the announced lengths add up; end calls make no
    difference, keys count as strings.  Missing: lengths of 2^32 and more (C81_long_lengths_refuted). *)
Theorem C81_msgpack_calls_partial : forall es, let W := MsgModel.mp_writer in
  Forall (fun e => ev_ok e /\ sized (2^32) e) es ->
  exists s b, run W (w_init W) es = (s, Ok tt) /\ snd (w_finish W s) = Ok b /\
    ((exists x, MsgSpec.item_ok x /\ b = MsgSpec.enc x) <-> whole (drop_ends es)).
Proof. intros es W G. destruct (CallMsg.mp_calls es G) as (b & R & F & Q). exists b, b. auto. Qed.
Print Assumptions C81_msgpack_calls_partial.

(** CBOR: the same for the sequences it accepts.  Without any call that writes a value, finish() adds null. *)
Theorem C81_cbor_calls : forall es s b, let W := CborModel.cbor_writer in
  Forall (fun e => ev_ok e /\ sized (2^64) e) es -> run W (w_init W) es = (s, Ok tt) -> snd (w_finish W s) = Ok b ->
  let wrote := existsb (fun e => negb (is_end e) && match e with EKey _ => false | _ => true end) es in
  ((exists x, CborSpec.item_ok x /\ b = CborSpec.enc x) <-> whole (drop_ends (es ++ if wrote then [] else [ENull]))).
Proof.
  intros es s b W G R F wrote. pose proof (CallCbor.cbor_calls es s b G R F) as Q.
  replace wrote with (existsb CallCbor.writes es); [exact Q|]. unfold wrote. clear. induction es as [|e es IH]; [reflexivity|]. cbn [existsb]. rewrite IH. now destruct e.
Qed.
Print Assumptions C81_cbor_calls.

(** CBOR: calls that describe a value, but with wrong lengths, are not accepted. *)
Theorem C81_cbor_wrong_lengths_reported : forall v es s, let W := CborModel.cbor_writer in
  calls v es -> run W (w_init W) es = (s, Ok tt) -> es = events v.
Proof. intros v es s W. exact (CallCbor.cbor_counts v es s). Qed.
Print Assumptions C81_cbor_wrong_lengths_reported.

(** {"a": 1} without end_map(), and {1: 2}: one object, in both formats.  An array of two with one element: none. *)
Example C81_case :
  let es1 := [EBeginMap 1; EKey [97]; EInt 1] in let es2 := [EBeginMap 1; EInt 1; EInt 2; EEndMap] in let es3 := [EBeginArr 2; EInt 1] in
  Forall (fun e => ev_ok e /\ sized (2^32) e) es1 /\ Forall (fun e => ev_ok e /\ sized (2^32) e) es3 /\
  whole (drop_ends es1) /\ whole (drop_ends es2) /\ ~ whole (drop_ends es3) /\
  (let W := MsgModel.mp_writer in snd (w_finish W (fst (run W (w_init W) es1))) = Ok [129; 161; 97; 1]) /\
  (let W := CborModel.cbor_writer in exists s, run W (w_init W) es1 = (s, Ok tt) /\ snd (w_finish W s) = Ok [161; 97; 97; 1]) /\
  (let W := CborModel.cbor_writer in exists s, run W (w_init W) [EBeginArr 2; EInt 1; EEndArr] = (s, Throw EThirdParty)).
Proof.
  assert (G : forall e, In e [EBeginMap 1; EKey [97]; EInt 1; EBeginArr 2] -> ev_ok e /\ sized (2^32) e).
  { intros e [<-|[<-|[<-|[<-|[]]]]]; (split; cbn [ev_ok sized]; [|cbn; lia]); try (unfold is_i64, i64_min, i64_max; lia). apply Forall_cons; [unfold is_byte; lia|apply Forall_nil]. }
  cbv zeta. do 2 (split; [apply Forall_forall; intros e He; apply G; cbn in *; intuition|]).
  assert (P : forall k x, is_leaf k = true -> is_leaf x = true -> whole [EBeginMap 1; k; x]).
  { intros k x K X. constructor. change (2 * 1) with (0 + 1 + 1). change [k; x] with ([k] ++ [x] ++ []). repeat constructor; assumption. }
  split; [now apply P|]. split; [now apply P|]. split.
  { cbn [drop_ends filter is_end negb]. intros H. inversion H as [|n es W|]; subst. remember 2 as m eqn:M. remember [EInt 1] as l eqn:L.
    destruct W as [|n a b A B]; [discriminate M|]. assert (n = 1) as -> by lia.
    assert (b = []) as ->.
    { destruct A; cbn [app] in L; try discriminate L. injection L as _ L. exact L. }
    remember 1 as m1 eqn:M1. remember (@nil ev) as l1 eqn:L1. destruct B as [|n a1 b1 A1 B1]; [discriminate M1|]. destruct A1; discriminate L1. }
  split; [vm_compute; reflexivity|]. split; [eexists; split; vm_compute; reflexivity|]. eexists; vm_compute; reflexivity.
Qed.

(** What goes unreported.  MessagePack: [[1], 2] with wrong lengths gives the message of [[1, 2]].  Both: an unclosed array, two
    values, a key outside of a map, an array closed as a map. *)
Theorem C81_misuse_unreported_refuted :
  (let W := MsgModel.mp_writer in let es := [EBeginArr 1; EBeginArr 2; EInt 1; EEndArr; EInt 2; EEndArr] in
     calls (VArr [VArr [VInt 1]; VInt 2]) es /\ exists s, run W (w_init W) es = (s, Ok tt) /\
     snd (w_finish W s) = serialize W (VArr [VArr [VInt 1; VInt 2]])) /\
  (forall es, In es [[EBeginArr 2; EInt 1]; [EInt 1; EInt 2]; [EKey [97]; EInt 1]; [EBeginArr 1; EInt 1; EEndMap]] ->
     (forall v, ~ calls v es) /\
     (let W := MsgModel.mp_writer in exists s b, run W (w_init W) es = (s, Ok tt) /\ snd (w_finish W s) = Ok b) /\
     (let W := CborModel.cbor_writer in exists s b, run W (w_init W) es = (s, Ok tt) /\ snd (w_finish W s) = Ok b)).
Proof.
  split.
  - cbv zeta. split.
    + change [EBeginArr 1; EBeginArr 2; EInt 1; EEndArr; EInt 2; EEndArr] with (EBeginArr 1 :: ((EBeginArr 2 :: ([EInt 1] ++ []) ++ [EEndArr]) ++ [EInt 2] ++ []) ++ [EEndArr]).
      repeat constructor.
    + eexists. split; vm_compute; reflexivity.
  - intros es I. split.
    + intros v C. destruct I as [<-|[<-|[<-|[<-|[]]]]]; inversion C; subst;
        match goal with H : _ ++ [_] = _ |- _ => change [EInt 1] with ([] ++ [EInt 1]) in H; change [EInt 1; EEndMap] with ([EInt 1] ++ [EEndMap]) in H; apply app_inj_tail in H; destruct H as [_ H]; discriminate H | _ => idtac end.
    + destruct I as [<-|[<-|[<-|[<-|[]]]]]; (split; do 2 eexists; split; vm_compute; reflexivity).
Qed.
Print Assumptions C81_misuse_unreported_refuted.

(** begin_array(2^32) announces no elements in MessagePack. *)
Theorem C81_long_lengths_refuted : let W := MsgModel.mp_writer in let es := [EBeginArr (2^32)] in
  (exists s, run W (w_init W) es = (s, Ok tt) /\ snd (w_finish W s) = Ok (MsgSpec.enc (MsgSpec.MArr MsgSpec.F32 []))) /\ ~ whole (drop_ends es).
Proof.
  split; [eexists; split; vm_compute; reflexivity|]. cbn [drop_ends filter is_end negb]. intros H.
  assert (V : wholes (2^32) []) by (inversion H; auto; discriminate).
  remember (2^32) as m eqn:M. remember (@nil ev) as l eqn:L. destruct V as [|n a b A B]; [discriminate M|]. destruct A; discriminate L.
Qed.
Print Assumptions C81_long_lengths_refuted.
