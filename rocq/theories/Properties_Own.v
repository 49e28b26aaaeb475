(** Properties_Own.v -- C50: copies and moves of deserializers; C51: lifetimes of string arguments; C61: lifetimes of builder
    arguments; C62: what is released when serialization throws. *)

From Coq Require Import ZArith List Bool Lia.
From Verif Require Import Base BaseFacts Spec SpecFacts OwnModel OwnSpec OwnFacts.
From Verif Require ZeraModel MsgModel CborModel FlexModel.
From Verif Require Import JsonModel JsonWrite LifeModel LifeSpec LifeFacts LifeJson LifeBuild.
Import ListNotations.
Open Scope Z_scope.

(** ** C50: owning deserializers can be copied and moved

    Full statement: after copying or moving an owning deserializer the new object stays valid whatever happens to the source.

    Part proved: moving.  In every history, for both designs, a reader that was constructed as an owner or moved (repeatedly)
    from one reads exactly its message. *)
Theorem C50_moved_readers_partial : forall c h n d, track c h n = Some (Some d) ->
  exists w, rsteps c rworld0 h = Ok w /\ rread w n = Ok d.
Proof. exact owner_reads. Qed.
Print Assumptions C50_moved_readers_partial.
Example C50_moved_case :
  track CVec [RNew 0 [1; 2; 3] [0]; RNew 1 [4] []; RMove 2 0; RMoveAssign 1 2; RDestroy 0; RDestroy 2] 1%nat = Some (Some [1; 2; 3]).
Proof. reflexivity. Qed.

(** No history frees anything twice, every allocated block has exactly one owner, and a variable exists exactly as the history says;
    so once all variables are gone nothing is left. *)
Theorem C50_one_owner : forall c h, exists w, rsteps c rworld0 h = Ok w /\
  (forall b, allocated w b <-> exists n, owns w n b) /\
  (forall n m b, owns w n b -> owns w m b -> n = m) /\
  (forall n, objs w n = None <-> track c h n = None).
Proof. exact owned_once. Qed.
Print Assumptions C50_one_owner.
Theorem C50_nothing_leaks : forall c h, (forall n, track c h n = None) ->
  exists w, rsteps c rworld0 h = Ok w /\ forall b, ~ allocated w b.
Proof.
  intros c h H. destruct (owned_once c h) as (w & E & A & _ & T). exists w. split; [exact E|].
  intros b K. apply A in K. destruct K as (n & o & l & H1 & _). specialize (T n). rewrite (proj2 T (H n)) in H1. discriminate.
Qed.
Print Assumptions C50_nothing_leaks.
Example C50_leak_case : forall n,
  track CVec [RNew 0 [1; 2] []; RCopy 1 0; RNew 2 [7] [0; 0; 0]; RCopyAssign 2 1; RMoveAssign 0 0; RDestroy 0; RDestroy 2; RDestroy 1] n = None.
Proof. intro n. cbn. unfold upd. destruct n as [|[|[|n]]]; reflexivity. Qed.

(** A reader can be used exactly as long as the bytes it refers to have an owner (or are the caller's and not freed). *)
Theorem C50_dangling_iff : forall c h w n, rsteps c rworld0 h = Ok w -> objs w n <> None ->
  (rread w n = UB <-> exists b, reads_from w n b /\ (forall m, ~ owns w m b) /\ (forall d, ~ callers w b d)).
Proof. exact dangling_iff. Qed.
Print Assumptions C50_dangling_iff.
Example C50_dangling_case : exists w, rsteps CVec rworld0 [RView 0 [5; 6]; RSub 1 0 1 1] = Ok w /\ objs w 1%nat <> None /\ rread w 1 = Ok [6].
Proof. eexists. split; [reflexivity|]. split; [discriminate|reflexivity]. Qed.

(** The bytes a non-owning reader was given are never written or freed by the library. *)
Theorem C50_callers_bytes_kept : forall c h h' b d w w', rsteps c rworld0 h = Ok w -> callers w b d -> ~ In (RFree b) h' ->
  rsteps c w h' = Ok w' -> callers w' b d.
Proof. exact caller_memory_kept. Qed.
Print Assumptions C50_callers_bytes_kept.
Example C50_callers_case : exists w, rsteps CVec rworld0 [RNew 0 [1] []; RView 1 [5; 6]] = Ok w /\ callers w 1 [5; 6] /\
  ~ In (RFree 1) [RCopyAssign 0 1; RMoveAssign 1 0; RDestroy 1; RDestroy 0].
Proof. eexists. split; [reflexivity|]. split; [reflexivity|]. cbn. intuition discriminate. Qed.

(** Copying does not: the copy has its own bytes but reads the source's.  True of every non-empty message. *)
Theorem C50_copy_refuted : forall d spare, d <> [] ->
  exists w, rsteps CVec rworld0 [RNew 0 d spare; RCopy 1 0; RDestroy 0] = Ok w /\ (exists b, owns w 1 b) /\ rread w 1 = UB.
Proof.
  intros [|z d] spare H; [congruence|]. clear H.
  assert (S0 : slice ((z :: d) ++ spare) 0 (zlen (z :: d)) = z :: d) by apply slice_all. cbn [app] in S0.
  cbn [rsteps rstep make alloc objs rworld0 put_obj upd Nat.eqb bind copy_obj content own heap next ref app].
  rewrite S0. cbn [rsteps rstep make alloc objs rworld0 put_obj upd Nat.eqb bind copy_obj content own heap next ref free_own free].
  eexists. split; [reflexivity|]. split.
  - exists 1%nat, (mkObj (Some (1%nat, zlen (z :: d))) (Some (0%nat, 0, zlen (z :: d)))), (zlen (z :: d)). split; reflexivity.
  - reflexivity.
Qed.
Print Assumptions C50_copy_refuted.
Example C50_copy_case : exists w, rsteps CVec rworld0 [RNew 0 [1; 2] []; RCopy 1 0] = Ok w /\ rread w 1 = Ok [1; 2].
Proof. eexists. split; reflexivity. Qed.

(** Nor does replacing a reader by one of its own elements, [r = r["key"]] (MessagePack, CBOR, JSON), although nothing is copied. *)
Theorem C50_own_element_refuted : forall c d spare off len, d <> [] ->
  exists w, rsteps c rworld0 [RNew 0 d spare; RSub 1 0 off len; RMoveAssign 0 1] = Ok w /\ objs w 0%nat <> None /\ rread w 0 = UB.
Proof.
  intros c [|z d] spare off len H; [congruence|]. clear H. destruct c;
  (eexists; split; [reflexivity|]; split; [discriminate|reflexivity]).
Qed.
Print Assumptions C50_own_element_refuted.
Example C50_own_element_case : exists w, rsteps CJson rworld0 [RNew 0 [123; 125] []; RSub 1 0 0 1] = Ok w /\ rread w 1 = Ok [123].
Proof. eexists. split; reflexivity. Qed.

(** Nor self-move-assignment of the vector-based readers (JSON checks for it). *)
Theorem C50_self_move_refuted : forall d spare, d <> [] ->
  (exists w, rsteps CVec rworld0 [RNew 0 d spare; RMoveAssign 0 0] = Ok w /\ objs w 0%nat <> None /\ rread w 0 = UB) /\
  (exists w, rsteps CJson rworld0 [RNew 0 d spare; RMoveAssign 0 0] = Ok w /\ rread w 0 = Ok d).
Proof.
  intros d spare H. split.
  - destruct d as [|z d]; [congruence|]. eexists. split; [reflexivity|]. split; [discriminate|reflexivity].
  - apply owner_reads. reflexivity.
Qed.
Print Assumptions C50_self_move_refuted.

(** ** C51: serialized output depends only on the values passed

    Zera, MessagePack, CBOR and FlexBuffers: whatever the caller does to its strings between the calls and finish(), the output is that of the
    calls with their arguments as they were when the calls were made. *)
Theorem C51_copying_protocols : forall m h, live_args m h ->
  copying_output ZeraModel.zera_writer m h = output ZeraModel.zera_writer (heard m h) /\
  copying_output MsgModel.mp_writer m h = output MsgModel.mp_writer (heard m h) /\
  copying_output CborModel.cbor_writer m h = output CborModel.cbor_writer (heard m h) /\
  forall dbg srt, copying_output (FlexModel.flex_writer dbg srt) m h = output (FlexModel.flex_writer dbg srt) (heard m h).
Proof. intros m h L. repeat split; intros; now apply copying_heard. Qed.
Print Assumptions C51_copying_protocols.

(** JSON, full statement: the same.  What it really does: the strings are read by finish(), so the output is that of the calls with the
    strings as they are at the end, and UB if one of them is gone. *)
Theorem C51_json_reads_at_finish : forall dbg m h, memory_ok m -> Forall hop_ok h -> no_null h -> live_args m h ->
  let mf := at_end m h in
  (Forall (fun a => mf a <> None) (strs h) -> json_output dbg m h = output (json_writer dbg) (heard_late mf m h)) /\
  (all_return (json_writer dbg) (heard_late mf m h) -> Exists (fun a => mf a = None) (strs h) -> json_output dbg m h = UB).
Proof. exact json_late. Qed.
Print Assumptions C51_json_reads_at_finish.

(** So the full statement holds for callers that leave their strings alone until finish(). *)
Theorem C51_json_partial : forall dbg m h, memory_ok m -> Forall hop_ok h -> no_null h -> live_args m h -> kept m h ->
  json_output dbg m h = output (json_writer dbg) (heard m h).
Proof.
  intros dbg m h M H N L K. destruct (json_late dbg m h M H N L) as [E _].
  rewrite E; [|now apply (kept_live (at_end m h) h m)]. f_equal. now apply kept_late.
Qed.
Print Assumptions C51_json_partial.

Definition mem1 : memory := fun a => match a with O => Some [97] | 1%nat => Some [98] | _ => None end.
Definition hist1 : list hop := [HCall (EBeginMap 2); HKey 0; HSet 0 (Some [99; 99]); HStr 1; HKey 0; HBin 0; HSet 0 None; HCall EEndMap].
Lemma mem1_ok : memory_ok mem1.
Proof. intros [|[|a]] d H; try discriminate; injection H as <-; okay. Qed.
Example C51_case : memory_ok mem1 /\ Forall hop_ok hist1 /\ no_null hist1 /\ live_args mem1 hist1 /\ kept mem1 hist1 /\
  json_output false mem1 hist1 = Ok (VMap [([97], VStr [98]); ([99; 99], VArr [VStr [126; 98]; VStr [89; 50; 77; 61]; VStr [98; 97; 115; 101; 54; 52]])]).
Proof.
  split; [exact mem1_ok|]. split; [repeat constructor; unfold is_byte; cbn; lia|]. split; [unfold no_null; cbn; intuition discriminate|].
  split; [repeat split; cbn; discriminate|]. split; [repeat split|vm_compute; reflexivity].
Qed.

(** It fails when a string is changed before finish() (the output has the new contents), when it is freed (UB), and for a
    string_view with a null pointer, which the other protocols write as the empty string (std::bad_alloc). *)
Theorem C51_json_refuted : exists m h1 h2 h3,
  live_args m h1 /\ output (json_writer true) (heard m h1) = Ok (VStr [98]) /\ json_output true m h1 = Ok (VStr [99]) /\
  live_args m h2 /\ output (json_writer true) (heard m h2) = Ok (VStr [98]) /\ json_output true m h2 = UB /\
  live_args m h3 /\ output (json_writer true) (heard m h3) = Ok (VStr []) /\ json_output true m h3 = Throw EBadAlloc /\
  copying_output MsgModel.mp_writer m h3 = Ok [160].
Proof.
  exists mem1, [HStr 1; HSet 1 (Some [99])], [HStr 1; HSet 1 None], [HNull].
  repeat split; try (vm_compute; reflexivity); try discriminate.
Qed.
Print Assumptions C51_json_refuted.

(** ** C62: serialization releases what it allocated

    Full statement: when serialize<JSON> is over, normally or by an exception, nothing it allocated is left except the returned
    buffer.  It holds exactly for the call sequences that do not throw; a throwing call leaks the document. *)
Theorem C62_json_released_iff_partial : forall dbg es, json_leaked dbg es = 0 <-> (all_return (json_writer dbg) es).
Proof.
  intros dbg es. rewrite leak_iff. unfold all_return. cbn [json_writer w_init].
  change (mkWriter js_init (j_step dbg) j_finish) with (json_writer dbg).
  destruct (snd (run (json_writer dbg) js_init es)) as [[]| | |]; split; congruence.
Qed.
Print Assumptions C62_json_released_iff_partial.
Example C62_case : all_return (json_writer true) (events (VMap [([97], VArr [VNull; VInt 5])])).
Proof. reflexivity. Qed.
Theorem C62_json_leak_refuted : exists v, val_ok v /\ serialize (json_writer true) v = Throw ELogic /\ json_leaked true (events v) = 1.
Proof. exists (VMap [([], VInt 1)]). split; [okay|]. split; vm_compute; reflexivity. Qed.
Print Assumptions C62_json_leak_refuted.

(** ** C61: builders and the lifetime of their arguments

    A variable that holds a value serializes as that value, after any program. *)
Theorem C61_variables : forall p x v, tell p x = Some (Some v) -> bserialize (bsteps bworld0 p) (XVar x) = Some (Ok v).
Proof.
  intros p x v T. apply told_now in T. unfold now in T.
  destruct (bserialize (bsteps bworld0 p) (XVar x)) as [[u| | |]|]; congruence.
Qed.
Print Assumptions C61_variables.

(** A builder expression passed to serialize directly, with temporaries and variables nested in any way, writes the value it denotes. *)
Theorem C61_direct : forall p e v, means (now (bsteps bworld0 p)) e = Some v -> bserialize (bsteps bworld0 p) e = Some (Ok v).
Proof. intros p e v M. apply serialize_means; [|exact M]. apply bsteps_inv. exact binv0. Qed.
Print Assumptions C61_direct.
Definition prog1 : list bstm := [BLet 0 (XTmp (VInt 4)); BLet 1 (XTmp (VStr [120])); BSet 0 (VInt 5); BLet 2 (XVar 0); BDrop 2].
Example C61_direct_case : tell prog1 0%nat = Some (Some (VInt 5)) /\
  means (now (bsteps bworld0 prog1)) (XMap [([97], XVec [XVar 0; XTmp VNull; XVec [XVar 1]])]) = Some (VMap [([97], VArr [VInt 5; VNull; VArr [VStr [120]]])]).
Proof. split; vm_compute; reflexivity. Qed.

(** Full statement for a builder stored in a variable: serializing it later writes the value it denoted when it was made.

    Part proved: if every argument is a variable that lives on, it writes the value it denotes at the time of serialization. *)
Theorem C61_stored_partial : forall p q b e v, tell p b = None -> is_builder e = true -> declared (tell p) e = true ->
  forallb is_var (args e) = true -> ~ In (BDrop b) q -> (forall y, In (XVar y) (args e) -> ~ In (BDrop y) q) ->
  means (now (bsteps bworld0 (p ++ BLet b e :: q))) e = Some v ->
  bserialize (bsteps bworld0 (p ++ BLet b e :: q)) (XVar b) = Some (Ok v).
Proof.
  intros p q b e v Tb Bu De AV ND NA. rewrite !bsteps_app. pose proof (bsteps_inv p bworld0 binv0) as B. pose proof (knows_all p) as K.
  apply stored_shows; auto.
  - now apply (knows_var _ _ b K).
  - now apply (declared_iff _ _ e K).
Qed.
Print Assumptions C61_stored_partial.
Example C61_stored_case :
  let e := XMap [([97], XVar 0); ([98], XVar 1)] in let q := [BSet 0 (VInt 6); BLet 3 (XVec [XTmp VNull]); BDrop 3] in
  tell prog1 4%nat = None /\ is_builder e = true /\ declared (tell prog1) e = true /\ forallb is_var (args e) = true /\ ~ In (BDrop 4) q /\
  (forall y, In (XVar y) (args e) -> ~ In (BDrop y) q) /\
  means (now (bsteps bworld0 (prog1 ++ BLet 4 e :: q))) e = Some (VMap [([97], VInt 6); ([98], VStr [120])]).
Proof.
  cbv zeta. repeat split; try (vm_compute; reflexivity).
  - cbn. intuition discriminate.
  - cbn. intros y [H|[H|[]]]; injection H as <-; intuition discriminate.
Qed.

(** It is UB as soon as one argument was a temporary (a nested builder is one), or a variable that has gone out of scope. *)
Theorem C61_stored_refuted : forall p q b e x, tell p b = None -> is_builder e = true -> declared (tell p) e = true -> ~ In (BDrop b) q ->
  In x (args e) -> match x with XVar y => In (BDrop y) q | _ => True end ->
  bserialize (bsteps bworld0 (p ++ BLet b e :: q)) (XVar b) = Some UB.
Proof.
  intros p q b e x Tb Bu De ND Ix Hx. rewrite bsteps_app. pose proof (bsteps_inv p bworld0 binv0) as B. pose proof (knows_all p) as K.
  apply (stored_dangles _ b e q x); auto.
  - now apply (knows_var _ _ b K).
  - now apply (declared_iff _ _ e K).
Qed.
Print Assumptions C61_stored_refuted.
Example C61_stored_refuted_case : let e := XVec [XVar 0; XTmp (VInt 42)] in
  tell prog1 4%nat = None /\ declared (tell prog1) e = true /\ In (XTmp (VInt 42)) (args e) /\
  bserialize (bsteps bworld0 prog1) e = Some (Ok (VArr [VInt 5; VInt 42])) /\
  bserialize (bsteps bworld0 (prog1 ++ [BLet 4 e])) (XVar 4) = Some UB.
Proof. cbv zeta. repeat split; try (vm_compute; reflexivity). cbn. auto. Qed.
(** And a change of a named argument is seen. *)
Theorem C61_later_change_refuted : exists p b e v1 v2 x u, tell p b = None /\ is_builder e = true /\ forallb is_var (args e) = true /\ v1 <> v2 /\
  bserialize (bsteps bworld0 (p ++ [BLet b e])) (XVar b) = Some (Ok v1) /\
  bserialize (bsteps bworld0 (p ++ [BLet b e; BSet x u])) (XVar b) = Some (Ok v2).
Proof.
  exists [BLet 0 (XTmp (VInt 1))], 1%nat, (XVec [XVar 0]), (VArr [VInt 1]), (VArr [VInt 2]), 0%nat, (VInt 2).
  repeat split; try (vm_compute; reflexivity). congruence.
Qed.
Print Assumptions C61_later_change_refuted.
