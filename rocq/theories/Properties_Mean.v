(** Properties_Mean.v -- C80: what a message says is what the format's own specification says it stands for. *)

From Coq Require Import ZArith List Bool Lia ZifyBool ZifyNat.
From Verif Require Import Base BaseFacts Spec SpecFacts TransModel TransSpec TransFacts TransMain SaysSpec SaysFacts ZeraSpec MeanSpec MeanZSpec MeanFacts.
From Verif Require ZeraModel ZeraSafe MsgModel MsgSpec MsgFacts MsgSafe MeanMsg MeanZera MeanAll.
Import ListNotations.
Open Scope Z_scope.

(** MessagePack, completeness: a message beginning with an object of the format, in whatever widths it was encoded and whatever
    follows it, is read as the value of that object and as no other. *)
Theorem C80_msgpack_read : forall it suf x, MsgSpec.item_ok it -> zlen (MsgSpec.enc it) < 2^32 - 5 ->
  says MsgModel.mp_reader (MsgModel.mp_open (MsgSpec.enc it ++ suf)) x <-> mp_meaning it = Some x.
Proof. intros it suf x OK L. exact (MeanMsg.msgpack_iff _ it suf x OK eq_refl L). Qed.

(** MessagePack, soundness: a message that is read as something begins with an object standing for it. *)
Theorem C80_msgpack_sound_partial : forall b x, bytes_ok b -> MsgSpec.no_huge b -> (forall l, x = VMap l -> NoDup (map fst l)) ->
  says MsgModel.mp_reader (MsgModel.mp_open b) x -> exists it suf, MsgSpec.item_ok it /\ b = MsgSpec.enc it ++ suf /\ mp_meaning it = Some x.
Proof.
  intros b x B NH D SY. destruct (MeanMsg.msgpack_sound b x B NH) as (it & suf & IS & E & M); [destruct x; auto; exact (D _ eq_refl)|exact SY|].
  exists it, suf. split; [exact (MeanMsg.small_ok it IS)|auto].
Qed.

(** Two encodings of one value are copied to the same document. *)
Theorem C80_msgpack_widths : forall it it' suf suf' x, MsgSpec.item_ok it -> MsgSpec.item_ok it' -> zlen (MsgSpec.enc it) < 2^32 - 5 -> zlen (MsgSpec.enc it') < 2^32 - 5 ->
  mp_meaning it = Some x -> mp_meaning it' = Some x -> forall S O V' (W : writer S O) (open : O -> res V'), exists n, forall fuel, (n <= fuel)%nat ->
  translate MsgModel.mp_reader W open fuel (MsgModel.mp_open (MsgSpec.enc it ++ suf)) = translate MsgModel.mp_reader W open fuel (MsgModel.mp_open (MsgSpec.enc it' ++ suf')).
Proof.
  intros it it' suf suf' x O1 O2 L1 L2 M1 M2 S O V' W open.
  apply (C80_msgpack_read it suf x O1 L1) in M1. apply (C80_msgpack_read it' suf' x O2 L2) in M2.
  exists (Datatypes.S (height x)). intros fuel F. rewrite (says_translates _ _ open x _ M1 fuel F), (says_translates _ _ open x _ M2 fuel F). reflexivity.
Qed.

Lemma In_slice (l : bytes) p n x : In x (slice l p n) -> In x l.
Proof. intros H. unfold slice in H. rewrite <- (firstn_skipn (Z.to_nat p) l). apply in_or_app. right. rewrite <- (firstn_skipn (Z.to_nat n) (skipn (Z.to_nat p) l)). apply in_or_app. now left. Qed.
Ltac yes := split; [eexists; split; [reflexivity|vm_compute; reflexivity]|
  intros m q L N; repeat (destruct m as [|m]; [cbn in N; injection N as <-; vm_compute; reflexivity|]); exfalso; lia].
(** Without the condition on repeated keys soundness fails: every occurrence of a key is looked up by name, so the value of the second
    one is never visited, and here it is cut off. *)
Theorem C80_msgpack_truncated_refuted : exists b x, bytes_ok b /\ MsgSpec.no_huge b /\ says MsgModel.mp_reader (MsgModel.mp_open b) x /\
  ~ exists it suf, MsgSpec.item_ok it /\ b = MsgSpec.enc it ++ suf.
Proof.
  exists [130; 161; 97; 1; 161; 97; 205], (VMap [([97], VInt 1); ([97], VInt 1)]). split; [repeat constructor; unfold is_byte; lia|]. split; [|split].
  - intros p m n P0 M N E. exfalso. assert (IN : In m [130; 161; 97; 1; 161; 97; 205]) by (apply (In_slice _ p 5 m); rewrite E; now left). cbn [In] in IN. lia.
  - apply says_map. split; [yes|]. split; [vm_compute; reflexivity|]. cbn [says_entries says]. repeat split; eexists; (split; [vm_compute; reflexivity|]); split; try yes; vm_compute; reflexivity.
  - intros (it & suf & OK & E). assert (L : zlen (MsgSpec.enc it) <= 7) by (apply (f_equal zlen) in E; rewrite zlen_app in E; pose proof (zlen_nonneg suf); change (7 = zlen (MsgSpec.enc it) + zlen suf) in E; lia).
    assert (ST : MsgFacts.starts (MsgModel.mp_open [130; 161; 97; 1; 161; 97; 205]) (MsgSpec.enc it)) by (apply MeanMsg.open_starts; eauto).
    apply (MsgFacts.skip_ok it) in ST; [|apply MeanMsg.ok_small; [exact OK|lia]]. assert (SK : MsgModel.skip (MsgModel.mp_open [130; 161; 97; 1; 161; 97; 205]) = Ok 9) by (vm_compute; reflexivity). assert (9 = zlen (MsgSpec.enc it)) by congruence. lia.
Qed.

(** ZERA, both ways: below 4 GiB a message opens and says [x] exactly if, after ZERA.md, it stands for [x]. *)
Theorem C80_zera : forall b x, bytes_ok b -> zlen b < 2^32 - 20 ->
  (exists w, ZeraModel.zera_open b = Ok w /\ says ZeraModel.zera_reader w x) <-> zera_stands_for b x.
Proof. exact MeanZera.zera_iff. Qed.
(** So a message stands for at most one value, *)
Theorem C80_zera_unambiguous : forall b x y, bytes_ok b -> zlen b < 2^32 - 20 -> zera_stands_for b x -> zera_stands_for b y -> x = y.
Proof.
  intros b x y OK L H1 H2. apply (C80_zera b x OK L) in H1. apply (C80_zera b y OK L) in H2. destruct H1 as (w & E & H1). destruct H2 as (w' & E' & H2).
  assert (w' = w) as -> by congruence. exact (says_fun _ x w y H1 H2).
Qed.
(** and everything the writer produces stands for the value it was given, keys that are repeated with their first value. *)
Theorem C80_zera_written : forall v b, val_ok v -> serialize ZeraModel.zera_writer v = Ok b -> zlen b < 2^32 - 20 -> zera_stands_for b (first_wins v).
Proof. exact MeanAll.zera_written. Qed.

(** In all five formats a document just written says the value it was given, up to the signedness of numbers and the order of entries
    the format keeps, keys that are repeated with their first value. *)
Theorem C80_written : forall P v, is_protocol P -> val_ok v -> p_ok P v -> p_exact P v ->
  exists b w n x, serialize (p_writer P) v = Ok b /\ p_open P b = Ok w /\ same_value (first_wins (p_order P v)) x /\ forall fuel, (n <= fuel)%nat -> says (p_reader P fuel) w x.
Proof. exact MeanAll.written_says. Qed.

(** ** Concrete cases *)

(** {"a": [300, "hi", 1.0f]} with a 32-bit map header, an 8-bit string header, a 64-bit integer and a single float, and two bytes after it. *)
Definition c80_it : MsgSpec.item :=
  MsgSpec.MMap MsgSpec.F32 [(MsgSpec.MStr MsgSpec.F8 [97], MsgSpec.MArr MsgSpec.F16 [MsgSpec.MUInt I64 300; MsgSpec.MStr MsgSpec.FFix [104; 105]; MsgSpec.MF32 1065353216])].
Example C80_msgpack_case : MsgSpec.item_ok c80_it /\
  MsgSpec.enc c80_it = [223; 0; 0; 0; 1; 217; 1; 97; 220; 0; 3; 207; 0; 0; 0; 0; 0; 0; 1; 44; 162; 104; 105; 202; 63; 128; 0; 0] /\
  mp_meaning c80_it = Some (VMap [([97], VArr [VUInt 300; VStr [104; 105]; VDbl 4607182418800017408])]) /\
  (* the same value in short encodings *)
  mp_meaning (MsgSpec.MMap MsgSpec.FFix [(MsgSpec.MStr MsgSpec.FFix [97], MsgSpec.MArr MsgSpec.FFix [MsgSpec.MUInt I16 300; MsgSpec.MStr MsgSpec.FFix [104; 105]; MsgSpec.MF64 4607182418800017408])]) = mp_meaning c80_it.
Proof.
  split; [|split; [|split]]; try (vm_compute; reflexivity). unfold c80_it, MsgSpec.item_ok. cbn. unfold zlen. cbn. repeat split; try lia; okay.
Qed.

(** {"a": ["hi", "xyz"]} with an unaligned value, something in the reserved field of the entry, an inline and an arena string. *)
Definition c80_zera : bytes :=
  [90; 69; 78; 86; 1; 0; 1; 0; 0; 0; 0; 0; 77; 0; 0; 0; 112; 0; 0; 0] ++                          (* header *)
  [6; 0; 0; 0; 16; 0; 0; 0; 0; 0; 0; 0; 0; 0; 0; 0] ++                                            (* 0: object at 16 *)
  [1; 0; 0; 0; 1; 0; 7; 7; 97] ++ [5; 0; 0; 0; 41; 0; 0; 0; 0; 0; 0; 0; 0; 0; 0; 0] ++             (* 16: one entry, array at 41 *)
  [2; 0; 0; 0] ++ [4; 1; 2; 0; 104; 105; 0; 0; 0; 0; 0; 0; 0; 0; 0; 0] ++ [4; 0; 0; 0; 0; 0; 0; 0; 3; 0; 0; 0; 0; 0; 0; 0] ++
  repeat 0 15 ++ [120; 121; 122].
Example C80_zera_case : bytes_ok c80_zera /\ zlen c80_zera = 115 /\ zera_stands_for c80_zera (VMap [([97], VArr [VStr [104; 105]; VStr [120; 121; 122]])]).
Proof.
  split; [unfold c80_zera; cbn [app repeat]; okay|]. split; [reflexivity|]. split; [constructor; vm_compute; congruence|].
  set (env := slice c80_zera 20 (u32_at c80_zera 12)). set (arena := slice c80_zera (u32_at c80_zera 16) (zlen c80_zera - u32_at c80_zera 16)).
  vm_compute in env, arena. change (u32_at c80_zera 8) with 0. apply MeanZera.denotes_map. split; [lia|]. split; [vm_compute; congruence|]. split; [reflexivity|]. split; [vm_compute; congruence|].
  exists [([97], 25)]. split; [|split; [reflexivity|split; [reflexivity|]]].
  - refine (oe_cons env 20 [] _ (oe_nil env _)). vm_compute. congruence.
  - cbn [MeanZera.den_entries]. split; [|exact I]. exists ([97], 25). split; [reflexivity|]. cbn [snd]. apply MeanZera.denotes_arr. split; [lia|]. split; [vm_compute; congruence|]. split; [reflexivity|]. split; [vm_compute; congruence|]. split; [reflexivity|].
    cbn [MeanZera.den_elems]. split; [|split; [|exact I]]; (split; [vm_compute; congruence|]; split; [vm_compute; congruence|]); [left|right]; (split; [reflexivity|]; split; [vm_compute; congruence|reflexivity]).
Qed.

(** Written: {"a": 1, "a": [true], "b": "x"} stands for the same with the first value of "a" in both places. *)
Example C80_zera_written_case : exists b, serialize ZeraModel.zera_writer (VMap [([97], VInt 1); ([97], VArr [VBool true]); ([98], VStr [120])]) = Ok b /\ zlen b = 128 /\
  zera_stands_for b (VMap [([97], VInt 1); ([97], VInt 1); ([98], VStr [120])]).
Proof.
  eexists. split; [vm_compute; reflexivity|]. split; [reflexivity|].
  refine (C80_zera_written (VMap [([97], VInt 1); ([97], VArr [VBool true]); ([98], VStr [120])]) _ _ _ _); [okay; unfold is_i64, i64_min, i64_max; lia|vm_compute; reflexivity|reflexivity].
Qed.

Print Assumptions C80_msgpack_read.
Print Assumptions C80_msgpack_sound_partial.
Print Assumptions C80_msgpack_widths.
Print Assumptions C80_msgpack_truncated_refuted.
Print Assumptions C80_zera.
Print Assumptions C80_zera_unambiguous.
Print Assumptions C80_zera_written.
Print Assumptions C80_written.
