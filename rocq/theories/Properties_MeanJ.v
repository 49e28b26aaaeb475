(** Properties_MeanJ.v -- JSON texts, byte for byte: what they stand for (C80), that copying them ends (C77), how much stack it takes (C78). *)

From Coq Require Import ZArith List Bool String Lia ZifyBool ZifyNat.
From Verif Require Import Base BaseFacts Spec SpecFacts B64Model JsonModel JsonSpec JTextSpec JTextModel JTextFacts JTextMain TransModel TransSpec TransFacts TransMain SaysSpec SaysFacts SizeSpec SizeJson
  DecSpec DecFacts DecMain MeanSpec MeanFacts MeanJSpec MeanJson DepthSays HaltFacts HaltTree Properties_Halt Properties_Depth Properties_Says.
Import ListNotations.
Open Scope Z_scope.
Ltac Zify.zify_post_hook ::= idtac.

(** ** C80 *)
(** Both ways: the constructor accepts the bytes and the reader says [x] exactly if the bytes are a JSON text (RFC 8259) that stands
    for [x], whatever its spelling.  Left out: texts with an integer from 2^63 up to 2^64 - 1. *)
Theorem C80_json_partial : forall real b x, ieee_rounding real -> bytes_ok b -> no_large_ints real b ->
  (exists w, json_open_text b = Ok w /\ says json_reader w x) <-> json_stands_for real b x.
Proof. intros real b x H. exact (json_iff real H b x). Qed.
Print Assumptions C80_json_partial.
(** So two spellings of one value are copied to the same document. *)
Theorem C80_json_spellings_partial : forall real b b' x, ieee_rounding real -> bytes_ok b -> bytes_ok b' -> no_large_ints real b -> no_large_ints real b' ->
  json_stands_for real b x -> json_stands_for real b' x -> exists w w', json_open_text b = Ok w /\ json_open_text b' = Ok w' /\
  forall S O V' (W : writer S O) (open : O -> res V'), exists n, forall fuel, (n <= fuel)%nat ->
  translate json_reader W open fuel w = translate json_reader W open fuel w'.
Proof.
  intros real b b' x R B B' NL NL' H H'. apply (C80_json_partial real b x R B NL) in H. apply (C80_json_partial real b' x R B' NL') in H'.
  destruct H as (w & E & H). destruct H' as (w' & E' & H'). exists w, w'. split; [exact E|]. split; [exact E'|]. intros S O V' W open.
  exists (Datatypes.S (height x)). intros fuel F. rewrite (says_translates _ _ open x _ H fuel F), (says_translates _ _ open x _ H' fuel F). reflexivity.
Qed.
Print Assumptions C80_json_spellings_partial.
(** Integers that only uint64_t has stand for themselves but are read as negative numbers, all of them. *)
Theorem C80_json_large_refuted : forall real l, ieee_rounding real -> int_part l -> 2 ^ 63 <= decimal l < 2 ^ 64 ->
  json_stands_for real l (VUInt (decimal l)) /\ exists w, json_open_text l = Ok w /\ says json_reader w (VInt (decimal l - 2 ^ 64)).
Proof.
  intros real l R IP L.
  assert (T : forall r, text r l (VUInt (decimal l))) by (intros r; exists [], l, []; rewrite app_nil_r; repeat split; [constructor|now apply v_uint|constructor]).
  assert (E : int_value real (decimal l) = VUInt (decimal l)).
  { unfold int_value. replace ((- 2 ^ 63 <=? decimal l) && (decimal l <? 2 ^ 63)) with false by lia. replace ((2 ^ 63 <=? decimal l) && (decimal l <? 2 ^ 64)) with true by lia. reflexivity. }
  split.
  - exists (VUInt (decimal l)). split; [apply T|]. split; [exact I|]. split; [split; [rewrite E; exact I|exact I]|]. cbn [json_value]. now rewrite E.
  - exists (VUInt (decimal l)). split.
    + apply open_text_iff. exists (VUInt (decimal l)). split; [apply T|]. unfold json_open. cbn [yy_read]. replace (decimal l <=? u64_max) with true by (unfold u64_max; lia). reflexivity.
    + cbn [says]. split; [split; [eexists; split; [reflexivity|reflexivity]|]; intros m q M Q; do 2 (destruct m as [|m]; [injection Q as <-; reflexivity|]); lia|].
      cbn [json_reader r_asInt]. unfold j_asInt. cbn [yy_is_int yy_get_sint ibits].
      assert (TS : to_signed 64 (decimal l) = decimal l - 2 ^ 64) by (unfold to_signed; change (64 - 1) with 63; rewrite Z.mod_small by lia; replace (decimal l <? 2 ^ 63) with false by lia; reflexivity).
      rewrite TS. f_equal. apply JsonMain.to_signed_exact; change (64 - 1) with 63; lia.
Qed.
Print Assumptions C80_json_large_refuted.

(** A text with white space, escapes, a repeated key, a blob, a number too long for 64 bits: no large integers, and its value. *)
Definition c80_text : bytes := codes "{ ""a"" : [-0, 1e2,""\/""], ""b"":[""~b"", ""AP8="",""base64""] ,""a"":null,""c"":36893488147419103232}".
Definition c80_tree : val := VMap [([97], VArr [VInt 0; VDbl 4636737291354636288; VStr [47]]);
  ([98], VArr [VStr [126; 98]; VStr [65; 80; 56; 61]; VStr [98; 97; 115; 101; 54; 52]]); ([97], VNull); ([99], VUInt (2 ^ 65))].
Definition c80_jval : val := VMap [([97], VArr [VInt 0; VDbl 4636737291354636288; VStr [47]]); ([98], VBlob [0; 255]);
  ([97], VArr [VInt 0; VDbl 4636737291354636288; VStr [47]]); ([99], VDbl 4899916394579099648)].
Example C80_json_case : bytes_ok c80_text /\ no_large_ints dec_double c80_text /\ json_stands_for dec_double c80_text c80_jval.
Proof.
  assert (T : text dec_double c80_text c80_tree) by (apply parse_iff; vm_compute; reflexivity).
  split; [unfold c80_text; okay|]. split.
  - intros t' T'. rewrite (text_unique _ _ _ T' T). clear. unfold c80_tree. cbn [every]. repeat split; try exact I; lia.
  - exists c80_tree. split; [exact T|]. split; [|split; [|vm_compute; reflexivity]].
    + unfold c80_tree. cbn [Utf8Spec.texts_utf8]. repeat split; (apply (Utf8Facts.utf8_sound 10); [cbn; lia|okay|reflexivity]).
    + vm_compute. tauto.
Qed.
Example C80_json_large_case : int_part (codes "18446744073709551615") /\ 2 ^ 63 <= decimal (codes "18446744073709551615") < 2 ^ 64.
Proof. split; [right; exists 49, (codes "8446744073709551615"); split; [reflexivity|]; split; [lia|]; cbn [codes]; repeat constructor; cbn; lia|]. vm_compute. split; congruence. Qed.

(** ** C77: any bytes.  The recursion is no deeper than the text is long. *)
Lemma height_weight v : Z.of_nat (height v) <= weight v.
Proof.
  induction v as [| | | | |s|s|l IH|l IH] using val_ind'; try (cbn; lia).
  - pose proof (weight_pos (VStr s)). cbn [height]. lia.
  - pose proof (weight_pos (VBlob s)). cbn [height]. lia.
  - rewrite weight_arr. cbn [height]. cut (Z.of_nat (fold_right Nat.max O (map height l)) <= total weight l); [lia|].
    induction l as [|x l IL]; [cbn; lia|]. apply Forall_cons_iff in IH. destruct IH as [IX IH]. specialize (IL IH). cbn [map fold_right]. rewrite total_cons. pose proof (weight_pos x).
    assert (0 <= total weight l) by (apply total_pos, Forall_forall; intros y _; pose proof (weight_pos y); lia). lia.
  - rewrite weight_map. cbn [height]. cut (Z.of_nat (fold_right Nat.max O (map (fun kx => height (snd kx)) l)) <= total entry_weight l); [lia|].
    induction l as [|[k x] l IL]; [cbn; lia|]. apply Forall_cons_iff in IH. destruct IH as [IX IH]. cbn [snd] in IX. specialize (IL IH). cbn [map fold_right snd]. rewrite total_cons, weight_entry. pose proof (weight_pos x). pose proof (zlen_nonneg k).
    assert (0 <= total entry_weight l) by (apply total_pos, Forall_forall; intros [k' y] _; rewrite weight_entry; pose proof (weight_pos y); pose proof (zlen_nonneg k'); lia). lia.
Qed.
Theorem C77_json_text_finishes : forall Q b w fuel, is_protocol Q -> json_open_text b = Ok w -> zlen b < Z.of_nat fuel ->
  translate json_reader (p_writer Q) (p_open Q) fuel w <> NoFuel.
Proof.
  intros Q b w fuel HQ O L. apply C77_json_finishes; [exact HQ|]. apply open_text_iff in O. destruct O as (t & T & O). unfold json_open in O.
  destruct (yy_read t) as [r|] eqn:R; [|discriminate O]. injection O as ->. apply yy_read_weight in R. apply text_len in T. pose proof (height_weight w). lia.
Qed.
Print Assumptions C77_json_text_finishes.
Example C77_json_text_case : let b := codes "[[[]],{""a"":[1]}]" in exists w, json_open_text b = Ok w /\ zlen b < Z.of_nat 17 /\
  translate json_reader (p_writer P_msgpack) (p_open P_msgpack) 17 w = Ok (MsgModel.mp_open [146; 145; 144; 129; 161; 97; 145; 1]).
Proof. eexists. split; [vm_compute; reflexivity|]. split; vm_compute; reflexivity. Qed.

(** ** C78: no bound but the length of the text *)
Fixpoint nested_text (d : nat) : bytes := match d with O => codes "null" | S d => 91 :: nested_text d ++ [93] end.
Lemma nested_text_value real d : value real (nested d) (nested_text d).
Proof.
  induction d as [|d IH]; [apply v_null|]. cbn [nested nested_text]. assert (W : ws []) by constructor.
  exact (v_arr real [] _ _ W (e_last real _ _ [] IH W)).
Qed.
Lemma nested_read d : yy_read (nested d) = Some (nested d).
Proof. induction d as [|d IH]; [reflexivity|]. cbn [nested yy_read]. rewrite IH. reflexivity. Qed.
Lemma nested_jsays d : says json_reader (nested d) (nested d).
Proof.
  assert (BT : blob_text (VArr [nested 0]) = None /\ forall d, blob_text (VArr [nested d]) = None) by (split; [reflexivity|intros []; reflexivity]).
  apply (doc_says dec_double (nested d)).
  - apply nested_every; [exact I|intros; exact I].
  - apply nested_every; [exact I|intros; exact I].
  - induction d as [|d IH]; [reflexivity|]. cbn [nested json_value]. rewrite (proj2 BT d). cbn [map all_some]. rewrite IH. reflexivity.
Qed.
Theorem C78_json_depth_refuted : forall d, exists b w, bytes_ok b /\ zlen b = 2 * Z.of_nat d + 4 /\ json_open_text b = Ok w /\
  forall Q, Q = P_msgpack \/ (exists dbg, Q = P_json dbg) \/ (exists dbg srt, FlexSpec.sorts srt /\ Q = P_flex dbg srt) ->
  forall fuel, translate json_reader (p_writer Q) (p_open Q) fuel w = NoFuel <-> (fuel <= d)%nat.
Proof.
  intros d. exists (nested_text d), (nested d). split; [|split; [|split]].
  - induction d as [|d IH]; [cbn; okay|]. cbn [nested_text]. constructor; [unfold is_byte; lia|]. apply Forall_app. split; [exact IH|]. repeat constructor; unfold is_byte; lia.
  - induction d as [|d IH]; [reflexivity|]. cbn [nested_text]. rewrite zlen_cons, zlen_app, IH. change (zlen [93]) with 1. lia.
  - apply open_text_iff. exists (nested d). split; [|unfold json_open; now rewrite nested_read]. exists [], (nested_text d), []. rewrite app_nil_r. split; [reflexivity|].
    split; [constructor|]. split; [apply nested_text_value|constructor].
  - intros Q HQ fuel. destruct (nested_writes Q d HQ) as (b & w & E & O).
    rewrite (C78_translate_depth_partial _ _ _ _ json_reader (p_writer Q) (p_open Q) _ (nested d) b fuel); [|apply nested_jsays|exact E].
    rewrite nested_depth. destruct (d <? fuel)%nat eqn:L; [rewrite O|]; split; intros H; try discriminate H; try reflexivity; lia.
Qed.
Print Assumptions C78_json_depth_refuted.
