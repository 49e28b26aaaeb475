(** Properties_JText.v -- C84: JSON messages are RFC 8259 texts, byte by byte; JSON parts of C63, C72, C73, C74.

    Throughout, [dtext d] is the text yyjson chooses for the double [d]; [spells_doubles] asks that the doubles
    inside the value are printed as numbers that stand for them. *)

From Coq Require Import ZArith List Bool String Lia ZifyBool.
From Verif Require Import Base Spec HalfModel B64Model TextSpec JsonSpec JsonModel JTextModel JTextSpec JTextFacts JTextPrint JTextMain.
Import ListNotations.
Open Scope Z_scope.
Ltac Zify.zify_post_hook ::= idtac.

Notation json_text_of := (text dec_double).
Notation spelled_by := (spells_doubles dec_double).

(** ** C84: what is written *)
Theorem C84_written_is_json : forall dbg dtext v d, val_ok v -> spelled_by dtext v -> serialize (json_writer dbg) v = Ok d ->
  json_text_of (jprint dtext d) (as_json (cut_keys v)).
Proof.
  intros dbg dtext v d V SP S. destruct (serialized dbg v d V S) as (E & _). destruct (written_text dbg dtext v d V SP S) as (T & _). now rewrite <- E.
Qed.
Print Assumptions C84_written_is_json.
(** 1.5 and everything else that can occur *)
Definition one_half (d : Z) : bytes := if d =? 4609434218613702656 then codes "1.5" else [].
Lemma one_half_spelled : value dec_double (VDbl 4609434218613702656) (one_half 4609434218613702656).
Proof.
  assert (E : exists d, 4609434218613702656 = d /\ value dec_double (VDbl d) (codes "1.5")).
  { eexists. split; [|apply (v_real dec_double false [] [49] [53] None [46; 53] [])].
    - vm_compute. reflexivity.
    - now left.
    - right. exists 49, []. repeat split; [lia|lia|constructor].
    - right. split; [discriminate|]. split; [repeat constructor; unfold digit; lia|reflexivity].
    - now left.
    - left. discriminate. }
  destruct E as (d & <- & V). exact V.
Qed.
Definition jdemo : val :=
  VMap [([34; 10; 1], VArr [VInt (-7); VUInt 18446744073709551615; VDbl 4609434218613702656; VNull; VBool true]);
        (codes "b", VBlob [0; 255]); (codes "e", VMap [])].
Example C84_written_case : val_ok jdemo /\ json_ok jdemo /\ spelled_by one_half jdemo /\
  exists d, serialize (json_writer false) jdemo = Ok d /\
    jprint one_half d = codes "{""\""\n\u0001"":[-7,18446744073709551615,1.5,null,true],""b"":[""~b"",""AP8="",""base64""],""e"":{}}".
Proof.
  split; [|split; [|split]].
  - vm_compute. repeat split; try constructor; try congruence; repeat constructor; try congruence.
  - split; [|split].
    + vm_compute. tauto.
    + assert (A : forall s, forallb (fun c => (0 <=? c) && (c <? 128)) s = true -> Utf8Spec.is_utf8 s).
      { intros s H. exists s. split.
        - apply Forall_forall. intros c IN. rewrite forallb_forall in H. specialize (H c IN). left. lia.
        - induction s as [|c s IH]; [reflexivity|]. cbn [forallb] in H. apply andb_prop in H. destruct H as [H1 H2]. cbn [flat_map].
          rewrite <- (IH H2). unfold Utf8Spec.utf8_code. replace (c <? 128) with true by lia. reflexivity. }
      cbn [jdemo Utf8Spec.texts_utf8]. repeat split; apply A; reflexivity.
    + unfold every_key, good_key. cbn [every jdemo]. repeat split; repeat constructor; cbn; intuition (discriminate || congruence || lia).
  - unfold spells_doubles. cbn [every jdemo]. repeat split. apply one_half_spelled.
  - eexists. split; vm_compute; reflexivity.
Qed.

(** It has no line breaks or other control characters, so messages can be separated by lines. *)
Theorem C84_written_on_one_line : forall dbg dtext v d, val_ok v -> spelled_by dtext v -> serialize (json_writer dbg) v = Ok d ->
  Forall (fun c => 32 <= c <= 255) (jprint dtext d).
Proof. exact written_visible. Qed.
Print Assumptions C84_written_on_one_line.

(** ** C84: what is read *)
(** The constructor returns a reader exactly on JSON texts whose tree it can represent, and that tree is the
    only one the bytes have. *)
Theorem C84_accepts_json : forall b w, json_open_text b = Ok w <-> exists t, json_text_of b t /\ json_open t = Ok w.
Proof. exact open_text_iff. Qed.
Print Assumptions C84_accepts_json.
Theorem C84_unambiguous : forall b t t', json_text_of b t -> json_text_of b t' -> t = t'.
Proof. exact text_unique. Qed.
Print Assumptions C84_unambiguous.
Theorem C84_other_bytes_rejected : forall b, (forall t, ~ json_text_of b t) -> json_open_text b = Throw EDeser.
Proof. exact open_text_not. Qed.
Print Assumptions C84_other_bytes_rejected.
(** Any bytes: DeserializationError, or a reader that answers for its document. *)
Theorem C84_any_bytes : forall b, bytes_ok b ->
  json_open_text b = Throw EDeser \/ exists w, json_open_text b = Ok w /\ json_doc w /\ shows json_reader json_table w w.
Proof. exact open_text_any. Qed.
Print Assumptions C84_any_bytes.
Example C84_read_case :
  json_open_text (codes " [ -0 , 1e2, 18446744073709551616 , ""\u00e9😀\uD83D\ude00\/"" , { ""a"":{}} ] ") =
    Ok (VArr [VInt 0; VDbl 4636737291354636288; VDbl 4895412794951729152; VStr [195; 169; 240; 159; 152; 128; 240; 159; 152; 128; 47]; VMap [([97], VMap [])]]) /\
  map json_open_text (map codes ["01"; "1."; ".5"; "+1"; "[1,]"; "[1 2]"; "{""a""}"; "{""a"":1,}"; "nul"; "1 2"; ""; " "; """\x"""; """\ud83d"""; "1e400"; "NaN"; "[1] //"]%string)
    = repeat (Throw EDeser) 17.
Proof. split; vm_compute; reflexivity. Qed.

(** ** C84: the round trip through bytes *)
Theorem C84_round_trip_partial : forall dbg dtext v, val_ok v -> json_ok v -> spelled_by dtext v ->
  exists b w, json_finish_text dtext (serialize (json_writer dbg) v) = Ok b /\ json_open_text b = Ok w /\
    shows json_reader json_table w (as_json v).
Proof. exact text_round_trip. Qed.
Print Assumptions C84_round_trip_partial.

(** ** C63: to_string, at every node of a document and in both layouts, is JSON for that node. *)
Theorem C63_json_text : forall dtext b w, bytes_ok b -> json_open_text b = Ok w -> spelled_by dtext w ->
  every (fun x => forall pretty, json_text_of (j_to_string dtext pretty x) (signless x)) w.
Proof. exact to_string_text. Qed.
Print Assumptions C63_json_text.
Example C63_json_case : exists w, json_open_text (codes "{""a"":[ 1.5,-0 ],""b"":{}}") = Ok w /\
  spelled_by one_half w /\
  j_to_string one_half false w = codes "{""a"":[1.5,0],""b"":{}}" /\
  j_to_string one_half true w = codes "{" ++ [10] ++ codes "    ""a"": [" ++ [10] ++ codes "        1.5," ++ [10] ++ codes "        0" ++ [10] ++
    codes "    ]," ++ [10] ++ codes "    ""b"": {}" ++ [10] ++ codes "}".
Proof.
  eexists. split; [vm_compute; reflexivity|]. split; [|split; vm_compute; reflexivity].
  unfold spells_doubles. cbn [every]. repeat split. apply one_half_spelled.
Qed.

(** ** C72: equal texts come from equal values (blobs and the signedness of non-negative integers aside). *)
Theorem C72_json_partial : forall dbg1 dbg2 dtext v1 v2 d1 d2, val_ok v1 -> val_ok v2 -> json_ok v1 -> json_ok v2 ->
  no_blob_form v1 -> no_blob_form v2 -> spelled_by dtext v1 -> spelled_by dtext v2 ->
  serialize (json_writer dbg1) v1 = Ok d1 -> serialize (json_writer dbg2) v2 = Ok d2 -> jprint dtext d1 = jprint dtext d2 ->
  signless v1 = signless v2.
Proof. exact same_text. Qed.
Print Assumptions C72_json_partial.
Example C72_json_case : no_blob_form jdemo. Proof. vm_compute. intuition discriminate. Qed.

(** ** C73: bytes after a text *)
(** White space does not matter; anything else is rejected, never ignored, unless the text is a number. *)
Theorem C73_json_white_space : forall b t x, json_text_of b t -> ws x -> json_open_text (b ++ x) = json_open_text b.
Proof. intros b t x T W. rewrite (trailing_ws b t x T W). symmetry. now apply open_text_of. Qed.
Print Assumptions C73_json_white_space.
Theorem C73_json_partial : forall b t x w, json_text_of b t -> ~ is_number t ->
  json_open_text (b ++ x) = Ok w <-> ws x /\ json_open t = Ok w.
Proof. exact trailing_iff. Qed.
Print Assumptions C73_json_partial.
Example C73_json_case : json_text_of (codes "[1]") (VArr [VUInt 1]) /\ json_open_text (codes "[1]" ++ [10]) = Ok (VArr [VUInt 1]) /\
  json_open_text (codes "[1][2]") = Throw EDeser.
Proof. split; [apply parse_iff; vm_compute; reflexivity|]. split; vm_compute; reflexivity. Qed.
(** The full statement ("followed by any other bytes, answers as the message alone") fails for JSON. *)
Theorem C73_json_refuted : exists b x, serialize (json_writer true) (VArr []) = Ok (VArr []) /\ b = jprint (fun _ => []) (VArr []) /\
  json_open_text b = Ok (VArr []) /\ json_open_text (b ++ x) = Throw EDeser /\
  json_open_text (codes "1") = Ok (VUInt 1) /\ json_open_text (codes "1" ++ codes "2") = Ok (VUInt 12).
Proof. exists [91; 93], [0]. repeat split; vm_compute; reflexivity. Qed.
Print Assumptions C73_json_refuted.

(** ** C74: a text cut short is rejected, unless it is a number. *)
Theorem C74_json_partial : forall dbg dtext v d p r, val_ok v -> spelled_by dtext v -> serialize (json_writer dbg) v = Ok d ->
  ~ is_number v -> jprint dtext d = p ++ r -> r <> [] -> json_open_text p = Throw EDeser.
Proof. exact truncated. Qed.
Print Assumptions C74_json_partial.
Example C74_json_case : exists d, serialize (json_writer true) (VArr [VUInt 12]) = Ok d /\ jprint one_half d = codes "[12" ++ codes "]".
Proof. eexists. split; vm_compute; reflexivity. Qed.
(** A number cut short is another number. *)
Theorem C74_json_number_refuted : exists d p r, serialize (json_writer true) (VUInt 12) = Ok d /\ jprint one_half d = p ++ r /\ r <> [] /\
  json_open_text p = Ok (VUInt 1).
Proof. exists (VUInt 12), (codes "1"), (codes "2"). repeat split; try (vm_compute; reflexivity). discriminate. Qed.
Print Assumptions C74_json_number_refuted.
