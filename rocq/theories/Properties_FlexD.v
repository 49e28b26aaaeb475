(** Properties_FlexD.v -- C88: debugging::dump_flex; C63 and C64 (to_string) for FlexBuffers messages as bytes.

    Vocabulary: [listing] in FlexTextSpec.v, [pretty], [bar_leaf], [no_doubles], [alike] in TextSpec.v: the texts;
    [message], [lays] in FlexBFormat.v: FlexBuffers messages and values inside them ([far]: with numbers out of line).
    [fl] is the text std::ostream prints for a double; the theorems hold whatever it is. *)

From Coq Require Import ZArith List Bool String Lia ZifyBool.
From Verif Require Import Base BaseFacts Spec SpecFacts TextSpec TextFacts TextInj FlexModel FlexSpec FlexFacts FlexBModel FlexBSpec FlexBFormat FlexBFacts FlexBMain FlexBSize FlexBConf
  FlexTextSpec FlexTextModel FlexTextFacts FlexTextInj Properties_Flex Properties_FlexB Properties_FlexC.
Import ListNotations.
Open Scope Z_scope.

(** ** C88: what dump_flex prints for a message with its numbers in line, whoever wrote it *)
Theorem C88_message_partial : forall fl al B v, message al B false false v -> bytes_ok B ->
  exists n, forall fuel, (n <= fuel)%nat -> dump_flex fl fuel B = Ok (listing fl 0 v ++ nl).
Proof. intros fl al B v M OK. exists (S (levels v)). intros fuel F. now apply (message_listing fl al). Qed.
Print Assumptions C88_message_partial.
(** The messages of the Flex writer are such *)
Theorem C88_serialize : forall fl dbg srt v, key_sort srt -> val_ok v -> flex_ok v -> room v < 2 ^ 61 ->
  exists b n, serialize (flexb_writer dbg (srt (bval * bval)%type)) v = Ok b /\
    forall fuel, (n <= fuel)%nat -> dump_flex fl fuel b = Ok (listing fl 0 (in_key_order v) ++ nl).
Proof.
  intros fl dbg srt v KS V OK RM. destruct (C87_serialize_partial dbg srt v KS V OK RM) as (b & SB & M). destruct (C88_message_partial fl aligned b _ M) as (n & H).
  - apply (serialized_bytes dbg srt KS v b V SB).
  - exists b, n. auto.
Qed.
Print Assumptions C88_serialize.
(** Two values without doubles whose listings are the same are the same, up to the contents of blobs and the signedness of
    integers, and so are the messages. *)
Theorem C88_identifies : forall fl v w, no_doubles v -> no_doubles w -> listing fl 0 v ++ nl = listing fl 0 w ++ nl -> TextSpec.alike v w.
Proof. exact listing_determines. Qed.
Print Assumptions C88_identifies.
(** Not so: numbers out of line are not printed, typed vectors are printed as empty, on the empty buffer (which the reader
    takes for null) memory in front of it is read, and the array that contains itself is printed without end. *)
Theorem C88_far_refuted : exists B, bytes_ok B /\ message aligned B true false (VArr [VInt 1000; VUInt 7]) /\
  forall fl fuel, (2 <= fuel)%nat -> dump_flex fl fuel B = Ok (txt "[" ++ nl ++ txt "  <unknown>," ++ nl ++ txt "  7" ++ nl ++ txt "]" ++ nl).
Proof.
  exists [232; 3; 2; 3; 7; 25; 8; 4; 40; 1]. split; [repeat constructor; discriminate|]. split; [apply C87_case|]. intros fl [|[|fuel]] F; try lia. reflexivity.
Qed.
Print Assumptions C88_far_refuted.
Theorem C88_typed_refuted : exists B, bytes_ok B /\ message aligned B false true (VArr [VInt 1; VInt 2; VInt 3]) /\
  forall fl fuel, (1 <= fuel)%nat -> dump_flex fl fuel B = Ok (listing fl 0 (VArr []) ++ nl).
Proof.
  exists [3; 1; 2; 3; 3; 44; 1]. split; [repeat constructor; discriminate|]. split; [exact typed_123|]. intros fl [|fuel] F; [lia|]. reflexivity.
Qed.
Print Assumptions C88_typed_refuted.
Definition loop6 : bytes := [1; 0; 40; 2; 40; 1].
Lemma loop6_elem dump p k s : p = 1 \/ p = 3 -> (forall k, dump (mkRef 1 1 1 10) k = NoFuel) ->
  fb_vec loop6 (mkRef p 1 1 10) = Ok (1, 1) /\ zloop 1 (fd_elem loop6 dump 1 1 1 k) (0, s) = NoFuel.
Proof.
  intros P D. split; [destruct P as [-> | ->]; reflexivity|]. unfold zloop. cbn [ploop]. unfold fd_elem. change (fb_at loop6 1 1 0) with (Ok (mkRef 1 1 1 10)). cbn [bind]. now rewrite D.
Qed.
Lemma loop6_print fl fuel : forall p k, p = 1 \/ p = 3 -> fb_print fl loop6 fuel (mkRef p 1 1 10) k = NoFuel.
Proof.
  induction fuel as [|f IH]; intros p k P; [reflexivity|]. destruct (loop6_elem (fb_print fl loop6 f) p k (txt "[" ++ nl) P) as (V & L); [intros; apply IH; auto|].
  cbn [fb_print f_ty]. cbv zeta. cbn [Z.eqb Pos.eqb]. rewrite V. cbn [bind f_bw]. change (size_at loop6 1 1) with (Ok 1). cbn [bind]. now rewrite L.
Qed.
Lemma loop6_dump fl fuel : forall p k, p = 1 \/ p = 3 -> fb_dump fl loop6 fuel (mkRef p 1 1 10) k = NoFuel.
Proof.
  induction fuel as [|f IH]; intros p k P; [reflexivity|]. destruct (loop6_elem (fb_dump fl loop6 f) p k (txt "arr [" ++ nl) P) as (V & L); [intros; apply IH; auto|].
  cbn [fb_dump f_ty]. cbv zeta. cbn [Z.eqb Pos.eqb orb]. change (any_vector 10) with true. cbn iota. rewrite V. cbn [bind f_bw]. change (size_at loop6 1 1) with (Ok 1). cbn [bind]. now rewrite L.
Qed.
Theorem C88_bytes_refuted :
  (forall fl fuel, dump_flex fl fuel [] = UB) /\ (exists r, fb_open [] = Ok r /\ r_isNull (flexb_reader [] 64) r = Ok true) /\
  (exists B, bytes_ok B /\ zlen B = 6 /\ forall fl fuel, dump_flex fl fuel B = NoFuel).
Proof.
  split; [reflexivity|]. split; [eexists; split; reflexivity|]. exists loop6. split; [repeat constructor; discriminate|]. split; [reflexivity|].
  intros fl fuel. change (dump_flex fl fuel loop6) with (t <- fb_print fl loop6 fuel (mkRef 3 1 1 10) 0 ;; Ok (t ++ nl)). now rewrite loop6_print by auto.
Qed.
Print Assumptions C88_bytes_refuted.

(** ** C63: to_string of a message, whatever writer it comes from *)
Theorem C63_flex_message_text : forall fl al far B v, message al B far false v -> bytes_ok B ->
  exists r n, fb_open B = Ok r /\ forall fuel, (n <= fuel)%nat ->
    fb_to_string fl B fuel r = Ok (txt "Flex " ++ pretty (bar_leaf fl as_written escaped) escaped 0 v).
Proof. intros fl al far B v M OK. destruct (message_text fl al far B v M OK) as (r & O & H). exists r, (S (levels v)). split; [exact O|]. intros fuel F. now apply H. Qed.
Print Assumptions C63_flex_message_text.
Theorem C63_flex_bytes_text : forall fl dbg srt v, key_sort srt -> val_ok v -> flex_ok v -> room v < 2 ^ 61 ->
  exists b r n, serialize (flexb_writer dbg (srt (bval * bval)%type)) v = Ok b /\ fb_open b = Ok r /\ forall fuel, (n <= fuel)%nat ->
    fb_to_string fl b fuel r = Ok (txt "Flex " ++ pretty (bar_leaf fl as_written escaped) escaped 0 (in_key_order v)).
Proof.
  intros fl dbg srt v KS V OK RM. destruct (C87_serialize_partial dbg srt v KS V OK RM) as (b & SB & M).
  destruct (C63_flex_message_text fl aligned false b _ M (serialized_bytes dbg srt KS v b V SB)) as (r & n & O & H). exists b, r, n. auto.
Qed.
Print Assumptions C63_flex_bytes_text.

(** ** C64: to_string of any value inside bytes laid out as the format says returns; of other bytes it need not *)
Theorem C64_flex_partial : forall fl al far B p w t v, lays al B far false p w t v -> bytes_ok B ->
  exists n s, forall fuel, (n <= fuel)%nat -> fb_to_string fl B fuel (packed_ref p w t) = Ok s.
Proof.
  intros fl al far B p w t v LY OK. exists (S (levels v)). eexists. intros fuel F. unfold fb_to_string. rewrite (dump_ok fl al B far v); [reflexivity| |now apply lays_rep|exact F].
  now apply (lays_val_ok _ _ _ _ _ _ _ OK LY).
Qed.
Print Assumptions C64_flex_partial.
Theorem C64_flex_refuted :
  (exists B r, bytes_ok B /\ fb_open B = Ok r /\ forall fl fuel, (1 <= fuel)%nat -> fb_to_string fl B fuel r = UB) /\
  (exists B r, bytes_ok B /\ fb_open B = Ok r /\ forall fl fuel, fb_to_string fl B fuel r = NoFuel).
Proof.
  split.
  - exists [255; 20; 1]. eexists. split; [repeat constructor; discriminate|]. split; [vm_compute; reflexivity|]. intros fl [|fuel] F; [lia|reflexivity].
  - exists loop6. eexists. split; [repeat constructor; discriminate|]. split; [vm_compute; reflexivity|].
    intros fl fuel. unfold fb_to_string. now rewrite (loop6_dump fl fuel 3) by auto.
Qed.
Print Assumptions C64_flex_refuted.

(** The hypotheses hold of a value with every kind of entry, and its listing. *)
Definition ddemo : val :=
  VMap [([107; 34], VArr [VNull; VBool true; VInt (-5); VUInt (2 ^ 63); VStr [97; 92]; VBlob [0; 255]; VArr []]); ([98], VMap [])].
Example C88_case : val_ok ddemo /\ flex_ok ddemo /\ room ddemo < 2 ^ 61 /\ no_doubles ddemo /\ key_sort (@by_key) /\
  listing (fun _ => []) 0 (in_key_order ddemo) =
    txt "{" ++ nl ++ txt "  ""b"": {" ++ nl ++ txt "  }," ++ nl ++ txt "  ""k\"""": [" ++ nl ++ txt "    null," ++ nl ++ txt "    true," ++ nl ++ txt "    -5," ++ nl ++
    txt "    9223372036854775808," ++ nl ++ txt "    ""a\\""," ++ nl ++ txt "    <blob:2 bytes>," ++ nl ++ txt "    [" ++ nl ++ txt "    ]" ++ nl ++ txt "  ]" ++ nl ++ txt "}" /\
  ~ TextSpec.alike (VArr [VStr [34; 44]]) (VArr [VStr [34]]).
Proof.
  split; [unfold ddemo; okay|]. split; [unfold ddemo, flex_ok; cbn; repeat split; repeat constructor; cbn; intuition discriminate|]. split; [reflexivity|].
  split; [unfold ddemo, no_doubles; cbn; intuition|]. split; [apply by_key_sort|]. split; [vm_compute; reflexivity|cbn; intuition discriminate].
Qed.
