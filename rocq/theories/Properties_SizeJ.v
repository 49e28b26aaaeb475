(** Properties_SizeJ.v -- C79 for JSON messages: how big a copy can be, compared with the text it was read from.

    Proved for texts whose maps have distinct keys; refuted without that condition. *)

From Coq Require Import ZArith List Bool String Lia ZifyBool ZifyNat.
From Verif Require Import Base BaseFacts Spec SpecFacts B64Model JsonModel JTextSpec JTextModel JTextMain TransModel TransSpec TransFacts TransMain SaysSpec SaysFacts SizeSpec SizeJson Properties_Says.
From Verif Require MsgModel.
Import ListNotations.
Open Scope Z_scope.

(** Every node, every key and every byte of a string, blob or key that can be read took a byte of text. *)
Theorem C79_json_weight_partial : forall b w x, bytes_ok b -> json_open_text b = Ok w -> distinct_keys x ->
  says json_reader w x -> weight x <= zlen b.
Proof. exact json_weight. Qed.
(** So whatever translate makes of a JSON text without repeated keys is the document of a value not bigger than the text. *)
Theorem C79_json_translate_partial : forall b w, bytes_ok b -> json_open_text b = Ok w ->
  forall S O V' (W : writer S O) (open : O -> res V') fuel w', translate json_reader W open fuel w = Ok w' ->
  exists x d, serialize W x = Ok d /\ open d = Ok w' /\ (distinct_keys x -> weight x <= zlen b).
Proof.
  intros b w B E S O V' W open fuel w' T. destruct (translate_copies json_reader W open fuel w w' (source_typed _ _ (src_json_text b w B E)) T) as (x & d & X1 & X2 & X3 & X4).
  exists x, d. split; [exact X3|]. split; [exact X4|]. intros D. exact (json_weight b w x B E D X1).
Qed.
(** Repeated keys: 15n + 4 bytes of JSON copy to more than 2^n bytes of MessagePack. *)
Theorem C79_json_repeated_keys_refuted : forall n, exists b w b' m, bytes_ok b /\ zlen b = 15 * Z.of_nat n + 4 /\ json_open_text b = Ok w /\ 2 ^ Z.of_nat n <= zlen b' /\
  forall fuel, (m <= fuel)%nat -> translate json_reader MsgModel.mp_writer (fun b => Ok (MsgModel.mp_open b)) fuel w = Ok (MsgModel.mp_open b').
Proof. intros n. destruct (dup_json n) as (b & b' & m & H). exists b, (SizeGrow.dupv n), b', m. exact H. Qed.
Print Assumptions C79_json_weight_partial.
Print Assumptions C79_json_translate_partial.
Print Assumptions C79_json_repeated_keys_refuted.

(** {"a":["~b","AP8=","base64"],"b":[7,"€"]}: weight 14 out of 42 bytes. *)
Example C79_json_case :
  let b := codes "{""a"":[""~b"",""AP8="",""base64""],""b"":[7,""€""]}" in let x := VMap [([97], VBlob [0; 255]); ([98], VArr [VInt 7; VStr [226; 130; 172]])] in
  exists w, bytes_ok b /\ json_open_text b = Ok w /\ distinct_keys x /\ says json_reader w x /\ weight x = 14 /\ zlen b = 42.
Proof.
  intros b x. eexists. split; [subst b; okay|]. split; [vm_compute; reflexivity|]. split; [cbn; repeat split; repeat constructor; cbn; intuition discriminate|].
  split; [|split; reflexivity]. apply says_map. split; [yes|]. split; [vm_compute; reflexivity|]. cbn [says_entries]. split; [|split; [|exact I]].
  - eexists. split; [vm_compute; reflexivity|]. split; [yes|vm_compute; reflexivity].
  - eexists. split; [vm_compute; reflexivity|]. apply says_arr. split; [yes|]. split; [vm_compute; reflexivity|]. cbn [says_elems]. split; [|split; [|exact I]].
    + eexists. split; [vm_compute; reflexivity|]. split; [yes|vm_compute; reflexivity].
    + eexists. split; [vm_compute; reflexivity|]. split; [yes|vm_compute; reflexivity].
Qed.
