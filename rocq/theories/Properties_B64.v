(** Properties_B64.v -- C25..C27, C52: the base64 codec. *)

From Coq Require Import ZArith List Bool Lia String.
From Verif Require Import Base BaseFacts B64Model B64Spec B64Facts.
Import ListNotations.
Open Scope Z_scope.

(** ** C25: round trip *)
Theorem C25_base64_round_trip : forall l, bytes_ok l ->
  exists s, base64Encode l = Ok s /\ bytes_ok s /\ base64Decode s = Ok l.
Proof.
  intros l H. exists (rfc4648 l). pose proof (round_trip64 l H) as R. rewrite encode_rfc in R by exact H.
  auto using encode_rfc, bytes_ok_rfc.
Qed.
Example C25_case : bytes_ok [0; 255; 16; 131; 7].
Proof. repeat constructor; unfold is_byte; lia. Qed.
Print Assumptions C25_base64_round_trip.

(** ** C26: output form *)
Theorem C26_base64_is_rfc4648 : forall l, bytes_ok l ->
  base64Encode l = Ok (rfc4648 l) /\
  zlen (rfc4648 l) = 4 * ((zlen l + 2) / 3) /\
  exists p k, rfc4648 l = p ++ repeat 61 k /\ Forall (fun c => in_alphabet c = true) p /\
    (k <= 2)%nat /\ Z.of_nat k = (- zlen l) mod 3.
Proof.
  intros l H. split; [now apply encode_rfc|]. split; [apply rfc_len|].
  destruct (rfc_form l H) as (p & k & E & F & K). exists p, k. repeat split; auto. lia.
Qed.
Example C26_case : bytes_ok (codes "any carnal pleas") /\ rfc4648 (codes "any carnal pleas") = codes "YW55IGNhcm5hbCBwbGVhcw==".
Proof. split; [vm_compute; repeat constructor; try discriminate|reflexivity]. Qed.
Print Assumptions C26_base64_is_rfc4648.

(** ** C27: the decoder on arbitrary strings
    Accepted iff every character before the first '=' is in the alphabet; then it returns
    floor(6m/8) bytes, which are the leading bytes of the 6m bits spelled by the characters. *)
Theorem C27_base64_decode : forall s, bytes_ok s ->
  (base64Decode s = Throw EDeser <-> Exists (fun c => in_alphabet c = false) (before_pad s)) /\
  (Forall (fun c => in_alphabet c = true) (before_pad s) ->
     exists out, base64Decode s = Ok out /\ zlen out = 6 * zlen (before_pad s) / 8 /\
       forall i, 0 <= i < zlen out ->
         get out i = Some (spelled (before_pad s) / 2^(6 * zlen (before_pad s) - 8 * (i + 1)) mod 256)).
Proof.
  intros s H. pose proof (decode_spec s H) as D.
  destruct (forallb in_alphabet (before_pad s)) eqn:E.
  - rewrite forallb_forall in E. split.
    + split; [destruct D as (o & -> & _); discriminate|].
      rewrite Exists_exists. intros (c & I & F). rewrite (E c I) in F. discriminate.
    + intros _. exact D.
  - split.
    + split; [intros _|intros _; exact D].
      rewrite Exists_exists. clear D H. induction (before_pad s) as [|c p IH]; [discriminate|]. cbn [forallb] in E.
      destruct (in_alphabet c) eqn:A.
      * destruct (IH E) as (x & I & F). exists x. split; [right; exact I|exact F].
      * exists c. split; [now left|exact A].
    + intros F. rewrite Forall_forall in F. exfalso. assert (forallb in_alphabet (before_pad s) = true).
      { apply forallb_forall. exact F. } congruence.
Qed.
Example C27_case : Forall (fun c => in_alphabet c = true) (before_pad (codes "QUJDRA==junk!")) /\
  Exists (fun c => in_alphabet c = false) (before_pad (codes "QU JD")).
Proof. split; [vm_compute; repeat constructor|]. vm_compute. right. right. left. reflexivity. Qed.
Print Assumptions C27_base64_decode.

(** ** C52: "throws on invalid structure"
    base64.hpp:71 promises an exception for invalid structure.  A text is well formed if
    it is the RFC 4648 encoding of some bytes, possibly followed by anything after its padding. *)
Definition b64_well_formed (s : bytes) : Prop :=
  exists l, bytes_ok l /\ (s = rfc4648 l \/ exists p g, rfc4648 l = p ++ [61] /\ s = p ++ [61] ++ g).

(** False: a single sextet and a non-canonical last sextet are accepted. *)
Theorem C52_base64_structure_refuted :
  exists s1 s2, ~ b64_well_formed s1 /\ base64Decode s1 = Ok [] /\
    ~ b64_well_formed s2 /\ base64Decode s2 = Ok (codes "A").
Proof.
  exists (codes "Q"), (codes "QR=="). split; [|split; [reflexivity|split; [|reflexivity]]].
  - intros (l & Hl & [E|(p & g & _ & E)]).
    + pose proof (rfc_len l) as L. rewrite <- E in L. change (zlen (codes "Q")) with 1 in L. lia.
    + destruct p as [|x p]; [|destruct p]; vm_compute in E; discriminate.
  - assert (NR : forall l, bytes_ok l -> rfc4648 l <> codes "QR==").
    { intros l Hl E. pose proof (round_trip64 l Hl) as R. rewrite encode_rfc in R by exact Hl. cbn [bind] in R.
      rewrite E in R. assert (l = codes "A") by (vm_compute in R |- *; congruence). subst l. vm_compute in E. discriminate. }
    intros (l & Hl & [E|(p & g & R & E)]).
    + apply (NR l Hl). now symmetry.
    + pose proof (rfc_len l) as L. rewrite R, zlen_app in L. change (zlen [61]) with 1 in L.
      assert (LE : zlen (p ++ [61] ++ g) = 4) by (rewrite <- E; reflexivity).
      rewrite zlen_app in LE. cbn [app] in LE. rewrite zlen_cons in LE.
      pose proof (zlen_nonneg g). pose proof (zlen_nonneg p).
      assert (zlen g = 0) by (clear - L LE H H0; Z.div_mod_to_equations; lia).
      assert (g = []) by (destruct g; auto; rewrite zlen_cons in H1; pose proof (zlen_nonneg g); lia). subst g.
      apply (NR l Hl). rewrite R, E. reflexivity.
Qed.
Print Assumptions C52_base64_structure_refuted.

(** What does hold: every well-formed text is decoded to the bytes it encodes. *)
Theorem C52_base64_structure_partial : forall l g, bytes_ok l -> bytes_ok g ->
  base64Decode (rfc4648 l) = Ok l /\
  (forall p, rfc4648 l = p ++ [61] -> base64Decode (p ++ [61] ++ g) = Ok l).
Proof.
  assert (CUT : forall p buf bits out g, dec_loop (p ++ [61] ++ g) buf bits out = dec_loop (p ++ [61]) buf bits out).
  { induction p as [|c p IH]; intros; [reflexivity|]. cbn [app dec_loop]. destruct (c =? 61); [reflexivity|].
    destruct (rd lookup c); cbn [bind]; try reflexivity. destruct (require _ _); cbn [bind]; try reflexivity.
    destruct (8 <=? _); apply IH. }
  intros l g Hl Hg. pose proof (round_trip64 l Hl) as R. rewrite encode_rfc in R by exact Hl. cbn [bind] in R.
  split; [exact R|]. intros p E. unfold base64Decode. rewrite CUT, <- E. exact R.
Qed.
Example C52_case : rfc4648 (codes "Ma") = codes "TWE" ++ [61]. Proof. reflexivity. Qed.
Print Assumptions C52_base64_structure_partial.
