(** ZeraWitness.v -- buffers on which the ZERA reader breaks its contract. *)

From Coq Require Import ZArith List Bool Lia ZifyBool ZifyNat.
From Verif Require Import Base BaseFacts Spec ZeraModel ZeraSpec ZeraFacts ZeraMain ZeraSafe ZeraArb.
Import ListNotations.
Open Scope Z_scope.
Ltac Zify.zify_post_hook ::= Z.div_mod_to_equations.

(** A header with the given root offset, envelope size and arena offset. *)
Definition hdr (root env arena : Z) : bytes :=
  [90; 69; 78; 86; 1; 0; 1; 0] ++ le_bytes 4 root ++ le_bytes 4 env ++ le_bytes 4 arena.
Definition obj_vr (a : Z) : bytes := [6; 0; 0; 0] ++ le_bytes 4 a ++ repeat 0 8.
Definition arr_vr (a : Z) : bytes := [5; 0; 0; 0] ++ le_bytes 4 a ++ repeat 0 8.

(** An object claiming one entry where the envelope, and the buffer, end. *)
Definition keys_oob : bytes := hdr 0 28 48 ++ obj_vr 24 ++ repeat 0 8 ++ le_bytes 4 1.
Lemma keys_oob_ub : exists v, bytes_ok keys_oob /\ zera_open keys_oob = Ok v /\
  zv_is TObject v = Ok true /\ zv_keys v = UB.
Proof.
  eexists. split; [|split; [vm_compute; reflexivity|vm_compute; auto]].
  unfold bytes_ok. apply Forall_forall. intros x H. vm_compute in H.
  unfold is_byte. repeat (destruct H as [<-|H]; [lia|]). contradiction.
Qed.

(** An object whose only entry has a key but no room for the value. *)
Definition half_entry : bytes := hdr 0 25 48 ++ obj_vr 16 ++ le_bytes 4 1 ++ [1; 0; 0; 0; 97] ++ repeat 0 3.
Lemma half_entry_disagrees : exists v, zera_open half_entry = Ok v /\
  zv_contains v [97] = Ok true /\ zv_key v [97] = Throw EDeser.
Proof. eexists. split; [vm_compute; reflexivity|vm_compute; auto]. Qed.

(** An array claiming 2^28 + 1 elements with room for one. *)
Definition alias_arr : bytes := hdr 0 36 64 ++ arr_vr 16 ++ le_bytes 4 (2^28 + 1) ++ [2; 0; 0; 0; 7] ++ repeat 0 19.
Lemma alias_arr_aliases : exists v w, zera_open alias_arr = Ok v /\ zv_arraySize v = Throw EDeser /\
  zv_idx v 0 = Ok w /\ zv_idx v (2^28) = Ok w /\ zv_idx v 1 = Throw EDeser.
Proof. do 2 eexists. split; [vm_compute; reflexivity|vm_compute; auto]. Qed.

(** An envelope too small for any ValueRef is accepted by the constructor. *)
Definition tiny_env : bytes := hdr 0 1 32 ++ repeat 0 12.
Lemma tiny_env_accepted : exists v, zera_open tiny_env = Ok v /\ ~ header_ok tiny_env /\
  zv_is TNull v = Throw EDeser.
Proof.
  eexists. split; [vm_compute; reflexivity|]. split; [|vm_compute; reflexivity].
  intros H. pose proof (ho_root _ H) as R. vm_compute in R. congruence.
Qed.

(** A buffer of 2^32 - 1 bytes whose envelope claims all of them: 20 + env_size wraps. *)
Definition big_header : bytes := hdr (2^32 - 17) (2^32 - 1) 32.

Lemma big_open pad : zlen pad = 2^32 - 21 ->
  zera_open (big_header ++ pad) =
  Ok (mkZView (big_header ++ pad) (2^32 - 1) 32 (2^32 - 33) (Some (HeaderSize + (2^32 - 17)))).
Proof.
  intros L. assert (HL : zlen (big_header ++ pad) = 2^32 - 1) by (rewrite zlen_app, L; reflexivity).
  assert (P : forall p l, has big_header p l -> has (big_header ++ pad) p l) by (intros; now apply has_app_l).
  assert (Q : forall l1 l2 l3 p, big_header = l1 ++ l2 ++ l3 -> p = zlen l1 -> has (big_header ++ pad) p l2)
    by (intros l1 l2 l3 p E ->; apply P; rewrite E; apply has_mid).
  unfold zera_open, parse_header, require. rewrite HL.
  change (2 ^ 32 - 1 <? HeaderSize) with false. cbn [negb bind].
  rewrite (read_u32_le_has _ 0 Magic) by
    (try (unfold Magic; lia); apply (Q [] _ ([1;0;1;0] ++ le_bytes 4 (2^32-17) ++ le_bytes 4 (2^32-1) ++ le_bytes 4 32)); reflexivity).
  cbn [bind].
  rewrite (read_u16_le_has _ 4 1) by (try lia;
    apply (Q [90;69;78;86] _ ([1;0] ++ le_bytes 4 (2^32-17) ++ le_bytes 4 (2^32-1) ++ le_bytes 4 32)); reflexivity).
  cbn [bind].
  rewrite (read_u16_le_has _ 6 1) by (try lia;
    apply (Q [90;69;78;86;1;0] _ (le_bytes 4 (2^32-17) ++ le_bytes 4 (2^32-1) ++ le_bytes 4 32)); reflexivity).
  cbn [bind].
  rewrite (read_u32_le_has _ 8 (2^32 - 17)) by (try lia;
    apply (Q [90;69;78;86;1;0;1;0] _ (le_bytes 4 (2^32-1) ++ le_bytes 4 32)); reflexivity).
  cbn [bind].
  rewrite (read_u32_le_has _ 12 (2^32 - 1)) by (try lia;
    apply (Q ([90;69;78;86;1;0;1;0] ++ le_bytes 4 (2^32-17)) _ (le_bytes 4 32)); reflexivity).
  cbn [bind].
  rewrite (read_u32_le_has _ 16 32) by (try lia;
    apply (Q ([90;69;78;86;1;0;1;0] ++ le_bytes 4 (2^32-17) ++ le_bytes 4 (2^32-1)) _ []); reflexivity).
  cbn [bind h_magic h_version h_flags h_env_size h_root_ofs h_arena_ofs].
  change (Magic =? Magic) with true. change (1 =? 1) with true. cbn [bind].
  change (2^32 - 1 <=? 2^32 - 1) with true. change (2^32 - 17 <? 2^32 - 1) with true. cbn [bind].
  change (32 <=? 2^32 - 1) with true. change (32 mod ArenaBaseAlign =? 0) with true. cbn [bind].
  change (wrap32 (HeaderSize + (2 ^ 32 - 1)) <=? 32) with true. cbn [bind].
  change (2^32 - 17 <=? wrap64 (2^32 - 1 - 16)) with true. cbn [bind].
  reflexivity.
Qed.

Lemma big_ub pad : zlen pad = 2^32 - 21 -> exists v, zera_open (big_header ++ pad) = Ok v /\ zv_is TNull v = UB.
Proof.
  intros L. eexists. split; [apply (big_open pad L)|].
  unfold zv_is, zv_tag, require_vr, require. cbn [zv_vr zv_env_size zv_buf].
  change ((HeaderSize <=? HeaderSize + (2 ^ 32 - 17)) &&
          (HeaderSize + (2 ^ 32 - 17) + 16 <=? HeaderSize + (2 ^ 32 - 1))) with true. cbn [bind].
  unfold rd, get. rewrite zlen_app, L. change (zlen big_header) with 20.
  change ((0 <=? HeaderSize + (2 ^ 32 - 17)) && (HeaderSize + (2 ^ 32 - 17) <? 20 + (2 ^ 32 - 21))) with false.
  reflexivity.
Qed.
Lemma zlen_repeat0 n : 0 <= n -> zlen (repeat 0 (Z.to_nat n)) = n.
Proof. intros. unfold zlen. rewrite repeat_length. lia. Qed.

Lemma big_witness : exists b v, bytes_ok b /\ zlen b = 2^32 - 1 /\ zera_open b = Ok v /\ zv_is TNull v = UB.
Proof.
  assert (L : zlen (repeat 0 (Z.to_nat (2^32 - 21))) = 2^32 - 21) by (apply zlen_repeat0; lia).
  assert (BP : bytes_ok (repeat 0 (Z.to_nat (2^32 - 21)))) by apply bytes_ok_repeat0.
  revert L BP. generalize (repeat 0 (Z.to_nat (2^32 - 21))). intros pad L BP.
  destruct (big_ub pad L) as (v & O & U). exists (big_header ++ pad), v.
  split; [rewrite bytes_ok_app; split; [|exact BP]|].
  - unfold bytes_ok. apply Forall_forall. intros x H. vm_compute in H.
    unfold is_byte. repeat (destruct H as [<-|H]; [lia|]). contradiction.
  - split; [rewrite zlen_app, L; reflexivity|]. auto.
Qed.

Lemma keys_oob_48 : exists b v, bytes_ok b /\ zlen b = 48 /\ zera_open b = Ok v /\
  zv_is TObject v = Ok true /\ zv_keys v = UB.
Proof.
  destruct keys_oob_ub as (v & B & O & T & U). exists keys_oob, v.
  split; [exact B|]. split; [reflexivity|]. auto.
Qed.
Lemma half_entry_case : exists b v k, zera_open b = Ok v /\
  zv_contains v k = Ok true /\ zv_key v k = Throw EDeser.
Proof. destruct half_entry_disagrees as (v & H). exists half_entry, v, [97]. exact H. Qed.
Lemma alias_case : exists b v w i j, zera_open b = Ok v /\ zv_arraySize v = Throw EDeser /\
  i <> j /\ zv_idx v i = Ok w /\ zv_idx v j = Ok w.
Proof.
  destruct alias_arr_aliases as (v & w & O & S & A & B & _). exists alias_arr, v, w, 0, (2^28).
  repeat (split; [assumption|]). split; [lia|]. auto.
Qed.
