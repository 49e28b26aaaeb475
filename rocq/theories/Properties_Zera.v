(** Properties_Zera.v -- C01..C12: the ZERA protocol. *)

From Coq Require Import ZArith List Bool Lia.
From Verif Require Import Base BaseFacts Spec SpecFacts ZeraModel ZeraSpec ZeraRun ZeraTheorems
  ZeraSafe ZeraArb ZeraHist ZeraWitness.
Import ListNotations.
Open Scope Z_scope.

(** ** C01: round trip *)
Theorem C01_zera_round_trip : forall v, val_ok v -> zera_fits v ->
  exists b w, serialize zera_writer v = Ok b /\ zera_open b = Ok w /\ shows zera_reader ideal w v.
Proof. exact round_trip. Qed.
Example C01_case : val_ok demo /\ zera_fits demo.
Proof. split; [unfold demo; okay|]. vm_compute. intuition congruence. Qed.
Print Assumptions C01_zera_round_trip.

(** ** C02: success exactly when the message fits *)
Theorem C02_zera_fails_exactly_on_limits : forall v, val_ok v ->
  (zera_fits v -> exists b, serialize zera_writer v = Ok b) /\
  (~ zera_fits v -> exists e, serialize zera_writer v = Throw e /\
     (e = ESer \/ e = ELength /\ ~ Forall hint_ok (events v))).
Proof. exact fails_exactly. Qed.
Example C02_case_ok : zera_fits demo. Proof. apply C01_case. Qed.
Example C02_case_fail : ~ zera_fits (VMap [(repeat 0 (Z.to_nat 65536), VNull)]).
Proof. intros [K _]. vm_compute in K. destruct K as [K _]. congruence. Qed.
Print Assumptions C02_zera_fails_exactly_on_limits.

(** ** C03: call sequences *)

(** Every history: each call returns, or throws SerializationError (length_error only for
    an absurd size hint); the outcomes are those of the stack machine of ZeraSpec.v; finish()
    returns a message only if that machine holds a complete value, and the message shows it. *)
Theorem C03_zera_histories : forall es s outs, Forall ev_ok es ->
  run_catch zera_writer zw_init es = (s, outs) ->
  outs = snd (arun_catch a_init es) /\
  Forall (fun r => r = Ok tt \/ r = Throw ESer \/ r = Throw ELength) outs /\
  match snd (afinish (fst (arun_catch a_init es))) with
  | Ok v => exists b w, snd (zw_finish s) = Ok b /\ zera_open b = Ok w /\ shows zera_reader ideal w v
  | _ => snd (zw_finish s) = Throw ESer
  end.
Proof. exact history_outcome. Qed.
Print Assumptions C03_zera_histories.

(** Histories in which no call throws: the calls are those of exactly one value (or none). *)
Theorem C03_zera_accepts_only_values : forall es s b, Forall ev_ok es ->
  run zera_writer zw_init es = (s, Ok tt) -> snd (zw_finish s) = Ok b ->
  exists v w, (es = [] /\ v = VNull \/ calls v es) /\ zera_open b = Ok w /\ shows zera_reader ideal w v.
Proof. exact run_calls. Qed.
Print Assumptions C03_zera_accepts_only_values.

(** ... and the calls of every value are accepted, within the limits. *)
Theorem C03_zera_accepts_all_values : forall v es, val_ok v -> calls v es -> Forall ev_ok es ->
  Forall hint_ok es -> zera_fits v ->
  exists s b w, run zera_writer zw_init es = (s, Ok tt) /\ snd (zw_finish s) = Ok b /\
    zera_open b = Ok w /\ shows zera_reader ideal w v.
Proof. exact (fun v es _ C E H F => calls_accepted v es C E H F). Qed.
Print Assumptions C03_zera_accepts_all_values.

(** With exceptions caught, the message is not always the value described by the calls that
    were accepted: here begin_array/int64(2) were accepted and then dropped. *)
Theorem C03_caught_calls_lost_refuted : exists es s outs b w,
  run_catch zera_writer zw_init es = (s, outs) /\ snd (zw_finish s) = Ok b /\
  zera_open b = Ok w /\ shows zera_reader ideal w (VInt 1) /\
  es = [EInt 1; EBeginArr 1; EInt 2; EEndArr] /\ outs = [Ok tt; Ok tt; Ok tt; Throw ESer].
Proof. exact dropped_calls. Qed.
Example C03_case : Forall ev_ok [EBeginMap 1; EInt 3; EKey [97]; EKey [98]; EInt 4; EEndMap] /\
  snd (run_catch zera_writer zw_init [EBeginMap 1; EInt 3; EKey [97]; EKey [98]; EInt 4; EEndMap])
  = [Ok tt; Throw ESer; Ok tt; Throw ESer; Ok tt; Ok tt].
Proof. split; [repeat constructor; cbn; unfold is_i64, is_byte, i64_min, i64_max; lia|vm_compute; reflexivity]. Qed.
Print Assumptions C03_caught_calls_lost_refuted.

(** ** C04: layout *)
Theorem C04_zera_layout : forall es s outs b, Forall ev_ok es ->
  run_catch zera_writer zw_init es = (s, outs) -> snd (zw_finish s) = Ok b ->
  exists root env arena,
    b = [90; 69; 78; 86] ++ le_bytes 2 1 ++ le_bytes 2 1 ++ le_bytes 4 root ++
        le_bytes 4 (zlen env) ++ le_bytes 4 (arena_ofs_of (zlen env)) ++
        env ++ repeat 0 (Z.to_nat (arena_ofs_of (zlen env) - 20 - zlen env)) ++ arena /\
    0 <= root /\ root + 16 <= zlen env /\
    20 + zlen env <= arena_ofs_of (zlen env) < 20 + zlen env + 16 /\ arena_ofs_of (zlen env) mod 16 = 0 /\
    arena_ofs_of (zlen env) < 2^32 /\ zlen arena < 2^32 /\
    zlen b = arena_ofs_of (zlen env) + zlen arena.
Proof. exact message_layout. Qed.
Print Assumptions C04_zera_layout.

(** The sizes of the two regions for a value. *)
Theorem C04_zera_sizes : forall v b, val_ok v -> serialize zera_writer v = Ok b ->
  exists env arena, b = zera_layout (zlen env - 16) env arena /\
    zlen env = env_size_of v /\ zlen arena = arena_size_of v.
Proof. exact message_sizes. Qed.
Example C04_case : exists b, serialize zera_writer demo = Ok b /\ zlen b = 227 /\ arena_size_of demo = 19.
Proof. eexists. split; [vm_compute; reflexivity|vm_compute; auto]. Qed.
Print Assumptions C04_zera_sizes.

(** ** C05: blob alignment *)
Theorem C05_zera_blobs_aligned : forall es s outs b w w' o n, Forall ev_ok es ->
  run_catch zera_writer zw_init es = (s, outs) -> snd (zw_finish s) = Ok b ->
  zera_open b = Ok w -> reach zera_reader w w' -> zv_asBlob w' = Ok (o, n) ->
  o mod 16 = 0.
Proof. exact history_blob. Qed.
Example C05_case : exists b w w', serialize zera_writer demo = Ok b /\ zera_open b = Ok w /\
  zv_key w [] = Ok w' /\ zv_asBlob w' = Ok (224, 3).
Proof. do 3 eexists. split; [vm_compute; reflexivity|]. split; [vm_compute; reflexivity|]. split; vm_compute; reflexivity. Qed.
Print Assumptions C05_zera_blobs_aligned.

(** ** C06: memory safety on arbitrary bytes

    Full statement: as below, for every buffer and including key iteration.  Missing: buffers of
    2^32-20 bytes and more, and key iteration when the envelope ends within 2 bytes of the buffer's end;
    both are refuted further down. *)
Theorem C06_zera_reader_safe_partial : forall b, bytes_ok b -> zlen b < 2^32 - 20 ->
  safe (fun v => forall w, reach zera_reader v w -> ops_safe b w) (zera_open b).
Proof. exact reader_safe. Qed.
Print Assumptions C06_zera_reader_safe_partial.

Theorem C06_zera_key_iteration_safe_partial : forall b, bytes_ok b -> zlen b < 2^32 - 20 ->
  safe (fun v => forall w, reach zera_reader v w -> 20 + zv_env_size v + 2 <= zlen b ->
                           safe (Forall (view_in b)) (zv_keys w)) (zera_open b).
Proof. exact reader_keys_safe. Qed.
Example C06_case : exists b v, serialize zera_writer demo = Ok b /\ zera_open b = Ok v /\
  20 + zv_env_size v + 2 <= zlen b < 2^32 - 20 /\ exists ks, zv_keys v = Ok ks /\ zlen ks = 4.
Proof.
  do 2 eexists. split; [vm_compute; reflexivity|]. split; [vm_compute; reflexivity|].
  split; [vm_compute; split; congruence|]. eexists. split; vm_compute; reflexivity.
Qed.
Print Assumptions C06_zera_key_iteration_safe_partial.

(** A 48-byte buffer on which iterating the keys reads past the end. *)
Theorem C06_zera_key_iteration_refuted : exists b v, bytes_ok b /\ zlen b = 48 /\ zera_open b = Ok v /\
  zv_is TObject v = Ok true /\ zv_keys v = UB.
Proof. exact keys_oob_48. Qed.
Print Assumptions C06_zera_key_iteration_refuted.

(** A buffer of 2^32-1 bytes that the constructor accepts and whose isNull() reads past the end. *)
Theorem C06_zera_big_buffer_refuted : exists b v, bytes_ok b /\ zlen b = 2^32 - 1 /\ zera_open b = Ok v /\
  zv_is TNull v = UB.
Proof. exact big_witness. Qed.
Print Assumptions C06_zera_big_buffer_refuted.

(** ** C07: termination of the reader (translate: see Properties_Translate.v)

    A key iteration that completes has visited at most env_size / 20 entries, whatever count the
    buffer claims; C06 already excludes NoFuel for every other operation. *)
Theorem C07_zera_iteration_bounded : forall b v w ks, bytes_ok b -> zlen b < 2^32 - 20 ->
  zera_open b = Ok v -> reach zera_reader v w -> zv_keys w = Ok ks -> 20 * zlen ks <= zv_env_size v.
Proof. exact keys_count_open. Qed.
Example C07_case : exists b v ks, serialize zera_writer demo = Ok b /\ zera_open b = Ok v /\ zv_keys v = Ok ks /\ zlen ks = 4.
Proof.
  do 3 eexists. split; [vm_compute; reflexivity|]. split; [vm_compute; reflexivity|]. split; vm_compute; reflexivity.
Qed.
Print Assumptions C07_zera_iteration_bounded.

(** ** C08: header validation *)
Theorem C08_zera_accepts_valid_headers : forall b, bytes_ok b -> zlen b < 2^32 - 20 -> header_ok b ->
  exists v, zera_open b = Ok v /\ zv_env_size v = u32_at b 12 /\ zv_arena v = u32_at b 16 /\
            zv_arena_len v = zlen b - u32_at b 16 /\ zv_vr v = Some (20 + u32_at b 8).
Proof. exact open_valid. Qed.
Print Assumptions C08_zera_accepts_valid_headers.

(** Full statement: rejects every other buffer.  Missing: env_size < 16 (refuted below), where every
    accessor still throws. *)
Theorem C08_zera_rejects_invalid_headers_partial : forall b, bytes_ok b -> zlen b < 2^32 - 20 -> ~ header_ok b ->
  zera_open b = Throw EDeser \/
  u32_at b 12 < 16 /\ exists v, zera_open b = Ok v /\ forall t, zv_is t v = Throw EDeser.
Proof. exact open_invalid. Qed.
Print Assumptions C08_zera_rejects_invalid_headers_partial.
Theorem C08_zera_tiny_envelope_refuted : exists b v, zera_open b = Ok v /\ ~ header_ok b /\ zv_is TNull v = Throw EDeser.
Proof. exact (ex_intro _ tiny_env tiny_env_accepted). Qed.
Print Assumptions C08_zera_tiny_envelope_refuted.
Example C08_case : header_ok half_entry /\ ~ header_ok [90; 69; 78; 86].
Proof. split; [split; vm_compute; congruence|]. intros H. pose proof (ho_len _ H) as L. vm_compute in L. congruence. Qed.

(** ** C09: lookups agree *)

(** Written messages: [shows] (C01) contains the agreement of mapKeys, contains and operator[].
    Arbitrary buffers, when key iteration completes: *)
Theorem C09_zera_lookups_agree : forall b v w names, bytes_ok b -> zlen b < 2^32 - 20 ->
  zera_open b = Ok v -> reach zera_reader v w -> r_mapKeys zera_reader w = Ok names ->
  forall key, zv_contains w key = Ok (existsb (beq key) names) /\
    if existsb (beq key) names then exists x, zv_key w key = Ok x else zv_key w key = Throw EDeser.
Proof. exact keys_agree. Qed.
Print Assumptions C09_zera_lookups_agree.

(** Arbitrary buffers without further assumption. *)
Theorem C09_zera_contains_and_subscript_partial : forall b v w key, bytes_ok b -> zlen b < 2^32 - 20 ->
  zera_open b = Ok v -> reach zera_reader v w ->
  (forall x, zv_key w key = Ok x -> zv_contains w key = Ok true) /\
  (zv_contains w key = Ok false -> zv_key w key = Throw EDeser).
Proof. exact lookups_agree. Qed.
Print Assumptions C09_zera_contains_and_subscript_partial.
Theorem C09_zera_contains_without_value_refuted : exists b v k, zera_open b = Ok v /\
  zv_contains v k = Ok true /\ zv_key v k = Throw EDeser.
Proof. exact half_entry_case. Qed.
Print Assumptions C09_zera_contains_without_value_refuted.
Example C09_case : exists b v names, serialize zera_writer demo = Ok b /\ zera_open b = Ok v /\
  r_mapKeys zera_reader v = Ok names /\ names = [[97]; []; [98; 98]; [97]].
Proof.
  do 3 eexists. split; [vm_compute; reflexivity|]. split; [vm_compute; reflexivity|]. split; vm_compute; reflexivity.
Qed.

(** ** C10: array indexing *)
Theorem C10_zera_index_agrees : forall b v w n, bytes_ok b -> zlen b < 2^32 - 20 ->
  zera_open b = Ok v -> reach zera_reader v w -> zv_arraySize w = Ok n ->
  exists base, 20 <= base /\ base + 16 * n <= 20 + zv_env_size w /\
    forall i, 0 <= i -> zv_idx w i = if i <? n then Ok (zv_child w (base + 16 * i)) else Throw EDeser.
Proof. exact index_agrees. Qed.
Print Assumptions C10_zera_index_agrees.
(** When arraySize() itself throws, operator[] may still succeed, and alias. *)
Theorem C10_zera_index_aliases_refuted : exists b v w i j, zera_open b = Ok v /\ zv_arraySize v = Throw EDeser /\
  i <> j /\ zv_idx v i = Ok w /\ zv_idx v j = Ok w.
Proof. exact alias_case. Qed.
Print Assumptions C10_zera_index_aliases_refuted.
Example C10_case : exists b v w, serialize zera_writer demo = Ok b /\ zera_open b = Ok v /\
  zv_key v [97] = Ok w /\ zv_arraySize w = Ok 4.
Proof.
  do 3 eexists. split; [vm_compute; reflexivity|]. split; [vm_compute; reflexivity|]. split; vm_compute; reflexivity.
Qed.

(** ** C11: integers *)
Theorem C11_zera_integers : forall b v w, bytes_ok b -> zlen b < 2^32 - 20 ->
  zera_open b = Ok v -> reach zera_reader v w ->
  (exists p, 20 <= p /\ p + 16 <= zlen b /\ zv_vr w = Some p /\
     (forall iw, zv_asInt iw w = match stored_int b p with
                                 | Some n => or_throw (fits_s iw n) | None => Throw EDeser end) /\
     (forall iw, zv_asUInt iw w = match stored_int b p with
                                  | Some n => or_throw (fits_u iw n) | None => Throw EDeser end)) \/
  ((forall iw, zv_asInt iw w = Throw EDeser) /\ (forall iw, zv_asUInt iw w = Throw EDeser)).
Proof. exact int_at. Qed.
Example C11_case : exists b v, serialize zera_writer (VInt (-5)) = Ok b /\ zera_open b = Ok v /\
  stored_int b 20 = Some (-5) /\ zv_asInt I8 v = Ok (-5) /\ zv_asUInt I64 v = Throw EDeser.
Proof.
  do 2 eexists. split; [vm_compute; reflexivity|]. split; [vm_compute; reflexivity|]. vm_compute. auto.
Qed.
Print Assumptions C11_zera_integers.

(** ** C12: inline threshold *)
Theorem C12_zera_threshold : forall t v, 0 <= t <= 12 -> val_ok v -> fits_thr t v ->
  exists b w, serialize (zera_writer_thr t) v = Ok b /\ zera_open b = Ok w /\ shows zera_reader ideal w v.
Proof. exact thr_round_trip. Qed.
Theorem C12_zera_threshold_setter : forall t s, 0 <= t ->
  if t <=? 12 then snd (set_inline_string_threshold t s) = Ok tt
  else set_inline_string_threshold t s = (s, Throw ESer).
Proof. exact threshold_setter. Qed.
Example C12_case : fits_thr 0 demo /\ serialize (zera_writer_thr 0) demo <> serialize zera_writer demo.
Proof. split; vm_compute; intuition congruence. Qed.
Print Assumptions C12_zera_threshold.
Print Assumptions C12_zera_threshold_setter.
