(** Properties_Msg.v -- C13..C17 and C53: MessagePack. *)

From Coq Require Import ZArith List Bool Lia.
From Verif Require Import Base BaseFacts Spec SpecFacts FloatModel MsgModel MsgSpec MsgFacts MsgMain MsgSafe MsgWitness.
Import ListNotations.
Open Scope Z_scope.

Definition mdemo : val :=
  VMap [ ([97], VInt (-5)); ([98], VArr [VNull; VBool true; VUInt 200; VInt 300; VInt (-70000); VUInt (2^63)]);
         ([97], VStr [104; 105]); ([99], VBlob [0; 255]); ([], VDbl (2^62)) ].
Lemma mdemo_ok : val_ok mdemo. Proof. unfold mdemo. okay. Qed.

(** ** C13: round trip

    Full statement: the same with [lengths_below (2^32)].  Missing: strings, blobs and keys within 5
    bytes of 4 GiB, refuted below. *)
Theorem C13_msgpack_round_trip_partial : forall v, val_ok v -> lengths_below (2^32 - 5) v ->
  exists b, serialize mp_writer v = Ok b /\ shows mp_reader T_mp (mp_open b) v.
Proof. exact mp_round_trip. Qed.
Print Assumptions C13_msgpack_round_trip_partial.
Example C13_case : val_ok mdemo /\ lengths_below (2^32 - 5) mdemo.
Proof. split; [exact mdemo_ok|]. vm_compute. intuition congruence. Qed.

(** The integer part of [T_mp]: the accessor of the value's own sign is exact. *)
Theorem C13_msgpack_own_sign_exact : forall z iw,
  (is_i64 z -> t_asInt (T_mp (VInt z)) iw = fits_s iw z) /\
  (is_u64 z -> t_asUInt (T_mp (VUInt z)) iw = fits_u iw z).
Proof.
  intros z iw. cbn [T_mp int_tbl t_asInt t_asUInt]. unfold is_i64, is_u64, i64_min, i64_max, u64_max. split; intros H.
  - rewrite to_signed64_id by lia. reflexivity.
  - rewrite Z.mod_small by lia. reflexivity.
Qed.
Print Assumptions C13_msgpack_own_sign_exact.

(** An array holding a string of 2^32-5 bytes: the element read back is not a string. *)
Theorem C13_msgpack_round_trip_refuted : exists s b w, zlen s = 2^32 - 5 /\
  val_ok (VArr [VStr s]) /\ lengths_below (2^32) (VArr [VStr s]) /\
  serialize mp_writer (VArr [VStr s]) = Ok b /\ r_idx mp_reader (mp_open b) 0 = Ok w /\
  r_isString mp_reader w = Ok false.
Proof.
  destruct huge_exists as (s & B & L). destruct (huge_element s B L) as (b & w & H). exists s, b, w. auto.
Qed.
Print Assumptions C13_msgpack_round_trip_refuted.

(** ** C14: skipping is exact

    Every well-formed object (any format, not only the ones the writer chooses), at any place in any
    buffer and any view that contains it.  Full statement: [item_ok].  Missing: str32/bin32 of 2^32-5
    bytes and more, refuted below. *)
Theorem C14_msgpack_skip_exact_partial : forall it pre suf n, item_small it ->
  zlen (enc it) <= n <= zlen (enc it ++ suf) ->
  skip (mkSpan (pre ++ enc it ++ suf) (zlen pre) n) = Ok (zlen (enc it)).
Proof.
  intros it pre suf n OK L. apply skip_ok; [exact OK|]. split; [apply has_mid|apply L].
Qed.
Print Assumptions C14_msgpack_skip_exact_partial.
Example C14_case : item_small (MArr F16 [MMap F32 [(MFixInt (-3), MBin F16 [1; 2])]; MSInt I64 5; MStr F8 []]).
Proof. vm_compute. repeat split; try congruence; try (constructor; [split; congruence|]); repeat (constructor; try (split; congruence)). Qed.

(** Indexing and key lookup land exactly on the addressed element. *)
Theorem C14_msgpack_index_exact_partial : forall f l1 x l2 w, item_small (MArr f (l1 ++ x :: l2)) ->
  spans w (MArr f (l1 ++ x :: l2)) -> exists w', r_idx mp_reader w (zlen l1) = Ok w' /\ spans w' x.
Proof. intros f l1 x l2 w OK S. apply (idx_item w f l1 x l2 OK). now apply spans_starts. Qed.
Theorem C14_msgpack_key_exact_partial : forall f l w k, item_small (MMap f l) -> spans w (MMap f l) ->
  match find (key_is k) l with
  | Some (_, x) => exists w', r_key mp_reader w k = Ok w' /\ spans w' x
  | None => r_key mp_reader w k = Throw EDeser
  end.
Proof.
  intros f l w k OK S. pose proof (key_item w f l OK (spans_starts _ _ S) k) as H.
  destruct (find (key_is k) l) as [[? ?]|]; exact H.
Qed.
Print Assumptions C14_msgpack_index_exact_partial.
Print Assumptions C14_msgpack_key_exact_partial.

Theorem C14_msgpack_skip_exact_refuted : exists it, item_ok it /\ zlen (enc it) = 2^32 /\
  forall suf, skip (mp_open (enc it ++ suf)) = Ok 0.
Proof.
  destruct huge_exists as (s & B & L). exists (MStr F32 s). destruct (huge_skip s B L) as [H1 H2].
  split; [exact H1|]. split; [|exact H2]. cbn [enc str_hdr app]. rewrite zlen_cons, zlen_app, zlen_be, L. reflexivity.
Qed.
Print Assumptions C14_msgpack_skip_exact_refuted.

(** ** C15: integers

    Full statement: r_asInt iw w = or_throw (fits_s iw z) and r_asUInt iw w = or_throw (fits_u iw z) for
    every stored integer z.  True when the 64-bit accessor's range contains z; otherwise the number is
    replaced by its residue modulo 2^64, which is refuted below. *)
Definition number_of (it : item) : option Z :=
  match it with MFixInt z | MUInt _ z | MSInt _ z => Some z | _ => None end.
Lemma number_table it z : number_of it = Some z -> exists a b, item_table it = int_tbl a b z.
Proof. destruct it; intros [= ->]; cbn [item_table]; eauto. Qed.
Lemma number_range it z : item_ok it -> number_of it = Some z -> -2^63 <= z < 2^64.
Proof.
  destruct it; intros OK [= ->]; unfold item_ok in OK; cbn [item_in] in OK; try destruct w; cbn in OK; lia.
Qed.
Theorem C15_msgpack_ints_partial : forall it z pre suf n iw, item_ok it -> number_of it = Some z ->
  zlen (enc it) <= n <= zlen (enc it ++ suf) ->
  let w := mkSpan (pre ++ enc it ++ suf) (zlen pre) n in
  r_asInt mp_reader iw w = or_throw (fits_s iw (if z <? 2^63 then z else z - 2^64)) /\
  r_asUInt mp_reader iw w = or_throw (fits_u iw (if z <? 0 then z + 2^64 else z)).
Proof.
  intros it z pre suf n iw OK N L w.
  assert (S : starts w (enc it)) by (split; [apply has_mid|apply L]).
  pose proof (observes_item w it (2^32) ltac:(lia) OK S) as O.
  destruct (number_table it z N) as (a & b & E). rewrite E in O. pose proof (number_range it z OK N) as R.
  destruct O as (_ & _ & _ & _ & _ & _ & _ & _ & _ & _ & O1 & O2 & _). rewrite O1, O2. cbn [int_tbl t_asInt t_asUInt].
  split; do 2 f_equal.
  - destruct (z <? 2^63) eqn:C; [apply to_signed64_id; lia|].
    unfold to_signed. rewrite Z.mod_small by lia. change (2 ^ (64 - 1)) with (2^63). now rewrite C.
  - destruct (z <? 0) eqn:C; [|apply Z.mod_small; lia].
    replace z with (z + 2^64 + (-1) * 2^64) at 1 by lia. rewrite Z.mod_add by lia. apply Z.mod_small. lia.
Qed.
Print Assumptions C15_msgpack_ints_partial.
Example C15_case : item_ok (MSInt I32 (-129)) /\ number_of (MSInt I32 (-129)) = Some (-129).
Proof. split; [vm_compute; split; congruence|reflexivity]. Qed.

(** 18446744073709551615 written with uint64() reads as asInt8() = -1; -1 reads as asUInt64() = 2^64-1. *)
Theorem C15_msgpack_ints_refuted : exists b1 b2,
  serialize mp_writer (VUInt (2^64 - 1)) = Ok b1 /\ r_asInt mp_reader I8 (mp_open b1) = Ok (-1) /\
  serialize mp_writer (VInt (-1)) = Ok b2 /\ r_asUInt mp_reader I64 (mp_open b2) = Ok (2^64 - 1).
Proof. exists [207; 255; 255; 255; 255; 255; 255; 255; 255], [255]. vm_compute. auto. Qed.
Print Assumptions C15_msgpack_ints_refuted.

(** ** C16: memory safety

    Full statement: for all bytes b, every view reachable from mp_open b satisfies mp_ops_safe.
    Refuted below on truncated input.  What holds: type tests and bool/integer/double accessors on every view;
    every operation on every view reachable from a well-formed message (whatever follows it); and, on
    arbitrary bytes, every operation on any view obtained by at least one successful operator[] and
    on everything reachable from it. *)
Theorem C16_msgpack_scalars_safe : forall b w, bytes_ok b -> inside b w -> mp_scalar_safe w.
Proof. intros b w B (E & H1 & H2 & H3). apply scalars_safe. constructor; rewrite ?E; auto. Qed.
Print Assumptions C16_msgpack_scalars_safe.

Theorem C16_msgpack_message_safe_partial : forall it suf, item_small it -> bytes_ok (enc it ++ suf) ->
  forall w, reach mp_reader (mp_open (enc it ++ suf)) w -> mp_ops_safe (enc it ++ suf) w.
Proof. exact message_safe. Qed.
Print Assumptions C16_msgpack_message_safe_partial.

Theorem C16_msgpack_element_safe_partial : forall b v c, bytes_ok b -> no_huge b -> inside b v ->
  (exists i, mp_idx v i = Ok c) \/ (exists k, mp_key v k = Ok c) ->
  forall w, reach mp_reader c w -> mp_ops_safe b w.
Proof. exact child_safe. Qed.
Print Assumptions C16_msgpack_element_safe_partial.

Theorem C16_msgpack_skippable_safe_partial : forall b s, bytes_ok b -> no_huge b ->
  skip (mp_open b) = Ok s -> s <= zlen b ->
  forall w, reach mp_reader (mp_open b) w -> mp_ops_safe b w.
Proof. exact root_safe. Qed.
Print Assumptions C16_msgpack_skippable_safe_partial.

Lemma no_huge_no_ff b : (forall p, slice b p 1 <> [255]) -> no_huge b.
Proof.
  intros H p m n P _ N E. destruct (Z_lt_le_dec n (2^32 - 5)) as [|L]; [assumption|]. exfalso.
  apply (H (p + 1)). replace (slice b (p + 1) 1) with (slice (slice b p 5) 1 1) by (apply slice_slice; lia).
  rewrite E. cbn [be]. unfold slice. change (Z.to_nat 1) with 1%nat. cbn [skipn firstn].
  f_equal. change (256 ^ Z.of_nat 3) with (2^24).
  replace n with (2^32 - 5 + (n - (2^32 - 5))) by lia.
  assert (0 <= n - (2^32 - 5) < 5) as R by lia. remember (n - (2^32 - 5)) as d.
  assert (d = 0 \/ d = 1 \/ d = 2 \/ d = 3 \/ d = 4) as D by lia. destruct D as [-> |[-> |[-> |[-> | ->]]]]; reflexivity.
Qed.
Example C16_case : exists c, no_huge [146; 163; 97; 98; 99; 145] /\ inside [146; 163; 97; 98; 99; 145] (mp_open [146; 163; 97; 98; 99; 145]) /\
  mp_idx (mp_open [146; 163; 97; 98; 99; 145]) 0 = Ok c /\ mp_asStringView c = Ok (2, 3).
Proof.
  eexists. split; [apply no_huge_no_ff|split; [vm_compute; intuition congruence|split; vm_compute; reflexivity]].
  intros p. unfold slice. change (Z.to_nat 1) with 1%nat.
  destruct (Z.to_nat p) as [|[|[|[|[|[|q]]]]]]; cbn; try congruence. destruct q; cbn; congruence.
Qed.

(** Truncated inputs: asString reads past the end (fixstr of 5 with 1 byte), header reads past the end
    (lone str8 marker, empty buffer), operator[] and contains and mapKeys violate span preconditions. *)
Theorem C16_msgpack_safety_refuted :
  r_asString mp_reader (mp_open [165; 97]) = UB /\
  mp_asStringView (mp_open [165; 97]) = Ok (1, 5) /\
  r_asString mp_reader (mp_open [217]) = UB /\
  r_asString mp_reader (mp_open []) = UB /\
  r_asBlob mp_reader (mp_open [196; 9; 1]) = UB /\
  r_arraySize mp_reader (mp_open [221; 0]) = UB /\
  r_idx mp_reader (mp_open [145; 165; 97]) 0 = UB /\
  r_key mp_reader (mp_open [129; 165; 97]) [97] = UB /\
  r_contains mp_reader (mp_open [129; 165; 97]) [97] = UB /\
  r_mapKeys mp_reader (mp_open [129; 165; 97]) = UB.
Proof. vm_compute. repeat split. Qed.
Print Assumptions C16_msgpack_safety_refuted.

(** ** C17: termination and progress of skipping

    Full statement: as below without the exception in the Ok case.  The recursion bound of the model is never
    reached (no NoFuel), so the C++ recursion terminates on every view, with depth at most its size. *)
Theorem C17_msgpack_skip_terminates : forall b v fuel, bytes_ok b -> inside b v -> ms_len v < Z.of_nat fuel ->
  mp_skip fuel v <> NoFuel.
Proof.
  intros b v fuel B (E & H1 & H2 & H3) L N. assert (W : wfs v) by (constructor; rewrite ?E; auto).
  pose proof (skip_total fuel v W) as T. rewrite N in T. cbn in T. lia.
Qed.
Print Assumptions C17_msgpack_skip_terminates.

Theorem C17_msgpack_skip_advances_partial : forall b v s, bytes_ok b -> inside b v -> skip v = Ok s ->
  1 <= s \/ s = 0 /\ exists m, (m = 219 \/ m = 198) /\ slice b (ms_off v) 5 = [m; 255; 255; 255; 251].
Proof.
  intros b v s B (E & H1 & H2 & H3) K. assert (W : wfs v) by (constructor; rewrite ?E; auto).
  pose proof (skip_total (S (Z.to_nat (ms_len v))) v W) as T. unfold skip in K. rewrite K in T.
  destruct T as [T|(T & m & M & (_ & _ & H) & _)]; [now left|]. right. split; [exact T|]. exists m. rewrite E in H. auto.
Qed.
Print Assumptions C17_msgpack_skip_advances_partial.
Example C17_case : inside [146; 1; 160] (mp_open [146; 1; 160]) /\ skip (mp_open [146; 1; 160]) = Ok 3.
Proof. vm_compute. intuition congruence. Qed.

(** Five bytes on which skipping succeeds without advancing; the string "is" 4 GiB long. *)
Theorem C17_msgpack_skip_advances_refuted : skip (mp_open [219; 255; 255; 255; 251]) = Ok 0.
Proof. vm_compute. reflexivity. Qed.
Print Assumptions C17_msgpack_skip_advances_refuted.

(** ** C53: skipping accepts only well-formed objects *)
Theorem C53_msgpack_skip_sound : forall b v s, bytes_ok b -> no_huge b -> inside b v ->
  skip v = Ok s -> s <= ms_len v ->
  exists it, item_small it /\ slice b (ms_off v) s = enc it.
Proof.
  intros b v s B NH (E & H1 & H2 & H3) K L. assert (W : wfs v) by (constructor; rewrite ?E; auto).
  destruct (skip_sound _ b NH v s W E K) as [_ X]. destruct (X L) as (it & OK & [(_ & _ & H) _] & Z).
  exists it. split; [exact OK|]. rewrite Z, E in H. exact H.
Qed.
Print Assumptions C53_msgpack_skip_sound.
Example C53_case : skip (mp_open [146; 163; 97; 98; 99; 192; 7]) = Ok 6. Proof. vm_compute. reflexivity. Qed.
