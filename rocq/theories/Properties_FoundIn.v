(** Properties_FoundIn.v -- C83 for MessagePack views inside arrays and maps.

    [leads mp_reader (mp_open b) w]: [w] is reached from the message by any sequence of operator[].  [ms_off w] is the position
    in the message at which the view begins (data() minus the message's data()).  Whatever the bytes, each accessor that returns
    has found an object of its kind there, complete and inside the message, and returns what that object stands for. *)

From Coq Require Import ZArith List Bool Lia ZifyBool ZifyNat.
From Verif Require Import Base BaseFacts Spec SaysSpec FloatModel MsgModel MsgSpec FoundSpec FoundIn FoundBack.
Import ListNotations.
Open Scope Z_scope.

Theorem C83_msgpack_inside_partial : forall b w, bytes_ok b -> leads mp_reader (mp_open b) w -> let p := ms_off w in
  (forall s, r_asString mp_reader w = Ok s -> exists f, item_ok (MStr f s) /\ stands_at b p (enc (MStr f s))) /\
  (forall s, r_asStringView mp_reader w = Ok s -> exists f, item_ok (MStr f s) /\ stands_at b p (enc (MStr f s))) /\
  (forall s, r_asBlob mp_reader w = Ok s -> exists f, item_ok (MBin f s) /\ stands_at b p (enc (MBin f s))) /\
  (forall x, r_asBool mp_reader w = Ok x -> stands_at b p (enc (MBool x))) /\
  (r_isNull mp_reader w = Ok true -> stands_at b p (enc MNil)) /\
  (forall x, r_asDouble mp_reader w = Ok x -> exists it, item_ok it /\ stands_at b p (enc it) /\ ((exists y, it = MF32 y /\ x = f32_to_f64 y) \/ it = MF64 x)) /\
  (forall iw z, r_asInt mp_reader iw w = Ok z -> exists it n, item_ok it /\ stands_at b p (enc it) /\ number_of it = Some n /\ z = to_signed 64 n /\ smin iw <= z <= smax iw) /\
  (forall iw z, r_asUInt mp_reader iw w = Ok z -> exists it n, item_ok it /\ stands_at b p (enc it) /\ number_of it = Some n /\ z = n mod 2^64 /\ z <= umax iw).
Proof.
  intros b w B L. destruct (reached_wfs b w B L) as [W <-]. intros p.
  split; [exact (in_string w W)|]. split; [exact (in_string w W)|]. split; [exact (in_blob w W)|]. split; [exact (in_bool w W)|]. split; [exact (in_null w W)|]. split; [exact (in_double w W)|]. split; [exact (in_int w W)|exact (in_uint w W)].
Qed.
Print Assumptions C83_msgpack_inside_partial.

(** In messages below 4 GiB the converse holds as well: what is there is returned. For the integers see C83_msgpack_int_partial. *)
Theorem C83_msgpack_views_partial : forall b w, bytes_ok b -> zlen b < 2^32 - 5 -> leads mp_reader (mp_open b) w -> let p := ms_off w in
  (forall s, r_asString mp_reader w = Ok s <-> exists f, item_ok (MStr f s) /\ stands_at b p (enc (MStr f s))) /\
  (forall s, r_asStringView mp_reader w = Ok s <-> exists f, item_ok (MStr f s) /\ stands_at b p (enc (MStr f s))) /\
  (forall s, r_asBlob mp_reader w = Ok s <-> exists f, item_ok (MBin f s) /\ stands_at b p (enc (MBin f s))) /\
  (forall x, r_asBool mp_reader w = Ok x <-> stands_at b p (enc (MBool x))) /\
  (r_isNull mp_reader w = Ok true <-> stands_at b p (enc MNil)) /\
  (forall x, r_asDouble mp_reader w = Ok x <-> exists it, item_ok it /\ stands_at b p (enc it) /\ ((exists y, it = MF32 y /\ x = f32_to_f64 y) \/ it = MF64 x)) /\
  (forall iw z, r_asInt mp_reader iw w = Ok z <-> exists it n, item_ok it /\ stands_at b p (enc it) /\ number_of it = Some n /\ z = to_signed 64 n /\ smin iw <= z <= smax iw) /\
  (forall iw z, r_asUInt mp_reader iw w = Ok z <-> exists it n, item_ok it /\ stands_at b p (enc it) /\ number_of it = Some n /\ z = n mod 2^64 /\ z <= umax iw).
Proof.
  intros b w B Z L p. destruct (C83_msgpack_inside_partial b w B L) as (F1 & F2 & F3 & F4 & F5 & F6 & F7 & F8). fold p in F1, F2, F3, F4, F5, F6, F7, F8.
  split; [intros s; split; [exact (F1 s)|intros (f & OK & ST); exact (proj1 (back_string b w B Z L f s OK ST))]|].
  split; [intros s; split; [exact (F2 s)|intros (f & OK & ST); exact (proj2 (back_string b w B Z L f s OK ST))]|].
  split; [intros s; split; [exact (F3 s)|intros (f & OK & ST); exact (back_blob b w B Z L f s OK ST)]|].
  split; [intros x; split; [exact (F4 x)|exact (back_bool b w B Z L x)]|]. split; [split; [exact F5|exact (back_null b w B Z L)]|].
  split; [intros x; split; [exact (F6 x)|intros (it & OK & ST & H); exact (back_double b w B Z L it x OK ST H)]|].
  split; [intros iw z; split; [exact (F7 iw z)|intros (it & n & OK & ST & N & -> & R); exact (back_int b w B Z L iw it n OK ST N R)]|].
  intros iw z; split; [exact (F8 iw z)|intros (it & n & OK & ST & N & -> & R); exact (back_uint b w B Z L iw it n OK ST N R)].
Qed.
Print Assumptions C83_msgpack_views_partial.

(** {"a": [7, "hi"]}: the view of "hi" is reached and returns it; the object is at position 5. *)
Example C83_msgpack_inside_case : let b := [129; 161; 97; 146; 7; 162; 104; 105] in
  bytes_ok b /\ zlen b < 2^32 - 5 /\ exists w1 w2, r_key mp_reader (mp_open b) [97] = Ok w1 /\ r_idx mp_reader w1 1 = Ok w2 /\ leads mp_reader (mp_open b) w2 /\ ms_off w2 = 5 /\
  r_asString mp_reader w2 = Ok [104; 105] /\ stands_at b 5 (enc (MStr FFix [104; 105])).
Proof.
  intros b. assert (E1 : r_key mp_reader (mp_open b) [97] = Ok (mkSpan b 3 5)) by (vm_compute; reflexivity). assert (E2 : r_idx mp_reader (mkSpan b 3 5) 1 = Ok (mkSpan b 5 3)) by (vm_compute; reflexivity).
  split; [unfold b; repeat constructor; lia|]. split; [reflexivity|]. do 2 eexists. split; [exact E1|]. split; [exact E2|]. split; [exact (leads_idx _ _ _ _ _ (leads_key _ _ _ _ _ (leads_here _ _) E1) E2)|].
  split; [reflexivity|]. split; [vm_compute; reflexivity|]. exists [129; 161; 97; 146; 7], []. split; reflexivity.
Qed.
