(** HaltWriters.v -- the library's writers and constructors always answer. *)

From Coq Require Import ZArith List Bool Lia ZifyBool ZifyNat.
From Verif Require Import Base BaseFacts Spec HaltFacts.
From Verif Require ZeraModel MsgModel CborModel B64Model JsonModel FlexModel FlexBModel.
Import ListNotations.
Open Scope Z_scope.

Lemma msgpack_obliging : obliging MsgModel.mp_writer.
Proof. split; intros; discriminate. Qed.

Lemma cbor_obliging : obliging CborModel.cbor_writer.
Proof.
  split; [intros s e|intros s]; cbn [CborModel.cbor_writer w_step w_finish].
  - destruct e; cbn [CborModel.cw_step]; unfold CborModel.cw_begin, CborModel.cw_end;
      repeat match goal with |- context [if ?c then _ else _] => destruct c | |- context [match ?l with [] => _ | _ :: _ => _ end] => destruct l as [|[[? ?] ?] ?] end; discriminate.
  - unfold CborModel.cw_finish. destruct (CborModel.cw_root s); discriminate.
Qed.

Section Json.
Import B64Model JsonModel.
Lemma enc_emit_halts : forall f v b out, b < 6 * Z.of_nat f -> 0 < Z.of_nat f -> halts (fun x => fst x < 6) (enc_emit f v b out).
Proof.
  induction f as [|f IH]; intros v b out L1 L2; [lia|]. cbn [enc_emit]. cbv zeta. destruct (6 <=? b) eqn:E; [|cbn; lia].
  hb (apply halts_rd). apply IH; lia.
Qed.
Lemma enc_loop_halts : forall l v b out, b < 6 -> halts (fun x => True) (enc_loop l v b out).
Proof.
  induction l as [|x l IH]; intros v b out L; [exact I|]. cbn [enc_loop]. cbv zeta. hb (apply (enc_emit_halts 4); lia).
  destruct a as [b2 out2]. cbn [fst] in *. now apply IH.
Qed.
Lemma encode_halts l : halts any (base64Encode l).
Proof.
  unfold base64Encode. hb (apply (enc_loop_halts l 0 0 []); lia). destruct a as [[v b] out].
  eapply (halts_bind any); [hany|]. intros o _ _. assert (K : forall f o, (4 - zlen o) mod 4 < Z.of_nat f -> halts any (enc_pad f o)).
  { induction f as [|f IH]; intros o' L; [pose proof (Z.mod_pos_bound (4 - zlen o') 4 ltac:(lia)); lia|]. cbn [enc_pad]. destruct (zlen o' mod 4 =? 0) eqn:E; [exact I|]. cbn [negb].
    apply IH. rewrite zlen_app, zlen_cons, zlen_nil. clear - L E. Z.div_mod_to_equations. lia. }
  apply K. pose proof (Z.mod_pos_bound (4 - zlen o) 4 ltac:(lia)). lia.
Qed.
Lemma accept_halts dbg s : halts any (j_accept dbg s).
Proof. unfold j_accept. hany. destruct (js_st s); hany. Qed.
Lemma push_halts dbg v s : snd (j_push dbg v s) <> NoFuel.
Proof. unfold j_push, ok. pose proof (accept_halts dbg s) as H. destruct (j_accept dbg s) as [[k s1]|?| |]; [destruct (js_st s1)| | |]; cbn; try discriminate. destruct H. Qed.
Lemma begin_halts dbg obj s : snd (j_begin dbg obj s) <> NoFuel.
Proof. unfold j_begin, ok. pose proof (accept_halts dbg s) as H. destruct (j_accept dbg s) as [[k s1]|?| |]; cbn; try discriminate. destruct H. Qed.
Lemma seq_halts f g s : (forall s, snd (f s) <> NoFuel) -> (forall s, snd (g s) <> NoFuel) -> snd (j_seq f g s) <> NoFuel.
Proof. intros F G. unfold j_seq. pose proof (F s) as H. destruct (f s) as [s' [?|?| |]]; cbn in *; auto. Qed.
Lemma end_halts s : snd (j_end_array s) <> NoFuel.
Proof. unfold j_end_array, ok. destruct (j_in false s); discriminate. Qed.
Lemma json_obliging dbg : obliging (json_writer dbg).
Proof.
  split; [intros s e|intros s]; cbn [json_writer w_step w_finish].
  - destruct e; cbn [j_step]; auto using push_halts, begin_halts, end_halts.
    + unfold j_binary. pose proof (encode_halts b) as H. destruct (base64Encode b) as [?|?| |]; cbn [snd]; try discriminate; [|destruct H].
      do 4 (apply seq_halts; [auto using push_halts, begin_halts|intros]). apply end_halts.
    + unfold j_setkey, ok. destruct (js_st s); [discriminate|]. destruct (jc_obj _); [|discriminate]. destruct (nonempty _); discriminate.
    + unfold j_end_map, ok. destruct (js_st s); [discriminate|]. destruct (jc_obj _); [|discriminate]. destruct (nonempty _); discriminate.
  - unfold j_finish. destruct (js_doc s); [|discriminate]. destruct (js_tree s); [|discriminate]. destruct (yy_write v); discriminate.
Qed.
Lemma json_open_halts t : json_open t <> NoFuel.
Proof. unfold json_open. destruct (yy_read t); discriminate. Qed.
End Json.

Section Flex.
Import FlexModel.
Lemma pairs_halts dbg : forall l, halts any (f_pairs dbg l).
Proof.
  assert (D1 : forall A (e : exn) (y : res A), halts any y -> halts any (if dbg then Throw e else y)) by (intros; destruct dbg; [exact I|assumption]).
  fix K 1. intros [|x [|y l]]; cbn [f_pairs]; [exact I|destruct x; apply D1; exact I|]. destruct x; try (apply D1; exact I). hb (apply (K l)). exact I.
Qed.
Lemma flex_obliging dbg srt : obliging (flex_writer dbg srt).
Proof.
  split; [intros s e|intros s]; cbn [flex_writer w_step w_finish].
  - destruct e; cbn [f_step]; unfold f_push, f_key, f_begin, f_end_array, f_end_map; try discriminate; destruct (fs_st s) as [|[[|] ?] ?]; try discriminate.
    pose proof (pairs_halts dbg (skipn (Z.to_nat z) (fs_stack s))) as H. cbv zeta. destruct (f_pairs dbg _); cbn [snd]; try discriminate. destruct H.
  - unfold f_finish. destruct (fs_finished s); [discriminate|]. cbv zeta. cbn [snd]. apply (halts_ne any). eapply (halts_bind any); [|intros; exact I].
    unfold f_root. destruct (if fs_wrote s then _ else _) as [|x [|? ?]]; try destruct dbg; exact I.
Qed.
Import FlexBModel.
Lemma c_string_halts buf p : halts any (c_string buf p).
Proof. unfold c_string. destruct (_ && _); [|exact I]. destruct (until_nul _); exact I. Qed.
Lemma fb_pairs_halts dbg buf : forall l, halts any (fb_pairs dbg buf l).
Proof.
  assert (D1 : forall A (e : exn) (y : res A), halts any y -> halts any (if dbg then Throw e else y)) by (intros; destruct dbg; [exact I|assumption]).
  fix K 1. intros [|x [|y l]]; cbn [fb_pairs]; [exact I|apply D1; exact I|]. destruct (v_ty x =? 4); [|apply D1; exact I]. hb (apply c_string_halts). hb (apply (K l)). destruct a0. exact I.
Qed.
Lemma flexb_obliging dbg srt : obliging (flexb_writer dbg srt).
Proof.
  split; [intros s e|intros s]; cbn [flexb_writer w_step w_finish].
  - destruct e; cbn [fb_step]; unfold fb_push, fb_add_key, fb_begin, fb_end_array, fb_end_map; try discriminate.
    + match goal with |- context [match ?x with _ => _ end] => destruct x end; discriminate.
    + destruct (b_st s) as [|[[|] ?] ?]; discriminate.
    + destruct (b_st s) as [|[[|] ?] ?]; try discriminate. pose proof (fb_pairs_halts dbg (b_buf s) (skipn (Z.to_nat z) (b_stack s))) as H. cbv zeta. destruct (fb_pairs dbg _ _) as [[l1 odd]|?| |]; cbn [snd]; try discriminate; destruct H.
  - unfold fb_finish. destruct (b_finished s); [discriminate|]. cbv zeta. cbn [snd]. unfold fb_root. destruct (if b_wrote s then _ else _) as [|x [|? ?]]; try destruct dbg; discriminate.
Qed.
Lemma flexb_open_halts b : flexb_opened b <> NoFuel.
Proof.
  unfold flexb_opened, fb_open. destruct (zlen b =? 0); [discriminate|]. unfold rd. destruct (get b _); [|discriminate]. cbn [bind]. destruct (get b _); discriminate.
Qed.
End Flex.

Section Zera.
Import ZeraModel.
Definition wcalm {A} (m : wr A) : Prop := forall s, snd (m s) <> NoFuel.
Lemma wcalm_bind {A B} (m : wr A) (f : A -> wr B) : wcalm m -> (forall a, wcalm (f a)) -> wcalm (wbind m f).
Proof. intros H K s. unfold wbind. specialize (H s). destruct (m s) as [s' [a|?| |]]; cbn [snd] in *; auto; [apply K|discriminate..]. Qed.
Lemma overwrite_halts o a l : overwrite o a l <> NoFuel.
Proof. unfold overwrite. destruct (_ && _); discriminate. Qed.
Lemma env_calm l : wcalm (append_env_payload l).
Proof. intros s. unfold append_env_payload. cbv zeta. destruct (_ <? _); discriminate. Qed.
Lemma alloc_calm n a : wcalm (arena_alloc n a).
Proof. intros s. unfold arena_alloc. cbv zeta. destruct (u32_max <? _); [discriminate|]. destruct (u32_max <? _); discriminate. Qed.
Lemma store_calm o l : wcalm (arena_store o l).
Proof. intros s. unfold arena_store. pose proof (overwrite_halts (zw_arena s) o l). destruct (overwrite _ _ _); cbn [snd]; congruence. Qed.
Lemma rootvr_calm vr : wcalm (write_root_vr vr).
Proof. intros s. unfold write_root_vr. destruct (zw_root s); [discriminate|]. apply wcalm_bind; [apply env_calm|]. intros a s'. discriminate. Qed.
Lemma deliver_calm vr : wcalm (deliver_vr vr).
Proof.
  intros s. unfold deliver_vr. destruct (zw_st s) as [|[p c|p c [a|]] st]; try discriminate; [apply rootvr_calm|].
  destruct (_ <? _); [discriminate|]. pose proof (overwrite_halts p a vr). destruct (overwrite _ _ _); cbn [snd]; congruence.
Qed.
Lemma string_calm sv : wcalm (zw_string sv).
Proof.
  intros s. unfold zw_string. destruct (_ <=? _).
  - cbv zeta. pose proof (overwrite_halts (make_vr TString 1 (wrap16 (zlen sv)) 0 0 0) 4 sv). destruct (overwrite _ _ _); cbn [snd]; try congruence. apply deliver_calm.
  - destruct (_ <? _); [discriminate|]. revert s. apply wcalm_bind; [apply alloc_calm|]. intros o. apply wcalm_bind; [apply store_calm|]. intros _. apply deliver_calm.
Qed.
Lemma binary_calm b : wcalm (zw_binary b).
Proof.
  intros s. unfold zw_binary. destruct (_ <? _); [discriminate|]. cbv zeta. revert s. apply wcalm_bind; [apply alloc_calm|]. intros o. apply wcalm_bind; [apply store_calm|].
  intros _. apply wcalm_bind; [apply env_calm|]. intros. apply deliver_calm.
Qed.
Lemma patch_halts p c : patch_count p c <> NoFuel.
Proof. unfold patch_count. destruct (_ <? _); discriminate. Qed.
Lemma close_calm p t : wcalm (wbind (append_env_payload p) (fun ofs => deliver_vr (make_vr t 0 0 ofs 0 0))).
Proof. apply wcalm_bind; [apply env_calm|]. intros. apply deliver_calm. Qed.
Lemma zera_obliging : obliging zera_writer.
Proof.
  split; [intros s e|intros s]; cbn [zera_writer w_step w_finish].
  - destruct e; cbn [zw_step]; try apply deliver_calm; [apply string_calm|apply binary_calm| | | | |].
    + unfold zw_key. destruct (zw_st s) as [|[p c|p c [a|]] st]; try discriminate. destruct (_ <? _); discriminate.
    + unfold zw_begin_array. destruct (reserve_ok _); discriminate.
    + unfold zw_end_array. destruct (zw_st s) as [|[p c|p c [a|]] st]; try discriminate. cbv zeta. destruct (_ <? _); [discriminate|].
      pose proof (patch_halts p c). destruct (patch_count p c); cbn [snd]; try congruence. apply close_calm.
    + unfold zw_begin_map. destruct (reserve_ok _); discriminate.
    + unfold zw_end_map. destruct (zw_st s) as [|[p c|p c [a|]] st]; try discriminate. cbv zeta.
      pose proof (patch_halts p c). destruct (patch_count p c); cbn [snd]; try congruence. apply close_calm.
  - unfold zw_finish. destruct (zw_st s); [|discriminate]. apply wcalm_bind; [destruct (zw_root s); [discriminate|apply rootvr_calm]|].
    intros _ s1. destruct (_ <? _); [discriminate|]. destruct (_ <? _); [discriminate|]. cbv zeta. destruct (_ <? _); [discriminate|]. cbn [snd].
    apply (halts_ne any). repeat (eapply halts_bind; [apply ne_halts, overwrite_halts|intros ? _ _]). apply ne_halts, overwrite_halts.
Qed.
Lemma zera_open_halts b : zera_open b <> NoFuel.
Proof.
  apply (halts_ne any). unfold zera_open, parse_header. 
  repeat (first [exact I | eapply (halts_bind any); [|intros ? _ _] | apply halts_req; intros _ | apply halts_if; intros _ | apply halts_rd | unfold read_u16_le, read_u32_le, require]).
Qed.
End Zera.
