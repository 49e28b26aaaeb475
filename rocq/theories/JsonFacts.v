(** JsonFacts.v -- the JSON reader on documents, the JSON writer on call sequences. *)

From Coq Require Import ZArith List Bool String Lia ZifyBool ZifyNat.
From Verif Require Import Base BaseFacts Spec SpecFacts FloatModel FloatSpec HalfModel B64Model B64Spec B64Facts
  Utf8Model Utf8Spec Utf8Facts JsonModel JsonSpec.
Import ListNotations.
Open Scope Z_scope.

(** ** base64 text inside a document *)
Lemma list_of_get (l : bytes) (f : Z -> Z) : (forall i, 0 <= i < zlen l -> get l i = Some (f i)) ->
  l = map (fun i => f (Z.of_nat i)) (seq 0 (Z.to_nat (zlen l))).
Proof.
  intros H. replace (Z.to_nat (zlen l)) with (List.length l) by (unfold zlen; lia).
  revert f H. induction l as [|x l IH]; intros f H; [reflexivity|]. cbn [List.length seq map]. f_equal.
  - specialize (H 0). rewrite get_cons_0, zlen_cons in H. pose proof (zlen_nonneg l). specialize (H ltac:(lia)).
    change (Z.of_nat 0) with 0. congruence.
  - rewrite <- seq_shift, map_map. rewrite (IH (fun i => f (i + 1))) at 1.
    + apply map_ext. intros i. f_equal. lia.
    + intros i Hi. rewrite <- H by (rewrite zlen_cons; lia). change (x :: l) with ([x] ++ l). rewrite get_app_r by (cbn; lia).
      f_equal. cbn. lia.
Qed.
Lemma unb64_ok s : bytes_ok s -> base64Decode s = or_throw (unb64 s).
Proof.
  intros H. pose proof (decode_spec s H) as D. unfold unb64.
  destruct (forallb in_alphabet (before_pad s)); [|exact D]. destruct D as (out & -> & L & G). cbn [or_throw].
  f_equal. rewrite <- L. exact (list_of_get out (fun i => spelled (before_pad s) / 2 ^ (6 * zlen (before_pad s) - 8 * (i + 1)) mod 256) G).
Qed.
Lemma unb64_rfc b : bytes_ok b -> unb64 (rfc4648 b) = Some b.
Proof.
  intros H. pose proof (unb64_ok _ (bytes_ok_rfc b H)) as U. pose proof (round_trip64 b H) as R.
  rewrite encode_rfc in R by exact H. cbn [bind] in R. rewrite R in U. destruct (unb64 (rfc4648 b)); cbn [or_throw] in U; congruence.
Qed.

(** ** Documents as readers *)
Lemma getn_existsb key l : match yy_obj_getn l key with Some _ => existsb (beq key) (map fst l) = true
                                                      | None => existsb (beq key) (map fst l) = false end.
Proof.
  induction l as [|[k x] l IH]; [reflexivity|]. cbn [yy_obj_getn map fst existsb]. rewrite (beq_sym key k).
  destruct (beq k key); [reflexivity|exact IH].
Qed.
Lemma getn_first key x l1 l2 : existsb (beq key) (map fst l1) = false -> yy_obj_getn (l1 ++ (key, x) :: l2) key = Some x.
Proof.
  induction l1 as [|[k y] l1 IH]; cbn [map fst existsb app yy_obj_getn]; [now rewrite beq_refl|].
  rewrite (beq_sym key k). destruct (beq k key); [discriminate|]. exact IH.
Qed.

Lemma isBlob_spec v : j_isBlob v = Ok (match blob_text v with Some _ => true | None => false end).
Proof.
  destruct v as [| | | | | | |l|l]; try reflexivity.
  destruct l as [|a [|b [|c [|d l]]]]; try reflexivity.
  - destruct a; reflexivity.
  - destruct a; try reflexivity. destruct b; reflexivity.
  - destruct a; try reflexivity. unfold j_isBlob. cbn [j_isArray j_arraySize andr bind]. change (zlen [VStr s; b; c]) with 3.
    cbn [Z.eqb Pos.eqb]. change (j_idx (VArr [VStr s; b; c]) 0) with (Ok (VStr s)). change (j_idx (VArr [VStr s; b; c]) 1) with (Ok b).
    change (j_idx (VArr [VStr s; b; c]) 2) with (Ok c). cbn [bind j_isString j_asString]. change blobTag with tag_text.
    destruct (beq s tag_text) eqn:E; cbn [bind andr].
    + destruct b; try reflexivity. cbn [bind andr j_isString]. destruct c as [| | | | |e| | |]; try reflexivity. cbn [bind andr j_isString j_asString blob_text].
      change blobEncoding with enc_text. rewrite E. destruct (beq e enc_text); reflexivity.
    + destruct b; try reflexivity. destruct c as [| | | | |e| | |]; try reflexivity. cbn [blob_text]. rewrite E. reflexivity.
  - assert (j_isBlob (VArr (a :: b :: c :: d :: l)) = Ok false) as ->.
    { unfold j_isBlob. cbn [j_isArray j_arraySize andr bind]. rewrite !zlen_cons. pose proof (zlen_nonneg l).
      replace (_ =? 3) with false by lia. reflexivity. }
    cbn [blob_text]. destruct a, b, c; reflexivity.
Qed.
Lemma asBlob_spec v s : json_doc v -> blob_text v = Some s -> j_asBlob v = or_throw (unb64 s).
Proof.
  intros D B. unfold j_asBlob. rewrite isBlob_spec, B. cbn [bind require].
  destruct v as [| | | | | | |l|l]; try discriminate. destruct l as [|a [|b [|c [|d l]]]]; try discriminate; destruct a; try discriminate; destruct b as [| | | | |t| | |]; try discriminate.
  2: destruct c; discriminate.
  destruct c; try discriminate. cbn [blob_text] in B. destruct (_ && _); [|discriminate]. injection B as ->.
  change (j_idx _ 1) with (@Ok val (VStr s)). cbn [bind j_asString]. apply unb64_ok.
  apply every_arr in D. destruct D as [_ D]. inversion D as [|? ? _ D1]. inversion D1 as [|? ? D2 _]. apply D2.
Qed.

Lemma iw_bits iw : 0 < ibits iw <= 64. Proof. destruct iw; cbn; lia. Qed.
Lemma to_signed_twice n m z : 0 < n <= m -> to_signed n (to_signed m z) = to_signed n z.
Proof.
  intros H. unfold to_signed at 1 3. assert (E : to_signed m z mod 2^n = z mod 2^n); [|now rewrite E].
  unfold to_signed. replace (2^m) with (2^(m-n) * 2^n) by (rewrite <- Z.pow_add_r by lia; f_equal; lia).
  set (q := 2^(m-n) * 2^n). assert (X : (z mod q) mod 2^n = z mod 2^n).
  { unfold q. rewrite Z.mul_comm, Z.rem_mul_r by (apply Z.pow_nonzero || apply Z.pow_pos_nonneg; lia).
    rewrite Z.mul_comm, Z.mod_add by (apply Z.pow_nonzero; lia). apply Z.mod_mod. apply Z.pow_nonzero; lia. }
  destruct (z mod q <? 2^(m-1)); [exact X|]. unfold q at 2. rewrite <- X.
  replace (z mod q - 2^(m-n) * 2^n) with (z mod q + (- 2^(m-n)) * 2^n) by ring. apply Z.mod_add. apply Z.pow_nonzero; lia.
Qed.
Lemma json_observes v : json_doc v -> observes json_reader v (json_table v).
Proof.
  intros D. destruct v as [| | z|z| | | |l|l]; try (unfold observes; cbn; repeat split; reflexivity).
  - unfold observes; cbn -[to_signed Z.pow ibits]. repeat split; try reflexivity.
    intros iw. unfold j_asInt. cbn [yy_is_int yy_get_sint]. rewrite to_signed_twice by apply iw_bits. reflexivity.
  - destruct D as [[] _].
  - assert (S : json_table (VArr l) = match blob_text (VArr l) with
        | Some s => mkTable false false false false false false true false true None (fun _ => None) (fun _ => None) None None (unb64 s)
        | None => ideal (VArr l) end) by reflexivity.
    rewrite S. pose proof (isBlob_spec (VArr l)) as B. destruct (blob_text (VArr l)) as [s|] eqn:E.
    + unfold observes. cbn [json_reader r_isNull r_isBool r_isInt r_isUInt r_isFloat r_isString r_isBlob r_isMap r_isArray r_asBool r_asInt
        r_asUInt r_asDouble r_asString r_asStringView r_asBlob t_null t_bool t_int t_uint t_float t_string t_blob t_map t_array t_asBool t_asInt
        t_asUInt t_asDouble t_asString t_asBlob]. rewrite B, (asBlob_spec _ s D E). repeat split; reflexivity.
    + unfold observes. cbn [json_reader r_isNull r_isBool r_isInt r_isUInt r_isFloat r_isString r_isBlob r_isMap r_isArray r_asBool r_asInt
        r_asUInt r_asDouble r_asString r_asStringView r_asBlob ideal t_null t_bool t_int t_uint t_float t_string t_blob t_map t_array t_asBool t_asInt
        t_asUInt t_asDouble t_asString t_asBlob]. unfold j_asBlob. rewrite B. repeat split; reflexivity.
Qed.
Lemma json_shows v : json_doc v -> shows json_reader json_table v v.
Proof.
  induction v as [| | | | | | |l IH|l IH] using val_ind'; intros D; pose proof (json_observes _ D) as O;
    try (apply shows_leaf; [exact I|]; split; [exact O|]; repeat split; reflexivity).
  - apply every_arr in D. destruct D as [_ D]. apply shows_arr. split; [exact O|]. split; [reflexivity|]. split.
    { intros i Hi. cbn [json_reader r_idx j_idx]. unfold yy_arr_get, get. replace ((0 <=? i) && (i <? zlen l)) with false by lia. reflexivity. }
    split; [|repeat split; reflexivity]. apply elems_intro. intros l1 x l2 ->. exists x. split.
    { cbn [json_reader r_idx j_idx]. unfold yy_arr_get. now rewrite get_mid. }
    rewrite Forall_forall in *. apply IH, D; apply in_or_app; right; now left.
  - apply every_map in D. destruct D as [_ D]. apply shows_map. split; [exact O|]. split; [reflexivity|]. split; [|split].
    + intros k _. cbn [json_reader r_contains j_contains]. pose proof (getn_existsb k l) as G. destruct (yy_obj_getn l k); now rewrite G.
    + intros k _ E. cbn [json_reader r_key j_key]. pose proof (getn_existsb k l) as G. destruct (yy_obj_getn l k); [congruence|reflexivity].
    + split; [|repeat split; reflexivity]. apply entries_intro. intros l1 k x l2 -> E. exists x. split.
      { cbn [json_reader r_key j_key]. now rewrite getn_first. }
      rewrite Forall_forall in *. apply (IH (k, x)), (D (k, x)); apply in_or_app; right; now left.
Qed.
