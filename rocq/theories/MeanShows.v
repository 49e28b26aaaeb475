(** MeanShows.v -- a view that behaves like a value says what the Reader interface exposes of it. *)

From Coq Require Import ZArith List Bool Lia ZifyBool ZifyNat.
From Verif Require Import Base BaseFacts Spec SpecFacts TransSpec TransFacts SaysSpec SaysFacts MeanFacts.
Import ListNotations.
Open Scope Z_scope.

Section Shows.
  Context {V : Type} (R : reader V) (T : val -> table).
  Hypothesis TOK : table_ok T.
  Lemma no_scalar t : scalar t = None -> first_true (answers t) = first_true [false; false; false; false; false; false; false; t_map t; t_array t].
  Proof. unfold scalar, answers. intros H. repeat (match type of H with (if ?c then _ else _) = _ => destruct c; [discriminate H|] end). reflexivity. Qed.
  Lemma says_shown w v x : observes R w (T v) -> scalar (T v) = Some (Some x) -> says R w x.
  Proof. intros OB SC. apply (says_scalar R w (T v) x OB); [congruence|exact SC]. Qed.

  Theorem shows_says : forall v x w, shows R T w v -> exposed T v = Some x -> says R w x.
  Proof.
    induction v as [| | | | | | |l IH|l IH] using val_ind'; intros x w SH EX.
    1-7: cbn [exposed] in EX; apply shows_leaf in SH; [|exact I]; destruct SH as [OB _]; destruct (scalar _) as [y|] eqn:SC in EX; [subst y; exact (says_shown _ _ _ OB SC)|discriminate EX].
    - cbn [exposed] in EX. apply shows_arr in SH. destruct SH as (OB & N & _ & E & _). destruct (scalar (T (VArr l))) as [y|] eqn:SC; [subst y; exact (says_shown _ _ _ OB SC)|].
      destruct (all_some (map (exposed T) l)) as [xs|] eqn:AS; [|discriminate EX]. injection EX as <-. apply all_some_map in AS.
      apply says_arr. split; [|split].
      + apply (observes_yes R w _ 8 OB). rewrite (no_scalar _ SC). destruct (proj2 TOK l SC) as [-> ->]. reflexivity.
      + rewrite N. apply Forall2_len in AS. unfold zlen. now rewrite AS.
      + clear - IH E AS. revert E. generalize 0 as i. induction AS as [|v x l xs EX AS IHl]; intros i E; cbn [says_elems elems_ok] in *; [exact I|]. apply Forall_cons_iff in IH. destruct IH as [IV IH].
        destruct E as [(w' & EI & SH) E]. split; [exists w'; split; [exact EI|exact (IV x w' SH EX)]|exact (IHl IH (i + 1) E)].
    - cbn [exposed] in EX. apply shows_map in SH. destruct SH as (OB & MK & _ & _ & E & _). destruct (scalar (T (VMap l))) as [y|] eqn:SC; [subst y; exact (says_shown _ _ _ OB SC)|].
      destruct (all_some (map (fun kx => exposed T (snd kx)) l)) as [xs|] eqn:AS; [|discriminate EX]. injection EX as <-. apply all_some_map in AS.
      set (m := combine (map fst l) xs). assert (KM : map fst m = map fst l).
      { unfold m. clear - AS. induction AS as [|kx x l xs E AS IHl]; [reflexivity|]. cbn [map combine fst]. now f_equal. }
      assert (KF : map fst (firsts m) = map fst l) by (rewrite <- KM; unfold firsts; rewrite map_map; reflexivity).
      apply says_map. split; [|split].
      + apply (observes_yes R w _ 7 OB). rewrite (no_scalar _ SC), (proj1 TOK l SC). reflexivity.
      + now rewrite KF.
      + assert (G : forall k x, In (k, x) (firsts m) -> exists w', r_key R w k = Ok w' /\ says R w' x).
        { intros k x IN. assert (X : exists d, x = first_of k d m /\ existsb (beq k) (map fst m) = true).
          { unfold firsts in IN. apply in_map_iff in IN. destruct IN as ([k' y] & Q & IN). cbn [fst snd] in Q. injection Q as <- <-. exists y. split; [reflexivity|]. now apply key_in in IN. }
          destruct X as (d & -> & KI). rewrite KM in KI. destruct (entries_first R T w l E k VNull KI) as (w' & K & SH). exists w'. split; [exact K|].
          pose proof (first_of_in k VNull l KI) as IN'. pose proof (first_of_map (exposed T) l xs AS k VNull d KI) as FM. rewrite Forall_forall in IH. exact (IH _ IN' _ w' SH FM). }
        clear - G. induction (firsts m) as [|[k x] fm IHm]; cbn [says_entries]; [exact I|]. split; [apply G; now left|]. apply IHm. intros k' x' IN. apply G. now right.
  Qed.
End Shows.
