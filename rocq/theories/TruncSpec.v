(** TruncSpec.v -- vocabulary for reading a truncated message.

    [follow] walks a path of indices and keys down from a view; [still_told w' w] says that every
    answer [w'] gives is the answer [w] gives.  Nothing is said about operations that do not
    answer (exceptions): a truncated message may refuse, it may not lie. *)

From Coq Require Import ZArith List Bool.
From Verif Require Import Base Spec.
Import ListNotations.
Open Scope Z_scope.

(** [v[i]] and [v[k]] *)
Inductive step : Type := SIdx (i : Z) | SKey (k : bytes).
Definition take {V} (R : reader V) (w : V) (s : step) : res V :=
  match s with SIdx i => r_idx R w i | SKey k => r_key R w k end.
Fixpoint follow {V} (R : reader V) (w : V) (p : list step) : res V :=
  match p with [] => Ok w | s :: p' => w' <- take R w s ;; follow R w' p' end.

Definition same_answer {V A} (op : V -> res A) (w' w : V) : Prop :=
  forall x, op w' = Ok x -> op w = Ok x.

Record still_told {V} (R : reader V) (w' w : V) : Prop := mkTold {
  told_isNull : same_answer (r_isNull R) w' w;
  told_isBool : same_answer (r_isBool R) w' w;
  told_isInt : same_answer (r_isInt R) w' w;
  told_isUInt : same_answer (r_isUInt R) w' w;
  told_isFloat : same_answer (r_isFloat R) w' w;
  told_isString : same_answer (r_isString R) w' w;
  told_isBlob : same_answer (r_isBlob R) w' w;
  told_isMap : same_answer (r_isMap R) w' w;
  told_isArray : same_answer (r_isArray R) w' w;
  told_asBool : same_answer (r_asBool R) w' w;
  told_asInt : forall n, same_answer (r_asInt R n) w' w;
  told_asUInt : forall n, same_answer (r_asUInt R n) w' w;
  told_asDouble : same_answer (r_asDouble R) w' w;
  told_asString : same_answer (r_asString R) w' w;
  told_asStringView : same_answer (r_asStringView R) w' w;
  told_asBlob : same_answer (r_asBlob R) w' w;
  told_arraySize : same_answer (r_arraySize R) w' w;
  told_contains : forall k, same_answer (fun w => r_contains R w k) w' w;
  told_mapKeys : same_answer (r_mapKeys R) w' w
}.

(** Everything reached in the message [w'] by some path is reached by the same path in [w], and
    tells only what the view of [w] tells. *)
Definition never_lies {V} (R : reader V) (w' w : V) : Prop :=
  forall p v', follow R w' p = Ok v' -> exists v, follow R w p = Ok v /\ still_told R v' v.

(** The part of a value a path leads to: element [i] of an array, the first entry of a key. *)
Definition part (v : val) (s : step) : option val :=
  match v, s with
  | VArr l, SIdx i => if (0 <=? i) && (i <? zlen l) then nth_error l (Z.to_nat i) else None
  | VMap l, SKey k => option_map snd (find (fun e => beq k (fst e)) l)
  | _, _ => None
  end.
Fixpoint part_at (v : val) (p : list step) : option val :=
  match p with
  | [] => Some v
  | s :: p' => match part v s with Some x => part_at x p' | None => None end
  end.
(** Arguments a C++ program can pass. *)
Definition step_ok (s : step) : Prop :=
  match s with SIdx i => 0 <= i < 2^64 | SKey k => bytes_ok k end.

(** Whatever the message [w'] answers after a path is what the value [v] says there: the path leads
    to a part of [v], and every answer is one that a view showing that part gives. *)
Definition tells_only {V} (R : reader V) (T : val -> table) (w' : V) (v : val) : Prop :=
  forall p x', Forall step_ok p -> follow R w' p = Ok x' ->
    exists x w, part_at v p = Some x /\ shows R T w x /\ still_told R x' w.
