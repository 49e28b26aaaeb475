(** TransSpec.v -- what a generic copy through the Reader interface can see of a value. *)

From Coq Require Import ZArith List Bool.
From Verif Require Import Base Spec.
Import ListNotations.
Open Scope Z_scope.

(** The scalar a node presents itself as, by its leaf observations: the first type question answered with
    yes, and what the matching accessor returns ([Some None]: it throws); [None]: not a scalar. *)
Definition scalar (t : table) : option (option val) :=
  if t_null t then Some (Some VNull)
  else if t_bool t then Some (option_map VBool (t_asBool t))
  else if t_int t then Some (option_map VInt (t_asInt t I64))
  else if t_uint t then Some (option_map VUInt (t_asUInt t I64))
  else if t_float t then Some (option_map VDbl (t_asDouble t))
  else if t_string t then Some (option_map VStr (t_asString t))
  else if t_blob t then Some (option_map VBlob (t_asBlob t))
  else None.

(** The value stored under the first occurrence of a key. *)
Fixpoint first_of {A} (k : bytes) (x : A) (l : list (bytes * A)) : A :=
  match l with [] => x | (k', y) :: l' => if beq k' k then y else first_of k x l' end.
(** Every occurrence of a key gets the value of its first occurrence. *)
Definition firsts {A} (l : list (bytes * A)) : list (bytes * A) := map (fun kx => (fst kx, first_of (fst kx) (snd kx) l)) l.

Fixpoint all_some {A} (l : list (option A)) : option (list A) :=
  match l with
  | [] => Some []
  | Some x :: l' => option_map (cons x) (all_some l')
  | None :: _ => None
  end.

(** The value seen through the Reader interface when leaf observations are [T]; [None] if some accessor
    throws. *)
Fixpoint exposed (T : val -> table) (v : val) : option val :=
  match scalar (T v) with
  | Some x => x
  | None =>
      match v with
      | VArr l => option_map VArr (all_some (map (exposed T) l))
      | VMap l => option_map (fun xs => VMap (firsts (combine (map fst l) xs))) (all_some (map (fun kx => exposed T (snd kx)) l))
      | _ => None
      end
  end.

(** Container nodes answer to the matching type question. *)
Definition table_ok (T : val -> table) : Prop :=
  (forall l, scalar (T (VMap l)) = None -> t_map (T (VMap l)) = true) /\
  (forall l, scalar (T (VArr l)) = None -> t_map (T (VArr l)) = false /\ t_array (T (VArr l)) = true).

(** Every map inside [v] has distinct keys. *)
Definition distinct_keys : val -> Prop := every (fun v => match v with VMap l => NoDup (map fst l) | _ => True end).

(** Every occurrence of a key, in every map inside [v], gets the value of its first occurrence. *)
Fixpoint first_wins (v : val) : val :=
  match v with
  | VArr l => VArr (map first_wins l)
  | VMap l => VMap (firsts (map (fun kx => (fst kx, first_wins (snd kx))) l))
  | _ => v
  end.

(** The same tree; integers agree as numbers, whether written as signed or unsigned. *)
Definition same_num (v : val) : val := match v with VUInt z => VInt z | _ => v end.
Fixpoint unsign (v : val) : val :=
  match v with
  | VArr l => VArr (map unsign l)
  | VMap l => VMap (map (fun kx => (fst kx, unsign (snd kx))) l)
  | _ => same_num v
  end.
Definition same_value (v x : val) : Prop := unsign v = unsign x.

(** No unsigned integer of 2^63 or more. *)
Definition small_uints : val -> Prop := every (fun v => match v with VUInt z => z < 2^63 | _ => True end).

(** ** Protocols

    Readers take a recursion bound (needed by some of them). [p_ok]: trees the protocol can carry; [p_exact]: trees it also shows
    unambiguously; [p_order]: the order in which maps are shown; [p_norm]: how the written value is shown under [p_table]. *)
Record protocol : Type := mkProtocol {
  p_view : Type; p_state : Type; p_out : Type;
  p_reader : nat -> reader p_view;
  p_writer : writer p_state p_out;
  p_open : p_out -> res p_view;
  p_table : val -> table;
  p_ok : val -> Prop;
  p_exact : val -> Prop;
  p_order : val -> val;
  p_norm : val -> val
}.
