(** LifeSpec.v -- what the theorems about lifetimes refer to.  Nothing here mentions how a protocol stores anything. *)

From Coq Require Import ZArith List Bool.
From Verif Require Import Base Spec LifeModel.
Import ListNotations.
Open Scope Z_scope.

(** ** Writer calls with arguments in the caller's storage *)
Definition text (m : memory) (a : nat) : bytes := match m a with Some d => d | None => [] end.
Definition after (m : memory) (o : hop) : memory := match o with HSet a x => mset m a x | _ => m end.
Definition at_end (m : memory) (h : list hop) : memory := fold_left after h m.

(** The calls with their arguments as they are when the call is made. *)
Fixpoint heard (m : memory) (h : list hop) : list ev :=
  match h with
  | [] => []
  | o :: h' =>
      match o with
      | HCall e => [e]
      | HStr a => [EStr (text m a)]
      | HKey a => [EKey (text m a)]
      | HBin a => [EBin (text m a)]
      | HNull => [EStr []]
      | HSet _ _ => []
      end ++ heard (after m o) h'
  end.
(** The same with the string() arguments as they are in the memory [mf]. *)
Fixpoint heard_late (mf m : memory) (h : list hop) : list ev :=
  match h with
  | [] => []
  | o :: h' =>
      match o with
      | HCall e => [e]
      | HStr a => [EStr (text mf a)]
      | HKey a => [EKey (text m a)]
      | HBin a => [EBin (text m a)]
      | HNull => [EStr []]
      | HSet _ _ => []
      end ++ heard_late mf (after m o) h'
  end.

(** The program passes no view of freed storage. *)
Fixpoint live_args (m : memory) (h : list hop) : Prop :=
  match h with
  | [] => True
  | o :: h' => match o with HStr a | HKey a | HBin a => m a <> None | _ => True end /\ live_args (after m o) h'
  end.
(** The arguments are bytes. *)
Definition memory_ok (m : memory) : Prop := forall a d, m a = Some d -> bytes_ok d.
Definition hop_ok (o : hop) : Prop :=
  match o with HCall e => ev_ok e | HSet _ (Some d) => bytes_ok d | _ => True end.

(** No string() call passes a null pointer; the storages passed to string(); none of them is changed or freed after the call. *)
Definition no_null (h : list hop) : Prop := ~ In HNull h.
Definition strs (h : list hop) : list nat := flat_map (fun o => match o with HStr a => [a] | _ => [] end) h.
Fixpoint kept (m : memory) (h : list hop) : Prop :=
  match h with
  | [] => True
  | o :: h' => match o with HStr a => at_end m h a = m a | _ => True end /\ kept (after m o) h'
  end.

(** Serializing a sequence of calls. *)
Definition output {S O} (W : writer S O) (es : list ev) : res O :=
  match run W (w_init W) es with
  | (s, Ok _) => snd (w_finish W s)
  | (_, Throw e) => Throw e | (_, UB) => UB | (_, NoFuel) => NoFuel
  end.
(** All calls of the sequence return normally. *)
Definition all_return {S O} (W : writer S O) (es : list ev) : Prop := snd (run W (w_init W) es) = Ok tt.

(** ** Builders *)
(** What serializing the variable gives now. *)
Definition now (w : bworld) (x : nat) : option val := match bserialize w (XVar x) with Some (Ok v) => Some v | _ => None end.

(** The value an expression denotes when its variables denote [env]. *)
Fixpoint means (env : nat -> option val) (e : bxp) : option val :=
  match e with
  | XTmp v => Some v
  | XVar x => env x
  | XVec l =>
      option_map VArr
        ((fix go l := match l with
                      | [] => Some []
                      | e :: l' => match means env e, go l' with Some v, Some r => Some (v :: r) | _, _ => None end
                      end) l)
  | XMap l =>
      option_map VMap
        ((fix go l := match l with
                      | [] => Some []
                      | (k, e) :: l' => match means env e, go l' with Some v, Some r => Some ((k, v) :: r) | _, _ => None end
                      end) l)
  end.

(** The variables of an expression. *)
Fixpoint vars (e : bxp) : list nat :=
  match e with
  | XTmp _ => []
  | XVar x => [x]
  | XVec l => flat_map vars l
  | XMap l => flat_map (fun kx => vars (snd kx)) l
  end.

(** What is known about the variables from the program text: [Some (Some v)]: holds the value [v]; [Some None]: holds a builder;
    [None]: does not exist. *)
Definition vset (t : nat -> option (option val)) (x : nat) (v : option (option val)) : nat -> option (option val) :=
  fun y => if Nat.eqb y x then v else t y.
Definition declared (t : nat -> option (option val)) (e : bxp) : bool :=
  forallb (fun x => match t x with Some _ => true | None => false end) (vars e).
Definition tell1 (t : nat -> option (option val)) (s : bstm) : nat -> option (option val) :=
  match s with
  | BLet x e =>
      match t x with
      | Some _ => t
      | None =>
          if declared t e then
            vset t x (Some (match e with XTmp v => Some v | XVar y => match t y with Some o => o | None => None end | _ => None end))
          else t
      end
  | BSet x v => match t x with Some (Some _) => vset t x (Some (Some v)) | _ => t end
  | BDrop x => vset t x None
  end.
Definition tell (p : list bstm) : nat -> option (option val) := fold_left tell1 p (fun _ => None).

(** The arguments of a zvec or zmap expression. *)
Definition args (e : bxp) : list bxp := match e with XVec l => l | XMap l => map snd l | _ => [] end.
Definition is_builder (e : bxp) : bool := match e with XVec _ | XMap _ => true | _ => false end.
Definition is_var (e : bxp) : bool := match e with XVar _ => true | _ => false end.
