(** TransModel.v -- transcription of include/zerialize/translate.hpp.

    Line numbers refer to that file.  Definitions only, no proofs.
    [fuel] bounds the recursion depth.  Simplified: mapKeys() yields the whole range at once (an error
    while iterating shows up before the first entry is written instead of later); the writer's state
    after an exception is dropped, as translate() does. *)

From Coq Require Import ZArith List Bool.
From Verif Require Import Base Spec.
Import ListNotations.
Open Scope Z_scope.

(** One call on the writer. *)
Definition emit {S O} (W : writer S O) (s : S) (e : ev) : res S :=
  match w_step W s e with
  | (s', Ok _) => Ok s'
  | (_, Throw x) => Throw x
  | (_, UB) => UB
  | (_, NoFuel) => NoFuel
  end.

(** [for (std::string_view k : v.mapKeys()) { w.key(std::string(k)); write_value(v[k], w); }], lines 53-56 *)
Fixpoint write_keys {V S O} (R : reader V) (W : writer S O) (wv : V -> S -> res S) (v : V) (ks : list bytes) (s : S) : res S :=
  match ks with
  | [] => Ok s
  | k :: ks' => s1 <- emit W s (EKey k) ;; x <- r_key R v k ;; s2 <- wv x s1 ;; write_keys R W wv v ks' s2
  end.

(** [for (std::size_t i = 0; i < n; ++i) write_value(v[i], w);], line 64 *)
Definition write_elem {V S} (R : reader V) (wv : V -> S -> res S) (v : V) (is_ : Z * S) : res ((Z * S) + unit) :=
  let '(i, s) := is_ in x <- r_idx R v i ;; s' <- wv x s ;; Ok (inl (i + 1, s')).

(** write_value, lines 33-72 *)
Fixpoint write_value {V S O} (R : reader V) (W : writer S O) (fuel : nat) (v : V) (s : S) : res S :=
  match fuel with
  | O => NoFuel
  | Datatypes.S f =>
      t <- r_isNull R v ;; if (t : bool) then emit W s ENull else
      t <- r_isBool R v ;; if (t : bool) then b <- r_asBool R v ;; emit W s (EBool b) else
      t <- r_isInt R v ;; if (t : bool) then z <- r_asInt R I64 v ;; emit W s (EInt z) else
      t <- r_isUInt R v ;; if (t : bool) then z <- r_asUInt R I64 v ;; emit W s (EUInt z) else
      t <- r_isFloat R v ;; if (t : bool) then d <- r_asDouble R v ;; emit W s (EDbl d) else
      t <- r_isString R v ;; if (t : bool) then x <- r_asStringView R v ;; emit W s (EStr x) else
      t <- r_isBlob R v ;; if (t : bool) then x <- r_asBlob R v ;; emit W s (EBin x) else
      t <- r_isMap R v ;;
      if (t : bool) then
        ks <- r_mapKeys R v ;;
        s1 <- emit W s (EBeginMap (zlen ks)) ;;
        ks' <- r_mapKeys R v ;;
        s2 <- write_keys R W (write_value R W f) v ks' s1 ;;
        emit W s2 EEndMap
      else
      t <- r_isArray R v ;;
      if (t : bool) then
        n <- r_arraySize R v ;;
        s1 <- emit W s (EBeginArr n) ;;
        x <- zloop n (write_elem R (write_value R W f) v) (0, s1) ;;
        match x with inl (_, s2) => emit W s2 EEndArr | inr _ => UB end
      else Throw ERuntime
  end.

(** translate, lines 77-100: the buffer handed to the destination's constructor, and what that returns.
    ZBuffer::to_vector_copy exists, so the first branch is taken; the copy has the same contents. *)
Definition translate {V S O V'} (R : reader V) (W : writer S O) (open : O -> res V') (fuel : nat) (src : V) : res V' :=
  s <- write_value R W fuel src (w_init W) ;;
  out <- snd (w_finish W s) ;;
  open out.
