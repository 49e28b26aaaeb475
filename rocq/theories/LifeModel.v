(** LifeModel.v -- for how long the arguments of writer calls and of builders have to live.

    Part 1: protocols/json.hpp:236-390 against the other writers (strings kept by reference or copied).
    Part 2: zbuilders.hpp:45-124 (zvec and zmap keep references to their arguments).
    Definitions only, no proofs. *)

From Coq Require Import ZArith List Bool.
From Verif Require Import Base Spec JsonModel.
Import ListNotations.
Open Scope Z_scope.

(** ** 1. String arguments of writer calls

    The caller's storage: numbered variables with their current contents, [None] once freed. *)
Definition memory : Type := nat -> option bytes.
Definition mset (m : memory) (a : nat) (x : option bytes) : memory := fun b => if Nat.eqb b a then x else m b.

(** What a program does with a Writer.  [HCall]: a call without arguments in the caller's storage (literals have static
    storage).  [HStr], [HKey], [HBin]: string(), key(), binary() of a view of storage [a].
    [HNull]: string(std::string_view{}), a view with a null pointer.  [HSet]: the caller changes or frees its storage. *)
Inductive hop : Type :=
| HCall (e : ev) | HStr (a : nat) | HKey (a : nat) | HBin (a : nat) | HNull | HSet (a : nat) (x : option bytes).

(** Running a history until the first call that does not return normally; [str] and [nul] are the protocol's string(),
    which may or may not read the characters now.  binary() and key() read them now in every protocol (json.hpp:290-300
    encodes, json.hpp:327-333 assigns to a std::string, which is copied again by yyjson_mut_strcpy).  Passing a view of freed storage
    is UB. *)
Fixpoint hrun {S} (step : S -> ev -> S * res unit) (str : S -> nat -> bytes -> S * res unit) (nul : S -> S * res unit)
  (m : memory) (s : S) (h : list hop) : memory * S * res unit :=
  match h with
  | [] => (m, s, Ok tt)
  | o :: h' =>
      let r := match o with
               | HCall e => step s e
               | HStr a => match m a with Some d => str s a d | None => (s, UB) end
               | HKey a => match m a with Some d => step s (EKey d) | None => (s, UB) end
               | HBin a => match m a with Some d => step s (EBin d) | None => (s, UB) end
               | HNull => nul s
               | HSet _ _ => (s, Ok tt)
               end in
      let m' := match o with HSet a x => mset m a x | _ => m end in
      match r with
      | (s', Ok _) => hrun step str nul m' s' h'
      | (s', x) => (m', s', x)
      end
  end.

(** zera.hpp Serializer::string (the arena is appended to), msgpack.hpp and cbor.hpp (written to the output at once),
    flex.hpp (flexbuffers::Builder::String copies): the characters are read during the call. *)
Definition copying_output {S O} (W : writer S O) (m : memory) (h : list hop) : res O :=
  match hrun (w_step W) (fun s _ d => w_step W s (EStr d)) (fun s => w_step W s (EStr [])) m (w_init W) h with
  | (_, s, Ok _) => snd (w_finish W s)
  | (_, _, Throw e) => Throw e | (_, _, UB) => UB | (_, _, NoFuel) => NoFuel
  end.

(** json.hpp:286-288: string() makes a node that points at the caller's characters (yyjson_mut_strn).  Such a node is
    written [VStr [-1; a]]; -1 is not a byte, so no string contents look like this. *)
Definition handle (a : nat) : val := VStr [-1; Z.of_nat a].

(** yyjson_mut_write reads the characters through the pointers. *)
Fixpoint resolve (m : memory) (v : val) : res val :=
  match v with
  | VStr s =>
      match s with
      | [x; a] => if x =? -1 then match m (Z.to_nat a) with Some d => Ok (VStr d) | None => UB end else Ok v
      | _ => Ok v
      end
  | VArr l =>
      r <- (fix go l := match l with
                        | [] => Ok []
                        | x :: l' => y <- resolve m x ;; r <- go l' ;; Ok (y :: r)
                        end) l ;; Ok (VArr r)
  | VMap l =>
      r <- (fix go l := match l with
                        | [] => Ok []
                        | (k, x) :: l' => y <- resolve m x ;; r <- go l' ;; Ok ((k, y) :: r)
                        end) l ;; Ok (VMap r)
  | _ => Ok v
  end.

(** json.hpp:286-288 with a null pointer: yyjson_mut_strn returns NULL, so push_value throws (line 339). *)
Definition json_output (dbg : bool) (m : memory) (h : list hop) : res val :=
  match hrun (j_step dbg) (fun s a _ => j_push dbg (handle a) s) (fun s => (s, Throw EBadAlloc)) m js_init h with
  | (m', s, Ok _) =>
      match js_tree s with
      | None => snd (j_finish s)
      | Some t => t' <- resolve m' t ;; match yy_write t' with Some x => Ok x | None => Throw ERuntime end
      end
  | (_, _, Throw e) => Throw e | (_, _, UB) => UB | (_, _, NoFuel) => NoFuel
  end.

(** RootSerializer has no destructor (json.hpp:236-273): the yyjson_mut_doc is freed by finish() only.  The number of documents
    still allocated when the serializer of serialize<JSON> (serialize.hpp:40-58) is gone, after the calls [es]. *)
Definition json_leaked (dbg : bool) (es : list ev) : Z :=
  match run (json_writer dbg) js_init es with
  | (s, Ok _) => if js_doc (fst (j_finish s)) then 1 else 0
  | (s, _) => if js_doc s then 1 else 0
  end.

(** ** 2. Builders

    zvec and zmap store [std::forward_as_tuple(...)], a tuple of references (zbuilders.hpp:59, 94).
    Objects live at numbered addresses, never reused.  An object is a value (anything that is not a builder), or the
    closure of zvec or zmap: the addresses of its arguments. *)
Inductive bobj : Type := PVal (v : val) | PVec (l : list nat) | PMap (l : list (bytes * nat)).

Record bworld : Type := mkBW { bheap : nat -> option bobj; bnext : nat; bvars : nat -> option nat }.
Definition bworld0 : bworld := mkBW (fun _ => None) 0 (fun _ => None).
Definition bset {A} (f : nat -> option A) (n : nat) (x : option A) : nat -> option A :=
  fun m => if Nat.eqb m n then x else f m.
Definition balloc (o : bobj) (w : bworld) : nat * bworld :=
  (bnext w, mkBW (bset (bheap w) (bnext w) (Some o)) (S (bnext w)) (bvars w)).

(** Expressions: [XTmp]: a prvalue such as 42 or std::string("x"); [XVar]: a named variable. *)
Inductive bxp : Type := XTmp (v : val) | XVar (x : nat) | XVec (l : list bxp) | XMap (l : list (bytes * bxp)).

(** The object that an argument expression refers to: a temporary is materialized, a variable is itself.  [None]: a variable
    that does not exist, not a program.  zvec (lines 55-82) and zmap (lines 88-124) evaluate their arguments first; the model does so
    from left to right. *)
Fixpoint arg (e : bxp) (w : bworld) : option (nat * bworld) :=
  match e with
  | XTmp v => Some (balloc (PVal v) w)
  | XVar x => match bvars w x with Some a => Some (a, w) | None => None end
  | XVec l =>
      match (fix go l w := match l with
                           | [] => Some ([], w)
                           | e :: l' => match arg e w with
                                        | Some (a, w1) => match go l' w1 with Some (r, w2) => Some (a :: r, w2) | None => None end
                                        | None => None
                                        end
                           end) l w with
      | Some (r, w1) => Some (balloc (PVec r) w1)
      | None => None
      end
  | XMap l =>
      match (fix go l w := match l with
                           | [] => Some ([], w)
                           | (k, e) :: l' => match arg e w with
                                             | Some (a, w1) => match go l' w1 with Some (r, w2) => Some ((k, a) :: r, w2) | None => None end
                                             | None => None
                                             end
                           end) l w with
      | Some (r, w1) => Some (balloc (PMap r) w1)
      | None => None
      end
  end.

(** The end of a full expression: the temporaries made since address [from] are destroyed, except [keep]. *)
Definition sweep (from : nat) (keep : option nat) (w : bworld) : bworld :=
  mkBW (fun a => if Nat.ltb a from then bheap w a
                 else match keep with Some k => if Nat.eqb a k then bheap w a else None | None => None end)
       (bnext w) (bvars w).

(** What the object at [a] serializes as: lines 62-78, 97-120 with the emission of values as in BuildModel.v (a value stands
    for the calls that describe it).  Referring to a destroyed object is UB. *)
Fixpoint emit (fuel : nat) (w : bworld) (a : nat) : res val :=
  match fuel with
  | O => NoFuel
  | S f =>
      match bheap w a with
      | None => UB
      | Some (PVal v) => Ok v
      | Some (PVec l) =>
          r <- (fix go l := match l with
                            | [] => Ok []
                            | x :: l' => y <- emit f w x ;; r <- go l' ;; Ok (y :: r)
                            end) l ;; Ok (VArr r)
      | Some (PMap l) =>
          r <- (fix go l := match l with
                            | [] => Ok []
                            | (k, x) :: l' => y <- emit f w x ;; r <- go l' ;; Ok ((k, y) :: r)
                            end) l ;; Ok (VMap r)
      end
  end.

(** Statements: [BLet]: auto x = e; [BSet]: x = v for a variable that holds a value; [BDrop]: the end of the scope of x. *)
Inductive bstm : Type := BLet (x : nat) (e : bxp) | BSet (x : nat) (v : val) | BDrop (x : nat).

(** [auto x = y] copies the object (for builders: the references); [auto x = zvec(...)] and [auto x = 42] construct it in
    place. *)
Definition bstep (w : bworld) (s : bstm) : bworld :=
  match s with
  | BLet x e =>
      match bvars w x with
      | Some _ => w
      | None =>
          match arg e w with
          | None => w
          | Some (a, w1) =>
              match e, bheap w1 a with
              | XVar _, Some o =>
                  let (b, w2) := balloc o w1 in mkBW (bheap w2) (bnext w2) (bset (bvars w2) x (Some b))
              | XVar _, None => w
              | _, _ =>
                  let w2 := sweep (bnext w) (Some a) w1 in mkBW (bheap w2) (bnext w2) (bset (bvars w2) x (Some a))
              end
          end
      end
  | BSet x v =>
      match bvars w x with
      | Some a => match bheap w a with
                  | Some (PVal _) => mkBW (bset (bheap w) a (Some (PVal v))) (bnext w) (bvars w)
                  | _ => w
                  end
      | None => w
      end
  | BDrop x =>
      match bvars w x with
      | Some a => mkBW (bset (bheap w) a None) (bnext w) (bset (bvars w) x None)
      | None => w
      end
  end.
Definition bsteps (w : bworld) (p : list bstm) : bworld := fold_left bstep p w.

(** serialize<P>(e), serialize.hpp:40-58: the value that is written; temporaries live until the end of the statement. *)
Definition bserialize (w : bworld) (e : bxp) : option (res val) :=
  match arg e w with Some (a, w1) => Some (emit (S (bnext w1)) w1 a) | None => None end.
