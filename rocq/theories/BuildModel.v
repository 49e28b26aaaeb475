(** BuildModel.v -- transcription of internals/serializers.hpp, zbuilders.hpp, dynamic.hpp and serialize.hpp.

    Definitions only, no proofs.  A serialization runs against any writer, given by its step function (one member
    call of the Writer concept); an exception ends it, the writer's state at that point is kept.
    Simplified: C++ types are reduced to what selects the overload, so expressions that do not compile (builders
    inside std containers, containers of mixed types) are included too; lifetimes are in LifeModel.v. *)

From Coq Require Import ZArith List Bool.
From Verif Require Import Base Spec FloatModel.
Import ListNotations.
Open Scope Z_scope.

(** Run [k] after a call that returned normally. *)
Definition andthen {S} (r : S * res unit) (k : S -> S * res unit) : S * res unit :=
  match r with (s, Ok _) => k s | _ => r end.

(** ** WriterView, dynamic.hpp:22-68: one function pointer per member, closed over [ctx]. *)
Record wview (S : Type) : Type := mkWView {
  null_fn : S -> S * res unit;
  bool_fn : S -> bool -> S * res unit;
  i64_fn : S -> Z -> S * res unit;
  u64_fn : S -> Z -> S * res unit;
  dbl_fn : S -> Z -> S * res unit;
  str_fn : S -> bytes -> S * res unit;
  bin_fn : S -> bytes -> S * res unit;
  key_fn : S -> bytes -> S * res unit;
  begin_arr_fn : S -> Z -> S * res unit;
  end_arr_fn : S -> S * res unit;
  begin_map_fn : S -> Z -> S * res unit;
  end_map_fn : S -> S * res unit
}.
Arguments mkWView {S}. Arguments null_fn {S}. Arguments bool_fn {S}. Arguments i64_fn {S}. Arguments u64_fn {S}.
Arguments dbl_fn {S}. Arguments str_fn {S}. Arguments bin_fn {S}. Arguments key_fn {S}. Arguments begin_arr_fn {S}.
Arguments end_arr_fn {S}. Arguments begin_map_fn {S}. Arguments end_map_fn {S}.

(** WriterView::make, dynamic.hpp:37-54 *)
Definition wv_make {S} (step : S -> ev -> S * res unit) : wview S := {|
  null_fn := fun c => step c ENull;
  bool_fn := fun c b => step c (EBool b);
  i64_fn := fun c v => step c (EInt v);
  u64_fn := fun c v => step c (EUInt v);
  dbl_fn := fun c v => step c (EDbl v);
  str_fn := fun c sv => step c (EStr sv);
  bin_fn := fun c bin => step c (EBin bin);
  key_fn := fun c sv => step c (EKey sv);
  begin_arr_fn := fun c n => step c (EBeginArr n);
  end_arr_fn := fun c => step c EEndArr;
  begin_map_fn := fun c n => step c (EBeginMap n);
  end_map_fn := fun c => step c EEndMap
|}.

(** The members of WriterView, dynamic.hpp:56-67 *)
Definition wv_step {S} (w : wview S) (c : S) (e : ev) : S * res unit :=
  match e with
  | ENull => null_fn w c
  | EBool b => bool_fn w c b
  | EInt v => i64_fn w c v
  | EUInt v => u64_fn w c v
  | EDbl v => dbl_fn w c v
  | EStr sv => str_fn w c sv
  | EBin bin => bin_fn w c bin
  | EKey sv => key_fn w c sv
  | EBeginArr n => begin_arr_fn w c n
  | EEndArr => end_arr_fn w c
  | EBeginMap n => begin_map_fn w c n
  | EEndMap => end_map_fn w c
  end.

(** ** What can be serialized

    [BInt]/[BUInt]: the signed/unsigned integral types, already converted to int64_t/uint64_t (their values are
    unchanged by that); [BChar]: plain char, whose signedness is the platform's; [BFloat]: the bits of a float;
    [BCStr]: a const char*, by the memory it points to; [BText]: string_view, string; [BBytes]: vector<byte>,
    span<const byte>; [BSeq]: list, vector, array, initializer_list; [BAssoc]: map, unordered_map in iteration order;
    [BVec], [BZmap]: zvec and zmap, keys by the contents of the literal including its final NUL; [BDyn]: dyn::Value;
    [BUser]: a type with its own serialize overload, by the calls that makes. *)
Inductive bexp : Type :=
| BNull | BBool (b : bool) | BChar (z : Z) | BInt (z : Z) | BUInt (z : Z) | BFloat (x : Z) | BDouble (x : Z)
| BCStr (mem : bytes) | BText (s : bytes) | BBytes (b : bytes)
| BSeq (l : list bexp) | BAssoc (l : list (bytes * bexp))
| BVec (l : list bexp) | BZmap (l : list (bytes * bexp))
| BDyn (d : dyn) | BUser (es : list ev)
with dyn : Type :=
| DNull | DBool (b : bool) | DInt (z : Z) | DUInt (z : Z) | DDbl (x : Z) | DStr (s : bytes) | DBlob (b : bytes)
| DArr (l : list dyn) | DMap (l : list (bytes * dyn)) | DSer (e : bexp).

(** string_view(const char* ) reads up to the first NUL; without one it runs off the memory. *)
Definition c_string (mem : bytes) : res bytes := if existsb (Z.eqb 0) mem then Ok (c_str mem) else UB.
(** fixed_string::view, fixed_string.hpp:37 *)
Definition fs_view (data : bytes) : bytes := removelast data.

(** The calls a user's overload makes. *)
Fixpoint steps {S} (step : S -> ev -> S * res unit) (es : list ev) (s : S) : S * res unit :=
  match es with [] => (s, Ok tt) | e :: es' => andthen (step s e) (steps step es') end.

(** serialize(value, writer): serializers.hpp:30-116 (primitives 30-53, sequences 56-94, maps 96-116), the builders
    zvec, zbuilders.hpp:62-78, and zmap, zbuilders.hpp:97-121, and dyn::serialize, dynamic.hpp:192-230, with
    Serializable::operator(), dynamic.hpp:86-90, which goes through a WriterView. *)
Fixpoint put (e : bexp) {S} (step : S -> ev -> S * res unit) (s : S) {struct e} : S * res unit :=
  match e with
  | BNull => step s ENull
  | BBool b => step s (EBool b)
  | BChar z | BInt z => step s (EInt z)
  | BUInt z => step s (EUInt z)
  | BFloat x => step s (EDbl (f32_to_f64 x))
  | BDouble x => step s (EDbl x)
  | BCStr mem => match c_string mem with Ok t => step s (EStr t) | Throw x => (s, Throw x) | UB => (s, UB) | NoFuel => (s, NoFuel) end
  | BText t => step s (EStr t)
  | BBytes b => step s (EBin b)
  | BSeq l | BVec l =>
      andthen (step s (EBeginArr (zlen l))) (fun s1 =>
      andthen ((fix each (l : list bexp) (s : S) := match l with [] => (s, Ok tt) | x :: l' => andthen (put x step s) (each l') end) l s1) (fun s2 =>
      step s2 EEndArr))
  | BAssoc l =>
      andthen (step s (EBeginMap (zlen l))) (fun s1 =>
      andthen ((fix each (l : list (bytes * bexp)) (s : S) :=
                  match l with [] => (s, Ok tt) | (k, x) :: l' => andthen (step s (EKey k)) (fun s' => andthen (put x step s') (each l')) end) l s1) (fun s2 =>
      step s2 EEndMap))
  | BZmap l =>
      andthen (step s (EBeginMap (zlen l))) (fun s1 =>
      andthen ((fix each (l : list (bytes * bexp)) (s : S) :=
                  match l with [] => (s, Ok tt) | (k, x) :: l' => andthen (step s (EKey (fs_view k))) (fun s' => andthen (put x step s') (each l')) end) l s1) (fun s2 =>
      step s2 EEndMap))
  | BDyn d => put_dyn d step s
  | BUser es => steps step es s
  end
with put_dyn (d : dyn) {S} (step : S -> ev -> S * res unit) (s : S) {struct d} : S * res unit :=
  match d with
  | DNull => step s ENull
  | DBool b => step s (EBool b)
  | DInt z => step s (EInt z)
  | DUInt z => step s (EUInt z)
  | DDbl x => step s (EDbl x)
  | DStr t => step s (EStr t)
  | DBlob b => step s (EBin b)
  | DArr l =>
      andthen (step s (EBeginArr (zlen l))) (fun s1 =>
      andthen ((fix each (l : list dyn) (s : S) := match l with [] => (s, Ok tt) | x :: l' => andthen (put_dyn x step s) (each l') end) l s1) (fun s2 =>
      step s2 EEndArr))
  | DMap l =>
      andthen (step s (EBeginMap (zlen l))) (fun s1 =>
      andthen ((fix each (l : list (bytes * dyn)) (s : S) :=
                  match l with [] => (s, Ok tt) | (k, x) :: l' => andthen (step s (EKey k)) (fun s' => andthen (put_dyn x step s') (each l')) end) l s1) (fun s2 =>
      step s2 EEndMap))
  | DSer e => put e (wv_step (wv_make step)) s
  end.

(** serialize<P>(rootValue), serialize.hpp:40-58 *)
Definition build {S O} (W : writer S O) (e : bexp) : res O :=
  match put e (w_step W) (w_init W) with
  | (s, Ok _) => snd (w_finish W s)
  | (_, Throw x) => Throw x
  | (_, UB) => UB
  | (_, NoFuel) => NoFuel
  end.
(** serialize<P>(), serialize.hpp:62-66 *)
Definition build_nothing {S O} (W : writer S O) : res O := snd (w_finish W (w_init W)).

(** The constructors of dyn::Value from single C++ values, dynamic.hpp:111-137.  [char_signed]: plain char is a signed
    type, so is_signed_v selects int64_t.  [None]: no such constructor (handled by the array and map ones). *)
Definition dyn_of (char_signed : bool) (e : bexp) : option (res dyn) :=
  match e with
  | BNull => Some (Ok DNull)
  | BBool b => Some (Ok (DBool b))
  | BChar z => Some (Ok (if char_signed then DInt z else DUInt z))
  | BInt z => Some (Ok (DInt z))
  | BUInt z => Some (Ok (DUInt z))
  | BFloat x => Some (Ok (DDbl (f32_to_f64 x)))
  | BDouble x => Some (Ok (DDbl x))
  | BCStr mem => Some (t <- c_string mem ;; Ok (DStr t))
  | BText t => Some (Ok (DStr t))
  | BBytes b => Some (Ok (DBlob b))
  | _ => None
  end.
