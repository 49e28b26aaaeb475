(** JTextModel.v -- JSON text as bytes: what yyjson prints and what it parses.

    Used by include/zerialize/protocols/json.hpp: the constructor (lines 98-106, yyjson_read with flags 0),
    to_string (lines 219-227, yyjson_val_write) and finish (lines 253-274, yyjson_mut_write with flags 0).
    yyjson is a third-party library that is not part of /repo; its documented behaviour is modelled:
    strict RFC 8259, no comments, no trailing commas, no byte order mark, no NaN or Infinity.
    JsonModel.v has the rest: which trees can be printed ([yy_write]) and which parsed trees are accepted
    ([yy_read]: 64-bit integers, finite numbers, UTF-8).  Trees are those of JsonModel.v.
    Not modelled: how yyjson chooses the digits of a double (parameter [dtext]), out-of-memory.
    Definitions only. *)

From Coq Require Import ZArith List Bool String Floats.SpecFloat.
From Verif Require Import Base Spec HalfModel B64Model TextSpec JsonModel.
Import ListNotations.
Open Scope Z_scope.

(** ** Printing *)

Definition hex_digit (d : Z) : Z := if d <? 10 then 48 + d else 55 + d.
(** Flags 0: no escaping of slashes or of non-ASCII characters. *)
Definition jescape (c : Z) : bytes :=
  if c =? 34 then [92; 34]
  else if c =? 92 then [92; 92]
  else if c =? 8 then [92; 98]
  else if c =? 9 then [92; 116]
  else if c =? 10 then [92; 110]
  else if c =? 12 then [92; 102]
  else if c =? 13 then [92; 114]
  else if c <? 32 then [92; 117; 48; 48; hex_digit (Z.shiftr c 4); hex_digit (Z.land c 15)]
  else [c].
Definition jstring (s : bytes) : bytes := 34 :: flat_map jescape s ++ [34].

(** Items separated by [sep]. *)
Fixpoint sep_by (sep : bytes) (ls : list bytes) : bytes :=
  match ls with
  | [] => []
  | [x] => x
  | x :: r => x ++ sep ++ sep_by sep r
  end.

(** Flags 0: no white space. *)
Fixpoint jprint (dtext : Z -> bytes) (t : val) : bytes :=
  match t with
  | VNull => codes "null"
  | VBool true => codes "true"
  | VBool false => codes "false"
  | VInt z => dec z
  | VUInt z => dec z
  | VDbl d => dtext d
  | VStr s => jstring s
  | VBlob _ => []                                      (* does not occur *)
  | VArr l => 91 :: sep_by [44] (map (jprint dtext) l) ++ [93]
  | VMap l => 123 :: sep_by [44] (map (fun kx => jstring (fst kx) ++ [58] ++ jprint dtext (snd kx)) l) ++ [125]
  end.

(** YYJSON_WRITE_PRETTY: one entry per line, four spaces per level, empty containers on one line. *)
Definition indent (n : nat) : bytes := repeat 32 (4 * n).
Fixpoint jpretty (dtext : Z -> bytes) (lev : nat) (t : val) : bytes :=
  match t with
  | VArr ((_ :: _) as l) =>
      [91; 10] ++ sep_by [44; 10] (map (fun x => indent (S lev) ++ jpretty dtext (S lev) x) l) ++ [10] ++ indent lev ++ [93]
  | VMap ((_ :: _) as l) =>
      [123; 10] ++
      sep_by [44; 10] (map (fun kx => indent (S lev) ++ jstring (fst kx) ++ [58; 32] ++ jpretty dtext (S lev) (snd kx)) l) ++
      [10] ++ indent lev ++ [125]
  | _ => jprint dtext t
  end.

(** finish() as bytes, json.hpp:253-274 *)
Definition json_finish_text (dtext : Z -> bytes) (r : res val) : res bytes := t <- r ;; Ok (jprint dtext t).
(** to_string, json.hpp:219-227; a reader obtained from a constructor or operator[] has [cur_] set, and a
    parsed document has no unprintable node. *)
Definition j_to_string (dtext : Z -> bytes) (pretty : bool) (v : val) : bytes :=
  match yy_write v with
  | Some t => if pretty then jpretty dtext 0 t else jprint dtext t
  | None => codes "(yyjson_val_write failed)"
  end.

(** ** Numbers with a fraction or an exponent *)

(** The double nearest to (-1)^neg * m * 10^e, ties to even; infinity when out of range. *)
Definition dec_sf (neg : bool) (m e : Z) : spec_float :=
  if m =? 0 then S754_zero neg
  else if 0 <=? e then binary_normalize prec emax (cond_Zopp neg (m * 10 ^ e)) 0 neg
  else let '(q, e', l) := SFdiv_core_binary prec emax m 0 (10 ^ (- e)) 0 in
       binary_round_aux prec emax neg q e' l.
Definition dec_double (neg : bool) (m e : Z) : Z := to_bits (dec_sf neg m e).

(** ** Parsing *)

Definition jws (c : Z) : bool := (c =? 32) || (c =? 9) || (c =? 10) || (c =? 13).
Fixpoint skip_ws (l : bytes) : bytes :=
  match l with c :: l' => if jws c then skip_ws l' else l | [] => [] end.

Definition jdigit (c : Z) : bool := (48 <=? c) && (c <=? 57).
Fixpoint take_digits (l : bytes) : bytes * bytes :=
  match l with
  | c :: l' => if jdigit c then let '(d, r) := take_digits l' in (c :: d, r) else ([], l)
  | [] => ([], [])
  end.
Definition num_of (l : bytes) : Z := fold_left (fun a c => 10 * a + (c - 48)) l 0.

(** The rest after the bytes [p], if [l] starts with them. *)
Fixpoint strip (p l : bytes) : option bytes :=
  match p, l with
  | [], _ => Some l
  | x :: p', c :: l' => if c =? x then strip p' l' else None
  | _, [] => None
  end.

(** [.digits]: the digits, none if there is no fraction *)
Definition parse_frac (l : bytes) : option (bytes * bytes) :=
  match strip [46] l with
  | Some l' => match take_digits l' with ([], _) => None | (d, r) => Some (d, r) end
  | None => Some ([], l)
  end.
(** [e], a sign and digits: the exponent *)
Definition parse_exp (l : bytes) : option (option Z * bytes) :=
  match l with
  | c :: l' =>
      if (c =? 101) || (c =? 69) then
        let '(neg, l'') :=
          match strip [43] l', strip [45] l' with Some r, _ => (false, r) | _, Some r => (true, r) | _, _ => (false, l') end in
        match take_digits l'' with
        | ([], _) => None
        | (d, r) => Some (Some (if neg : bool then - num_of d else num_of d), r)
        end
      else Some (None, l)
  | [] => Some (None, l)
  end.
(** No leading zeros *)
Definition int_ok (i : bytes) : bool :=
  match i with [] => false | [_] => true | c :: _ => negb (c =? 48) end.
Definition parse_number (l : bytes) : option (val * bytes) :=
  let '(neg, l1) := match strip [45] l with Some r => (true, r) | None => (false, l) end in
  let '(i, l2) := take_digits l1 in
  if negb (int_ok i) then None
  else match parse_frac l2 with
  | None => None
  | Some (f, l3) =>
      match parse_exp l3 with
      | None => None
      | Some (x, l4) =>
          match f, x with
          | [], None => Some (if neg : bool then VInt (- num_of i) else VUInt (num_of i), l4)
          | _, _ =>
              Some (VDbl (dec_double neg (num_of (i ++ f)) (match x with Some x => x | None => 0 end - zlen f)), l4)
          end
      end
  end.

Definition hex_val (c : Z) : option Z :=
  if (48 <=? c) && (c <=? 57) then Some (c - 48)
  else if (65 <=? c) && (c <=? 70) then Some (c - 55)
  else if (97 <=? c) && (c <=? 102) then Some (c - 87)
  else None.
Definition parse_hex4 (l : bytes) : option (Z * bytes) :=
  match l with
  | a :: b :: c :: d :: r =>
      match hex_val a, hex_val b, hex_val c, hex_val d with
      | Some a, Some b, Some c, Some d => Some (4096 * a + 256 * b + 16 * c + d, r)
      | _, _, _, _ => None
      end
  | _ => None
  end.
(** UTF-8 of a code point *)
Definition yy_utf8 (u : Z) : bytes :=
  if u <? 128 then [u]
  else if u <? 2048 then [192 + Z.shiftr u 6; 128 + Z.land u 63]
  else if u <? 65536 then [224 + Z.shiftr u 12; 128 + Z.land (Z.shiftr u 6) 63; 128 + Z.land u 63]
  else [240 + Z.shiftr u 18; 128 + Z.land (Z.shiftr u 12) 63; 128 + Z.land (Z.shiftr u 6) 63; 128 + Z.land u 63].
(** After a backslash: the bytes meant and the rest. *)
Definition simple_escape (e : Z) : option Z :=
  if (e =? 34) || (e =? 92) || (e =? 47) then Some e
  else if e =? 98 then Some 8 else if e =? 102 then Some 12 else if e =? 110 then Some 10
  else if e =? 114 then Some 13 else if e =? 116 then Some 9 else None.
Definition parse_escape (l : bytes) : option (bytes * bytes) :=
  match l with
  | [] => None
  | e :: r =>
      if e =? 117 then
        match parse_hex4 r with
        | None => None
        | Some (u, r1) =>
            if (u <? 55296) || (57343 <? u) then Some (yy_utf8 u, r1)
            else if u <? 56320 then                    (* high surrogate *)
              match strip [92; 117] r1 with
              | Some r2 =>
                  match parse_hex4 r2 with
                  | Some (w, r3) =>
                      if (56320 <=? w) && (w <=? 57343) then
                        Some (yy_utf8 (65536 + (u - 55296) * 1024 + (w - 56320)), r3)
                      else None
                  | None => None
                  end
              | None => None
              end
            else None
        end
      else match simple_escape e with Some c => Some ([c], r) | None => None end
  end.
(** After the opening quote: the contents and what follows the closing quote. *)
Fixpoint parse_chars (n : nat) (l : bytes) : option (bytes * bytes) :=
  match n with
  | O => None
  | S n =>
      match l with
      | [] => None
      | c :: r =>
          if c =? 34 then Some ([], r)
          else if c =? 92 then
            match parse_escape r with
            | Some (u, r1) => match parse_chars n r1 with Some (s, r2) => Some (u ++ s, r2) | None => None end
            | None => None
            end
          else if c <? 32 then None
          else match parse_chars n r with Some (s, r2) => Some (c :: s, r2) | None => None end
      end
  end.

Definition parse_string (l : bytes) : option (bytes * bytes) :=
  match strip [34] l with Some r => parse_chars (S (List.length r)) r | None => None end.
Definition map_fst {A B} (f : A -> B) (o : option (A * bytes)) : option (B * bytes) :=
  match o with Some (a, r) => Some (f a, r) | None => None end.

(** A value at the front; the elements after an opening bracket; the members after an opening brace. *)
Fixpoint parse_value (n : nat) (l : bytes) : option (val * bytes) :=
  match n, l with
  | S n, c :: r =>
      if c =? 110 then match strip (codes "ull") r with Some r => Some (VNull, r) | None => None end
      else if c =? 116 then match strip (codes "rue") r with Some r => Some (VBool true, r) | None => None end
      else if c =? 102 then match strip (codes "alse") r with Some r => Some (VBool false, r) | None => None end
      else if c =? 34 then map_fst VStr (parse_string l)
      else if c =? 91 then
        match strip [93] (skip_ws r) with
        | Some r1 => Some (VArr [], r1)
        | None => map_fst VArr (parse_elems n (skip_ws r))
        end
      else if c =? 123 then
        match strip [125] (skip_ws r) with
        | Some r1 => Some (VMap [], r1)
        | None => map_fst VMap (parse_members n (skip_ws r))
        end
      else parse_number l
  | _, _ => None
  end
with parse_elems (n : nat) (l : bytes) : option (list val * bytes) :=
  match n with
  | O => None
  | S n =>
      match parse_value n l with
      | None => None
      | Some (x, r) =>
          match skip_ws r with
          | c :: r1 =>
              if c =? 93 then Some ([x], r1)
              else if c =? 44 then map_fst (cons x) (parse_elems n (skip_ws r1))
              else None
          | [] => None
          end
      end
  end
with parse_members (n : nat) (l : bytes) : option (list (bytes * val) * bytes) :=
  match n with
  | O => None
  | S n =>
      match parse_string l with
      | None => None
      | Some (k, r) =>
          match strip [58] (skip_ws r) with
          | None => None
          | Some r1 =>
              match parse_value n (skip_ws r1) with
              | None => None
              | Some (x, r2) =>
                  match skip_ws r2 with
                  | c :: r3 =>
                      if c =? 125 then Some ([(k, x)], r3)
                      else if c =? 44 then map_fst (cons (k, x)) (parse_members n (skip_ws r3))
                      else None
                  | [] => None
                  end
              end
          end
      end
  end.

(** A whole text: one value, white space around it. *)
Definition yy_parse (b : bytes) : option val :=
  match parse_value (S (2 * List.length b)) (skip_ws b) with
  | Some (t, r) => match skip_ws r with [] => Some t | _ => None end
  | None => None
  end.

(** JsonDeserializer(string_view) on bytes, json.hpp:98-106 *)
Definition json_open_text (b : bytes) : res val :=
  match yy_parse b with Some t => json_open t | None => Throw EDeser end.
