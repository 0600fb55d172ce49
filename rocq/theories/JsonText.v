(* JSON as text: json.dumps and json.loads.  Definitions only.

   As XmlText.v this is the part of the standard library that xigtjson.py relies
   on, not code of the project: json.encoder with ensure_ascii (the default) and
   indent, json.decoder with strict (the default).  The reader knows the values
   that the codec writes (strings, arrays, objects); numbers, true, false and null
   are taken for errors.  How deep Python recurses is not modelled. *)
From Verif Require Import PyStr Ref Model Xml Json.

(* ---------- writing ---------- *)

(* '{0:04x}'.format(n) for n < 0x10000 *)
Definition hex_digit (n : N) : N := if N.ltb n 10 then (48 + n)%N else (87 + n)%N.
Definition hex4 (n : N) : str := [hex_digit (n / 4096 mod 16); hex_digit (n / 256 mod 16); hex_digit (n / 16 mod 16); hex_digit (n mod 16)]%N.
Definition u_escape (n : N) : str := L "\u" ++ hex4 n.
(* py_encode_basestring_ascii: what is not between space and tilde, quotes and
   backslashes are escaped *)
Definition escape1 (c : N) : str :=
  if N.eqb c 92 then L "\\" else if N.eqb c 34 then [92%N; 34%N] else if N.eqb c 10 then L "\n" else if N.eqb c 13 then L "\r"
  else if N.eqb c 9 then L "\t" else if N.eqb c 12 then L "\f" else if N.eqb c 8 then L "\b"
  else if in_range 32 126 c then [c]
  else if N.ltb c 65536 then u_escape c
  else let n := (c - 65536)%N in u_escape (55296 + n / 1024) ++ u_escape (56320 + n mod 1024).
Definition write_string (s : str) : str := 34%N :: flat_map escape1 s ++ [34%N].
(* _make_iterencode: line starts, if there is an indentation *)
Definition line_start (indent : option nat) (level : nat) : str :=
  match indent with Some n => 10%N :: repeat 32%N (n * level) | None => [] end.
Definition item_sep (indent : option nat) (level : nat) : str :=
  match indent with Some _ => L "," ++ line_start indent level | None => L ", " end.
Fixpoint write_json (indent : option nat) (level : nat) (j : json) : str :=
  match j with
  | JStr s => write_string s
  | JArr [] => L "[]"
  | JArr l => L "[" ++ line_start indent (S level) ++ join (item_sep indent (S level)) (map (write_json indent (S level)) l)
              ++ line_start indent level ++ L "]"
  | JObj [] => L "{}"
  | JObj d => L "{" ++ line_start indent (S level)
              ++ join (item_sep indent (S level)) (map (fun kv => write_string (fst kv) ++ L ": " ++ write_json indent (S level) (snd kv)) d)
              ++ line_start indent level ++ L "}"
  end.

(* ---------- reading ---------- *)

Definition json_ws (c : N) : bool := N.eqb c 32 || N.eqb c 9 || N.eqb c 10 || N.eqb c 13.
Fixpoint skip_json (s : str) : str := match s with c :: r => if json_ws c then skip_json r else s | [] => [] end.
(* int(esc, 16) for four hexadecimal digits *)
Definition hex_value (c : N) : option N :=
  if in_range 48 57 c then Some (c - 48)%N else if in_range 97 102 c then Some (c - 87)%N else if in_range 65 70 c then Some (c - 55)%N else None.
Definition read_hex4 (s : str) : option (N * str) :=
  match s with
  | a :: b :: c :: d :: r =>
    match hex_value a, hex_value b, hex_value c, hex_value d with
    | Some a, Some b, Some c, Some d => Some (((a * 16 + b) * 16 + c) * 16 + d, r)%N
    | _, _, _, _ => None
    end
  | _ => None
  end.
Definition simple_escape (c : N) : option N :=
  if N.eqb c 34 then Some 34%N else if N.eqb c 92 then Some 92%N else if N.eqb c 47 then Some 47%N else if N.eqb c (Ch "b") then Some 8%N
  else if N.eqb c (Ch "f") then Some 12%N else if N.eqb c (Ch "n") then Some 10%N else if N.eqb c (Ch "r") then Some 13%N
  else if N.eqb c (Ch "t") then Some 9%N else None.
(* the character of \uXXXX, after the u; two escapes that are surrogates are one *)
Definition read_u (s : str) : option (N * str) :=
  match read_hex4 s with
  | Some (u, r) =>
    if in_range 55296 56319 u && startswith (L "\u") r then
      match read_hex4 (skipn 2 r) with
      | Some (v, r') => if in_range 56320 57343 v then Some (65536 + ((u - 55296) * 1024 + (v - 56320)), r')%N else Some (u, r)
      | None => None
      end
    else Some (u, r)
  | None => None
  end.
(* py_scanstring: the rest of a string, to its quote *)
Fixpoint read_string (fuel : nat) (s : str) : res (str * str) :=
  match fuel, s with
  | S f, c :: r =>
    if N.eqb c 34 then Ok ([], r)
    else if N.eqb c 92 then
      match r with
      | e :: r =>
        if N.eqb e (Ch "u") then
          match read_u r with Some (x, r) => do (t, r) <- read_string f r; Ok (x :: t, r) | None => Err ValueError end
        else match simple_escape e with Some x => do (t, r) <- read_string f r; Ok (x :: t, r) | None => Err ValueError end
      | [] => Err ValueError
      end
    else if N.ltb c 32 then Err ValueError
    else do (t, r) <- read_string f r; Ok (c :: t, r)
  | _, _ => Err ValueError
  end.
(* dict(pairs) *)
Definition dict_of (l : list (str * json)) : dict json := fold_left (fun d kv => dset d (fst kv) (snd kv)) l [].
(* JSONArray and JSONObject, after the first value *)
Section Parts.
Variable value : str -> res (json * str).
Fixpoint read_items (k : nat) (s : str) : res (list json * str) :=
  match k with
  | O => Err ValueError
  | S k =>
    do (v, r) <- value s;
    match skip_json r with
    | c :: r =>
      if N.eqb c (Ch "]") then Ok ([v], r)
      else if N.eqb c (Ch ",") then do (l, r) <- read_items k (skip_json r); Ok (v :: l, r)
      else Err ValueError
    | [] => Err ValueError
    end
  end.
Fixpoint read_pairs (k : nat) (s : str) : res (list (str * json) * str) :=
  match k, s with
  | S k, q :: s =>
    if N.eqb q 34 then
      do (key, r) <- read_string (S (length s)) s;
      match skip_json r with
      | c :: r =>
        if N.eqb c (Ch ":") then
          do (v, r) <- value (skip_json r);
          match skip_json r with
          | c :: r =>
            if N.eqb c (Ch "}") then Ok ([(key, v)], r)
            else if N.eqb c (Ch ",") then do (l, r) <- read_pairs k (skip_json r); Ok ((key, v) :: l, r)
            else Err ValueError
          | [] => Err ValueError
          end
        else Err ValueError
      | [] => Err ValueError
      end
    else Err ValueError
  | _, _ => Err ValueError
  end.
End Parts.
(* py_make_scanner: a value at the start of the text *)
Fixpoint read_any (fuel : nat) (s : str) : res (json * str) :=
  match fuel, s with
  | S f, c :: r =>
    if N.eqb c 34 then do (t, r) <- read_string (S (length r)) r; Ok (JStr t, r)
    else if N.eqb c (Ch "[") then
      match skip_json r with
      | d :: r' => if N.eqb d (Ch "]") then Ok (JArr [], r') else do (l, r) <- read_items (read_any f) (S (length s)) (skip_json r); Ok (JArr l, r)
      | [] => Err ValueError
      end
    else if N.eqb c (Ch "{") then
      match skip_json r with
      | d :: r' => if N.eqb d (Ch "}") then Ok (JObj [], r') else do (l, r) <- read_pairs (read_any f) (S (length s)) (skip_json r); Ok (JObj (dict_of l), r)
      | [] => Err ValueError
      end
    else Err ValueError
  | _, _ => Err ValueError
  end.
(* JSONDecoder.decode; a byte order mark is an error (json.loads) *)
Definition read_json (s : str) : res json :=
  do (j, r) <- read_any (S (length s)) (skip_json s);
  match skip_json r with [] => Ok j | _ => Err ValueError end.

Section JsonText.
Context {U : Unicode}.
(* loads, lines 21-22, and dumps, lines 38-43, of xigtjson.py *)
Definition json_loads (s : str) : res corpus := do j <- read_json s; json_decode j.
Definition json_dumps (c : corpus) (indent : option nat) : res str := do j <- json_encode c; Ok (write_json indent 0 j).
End JsonText.
