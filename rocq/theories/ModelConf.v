(* Reading configurations: src/utils/Configuration.cpp, include/utils/Configuration.hpp *)
From Verif Require Import ModelBytes ModelElen.
Local Open Scope N_scope.

(* Config::Config, an unordered_map<string, string>, as the function it represents: Configuration.hpp:18 *)
Definition config := bytes -> option bytes.
Definition cfg_empty : config := fun _ => None.
(* config[key] = value *)
Definition cfg_set (c : config) (k v : bytes) : config := fun k' => if beqb k' k then Some v else c k'.
(* an initializer list: of several pairs with the same key the first is kept *)
Fixpoint cfg_init (l : list (bytes * bytes)) : config :=
  match l with [] => cfg_empty | (k, v) :: l' => cfg_set (cfg_init l') k v end.

(* isspace in the C locale *)
Definition is_space (c : byte) : bool := let n := N_of_ascii c in (n =? 32) || ((9 <=? n) && (n <=? 13)).
(* std::isspace(value[i]) with a char: undefined for negative values, Configuration.cpp:83, 89. char is signed *)
Definition isspace (c : byte) : outcome bool := if 128 <=? N_of_ascii c then UB else Ok (is_space c).
Definition newline : byte := ascii_of_N 10.

(* while (std::getline(stream, line)): an empty rest after the last newline is not a line; d: the delimiter *)
Fixpoint getlines (d : byte) (cur : bytes) (s : bytes) : list bytes :=
  match s with
  | [] => match cur with [] => [] | _ => [cur] end
  | c :: s' => if Ascii.eqb c d then cur :: getlines d [] s' else getlines d (cur ++ [c]) s'
  end.
(* whitespace is skipped by >> *)
Fixpoint skip_space (s : bytes) : bytes := match s with c :: s' => if is_space c then skip_space s' else s | [] => [] end.
Fixpoint take_word (s : bytes) : bytes * bytes :=
  match s with
  | [] => ([], [])
  | c :: s' => if is_space c then ([], s) else let '(w, r) := take_word s' in (c :: w, r)
  end.
(* s >> word; None: nothing there *)
Definition read_word (s : bytes) : option (bytes * bytes) :=
  match skip_space s with [] => None | t => Some (take_word t) end.

(* lines 81-85, 87-91 *)
Fixpoint count_space (s : bytes) : outcome nat :=
  match s with
  | [] => Ok 0%nat
  | c :: s' => do b <- isspace c; if b then do n <- count_space s'; Ok (S n) else Ok 0%nat
  end.
(* line 93: substr(lhs, rhs - lhs); if all is whitespace, rhs is 0 and rhs - lhs wraps, but nothing follows lhs *)
Definition trim (v : bytes) : outcome bytes :=
  do lhs <- count_space v;
  do n <- count_space (rev v);
  let rhs := (length v - n)%nat in
  Ok (if (lhs <=? rhs)%nat then firstn (rhs - lhs) (skipn lhs v) else skipn lhs v).
(* one line: lines 69-95 *)
Definition parse_line (line : bytes) : outcome (option (bytes * bytes)) :=
  match read_word line with
  | None => Ok None
  | Some (key, rest) =>
      match key with
      | c :: _ => if Ascii.eqb c "#"%char then Ok None else do v <- trim rest; Ok (Some (key, v))
      | [] => UB        (* key[0] of an empty key: does not happen *)
      end
  end.
Fixpoint parse_lines (c : config) (l : list bytes) : outcome config :=
  match l with
  | [] => Ok c
  | line :: l' => do kv <- parse_line line; parse_lines (match kv with Some (k, v) => cfg_set c k v | None => c end) l'
  end.
(* parse_kv_stream, lines 64-99; the count is not used *)
Definition parse_kv_stream (c : config) (s : bytes) : outcome config := parse_lines c (getlines newline [] s).

(* the files and the environment of a process *)
Record world := mkWorld { w_files : bytes -> option bytes; w_env : bytes -> option bytes }.
(* File, EnvironmentFile, EnvironmentVar: lines 101-144; files that cannot be opened have no lines *)
Inductive reader := RFile (filename : bytes) | REnvFile (key : bytes) | REnvVar (env key : bytes).
Definition read_file (w : world) (c : config) (name : bytes) : outcome config :=
  match w_files w name with Some s => parse_kv_stream c s | None => Ok c end.
Definition read_source (w : world) (c : config) (r : reader) : outcome config :=
  match r with
  | RFile f => read_file w c f
  | REnvFile k => match w_env w k with Some f => read_file w c f | None => Ok c end
  | REnvVar e k => match w_env w e with Some v => Ok (cfg_set c k v) | None => Ok c end
  end.
Fixpoint read_sources (w : world) (c : config) (l : list reader) : outcome config :=
  match l with [] => Ok c | r :: l' => do c' <- read_source w c r; read_sources w c' l' end.
(* Sequence::process, lines 45-52 *)
Definition process_sequence (w : world) (l : list reader) : outcome config := read_sources w cfg_empty l.

(* Config::get_value, Configuration.hpp:142-151, Configuration.cpp:155-165 *)
Inductive got (A : Type) := Found (a : A) | NotFound | Error.
Arguments Found {A}. Arguments NotFound {A}. Arguments Error {A}.
Definition get_value {A : Type} (read : bytes -> option A) (c : config) (k : bytes) : got A :=
  match c k with None => NotFound | Some v => match read v with Some a => Found a | None => Error end end.
(* >> of a string *)
Definition read_string (v : bytes) : option bytes := match read_word v with Some (w, _) => Some w | None => None end.
(* the digits at the front *)
Fixpoint take_digits (s : bytes) : bytes := match s with c :: s' => if is_digit c then c :: take_digits s' else [] | [] => [] end.
Definition take_sign (s : bytes) : bool * bytes :=
  match s with
  | c :: s' => if Ascii.eqb c "-"%char then (true, s') else if Ascii.eqb c "+"%char then (false, s') else (false, s)
  | [] => (false, [])
  end.
(* >> of a size_t: a minus sign negates modulo 2^64; too large is an error; what follows the digits is left alone *)
Definition read_size (v : bytes) : option N :=
  let '(minus, s) := take_sign (skip_space v) in
  match take_digits s with
  | [] => None
  | d => let n := num_prefix 0 d in
         if 2 ^ 64 <=? n then None else Some (if minus then (2 ^ 64 - n) mod 2 ^ 64 else n)
  end.
(* >> of an int *)
Definition read_int (v : bytes) : option Z :=
  let '(minus, s) := take_sign (skip_space v) in
  match take_digits s with
  | [] => None
  | d => let n := Z.of_N (num_prefix 0 d) in let z := (if minus then - n else n)%Z in
         if (z <? - 2 ^ 31)%Z || (2 ^ 31 - 1 <? z)%Z then None else Some z
  end.
(* >> of a char *)
Definition read_char (v : bytes) : option byte := match skip_space v with c :: _ => Some c | [] => None end.
(* tolower in the C locale, line 160; for negative chars it is undefined, here it leaves them alone *)
Definition lower (c : byte) : byte := let n := N_of_ascii c in if (65 <=? n) && (n <=? 90) then ascii_of_N (n + 32) else c.
(* >> std::boolalpha >> of a bool *)
Definition read_bool (v : bytes) : option bool :=
  let s := skip_space (map lower v) in
  if starts_with (bstr "true") s then Some true else if starts_with (bstr "false") s then Some false else None.
(* get_from_map, Configuration.hpp:174-191: the whole value *)
Fixpoint assoc {A : Type} (l : list (bytes * A)) (k : bytes) : option A :=
  match l with [] => None | (k', a) :: l' => if beqb k k' then Some a else assoc l' k end.
Definition get_from_map {A : Type} (m : list (bytes * A)) (c : config) (k : bytes) : got A := get_value (assoc m) c k.
