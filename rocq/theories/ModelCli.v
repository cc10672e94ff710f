(* The command line interface and what it prints: examples/hxhim/cli.cpp, examples/hxhim/print_results.c *)
From Verif Require Import ModelBytes ModelElen ModelFloat ModelConf ModelMsg ModelHist ModelKey ModelWire ModelStore ModelGetOp ModelDs ModelRoute ModelClient.
From Coq Require Import Floats.SpecFloat.
Local Open Scope N_scope.

(* ---- stream >> x: the value and what is left; None: the stream has failed, nothing more is read from it ---- *)
(* an unsigned integer of so many bits (libstdc++, num_get::_M_extract_int): a minus sign negates; too large is an error *)
Definition rd_unsigned (bits : N) (s : bytes) : option (N * bytes) :=
  let '(minus, t) := take_sign (skip_space s) in
  match take_digits t with
  | [] => None
  | d => let n := num_prefix 0 d in
         if 2 ^ bits <=? n then None else Some (if minus then (2 ^ bits - n) mod 2 ^ bits else n, skipn (length d) t)
  end.
Definition rd_signed (bits : N) (s : bytes) : option (Z * bytes) :=
  let '(minus, t) := take_sign (skip_space s) in
  match take_digits t with
  | [] => None
  | d => let n := Z.of_N (num_prefix 0 d) in let z := (if minus then - n else n)%Z in
         if (z <? - 2 ^ (Z.of_N bits - 1))%Z || (2 ^ (Z.of_N bits - 1) - 1 <? z)%Z then None else Some (z, skipn (length d) t)
  end.
(* the exponent of a float, if there is one: e without digits makes the conversion fail *)
Definition rd_exponent (s : bytes) : option (Z * bytes) :=
  match s with
  | c :: t => if Ascii.eqb c "e"%char || Ascii.eqb c "E"%char then
                let '(minus, t) := take_sign t in
                match take_digits t with
                | [] => None
                | d => let n := Z.of_N (num_prefix 0 d) in Some ((if minus then - n else n)%Z, skipn (length d) t)
                end
              else Some (0%Z, s)
  | [] => Some (0%Z, [])
  end.
(* the digits behind a decimal point *)
Definition rd_fraction (s : bytes) : bytes * bytes :=
  match s with
  | c :: t => if Ascii.eqb c "."%char then let d := take_digits t in (d, skipn (length d) t) else ([], s)
  | [] => ([], [])
  end.
(* n * 10^e rounded to F (strtof, strtod) *)
Definition round_decimal (F : fmt) (minus : bool) (n : N) (e : Z) : spec_float :=
  match n with
  | N0 => S754_zero minus
  | Npos p => SFdiv (f_prec F) (f_emax F) (S754_finite minus (Z.to_pos (Zpos p * 10 ^ Z.max 0 e)) 0) (S754_finite false (Z.to_pos (10 ^ Z.max 0 (- e))) 0)
  end.
(* a float or double (num_get::_M_extract_float, then strtof or strtod on the characters taken): digits before or after the point,
   an exponent; too large is an error. inf, nan and hexadecimal numbers are not read *)
Definition rd_float (F : fmt) (s : bytes) : option (spec_float * bytes) :=
  let '(minus, t) := take_sign (skip_space s) in
  let d1 := take_digits t in
  let '(d2, t2) := rd_fraction (skipn (length d1) t) in
  match d1 ++ d2 with
  | [] => None
  | m => match rd_exponent t2 with
         | None => None
         | Some (e, t3) =>
             let x := round_decimal F minus (num_prefix 0 m) (e - Z.of_nat (length d2)) in
             match x with S754_infinity _ => None | _ => Some (x, t3) end
         end
  end.

(* USER2OT, cli.cpp:58-66 *)
Definition USER2OT : list (bytes * N) :=
  [(bstr "INT32", T_INT32); (bstr "INT64", T_INT64); (bstr "UINT32", T_UINT32); (bstr "UINT64", T_UINT64);
   (bstr "FLOAT", T_FLOAT); (bstr "DOUBLE", T_DOUBLE); (bstr "BYTE", T_BYTE)].
(* USER2GETOP, cli.cpp:68-75 *)
Definition USER2GETOP : list (bytes * N) :=
  [(bstr "EQ", GETOP_EQ); (bstr "NEXT", GETOP_NEXT); (bstr "PREV", GETOP_PREV); (bstr "FIRST", GETOP_FIRST); (bstr "LAST", GETOP_LAST)].
(* operator>> for hxhim_data_t, cli.cpp:107-120; for the operation of a GETOP, 262-276 *)
Definition rd_name (table : list (bytes * N)) (s : bytes) : option (N * bytes) :=
  match read_word s with
  | Some (w, r) => match assoc table w with Some t => Some (t, r) | None => None end
  | None => None
  end.
(* operator>> for Blob, cli.cpp:122-180; integers are little endian *)
Definition signed_bytes (n : nat) (z : Z) : bytes := le_enc n (Z.to_N (z mod 2 ^ (8 * Z.of_nat n))).
Definition rd_data (t : N) (s : bytes) : option (bytes * bytes) :=
  let unsigned n := match rd_unsigned (8 * N.of_nat n) s with Some (v, r) => Some (le_enc n v, r) | None => None end in
  let signed n := match rd_signed (8 * N.of_nat n) s with Some (v, r) => Some (signed_bytes n v, r) | None => None end in
  let float F := match rd_float F s with Some (v, r) => Some (store_fp F v, r) | None => None end in
  if t =? T_INT32 then signed 4%nat else if t =? T_INT64 then signed 8%nat
  else if t =? T_UINT32 then unsigned 4%nat else if t =? T_UINT64 then unsigned 8%nat
  else if t =? T_FLOAT then float FLT else if t =? T_DOUBLE then float DBL
  else if t =? T_BYTE then read_word s else None.
Definition rd_blob (s : bytes) : option (blob * bytes) :=
  match rd_name USER2OT s with
  | Some (t, r) => match rd_data t r with Some (d, r') => Some (mkBlob false d t, r') | None => None end
  | None => None
  end.

(* ---- commands ---- *)
(* UserInput, cli.cpp:182-191: run_commands makes no difference between bulk commands and others *)
Inductive cmd :=
| MPut (s p o : blob) | MGet (s p : blob) (ty : N) | MGetOp (s p : blob) (ty n op : N) | MDel (s p : blob)
| MFlushPuts | MFlushGets | MFlushDels | MFlush.
Inductive kind := KPut | KGet | KGetOp | KDel | KFlushPuts | KFlushGets | KFlushDels | KFlush.
(* USER2OP, cli.cpp:43-56 *)
Definition USER2OP : list (bytes * kind) :=
  [(bstr "PUT", KPut); (bstr "BPUT", KPut); (bstr "GET", KGet); (bstr "BGET", KGet); (bstr "GETOP", KGetOp); (bstr "BGETOP", KGetOp);
   (bstr "DEL", KDel); (bstr "BDEL", KDel); (bstr "FLUSHPUTS", KFlushPuts); (bstr "FLUSHGETS", KFlushGets); (bstr "FLUSHDELS", KFlushDels); (bstr "FLUSH", KFlush)].
(* one operation, cli.cpp:234-290 *)
Definition then_read {A B : Type} (x : option (A * bytes)) (f : A -> bytes -> option B) : option B := match x with Some (a, r) => f a r | None => None end.
Definition rd_item (k : kind) (s : bytes) : option (cmd * bytes) :=
  match k with
  | KPut => then_read (rd_blob s) (fun a r => then_read (rd_blob r) (fun b r => then_read (rd_blob r) (fun c r => Some (MPut a b c, r))))
  | KGet => then_read (rd_blob s) (fun a r => then_read (rd_blob r) (fun b r => then_read (rd_name USER2OT r) (fun t r => Some (MGet a b t, r))))
  | KGetOp => then_read (rd_blob s) (fun a r => then_read (rd_blob r) (fun b r => then_read (rd_name USER2OT r) (fun t r =>
              then_read (rd_unsigned 64 r) (fun n r => then_read (rd_name USER2GETOP r) (fun op r => Some (MGetOp a b t n op, r))))))
  | KDel => then_read (rd_blob s) (fun a r => then_read (rd_blob r) (fun b r => Some (MDel a b, r)))
  | KFlushPuts => Some (MFlushPuts, s) | KFlushGets => Some (MFlushGets, s) | KFlushDels => Some (MFlushDels, s) | KFlush => Some (MFlush, s)
  end.
(* the loop over the operations of a line, cli.cpp:232-299: an error ends it, what was read before stays *)
Fixpoint rd_items (k : kind) (count : nat) (s : bytes) : list cmd * bool :=
  match count with
  | O => ([], true)
  | S n => match rd_item k s with
           | None => ([], false)
           | Some (c, r) => let '(l, ok) := rd_items k n r in (c :: l, ok)
           end
  end.
(* one line, cli.cpp:206-299; false: an error is reported *)
Definition rd_line (line : bytes) : list cmd * bool :=
  match read_word line with
  | None => ([], true)
  | Some (w, r) =>
      match assoc USER2OP w with
      | None => ([], false)
      | Some k =>
          if Ascii.eqb (hd "000"%char w) "B"%char then
            match rd_unsigned 64 r with None => ([], false) | Some (n, r) => rd_items k (N.to_nat n) r end
          else rd_items k 1 r
      end
  end.
(* parse_commands, cli.cpp:203-303: the commands, and for every line whether it was read *)
Definition parse_commands (text : bytes) : list cmd * list bool :=
  let l := map rd_line (getlines newline [] text) in (flat_map fst l, map snd l).

(* ---- running them ---- *)
(* at: the addresses of the subject, predicate and object of a command; they stay until all commands have been run *)
Definition addresses := nat -> N * N * N.
Definition place (a : N) (b : blob) : arg := mkArg a (b_data b) (b_type b).
(* HXHIM_PUT_ALL, constants.h:54-56 *)
Definition PUT_ALL : N := 63.
Definition call_of (a : N * N * N) (c : cmd) : option call :=
  let '(x, y, z) := a in
  match c with
  | MPut s p o => Some (CPut (place x s) (place y p) (place z o) PUT_ALL)
  | MGet s p t => Some (CGet (place x s) (place y p) t)
  | MGetOp s p t n op => Some (CGetOp (place x s) (place y p) t n op)
  | MDel s p => Some (CDelete (place x s) (place y p))
  | _ => None
  end.
(* run_commands, cli.cpp:305-370, for a session that does not put in the background (ModelClient.v): the results printed after each
   command and whether it counts as successful *)
Fixpoint run_commands (e : env) (at_ : addresses) (i : nat) (s : session) (cl : cluster) (l : list cmd)
  : outcome (session * cluster * list (list result * bool)) :=
  match l with
  | [] => Ok (s, cl, [])
  | c :: l' =>
      do (a, r) <-
        match call_of (at_ i) c with
        | Some x => do (a, ok) <- do_call e s cl x; Ok (a, ([], ok))
        | None => do (a, xs) <- match c with
                                | MFlushPuts => flush_puts e s cl | MFlushGets => flush_gets e s cl | MFlushDels => flush_dels e s cl
                                | _ => flush e s cl
                                end; Ok (a, (xs, true))
        end;
      do (b, rs) <- run_commands e at_ (S i) (fst a) (snd a) l'; Ok (b, r :: rs)
  end.

(* ---- printing ---- *)
(* "%d" *)
Definition show_int (z : Z) : bytes := if (z <? 0)%Z then "-"%char :: to_string (Z.to_N (- z)) else to_string (Z.to_N z).
Definition signed (bits : N) (n : N) : Z := if n <? 2 ^ (bits - 1) then Z.of_N n else (Z.of_N n - 2 ^ Z.of_N bits)%Z.
(* "%.*f"; simplification: the sign of a NaN is not shown *)
Definition show_float (p : N) (x : spec_float) : bytes :=
  (match x with S754_zero true | S754_infinity true | S754_finite true _ _ => ["-"%char] | _ => [] end) ++ print_fixed p x.
(* "%.*s": up to a zero byte *)
Fixpoint until_nul (d : bytes) : bytes := match d with [] => [] | c :: d' => if Ascii.eqb c "000"%char then [] else c :: until_nul d' end.
(* print_by_type, print_results.c:9-42. d: the bytes at value; null: value is NULL. FLT_DECIMAL_DIG is 9, DBL_DECIMAL_DIG 17. PRId32 and PRId64
   are used for unsigned types as well. Simplifications: bytes of 2^31 or more are not printed (UB: the length becomes a negative int);
   for pointers (no command has one) nothing is shown; for "%.*s" of NULL glibc prints nothing *)
Definition print_by_type (null : bool) (d : bytes) (t : N) : outcome bytes :=
  let int n := if null || (blen d <? N.of_nat n) then UB else Ok (show_int (signed (8 * N.of_nat n) (le_dec (firstn n d)))) in
  let float F p := if null then UB else do x <- load_fp F d; Ok (show_float p x) in
  if t =? T_INVALID then Ok (bstr "Invalid Type: 0 (" ++ to_string (blen d) ++ bstr " bytes)")
  else if (t =? T_INT32) || (t =? T_UINT32) then int 4%nat
  else if (t =? T_INT64) || (t =? T_UINT64) then int 8%nat
  else if t =? T_FLOAT then float FLT 9 else if t =? T_DOUBLE then float DBL 17
  else if t =? T_BYTE then (if 2 ^ 31 <=? blen d then UB else Ok (until_nul d))
  else if t =? T_POINTER then Ok []
  else Ok (bstr "Unknown Type: " ++ show_int (signed 32 t) ++ bstr " (" ++ to_string (blen d) ++ bstr " bytes)").
(* a subject or predicate that is a reference: mem gives the bytes at an address *)
Definition print_ref (mem : N -> bytes) (r : ref) : outcome bytes :=
  if negb (r_addr r =? 0) && (blen (mem (r_addr r)) <? r_len r) then UB
  else print_by_type (r_addr r =? 0) (firstn (N.to_nat (r_len r)) (mem (r_addr r))) (r_type r).
Definition print_blob (b : blob) : outcome bytes := print_by_type (b_null b) (b_data b) (b_type b).
Definition from_server (z : Z) : bytes := bstr " from range server " ++ show_int z ++ [newline].
Definition pair_line (name : bytes) (ok : bool) (from : Z) (s p : outcome bytes) : outcome bytes :=
  do x <- s; do y <- p;
  Ok (name ++ bstr "{" ++ x ++ bstr ", " ++ y ++ bstr "} returned " ++ (if ok then bstr "SUCCESS" else bstr "ERROR") ++ from_server from).
Definition get_line (ok : bool) (from : Z) (s p o : outcome bytes) : outcome bytes :=
  if ok then do x <- s; do y <- p; do z <- o; Ok (bstr "GET returned {" ++ x ++ bstr ", " ++ y ++ bstr "} -> " ++ z ++ from_server from)
  else Ok (bstr "GET returned ERROR" ++ from_server from).
(* one turn of the loop of print_results, print_results.c:44-122, with print_rank 0 *)
Definition print_result (mem : N -> bytes) (x : result) : outcome bytes :=
  match x with
  | XPut f ok s p => pair_line (bstr "PUT          ") ok f (print_ref mem s) (print_ref mem p)
  | XGet f ok s p o => get_line ok f (print_ref mem s) (print_ref mem p) (print_blob o)
  | XGetOp f ok s p o => get_line ok f (print_blob s) (print_blob p) (print_blob o)
  | XDel f ok s p => pair_line (bstr "DEL          ") ok f (print_ref mem s) (print_ref mem p)
  | XSync _ _ => Ok (bstr "Bad Operation: 4" ++ [newline])
  | XHist _ _ _ => Ok (bstr "Bad Operation: 5" ++ [newline])
  end.
Fixpoint print_results (mem : N -> bytes) (l : list result) : outcome bytes :=
  match l with [] => Ok [] | x :: l' => do a <- print_result mem x; do b <- print_results mem l'; Ok (a ++ b) end.
