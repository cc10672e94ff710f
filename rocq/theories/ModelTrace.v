(* The trace of a session built with PRINT_TIMESTAMPS: print_event (src/utils/Stats.cpp:61-86), what the destructor of a
   result prints (src/hxhim/Results.cpp:35-69), the print buffer and GetPrintBufferContents
   (src/hxhim/accessors.cpp:338-357), and two more accessors.
   The buffer is used by one thread. print_event with one time (Stats.cpp:37-59) is never called. *)
From Verif Require Import ModelBytes ModelKey ModelWire ModelHist ModelMsg ModelStore ModelGetOp ModelDs ModelElen ModelRoute ModelClient
  ModelFloat ModelStats ModelDsStats ModelTimes.
Local Open Scope Z_scope.

(* ---- numbers as std::ostream prints them ---- *)
(* << int *)
Definition show_int (z : Z) : bytes := if z <? 0 then "-"%char :: to_string (Z.to_N (- z)) else to_string (Z.to_N z).
(* << long double: as %Lg, six digits. glibc prints exactly, rounded to nearest, ties to even.
   10^x <= m * 2^e; the quotient m * 2^e * 10^k *)
Definition ten_le (x : Z) (m : positive) (e : Z) : bool :=
  10 ^ Z.max x 0 * 2 ^ Z.max (- e) 0 <=? Zpos m * 2 ^ Z.max e 0 * 10 ^ Z.max (- x) 0.
Definition scaled10 (m : positive) (e k : Z) : Z := div_even (Zpos m * 2 ^ Z.max e 0 * 10 ^ Z.max k 0) (2 ^ Z.max (- e) 0 * 10 ^ Z.max (- k) 0).
(* the exponent of the first digit. Simplification: values from 10^-12 to 10^20 only; a uint64_t divided by 10^9 is 0 or from 10^-9 to 2*10^10 *)
Fixpoint first_digit (n : nat) (x : Z) (m : positive) (e : Z) : Z :=
  match n with O => x | S n' => if ten_le x m e then x else first_digit n' (x - 1) m e end.
(* the six digits, and the exponent of the first one *)
Definition six (m : positive) (e : Z) : Z * Z :=
  let x := first_digit 32 20 m e in
  let d := scaled10 m e (5 - x) in if d =? 10 ^ 6 then (10 ^ 5, x + 1) else (d, x).
Fixpoint strip_zeros (s : bytes) : bytes :=
  match s with [] => [] | c :: s' => match strip_zeros s' with [] => if Ascii.eqb c (digit 0) then [] else [c] | r => c :: r end end.
Definition after_point (s : bytes) : bytes := match strip_zeros s with [] => [] | r => "."%char :: r end.
Definition show_g (x : spec_float) : bytes :=
  match x with
  | S754_zero s => (if s then ["-"%char] else []) ++ [digit 0]
  | S754_infinity s => (if s then ["-"%char] else []) ++ bstr "inf"
  | S754_nan => bstr "nan"
  | S754_finite s m e =>
      let '(d, x) := six m e in
      let ds := to_string (Z.to_N d) in
      (if s then ["-"%char] else []) ++
      (if (-4 <=? x) && (x <? 6) then
         if 0 <=? x then firstn (Z.to_nat x + 1) ds ++ after_point (skipn (Z.to_nat x + 1) ds)
         else digit 0 :: after_point (repeat (digit 0) (Z.to_nat (- x - 1)) ++ ds)
       else firstn 1 ds ++ after_point (skipn 1 ds) ++ ["e"%char; if x <? 0 then "-"%char else "+"%char] ++ pad 2 (Z.to_N (Z.abs x)))
  end.

(* ---- lines ---- *)
(* an event: its name, start and end *)
Definition named_event := (bytes * Z * Z)%type.
(* print_event, Stats.cpp:73-86 *)
Definition line (rank epoch : Z) (v : named_event) : bytes :=
  let '(name, a, b) := v in
  show_int rank ++ " "%char :: name ++ " "%char :: to_string (nano (epoch, a)) ++ " "%char :: to_string (nano (epoch, b)) ++
  " "%char :: show_g (sec (a, b)) ++ ["010"%char].
(* HXHIM_OP_STR, src/hxhim/hxhim.cpp:25-27, of the operation that the constructors of results set (Results.cpp:70-230) *)
Definition op_name (x : result) : bytes :=
  match x with
  | XPut _ _ _ _ => bstr "HXHIM_PUT" | XGet _ _ _ _ _ => bstr "HXHIM_GET" | XGetOp _ _ _ _ _ => bstr "HXHIM_GETOP"
  | XDel _ _ _ _ => bstr "HXHIM_DELETE" | XHist _ _ _ => bstr "HXHIM_HISTOGRAM" | XSync _ _ => bstr "HXHIM_SYNC"
  end.
(* Result::~Result, Results.cpp:35-69; print: the clock before and after *)
Definition result_events (x : result) (t : times) (print : ModelTimes.stamp) : list named_event :=
  let e (name : string) (s : ModelTimes.stamp) : named_event := (bstr name, fst s, snd s) in
  [(op_name x, fst (sn_hash (ti_send t)), snd (ti_result t)); e "Hash"%string (sn_hash (ti_send t)); e "Insert"%string (sn_insert (ti_send t))] ++
  (match ti_alloc t with Some s => [e "Alloc"%string s] | None => [] end) ++
  [e "ProcessBulk"%string (tr_start (ti_trip t), tr_end (ti_trip t)); e "Pack"%string (tr_pack (ti_trip t));
   e "Transport"%string (tr_send (ti_trip t), tr_recv (ti_trip t)); e "Unpack"%string (tr_unpack (ti_trip t));
   e "Cleanup_RPC"%string (tr_cleanup (ti_trip t)); e "Result"%string (ti_result t); e "print"%string print].

(* ---- the buffer ---- *)
(* the stream of the caller: whether it is good; what was written to it *)
Record out := mkOut { o_good : bool; o_text : bytes }.
(* stream << streambuf: nothing if the stream has failed; it fails if nothing is there to write *)
Definition insert_buf (o : out) (b : bytes) : out :=
  if o_good o then match b with [] => mkOut false (o_text o) | _ => mkOut true (o_text o ++ b) end else o.
(* tr_up: hx->p is there; tr_buf: hx->p->print_buffer; tr_log: what the destructor of hxhim_private logged (private.cpp:22-24) *)
Record trace := mkTrace { tc_up : bool; tc_buf : bytes; tc_out : out; tc_log : bytes }.
(* an event is printed while the session works (hxhim.cpp:153, process.hpp, Thallium/Init.cpp); a result is destroyed;
   GetPrintBufferContents; Close, which destroys the buffer (hxhim.cpp:269-271) *)
Inductive tact := TPrint (v : named_event) | TResult (x : result) (t : times) (print : ModelTimes.stamp) | TGet | TClose.
Definition tc_step (rank epoch : Z) (st : trace) (a : tact) : outcome (trace * bool) :=
  match a with
  | TPrint v => if tc_up st then Ok (mkTrace true (tc_buf st ++ line rank epoch v) (tc_out st) (tc_log st), true) else Ok (st, false)
  | TResult x t print =>
      (* hx is not null, hx->p may be *)
      if tc_up st then Ok (mkTrace true (tc_buf st ++ flat_map (line rank epoch) (result_events x t print)) (tc_out st) (tc_log st), true) else UB
  | TGet => if tc_up st then Ok (mkTrace true [] (insert_buf (tc_out st) (tc_buf st)) (tc_log st), true) else Ok (st, false)
  | TClose => if tc_up st then Ok (mkTrace false [] (tc_out st) (tc_buf st), true) else Ok (st, false)
  end.
Fixpoint tc_run (rank epoch : Z) (st : trace) (l : list tact) : outcome trace :=
  match l with [] => Ok st | a :: l' => do (st', _) <- tc_step rank epoch st a; tc_run rank epoch st' l' end.
Definition tc_opened (o : out) : trace := mkTrace true [] o [].

(* ---- accessors ---- *)
(* GetEpoch with a struct timespec, accessors.cpp:27-47: quotient and remainder of C++ *)
Definition get_epoch (ns : Z) : Z * Z := (Z.quot ns 1000000000, Z.rem ns 1000000000).
(* HaveHistogram, accessors.cpp:409-437. name: a null pointer, or what is readable from it on; std::string(name, len) of a null pointer
   throws unless len = 0, and reads len bytes otherwise *)
Definition have_histogram (up : bool) (names : list bytes) (name : option bytes) (len : N) (exists_given : bool) : outcome (option bool) :=
  if negb (up && exists_given) then Ok None
  else match name with
       | None => if (len =? 0)%N then Ok (Some (existsb (fun n => beqb n []) names)) else Throw
       | Some b => if (blen b <? len)%N then UB else Ok (Some (existsb (fun n => beqb n (firstn (N.to_nat len) b)) names))
       end.
