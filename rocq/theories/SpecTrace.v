(* How a trace is read *)
From Verif Require Import ModelBytes ModelKey ModelWire ModelHist ModelMsg ModelStore ModelGetOp ModelDs ModelElen ModelRoute ModelClient
  ModelFloat SpecFp ModelStats ModelDsStats ModelTimes SpecTimes ModelTrace.
From Coq Require Import Reals.
Local Open Scope N_scope.

(* the text between separators *)
Fixpoint cut (c : ascii) (s : bytes) : list bytes :=
  match s with
  | [] => [[]]
  | x :: s' => if Ascii.eqb x c then [] :: cut c s' else match cut c s' with [] => [[x]] | w :: ws => (x :: w) :: ws end
  end.
(* digits *)
Fixpoint read_digits (acc : N) (s : bytes) : option N :=
  match s with
  | [] => Some acc
  | c :: s' => if (48 <=? N_of_ascii c) && (N_of_ascii c <=? 57) then read_digits (10 * acc + (N_of_ascii c - 48)) s' else None
  end.
Definition read_nat (s : bytes) : option N := match s with [] => None | _ => read_digits 0 s end.
Definition read_integer (s : bytes) : option Z :=
  match s with
  | "-"%char :: s' => option_map (fun n => (- Z.of_N n)%Z) (read_nat s')
  | "+"%char :: s' | s' => option_map Z.of_N (read_nat s')
  end.
(* a number, with or without point and exponent: (m, e) stands for m * 10^e *)
Definition read_point (s : bytes) : option (N * Z) :=
  match cut "."%char s with
  | [a] => option_map (fun n => (n, 0%Z)) (read_nat a)
  | [a; b] => option_map (fun n => (n, (- Z.of_N (blen b))%Z)) (read_nat (a ++ b))
  | _ => None
  end.
Definition read_number (s : bytes) : option (N * Z) :=
  match cut "e"%char s with
  | [a] => read_point a
  | [a; b] => match read_point a, read_integer b with Some (m, x), Some y => Some (m, (x + y)%Z) | _, _ => None end
  | _ => None
  end.
Definition value (v : N * Z) : R := (IZR (Z.of_N (fst v)) * ten (snd v))%R.

(* a line without its end: rank, name, start and end in nanoseconds, duration in seconds *)
Definition read_line (s : bytes) : option (Z * bytes * N * N * (N * Z)) :=
  match cut " "%char s with
  | [r; n; a; b; d] =>
      match read_integer r, read_nat a, read_nat b, read_number d with
      | Some r, Some a, Some b, Some d => Some (r, n, a, b, d)
      | _, _, _, _ => None
      end
  | _ => None
  end.
(* every line of a trace ends with a newline *)
Definition read_trace (s : bytes) : list (option (Z * bytes * N * N * (N * Z))) := map read_line (removelast (cut "010"%char s)).

(* a name that can be told from the rest of the line *)
Definition plain (name : bytes) : Prop := Forall (fun c => c <> " "%char /\ c <> "010"%char) name.
(* an event after the epoch of a clock that does not go back; 2^64 ns are 584 years *)
Definition after (epoch : Z) (v : named_event) : Prop :=
  let '(name, a, b) := v in plain name /\ (epoch <= a <= b)%Z /\ (b - epoch < 2 ^ 64)%Z.
(* what a line says about an event: everything, with six digits of the duration *)
Definition tells (rank epoch : Z) (v : named_event) (r : option (Z * bytes * N * N * (N * Z))) : Prop :=
  let '(name, a, b) := v in
  exists d, r = Some (rank, name, Z.to_N (a - epoch), Z.to_N (b - epoch), d) /\
    (Rabs (value d - IZR (b - a) / 10 ^ 9) <= IZR (b - a) / 10 ^ 9 * (/ 10 ^ 5))%R.

(* what a session prints *)
Definition printed (a : tact) : list named_event :=
  match a with TPrint v => [v] | TResult x t print => result_events x t print | _ => [] end.
(* the buffer is never asked for when nothing was printed since the last time, and Close comes last *)
Fixpoint careful (some : bool) (l : list tact) : Prop :=
  match l with
  | [] => True
  | TGet :: l' => some = true /\ careful false l'
  | TClose :: l' => l' = []
  | _ :: l' => careful true l'
  end.

(* the name of an operation *)
Definition operation (o : op) : bytes :=
  match o with
  | OPut _ _ _ => bstr "HXHIM_PUT" | OGet _ _ _ => bstr "HXHIM_GET" | OGetOp _ _ _ _ _ => bstr "HXHIM_GETOP"
  | ODel _ _ => bstr "HXHIM_DELETE" | OHist _ _ => bstr "HXHIM_HISTOGRAM"
  end.
(* the parts of an operation that a reader looks for *)
Definition parts (alloc : bool) : list bytes :=
  map bstr (["Hash"%string; "Insert"%string] ++ (if alloc then ["Alloc"%string] else []) ++
            ["ProcessBulk"; "Pack"; "Transport"; "Unpack"; "Cleanup_RPC"; "Result"; "print"]%string).
(* a trace that tells a list of events *)
Definition records (rank epoch : Z) (text : bytes) (l : list named_event) : Prop := Forall2 (tells rank epoch) l (read_trace text).
(* a session after which everything printed is found somewhere *)
Definition complete (rank epoch : Z) (before : bytes) (st : trace) (l : list tact) : Prop :=
  o_text (tc_out st) ++ tc_buf st ++ tc_log st = before ++ flat_map (line rank epoch) (flat_map printed l) /\ o_good (tc_out st) = true.

Local Open Scope Z_scope.
(* when the result of an operation is destroyed, the buffer tells how long the operation took as a whole, from before it was
   hashed until the result was made, and then about its parts *)
Definition traced (T : clock) (epoch : Z) (ev : ModelTimes.event) (x : result) (t : times) : Prop :=
  forall rank print st, snd (ti_result t) < epoch + 2 ^ 64 -> epoch <= fst print <= snd print -> snd print < epoch + 2 ^ 64 ->
    tc_run rank epoch (tc_opened (mkOut true [])) [TResult x t print; TGet] = Ok st ->
    exists l, records rank epoch (o_text (tc_out st)) ((operation (ev_op ev), T (ev_before ev), snd (ti_result t)) :: l) /\
      map (fun v => fst (fst v)) l = parts (match event_alloc T ev with Some _ => true | None => false end).
(* what is read when a time was never set: the start and the end of the event lie 2^64 ns after time 0 *)
Definition wrapped (rank epoch : Z) (name : string) : option (Z * bytes * N * N * (N * Z)) :=
  Some (rank, bstr name, Z.to_N (2 ^ 64 - epoch), Z.to_N (2 ^ 64 - epoch), (0%N, 0)).
(* an operation that stays on the rank of the client: it seems to start 2^64 ns after time 0, as do the hash function and the
   insertion; the other parts are told *)
Definition traced_late (T : clock) (epoch : Z) (ev : ModelTimes.event) (x : result) (t : times) : Prop :=
  forall rank print st, 0 < epoch < 2 ^ 64 -> snd (ti_result t) < epoch + 2 ^ 64 -> epoch <= fst print <= snd print -> snd print < epoch + 2 ^ 64 ->
    tc_run rank epoch (tc_opened (mkOut true [])) [TResult x t print; TGet] = Ok st ->
    exists d l r, read_trace (o_text (tc_out st)) =
        Some (rank, operation (ev_op ev), Z.to_N (2 ^ 64 - epoch), Z.to_N (snd (ti_result t) - epoch), d) ::
        wrapped rank epoch "Hash" :: wrapped rank epoch "Insert" :: r /\
      Forall2 (tells rank epoch) l r /\
      map (fun v => fst (fst v)) l = skipn 2 (parts (match event_alloc T ev with Some _ => true | None => false end)).
