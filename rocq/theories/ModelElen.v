(* Integer encoding: include/utils/elen.tpp, include/datastore/transform.tpp *)
From Verif Require Import ModelBytes.
Local Open Scope N_scope.

(* '0' + d *)
Definition digit (d : N) : byte := ascii_of_N (48 + d).
(* std::isdigit in the "C" locale *)
Definition is_digit (c : byte) : bool := (48 <=? N_of_ascii c) && (N_of_ascii c <=? 57).

(* decimal digits of n, most significant first; [f] bounds the number of digits *)
Fixpoint digits_fuel (f : nat) (n : N) : bytes :=
  match f with
  | O => [digit (n mod 10)]
  | S f' => if n <? 10 then [digit n] else digits_fuel f' (n / 10) ++ [digit (n mod 10)]
  end.
(* std::to_string of a non-negative value, used at elen.tpp:27. A number has at most as many
   decimal as binary digits, so the bound is never reached (digits_value in ProofElen.v). *)
Definition to_string (n : N) : bytes := digits_fuel (N.size_nat n) n.

(* flip, elen.tpp:4-10: '9' - c + '0' *)
Definition flip1 (c : byte) : byte := if is_digit c then ascii_of_N (57 + 48 - N_of_ascii c) else c.
Definition flip (s : bytes) : bytes := map flip1 s.

(* encode::unique for value >= 0, elen.tpp:17-38. The recursion is on the number of digits;
   three levels suffice for 64-bit values and running out (None) never happens for them
   (unique_some in ProofElen.v). *)
Fixpoint unique (f : nat) (value : N) (prefix neg : byte) : option bytes :=
  match f with
  | O => None
  | S f' =>
      if value =? 0 then Some [digit 0]                                   (* 18-20 *)
      else
        let str := to_string value in                                     (* 27 *)
        match (if 1 <? blen str then unique f' (blen str) prefix neg else Some []) with (* 28-30 *)
        | None => None
        | Some l =>
            let str' := if Ascii.eqb prefix neg then flip str else str in (* 33-35 *)
            Some (prefix :: l ++ str')                                    (* 23-25, 37 *)
        end
  end.

(* sizeof(T) and signedness of the template argument *)
Record ity := mkIty { it_bytes : nat; it_signed : bool }.
Definition int32_t := mkIty 4 true.
Definition int64_t := mkIty 8 true.
Definition uint32_t := mkIty 4 false.
Definition uint64_t := mkIty 8 false.

Definition it_mod (T : ity) : Z := 2 ^ (8 * Z.of_nat (it_bytes T)).
Definition it_min (T : ity) : Z := if it_signed T then - (it_mod T / 2) else 0.
Definition it_max (T : ity) : Z := if it_signed T then it_mod T / 2 - 1 else it_mod T - 1.

(* encode::integers, elen.tpp:43-52; -value overflows for the smallest signed value *)
Definition enc_int (T : ity) (v : Z) (neg pos : byte) : outcome bytes :=
  let u n p := match unique 4 n p neg with Some s => Ok s | None => UB end in
  if (v <? 0)%Z then
    if (v =? it_min T)%Z then UB else u (Z.to_N (- v)) neg
  else if (0 <? v)%Z then u (Z.to_N v) pos
  else Ok [digit 0].

(* std::string::substr *)
Definition substr (s : bytes) (pos len : N) : outcome bytes :=
  if blen s <? pos then Throw
  else Ok (firstn (N.to_nat (N.min len (blen s - pos))) (skipn (N.to_nat pos) s)).

(* value of the longest prefix of digits *)
Fixpoint num_prefix (acc : N) (s : bytes) : N :=
  match s with
  | c :: s' => if is_digit c then num_prefix (10 * acc + (N_of_ascii c - 48)) s' else acc
  | [] => acc
  end.
(* std::stringstream >> T for a T of maximum [mx]: extraction fails (an exception at elen.tpp:240-242)
   without digits or on overflow. Simplification: leading white space and signs, which no encoder
   produces, are failures here. *)
Definition read_num (mx : N) (s : bytes) : outcome N :=
  match s with
  | c :: _ => if is_digit c then let v := num_prefix 0 s in if v <=? mx then Ok v else Throw else Throw
  | [] => Throw
  end.

(* decode::next, elen.tpp:224-245: (value, new position) *)
Definition next (mx : N) (prefix neg : byte) (str : bytes) (position len : N) : outcome (N * N) :=
  do s <- substr str position len;
  let s' := if Ascii.eqb prefix neg then flip s else s in
  do v <- read_num mx s'; Ok (v, (position + len) mod 2 ^ 64).

(* while (str[count] == prefix) count++, elen.tpp:204-207 *)
Fixpoint count_prefix (prefix : byte) (s : bytes) : nat :=
  match s with c :: s' => if Ascii.eqb c prefix then S (count_prefix prefix s') else O | [] => O end.

(* decode::get_prefix_count, elen.tpp:194-220 (str is not empty) *)
Definition get_prefix_count (prefix : byte) (str : bytes) (neg pos : byte) : outcome nat :=
  match str with
  | [] => Ok O  (* str[0] of an empty string is '\0'; not reached, every caller has checked the size *)
  | c :: _ =>
      if Ascii.eqb c (digit 0) then Ok O
      else if negb (Ascii.eqb prefix pos) && negb (Ascii.eqb prefix neg) then Throw
      else
        let k := count_prefix prefix str in
        match nth_error str k with
        | None => Throw                                    (* 210-212 *)
        | Some d => if is_digit d then Ok k else Throw     (* 215-217 *)
        end
  end.

Definition SIZE_MAX : N := 2 ^ 64 - 1.

(* the loop reading the encoded lengths, elen.tpp:267-272 *)
Fixpoint read_lens (n : nat) (prefix neg : byte) (str : bytes) (position len : N) : outcome (N * N) :=
  match n with
  | O => Ok (position, len)
  | S n' => do (len', position') <- next SIZE_MAX prefix neg str position len;
            read_lens n' prefix neg str position' len'
  end.

(* decode::integers, elen.tpp:250-285. prefix_len is never requested. A count of 0 (a string that
   starts with '0' but is longer) makes the loop bound wrap to 2^64-1; each round either consumes
   digits or throws, so it ends in an exception. *)
Definition dec_int (T : ity) (str : bytes) (neg pos : byte) : outcome Z :=
  match str with
  | [] => Throw
  | [c] => if Ascii.eqb c (digit 0) then Ok 0%Z else Throw
  | prefix :: _ =>
      do k <- get_prefix_count prefix str pos neg;
      match k with
      | O => Throw
      | S k' =>
          do (position, len) <- read_lens k' prefix neg str (N.of_nat k) 1;
          do (v, _) <- next (Z.to_N (it_max T)) prefix neg str position len;
          (* out = -out; wraps for an unsigned T *)
          if Ascii.eqb prefix neg
          then Ok (if it_signed T then - Z.of_N v else (- Z.of_N v) mod it_mod T)%Z
          else Ok (Z.of_N v)
      end
  end.

(* src dereferenced as a T: reads sizeof(T) bytes whatever the length of the field *)
Definition load (T : ity) (d : bytes) : outcome Z :=
  if blen d <? N.of_nat (it_bytes T) then UB
  else
    let n := Z.of_N (le_dec (firstn (it_bytes T) d)) in
    Ok (if it_signed T && (it_mod T / 2 <=? n)%Z then n - it_mod T else n)%Z.
Definition store (T : ity) (v : Z) : bytes := le_enc (it_bytes T) (Z.to_N (v mod it_mod T)).

(* Transform::encode::integers<T>, transform.tpp:21-35, for non-null src *)
Definition tr_enc_int (T : ity) (neg pos : byte) (d : bytes) : outcome (option bytes) :=
  do v <- load T d; do s <- enc_int T v neg pos; Ok (Some s).
(* Transform::decode::integers<T>, transform.tpp:59-78 *)
Definition tr_dec_int (T : ity) (neg pos : byte) (d : bytes) : outcome (option bytes) :=
  do v <- dec_int T d neg pos; Ok (Some (store T v)).

(* elen::NEG_SYMBOL, elen::POS_SYMBOL, include/utils/elen.hpp:22-23 *)
Definition NEG_SYMBOL : byte := ascii_of_N 47.
Definition POS_SYMBOL : byte := ascii_of_N 58.

(* plain char is signed on the modelled platform *)
Definition schar (c : byte) : Z :=
  let n := Z.of_N (N_of_ascii c) in (if 128 <=? n then n - 256 else n)%Z.
(* the test on the two symbols in parse_elen, src/hxhim/config.cpp:285-287: rejected iff neg >= pos *)
Definition elen_accepts (neg pos : byte) : bool := negb (schar pos <=? schar neg)%Z.
