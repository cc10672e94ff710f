(* The rest of the elen library: include/utils/elen.tpp, src/utils/elen.cpp (narrow integers, small and large decimals,
   the comparison of encoded strings). hxhim itself uses the 32 and 64 bit integers and floating_point only. *)
From Verif Require Import ModelBytes ModelElen ModelTransform ModelFloat.
Local Open Scope N_scope.

(* ---- the integer types, elen.cpp:41-55, 80-94 ---- *)
Definition int8_t := mkIty 1 true.
Definition int16_t := mkIty 2 true.
Definition uint8_t := mkIty 1 false.
Definition uint16_t := mkIty 2 false.

(* encode::integers, elen.tpp:43-52. -value is computed as an int: for a type narrower than int the smallest value negates
   to a number that is converted back to the smallest value (17-38: no prefix for a value that is not positive, and the
   text with its minus sign; only its digits are flipped) *)
Definition enc_lib (T : ity) (v : Z) (neg pos : byte) : outcome bytes :=
  if (it_signed T && (v =? it_min T)%Z && Nat.ltb (it_bytes T) 4)%bool then
    let str := "-"%char :: to_string (Z.to_N (- v)) in
    match unique 4 (blen str) neg neg with Some l => Ok (l ++ flip str) | None => UB end
  else enc_int T v neg pos.

(* T read from a number n of characters: the conversion of a size_t to an 8-bit type, and of that to size_t again *)
Definition narrow8 (T : ity) (n : N) : N :=
  let m := n mod 256 in if it_signed T && (128 <=? m) then 2 ^ 64 - 256 + m else m.
(* isspace in the "C" locale *)
Definition is_space (c : byte) : bool := (N_of_ascii c =? 32) || ((9 <=? N_of_ascii c) && (N_of_ascii c <=? 13)).
(* std::stringstream >> signed char or unsigned char: the first character that is not white space *)
Fixpoint read_char (s : bytes) : outcome byte :=
  match s with [] => Throw | c :: s' => if is_space c then read_char s' else Ok c end.

(* decode::integers, elen.tpp:250-285, as dec_int; next<T> of an 8-bit type (280) reads a character, not a number.
   Also what *prefix_len is set to (274-276; None = left as it was). *)
Definition dec_lib (T : ity) (str : bytes) (neg pos : byte) : outcome (Z * option N) :=
  match str with
  | [] => Throw
  | [c] => if Ascii.eqb c (digit 0) then Ok (0%Z, None) else Throw
  | prefix :: _ =>
      do k <- get_prefix_count prefix str pos neg;
      match k with
      | O => Throw
      | S k' =>
          do (position, len) <- read_lens k' prefix neg str (N.of_nat k) 1;
          do v <- (if Nat.eqb (it_bytes T) 1 then
                     do s <- substr str position (narrow8 T len);
                     do c <- read_char (if Ascii.eqb prefix neg then flip s else s);
                     Ok (if it_signed T then schar c else Z.of_N (N_of_ascii c))
                   else do (v, _) <- next (Z.to_N (it_max T)) prefix neg str position len; Ok (Z.of_N v));
          (* out = -out, converted to T *)
          let w := if Ascii.eqb prefix neg
                   then (if it_signed T then (if (v =? it_min T)%Z then v else - v) else (- v) mod it_mod T)%Z else v in
          Ok (w, Some ((position + len) mod 2 ^ 64))
      end
  end.

(* ---- small decimals: numbers between -1 and 1 ---- *)
(* encode::small_decimals, elen.tpp:81-95; the sign of NaN does not matter, nothing is compared true with it *)
Definition enc_small (p : N) (neg pos : byte) (x : spec_float) : bytes :=
  let out := small_digits p x in
  if is_neg x then neg :: out ++ [pos]
  else match x with S754_infinity _ | S754_finite _ _ _ => pos :: out ++ [neg] | _ => out end.

(* ---- large decimals ---- *)
Definition INT_MAX : N := 2 ^ 31 - 1.
(* s >> integer: the value, and what is left; None = the stream has failed, and nothing more is read. An integer that
   does not fit is the largest or the smallest int. *)
Definition read_int (text : bytes) : Z * option bytes :=
  let '(s, t) := match text with "-"%char :: t => (true, t) | _ => (false, text) end in
  let ds := span_digits t in
  match ds with
  | [] => (0%Z, None)
  | _ =>
      let v := num_prefix 0 ds in
      let mx := if s then INT_MAX + 1 else INT_MAX in
      let sg z := if s then Z.opp z else z in
      if v <=? mx then (sg (Z.of_N v), Some (skipn (length ds) t)) else (sg (Z.of_N mx), None)
  end.
(* s >> decimal of what follows the digits: ".ddd" or nothing *)
Definition read_decimal (F : fmt) (rest : option bytes) : spec_float :=
  match rest with Some ("."%char :: t) => read_fraction F false t | _ => S754_zero false end.

(* encode::large_decimals, elen.tpp:98-139. Simplification: precision is not negative. *)
Definition enc_large (F : fmt) (p : N) (neg pos : byte) (x : spec_float) : outcome bytes :=
  if is_zero x then Ok [digit 0]                                                           (* 101-103 *)
  else
    let text := (if is_neg x then ["-"%char] else []) ++ print_fixed p x in                (* 106 *)
    let '(integer, rest) := read_int text in                                               (* 108-110 *)
    let decimal := read_decimal F rest in
    let decimal := if is_neg x then SFopp decimal else decimal in                          (* 112-114 *)
    do out <- (if (integer =? 0)%Z then Ok (if is_neg x then [neg; digit 9] else [pos; digit 0])  (* 121-126 *)
               else enc_int int32_t integer neg pos);                                      (* 118 *)
    Ok (out ++ (if is_zero decimal then [] else small_digits p decimal)                    (* 128-130 *)
            ++ [if is_neg x then pos else neg]).                                           (* 132-137 *)

(* an int as a T *)
Definition of_int (F : fmt) (n : N) : spec_float :=
  match n with N0 => S754_zero false | Npos m => binary_round (f_prec F) (f_emax F) false m 0 end.

(* decode::large_decimals, elen.tpp:326-370. A count of 0 only comes with a leading '0', and ends in an exception. *)
Definition dec_large (F : fmt) (str : bytes) (neg pos : byte) : outcome spec_float :=
  match str with
  | [] | [_; _] => Throw
  | [c] => if Ascii.eqb c (digit 0) then Ok (S754_zero false) else Throw
  | prefix :: _ =>
      do k <- get_prefix_count prefix str neg pos;                                         (* 347 *)
      match k with
      | O => Throw
      | S k' =>
          do (position, len) <- read_lens k' prefix neg str (N.of_nat k) 1;                (* 350-353 *)
          do (integer, position) <- next INT_MAX prefix neg str position len;              (* 356 *)
          let out := of_int F integer in                                                   (* 358 *)
          let out := if Ascii.eqb prefix neg then SFopp out else out in                    (* 359-361 *)
          if position =? blen str - 1 then Ok out                                          (* 364 *)
          else
            do t <- substr str position (blen str - position);
            do d <- dec_small F (prefix :: t) neg pos;                                     (* 365 *)
            Ok (SFadd (f_prec F) (f_emax F) out d)
      end
  end.

(* ---- comparing encoded strings; char is signed ---- *)
(* bool lex_comp(std::string, std::string), elen.cpp:31-33: std::lexicographical_compare of chars *)
Fixpoint lex_cpp (l r : bytes) : bool :=
  match l, r with
  | _, [] => false
  | [], _ :: _ => true
  | a :: l', b :: r' => if (schar a <? schar b)%Z then true else if (schar b <? schar a)%Z then false else lex_cpp l' r'
  end.
(* int lex_comp(const void *, const void * ), elen.cpp:120-138; l and r are what follows the pointers in memory *)
Fixpoint lex_c (l r : bytes) : outcome bool :=
  match l, r with
  | a :: l', b :: r' =>
      if (negb (Ascii.eqb a "000") && negb (Ascii.eqb b "000"))%bool then
        if (schar a <? schar b)%Z then Ok true else if (schar b <? schar a)%Z then Ok false else lex_c l' r'
      else Ok (schar a <? schar b)%Z
  | _, _ => UB
  end.
