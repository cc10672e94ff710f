(* Floating point encoding: include/utils/elen.tpp:54-78, 141-188, 287-323, 372-438,
   include/datastore/transform.tpp:37-53, 80-98.
   IEEE 754 values and their arithmetic (round to nearest, ties to even) are those of
   Coq.Floats.SpecFloat; the two libm functions the code calls are parameters. *)
From Verif Require Import ModelBytes ModelElen ModelTransform.
From Coq Require Export SpecFloat.
Local Open Scope Z_scope.

(* float and double *)
Record fmt := mkFmt { f_prec : Z; f_emax : Z; f_bytes : nat }.
Definition FLT := mkFmt 24 128 4.
Definition DBL := mkFmt 53 1024 8.

(* the value of a bit pattern *)
Definition sf_of_bits (F : fmt) (n : Z) : spec_float :=
  let mw := 2 ^ (f_prec F - 1) in
  let frac := n mod mw in
  let ex := n / mw mod (2 * f_emax F) in
  let s := Z.odd (n / mw / (2 * f_emax F)) in
  if ex =? 0 then
    match frac with Zpos m => S754_finite s m (emin (f_prec F) (f_emax F)) | _ => S754_zero s end
  else if ex =? 2 * f_emax F - 1 then
    if frac =? 0 then S754_infinity s else S754_nan
  else S754_finite s (Z.to_pos (frac + mw)) (ex - 1 + emin (f_prec F) (f_emax F)).
(* the bit pattern of a value; of the many NaN patterns one *)
Definition bits_of_sf (F : fmt) (x : spec_float) : Z :=
  let mw := 2 ^ (f_prec F - 1) in
  let sg (s : bool) := if s then mw * (2 * f_emax F) else 0 in
  match x with
  | S754_zero s => sg s
  | S754_infinity s => sg s + (2 * f_emax F - 1) * mw
  | S754_nan => (2 * f_emax F - 1) * mw + mw / 2
  | S754_finite s m e =>
      if Zpos m <? mw then sg s + Zpos m
      else sg s + (e - emin (f_prec F) (f_emax F) + 1) * mw + (Zpos m - mw)
  end.

(* reading and writing a T through a pointer; reads sizeof(T) bytes whatever the length of the field *)
Definition load_fp (F : fmt) (d : bytes) : outcome spec_float :=
  if (blen d <? N.of_nat (f_bytes F))%N then UB
  else Ok (sf_of_bits F (Z.of_N (le_dec (firstn (f_bytes F) d)))).
Definition store_fp (F : fmt) (x : spec_float) : bytes := le_enc (f_bytes F) (Z.to_N (bits_of_sf F x)).

(* conversion to another format *)
Definition sf_conv (F : fmt) (x : spec_float) : spec_float :=
  match x with S754_finite s m e => binary_round (f_prec F) (f_emax F) s m e | _ => x end.
(* a product of two doubles *)
Definition dmul (x y : spec_float) : spec_float := SFmul 53 1024 x y.

(* lm_exp: 1 + std::round(std::log10(std::fabs(arg))) for a finite arg other than 0, elen.tpp:145
   (the float and the double overload); lm_pow: pow(10, n) in double, elen.tpp:146, 428 *)
Record libm := mkLibm { lm_exp : fmt -> spec_float -> Z; lm_pow : Z -> spec_float }.

(* n / d to the nearest integer, ties to even *)
Definition div_even (n d : Z) : Z :=
  let q := n / d in
  match 2 * (n mod d) ?= d with Lt => q | Gt => q + 1 | Eq => if Z.even q then q else q + 1 end.
(* m * 2^e * 10^p to the nearest integer, ties to even *)
Definition scaled (m : positive) (e : Z) (p : N) : Z :=
  let n := Zpos m * 10 ^ Z.of_N p in if 0 <=? e then n * 2 ^ e else div_even n (2 ^ - e).
(* the last k digits of n *)
Fixpoint pad (k : nat) (n : N) : bytes :=
  match k with O => [] | S k' => pad k' (n / 10) ++ [digit (n mod 10)] end.
(* std::fixed << std::setprecision(p) << std::abs(x) (glibc prints exactly, rounded to nearest) *)
Definition print_fixed (p : N) (x : spec_float) : bytes :=
  let text M := to_string (M / 10 ^ p) ++ (if (p =? 0)%N then [] else "."%char :: pad (N.to_nat p) (M mod 10 ^ p)) in
  match x with
  | S754_zero _ => text 0%N
  | S754_infinity _ => bstr "inf"
  | S754_nan => bstr "nan"
  | S754_finite _ m e => text (Z.to_N (scaled m e p))
  end.

Definition is_zero (x : spec_float) : bool := match x with S754_zero _ => true | _ => false end.
(* x < 0 *)
Definition is_neg (x : spec_float) : bool :=
  match x with S754_infinity s | S754_finite s _ _ => s | _ => false end.

(* small_decimals_digits, elen.tpp:54-78: the first two characters are dropped whatever they are *)
Definition small_digits (p : N) (x : spec_float) : bytes :=
  if is_zero x then [digit 0]
  else let out := skipn 2 (print_fixed p x) in if is_neg x then flip out else out.

(* frexp10, elen.tpp:142-147, for arg <> 0; converting an infinite or NaN exponent to int is undefined *)
Definition frexp10 (L : libm) (F : fmt) (x : spec_float) : outcome (Z * spec_float) :=
  match x with
  | S754_finite _ _ _ => let e := lm_exp L F x in Ok (e, sf_conv F (dmul (sf_conv DBL x) (lm_pow L (- e))))
  | _ => UB
  end.

(* encode::floating_point, elen.tpp:150-188 *)
Definition enc_fp (L : libm) (F : fmt) (p : N) (neg pos : byte) (x : spec_float) : outcome bytes :=
  if is_zero x then Ok [digit 0]
  else
    do (e, m) <- frexp10 L F x;
    let e := if is_neg x then - e else e in
    do es <- enc_int int32_t e neg pos;
    Ok ((if is_neg x then neg else pos) :: es ++ (if is_zero m then [] else small_digits p m)
        ++ [if is_neg x then pos else neg]).

Fixpoint span_digits (s : bytes) : bytes :=
  match s with c :: s' => if is_digit c then c :: span_digits s' else [] | [] => [] end.
(* std::stringstream >> T reading "0." or "-0." followed by s, elen.tpp:319-322: correctly rounded; reading
   stops at the first character that is no digit. Simplification: an exponent after the digits, which no
   encoder produces, is not read. *)
Definition read_fraction (F : fmt) (s : bool) (str : bytes) : spec_float :=
  let ds := span_digits str in
  match num_prefix 0 ds with
  | N0 => S754_zero s
  | Npos n => SFdiv (f_prec F) (f_emax F) (S754_finite s n 0) (S754_finite false (Pos.pow 10 (Pos.of_nat (List.length ds))) 0)
  end.

Definition last_byte (s : bytes) : byte := List.last s "000"%char.
Definition front_byte (s : bytes) : byte := hd "000"%char s.
(* the sign of the value, elen.tpp:309-318 and 393-402: Some true = negative, None = exception *)
Definition fp_sign (str : bytes) (neg pos : byte) : option bool :=
  if Ascii.eqb (front_byte str) neg && Ascii.eqb (last_byte str) pos then Some true
  else if Ascii.eqb (front_byte str) pos && Ascii.eqb (last_byte str) neg then Some false
  else None.

(* decode::small_decimals, elen.tpp:288-323 *)
Definition dec_small (F : fmt) (str : bytes) (neg pos : byte) : outcome spec_float :=
  match str with
  | [] | [_; _] => Throw
  | [c] => if Ascii.eqb c (digit 0) then Ok (S754_zero false) else Throw
  | _ =>
      do digits <- substr str 1 (blen str - 2);
      match fp_sign str neg pos with
      | None => Throw
      | Some s => Ok (read_fraction F s (if s then flip digits else digits))
      end
  end.

Definition SFone_of (F : fmt) : spec_float := SFone (f_prec F) (f_emax F).

(* decode::floating_point, elen.tpp:373-438. A count of 0 only comes with a leading '0'. *)
Definition dec_fp (L : libm) (F : fmt) (str : bytes) (neg pos : byte) : outcome spec_float :=
  match str with
  | [] | [_; _] => Throw
  | [c] => if Ascii.eqb c (digit 0) then Ok (S754_zero false) else Throw
  | front :: wo =>
      match fp_sign str neg pos with                                       (* 392-402 *)
      | None => Throw
      | Some s =>
          let prefix := front_byte wo in                                   (* 406 *)
          do k <- get_prefix_count prefix wo neg pos;                      (* 407 *)
          do (e, position) <-
            (if Ascii.eqb (nth k wo "000"%char) (digit 0)                   (* 411 *)
             then Ok (0, N.of_nat k + 1)%N                                 (* 427 *)
             else match k with
                  | O => Throw
                  | S k' =>
                      do (position, len) <- read_lens k' prefix neg wo (N.of_nat k) 1; (* 413-417 *)
                      next (Z.to_N (it_max int32_t)) prefix neg wo position len       (* 420 *)
                  end);
          let e := if Ascii.eqb prefix neg then - Z.of_N e else Z.of_N e in (* 421-423 *)
          do m <- (if (position =? blen str - 1)%N then Ok (SFone_of F)    (* 430-433 *)
                   else do rest <- substr wo position (blen wo - position);
                        dec_small F (front :: rest) neg pos);              (* 434 *)
          Ok (sf_conv F (dmul (lm_pow L (if s then - e else e)) (sf_conv DBL m)))  (* 437 *)
      end
  end.

(* int precision from the configured size_t; a negative precision prints 6 digits (libstdc++) *)
Definition int_precision (p : N) : N :=
  let q := (p mod 2 ^ 32)%N in if (q <? 2 ^ 31)%N then q else 6%N.

(* Transform::encode::floating_point and Transform::decode::floating_point, transform.tpp:37-53, 80-98,
   for non-null src *)
Definition tr_enc_fp (L : libm) (F : fmt) (neg pos : byte) (p : N) (d : bytes) : outcome (option bytes) :=
  do x <- load_fp F d; do s <- enc_fp L F (int_precision p) neg pos x; Ok (Some s).
Definition tr_dec_fp (L : libm) (F : fmt) (neg pos : byte) (d : bytes) : outcome (option bytes) :=
  do x <- dec_fp L F d neg pos; Ok (Some (store_fp F x)).

(* elen::encode::FLOAT_PRECISION, DOUBLE_PRECISION, elen.hpp:26-27 *)
Definition FLOAT_PRECISION : N := 8.
Definition DOUBLE_PRECISION : N := 16.

Definition fmt_of (size : N) : fmt := if (size =? 4)%N then FLT else DBL.
(* the callbacks installed for FLOAT and DOUBLE, transform.cpp:20-43 *)
Definition libm_codec (L : libm) : float_codec :=
  mkFloatCodec (fun neg pos p size d => tr_enc_fp L (fmt_of size) neg pos p d)
               (fun neg pos size d => tr_dec_fp L (fmt_of size) neg pos d).

(* ---- one libm: the exponent of the exact logarithm and correctly rounded powers *)
(* (m * 2^k)^2 < 10^(2 e - 1), i.e. log10 |x| < e - 1/2 *)
Definition below (m : positive) (k e : Z) : bool :=
  (Zpos m * Zpos m) * 2 ^ Z.max 0 (2 * k) * 10 ^ Z.max 0 (1 - 2 * e)
    <? 2 ^ Z.max 0 (- (2 * k)) * 10 ^ Z.max 0 (2 * e - 1).
Fixpoint first_above (f : nat) (m : positive) (k e : Z) : Z :=
  match f with O => e | S f' => if below m k e then e else first_above f' m k (e + 1) end.
(* the search starts at an estimate, or at -340 should that be too high *)
Definition exact_exp (F : fmt) (x : spec_float) : Z :=
  match x with
  | S754_finite _ m k =>
      let est := (Z.log2 (Zpos m) + k) * 30103 / 100000 in
      first_above 700 m k (if below m k (est - 1) then -340 else est)
  | _ => 0
  end.
Definition exact_pow (n : Z) : spec_float :=
  let t := S754_finite false (Pos.pow 10 (Z.to_pos (Z.abs n))) 0 in
  let one := S754_finite false 1 0 in
  if n =? 0 then SFone 53 1024 else if 0 <? n then SFdiv 53 1024 t one else SFdiv 53 1024 one t.
Definition exact_libm : libm := mkLibm exact_exp exact_pow.
