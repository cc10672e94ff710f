(* Floating point values as real numbers, and what is assumed of the libm functions *)
From Verif Require Import ModelBytes ModelKey ModelElen ModelHist ModelMsg ModelStore ModelTransform ModelFloat.
From Coq Require Import Reals.
Local Open Scope R_scope.

Definition fmt_ok (F : fmt) : Prop := F = FLT \/ F = DBL.
(* a well-formed value of the format *)
Definition valid (F : fmt) (x : spec_float) : Prop := valid_binary (f_prec F) (f_emax F) x = true.
Definition finite_fp (x : spec_float) : Prop :=
  match x with S754_zero _ | S754_finite _ _ _ => True | _ => False end.
Definition nonzero_fp (x : spec_float) : Prop :=
  match x with S754_finite _ _ _ => True | _ => False end.
(* the number a finite value stands for *)
Definition val (x : spec_float) : R :=
  match x with S754_finite s m e => (if s then -1 else 1) * IZR (Zpos m) * powerRZ 2 e | _ => 0 end.

Definition ten (n : Z) : R := powerRZ 10 n.

(* The logarithm is off by less than 1/10 and monotone: log10(2/5) is about -0.398 and log10(1/40) about -1.602,
   where the exact logarithm gives -0.5 and -1.5. Powers of ten are off by at most one unit in the last place. *)
Record good_libm (L : libm) : Prop := {
  exp_near : forall F x, fmt_ok F -> valid F x -> nonzero_fp x ->
    ten (lm_exp L F x) / 40 <= Rabs (val x) <= ten (lm_exp L F x) * (2 / 5);
  exp_mono : forall F x y, fmt_ok F -> valid F x -> valid F y -> nonzero_fp x -> nonzero_fp y ->
    Rabs (val x) <= Rabs (val y) -> (lm_exp L F x <= lm_exp L F y)%Z;
  pow_valid : forall n, valid DBL (lm_pow L n);
  pow_near : forall n, (-307 <= n <= 308)%Z ->
    finite_fp (lm_pow L n) /\ Rabs (val (lm_pow L n) - ten n) <= ten n * powerRZ 2 (-52);
  pow_small : forall n, (n < -307)%Z ->
    finite_fp (lm_pow L n) /\ 0 <= val (lm_pow L n) /\ Rabs (val (lm_pow L n) - ten n) <= powerRZ 2 (-1074);
  pow_large : forall n, (308 < n)%Z -> lm_pow L n = S754_infinity false }.

(* allowance for the binary roundings on the way there and back: about 2^-19 and 2^-48 of the value *)
Definition slack (F : fmt) : R := powerRZ 2 (5 - f_prec F).
(* the smallest positive value *)
Definition tiny (F : fmt) : R := powerRZ 2 (emin (f_prec F) (f_emax F)).

(* the largest finite value *)
Definition largest (F : fmt) : spec_float := S754_finite false (Z.to_pos (2 ^ f_prec F - 1)) (f_emax F - f_prec F).

(* how far apart x and what comes back may be: half a unit of the last digit kept and the roundings *)
Definition err_bound (L : libm) (F : fmt) (p : N) (x : spec_float) : R :=
  / 2 * ten (lm_exp L F x - Z.of_N p) + slack F * (Rabs (val x) + ten (lm_exp L F x - Z.of_N p)) + 2 * tiny F.

(* ---- a session with any configuration u on top of the libm L *)
Definition session (L : libm) (u : callbacks) : codec := session_codec (init_transform (libm_codec L) u).
Definition fp_type (t : N) (F : fmt) : Prop := (t = T_FLOAT /\ F = FLT) \/ (t = T_DOUBLE /\ F = DBL).
Definition precision (F : fmt) (u : callbacks) : N :=
  if Nat.eqb (f_bytes F) 4 then ne_float (cb_num u) else ne_double (cb_num u).
(* a field holding x is stored as a *)
Definition stored (L : libm) (u : callbacks) (t : N) (F : fmt) (x : spec_float) (a : bytes) : Prop :=
  c_enc (session L u) t false (store_fp F x) = Ok (Some a).
(* a field holding x is stored and comes back holding r *)
Definition comes_back (L : libm) (u : callbacks) (t : N) (F : fmt) (x r : spec_float) : Prop :=
  exists a, stored L u t F x a /\ c_dec (session L u) t a = Ok (Some (store_fp F r)).
