(* What a histogram should say about the values added to it. *)
From Verif Require Import ModelBytes ModelHist.
Local Open Scope N_scope.

Definition total (l : list N) : N := fold_right N.add 0 l.

(* v lies below the first boundary (false for NaN) *)
Definition below_first (bs : list N) (v : N) : bool :=
  match bs with [] => true | b :: _ => d_lt v b end.

(* number of values that fall into some bucket *)
Definition in_some_bucket (bs vals : list N) : N :=
  N.of_nat (length (filter (fun v => negb (below_first bs v)) vals)).

(* boundaries are numbers in ascending order (equal neighbours allowed) *)
Definition ascending (bs : list N) : Prop :=
  Forall (fun b => d_nan b = false) bs /\
  forall i j bi bj, (i < j)%nat -> nth_error bs i = Some bi -> nth_error bs j = Some bj -> (d_key bi <= d_key bj)%Z.

(* a 64-bit pattern that is neither NaN nor infinite *)
Definition is_finite (v : N) : Prop := v < 2 ^ 64 /\ d_mag v < 0x7ff0000000000000.

(* a generator that gives at least one boundary, in ascending order, for any non-empty list of finite values *)
Definition good_generator (g : generator) : Prop :=
  forall l, l <> [] -> N.of_nat (length l) < 2 ^ 64 -> Forall is_finite l -> exists bs, g (Some l) = Ok (Some bs) /\ bs <> [] /\ ascending bs.

(* the end reported for the last bucket: no value in a bucket is above it; it is one of these values or DBL_MIN *)
Definition upper_end (bs vals : list N) (up : N) : Prop :=
  (up = DBL_MIN \/ (In up vals /\ below_first bs up = false))
  /\ forall v, In v vals -> below_first bs v = false -> d_lt up v = false.

(* the bucket of value v: boundary[i] <= v < boundary[i+1] *)
Definition bucket_of (bs : list N) (v : N) (i : nat) : Prop :=
  exists b, nth_error bs i = Some b /\ d_lt v b = false
    /\ (forall b', nth_error bs (S i) = Some b' -> d_lt v b' = true).

(* the same as a test, and the number of values in bucket i *)
Definition in_bucket (bs : list N) (i : nat) (v : N) : bool :=
  match nth_error bs i with
  | None => false
  | Some b => negb (d_lt v b) && match nth_error bs (S i) with None => true | Some b' => d_lt v b' end
  end.
Definition in_count (bs : list N) (i : nat) (vals : list N) : N := N.of_nat (length (filter (in_bucket bs i) vals)).
