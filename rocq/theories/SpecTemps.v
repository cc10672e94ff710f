(* What lowest.c should show *)
From Verif Require Import ModelBytes ModelKey ModelHist ModelMsg ModelStore ModelGetOp ModelDs ModelElen ModelFloat ModelTransform ModelRoute ModelClient SpecClient SpecCluster SpecElen SpecFp ModelLowest.
From Coq Require Import Reals Sorting.Sorted.
Local Open Scope R_scope.

Definition place : Type := Z * N * N.
(* the cells of all ranks *)
Definition places (order : list Z) (nx ny : N) (c : place) : Prop := let '(r, x, y) := c in In r order /\ (x < nx)%N /\ (y < ny)%N.
(* x is stored, in less than 2^64 bytes, and comes back as y *)
Definition survives (L : libm) (u : callbacks) (x y : spec_float) : Prop :=
  exists a, stored L u T_DOUBLE DBL x a /\ (blen a < 2 ^ 64)%N /\ c_dec (session L u) T_DOUBLE a = Ok (Some (store_fp DBL y)).
(* x and y are stored alike *)
Definition alike (L : libm) (u : callbacks) (x y : spec_float) : Prop := exists a, stored L u T_DOUBLE DBL x a /\ stored L u T_DOUBLE DBL y a.
(* the temperature and the name of a cell, from datastore 0 *)
Definition shows_cell (L : libm) (u : callbacks) (temps : Z -> N -> N -> spec_float) (c : place) (x : result) : Prop :=
  let '(r, i, j) := c in exists t, survives L u (temps r i j) t /\
  x = XGetOp 0 true (mkBlob false TEMP T_BYTE) (mkBlob false (store_fp DBL t) T_DOUBLE) (mkBlob false (cell_name r i j) T_BYTE).
Definition temp_of (temps : Z -> N -> N -> spec_float) (c : place) : spec_float := let '(r, i, j) := c in temps r i j.
(* the n lowest, or all, in ascending order; of temperatures that are stored alike only one is shown. If there are fewer than n, something else follows. *)
Definition shows_lowest (L : libm) (u : callbacks) (temps : Z -> N -> N -> spec_float) (order : list Z) (nx ny n : N) (xs : list result) : Prop :=
  exists cs ys zs, xs = ys ++ zs /\ Forall2 (shows_cell L u temps) cs ys /\ Forall (places order nx ny) cs /\
    StronglySorted (fun c d => val (temp_of temps c) <= val (temp_of temps d)) cs /\ (N.of_nat (List.length cs) <= n)%N /\
    (N.of_nat (List.length cs) = n -> zs = []) /\
    forall d, places order nx ny d ->
      (exists c, In c cs /\ alike L u (temp_of temps c) (temp_of temps d)) \/
      (N.of_nat (List.length cs) = n /\ forall c, In c cs -> val (temp_of temps c) <= val (temp_of temps d)).

(* ---- what is assumed ---- *)
(* the program has a cell for every place *)
Definition room (nx ny : N) : Prop := (nx <= 1 \/ nx = ny)%N /\ (nx * ny < 2 ^ 64)%N /\ (nx < 2 ^ 64)%N /\ (ny < 2 ^ 64)%N.
(* DATASTORE_0 *)
Definition always_0 (e : env) : Prop := forall s p, e_hash e (e_rank e) (e_total e) s p = Ok 0%Z.
Definition good_temp (L : libm) (u : callbacks) (x : spec_float) : Prop := valid DBL x /\ finite_fp x /\ exists y, survives L u x y.
Definition good_addresses (base temp_at nx ny : N) : Prop := (base <> 0 /\ base + 112 * (nx * ny) < 2 ^ 64 /\ temp_at <> 0 /\ temp_at < 2 ^ 64)%N.
