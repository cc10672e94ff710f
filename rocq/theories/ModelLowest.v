(* examples/hxhim/lowest.c: temperatures of cells, the lowest and the highest.
   Simplifications: MPI_Init, hxhimInit, hxhim_set_hash_name (66-75) and hxhimOpen have succeeded; calloc has succeeded; what rand gives is a
   parameter; hxhimPut keeps pointers to the cells, so that their contents count when hxhimFlush reads them (the hash function DATASTORE_0 does not
   look at them before). Results are printed by ModelCli.print_results. *)
From Verif Require Import ModelBytes ModelKey ModelWire ModelHist ModelMsg ModelStore ModelGetOp ModelDs ModelElen ModelFloat ModelRoute ModelClient SpecCluster ModelCli.
Local Open Scope N_scope.

(* Cell_t, 21-24; sizeof is 112, temp at offset 104 *)
Record cell := mkCell { c_name : bytes; c_temp : spec_float }.
Definition BUF_SIZE : N := 100.
(* calloc, 89 *)
Definition blank : cell := mkCell (repeat zero (N.to_nat BUF_SIZE)) (S754_zero false).
(* NAME_FMT, 17 *)
Definition cell_name (rank : Z) (x y : N) : bytes :=
  bstr "Cell-(" ++ show_int rank ++ bstr ", " ++ to_string x ++ bstr ", " ++ to_string y ++ bstr ")".
(* snprintf, 95: the end of an earlier name stays behind the zero *)
Definition printed (s : bytes) : bytes := firstn (N.to_nat BUF_SIZE - 1) s.
Definition write_name (old s : bytes) : bytes := printed s ++ zero :: skipn (S (List.length (printed s))) old.
(* the loops, 91-92 *)
Definition counts (n : N) : list N := map N.of_nat (seq 0 (N.to_nat n)).
Definition grid (nx ny : N) : list (N * N) := flat_map (fun x => map (fun y => (x, y)) (counts ny)) (counts nx).
(* x * num_x + y, 93, in size_t *)
Definition index (nx : N) (p : N * N) : N := (fst p * nx + snd p) mod 2 ^ 64.
Definition mset (m : N -> cell) (i : N) (c : cell) : N -> cell := fun j => if j =? i then c else m j.
(* 91-104: the cells, and index and length of the name of every PUT *)
Fixpoint fill (rank : Z) (nx total : N) (temps : N -> N -> spec_float) (l : list (N * N)) (m : N -> cell) : outcome ((N -> cell) * list (N * N)) :=
  match l with
  | [] => Ok (m, [])
  | p :: l' =>
      let i := index nx p in
      if i <? total then
        let s := cell_name rank (fst p) (snd p) in
        do (m', r) <- fill rank nx total temps l' (mset m i (mkCell (write_name (c_name (m i)) s) (temps (fst p) (snd p))));
        Ok (m', (i, blen (printed s)) :: r)
      else UB
  end.
(* TEMP, 18 *)
Definition TEMP : bytes := bstr "Temp".
(* hxhimPut, 98-102; HXHIM_PUT_ALL, constants.h:54 *)
Definition put_call (base temp_at : N) (m : N -> cell) (q : N * N) : call :=
  CPut (mkArg (base + 112 * fst q) (firstn (N.to_nat (snd q)) (c_name (m (fst q)))) T_BYTE) (mkArg temp_at TEMP T_BYTE)
       (mkArg (base + 112 * fst q + 104) (store_fp DBL (c_temp (m (fst q)))) T_DOUBLE) 63.
(* 88-104 *)
Definition cell_puts (base temp_at : N) (rank : Z) (nx ny : N) (temps : N -> N -> spec_float) : outcome (list call) :=
  do (m, r) <- fill rank nx ((nx * ny) mod 2 ^ 64) temps (grid nx ny) (fun _ => blank); Ok (map (put_call base temp_at m) r).
(* 117-120, 130-133 *)
Definition ask_call (temp_at n op : N) : call := CGetOp (mkArg temp_at TEMP T_BYTE) (mkArg 0 [] T_DOUBLE) T_BYTE n op.
(* all ranks of order store their cells, one after the other; MPI_Barrier (111); rank i asks, 113-138 *)
Definition lowest_program (E : Z -> env) (S : Z -> session) (cl : cluster) (base temp_at : Z -> N) (nx ny : N) (temps : Z -> N -> N -> spec_float)
  (order : list Z) (i : Z) (n op : N) : outcome (cluster * list (list result)) :=
  do ts <- omap (fun r => do cs <- cell_puts (base r) (temp_at r) r nx ny (temps r); Ok (r, cs)) order;
  play E S cl (ts ++ [(i, [ask_call (temp_at i) n op])]).
