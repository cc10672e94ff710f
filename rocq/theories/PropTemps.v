(* C86: the example program lowest.c *)
From Verif Require Import ModelBytes ModelKey ModelElen ModelHist ModelMsg ModelStore ModelGetOp ModelDs ModelTransform ModelFloat SpecElen ProofDs
  ModelRoute ModelClient SpecClient SpecCluster ProofFpLibm ExampleFloat ModelLowest SpecTemps ProofTemps4 ExampleTemps ProofTemps5.
From Verif Require Import SpecFp.
Local Open Scope N_scope.

(* What the program shows for LOWEST, after all ranks of order have stored their cells: the n lowest temperatures, in ascending order, with the names of their cells;
   of temperatures that are stored alike, only one.
   Missing: any other rank than that of datastore 0, more columns than rows or fewer (but one), HIGHEST, ranks that store at the same time, and temperatures
   that cannot be stored or not be read back; see the refutations. *)
Theorem C86_lowest_partial : forall L u, good_libm L -> sym_ord (ne_neg (cb_num u)) (ne_pos (cb_num u)) -> N_of_ascii (ne_pos (cb_num u)) < 67 ->
  forall base temp_at nx ny temps order, room nx ny -> (forall r, In r order -> (0 <= r < 2 ^ 31)%Z) ->
  (forall r, In r order -> good_addresses (base r) (temp_at r) nx ny) ->
  (forall p, places order nx ny p -> good_temp L u (temp_of temps p)) ->
  forall E S cl e0 k i n, order <> [] -> 1 <= nx -> 1 <= ny -> 1 <= n -> temp_at i <> 0 ->
  (forall j, j = i \/ In j order -> good_client (E j) /\ same_cluster e0 (E j) /\ always_0 (E j) /\ fresh (E j) (S j)) ->
  holds e0 cl (fun _ => opened k (session L u)) -> far (E i) 0 = false ->
  exists cl' rs xs, lowest_program E S cl base temp_at nx ny temps order i n GETOP_LOWEST = Ok (cl', rs ++ [xs]) /\ List.length rs = List.length order /\
    shows_lowest L u temps order nx ny n xs.
Proof. exact lowest_runs. Qed.
Print Assumptions C86_lowest_partial.
Example C86_example : good_libm exact_libm /\ sym_ord (ne_neg (cb_num u_d)) (ne_pos (cb_num u_d)) /\ N_of_ascii (ne_pos (cb_num u_d)) < 67 /\ room 1 2 /\
  (forall r, In r [1%Z; 0%Z] -> (0 <= r < 2 ^ 31)%Z) /\ (forall r, In r [1%Z; 0%Z] -> good_addresses (tbase r) (tat r) 1 2) /\
  (forall p, places [1%Z; 0%Z] 1 2 p -> good_temp exact_libm u_d (temp_of ttemps p)) /\
  (forall j, j = 0%Z \/ In j [1%Z; 0%Z] -> good_client (te j) /\ same_cluster (te 0) (te j) /\ always_0 (te j) /\ fresh (te j) (opened_session (te j))) /\
  (forall k, holds (te 0) (tcl k) (fun _ => opened k (session exact_libm u_d))) /\ far (te 0) 0 = false.
Proof. exact thypotheses. Qed.

(* The rank that asks is chosen at random. Where datastore 0 is on another rank, the request for LOWEST has undefined behaviour: it has no predicate (C23). *)
Theorem C86_others_refuted : forall k, far (te 1) 0 = true /\
  lowest_program te (fun r => opened_session (te r)) (tcl k) tbase tat 1 2 ttemps [1%Z; 0%Z] 1 1 GETOP_LOWEST = UB.
Proof. intros k. split; [reflexivity|exact (others_ask k)]. Qed.
Print Assumptions C86_others_refuted.
(* HIGHEST finds nothing (C84), and a response without records has undefined behaviour (Results.cpp:177-204). *)
Theorem C86_highest_refuted : forall k,
  lowest_program te (fun r => opened_session (te r)) (tcl k) tbase tat 1 2 ttemps [1%Z; 0%Z] 0 1 GETOP_HIGHEST = UB.
Proof. exact highest_ub. Qed.
Print Assumptions C86_highest_refuted.
(* cells[x * num_x + y]: when num_x is greater than num_y, the program writes beyond its cells, whoever runs it; *)
Theorem C86_wide_refuted : forall E S cl base temp_at nx ny temps r order i n op, 2 <= nx -> 1 <= ny -> ny < nx -> nx * nx < 2 ^ 64 ->
  lowest_program E S cl base temp_at nx ny temps (r :: order) i n op = UB.
Proof. exact too_wide. Qed.
Print Assumptions C86_wide_refuted.
(* when it is less, and not 1, cells are used twice, and some are never stored. *)
Theorem C86_high_refuted : ~ In (cell_name 0 0 2) (stored_names (cell_puts 4096 1024 0 2 3 (fun _ _ => five))) /\
  stored_names (cell_puts 4096 1024 0 2 3 (fun _ _ => five)) =
  map (fun s => bstr s) ["Cell-(0, 0, 0)"; "Cell-(0, 0, 1)"; "Cell-(0, 1, 0)"; "Cell-(0, 1, 0)"; "Cell-(0, 1, 1)"; "Cell-(0, 1, 2)"]%string.
Proof. split; [exact place_lost|exact two_places]. Qed.
Print Assumptions C86_high_refuted.
(* For every such grid the cells of the first column that the second column is written over are lost, whatever the temperatures *)
Theorem C86_lost_refuted : forall base temp_at rank nx ny temps y, (0 <= rank < 2 ^ 31)%Z -> 2 <= nx -> nx <= y -> y < ny -> y < 2 * nx -> nx * ny < 2 ^ 64 ->
  exists cs, cell_puts base temp_at rank nx ny temps = Ok cs /\ ~ In (cell_name rank 0 y) (stored_names (Ok cs)).
Proof. exact lost. Qed.
Print Assumptions C86_lost_refuted.
Example C86_lost_ex : (0 <= 3 < 2 ^ 31)%Z /\ 2 <= 10 /\ 10 <= 12 /\ 12 < 20 /\ 12 < 2 * 10 /\ 10 * 20 < 2 ^ 64.
Proof. repeat split; try lia; reflexivity. Qed.
(* and the names that are stored for them can have a zero and the end of the old name behind the new one *)
Theorem C86_tail_refuted : In (bstr "Cell-(0, 1, 9)" ++ zero :: bstr ")") (stored_names (cell_puts 4096 1024 0 91 101 (fun _ _ => five))).
Proof. exact tail_kept. Qed.
Print Assumptions C86_tail_refuted.
