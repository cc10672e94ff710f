(* lowest.c on two ranks with two cells each *)
From Verif Require Import ModelBytes ProofBytes ModelKey ModelWire ModelHist ModelMsg ModelStore ModelGetOp ModelDs
  SpecStore ProofStore ProofDs ModelElen ModelRoute SpecRoute ExampleStore ModelClient SpecClient SpecCluster ExampleClient
  ModelFloat ModelTransform SpecElen ProofElen ProofFpLibm ProofFloat ExampleFloat ModelLowest SpecTemps ProofTemps ProofTemps2 ProofTemps4 ExampleLossy.
From Verif Require Import SpecFp.
From Coq Require Import Reals.
Local Open Scope N_scope.

Definition te (r : Z) : env := mkEnv xl 2 r h_zero 2 0 100 false (Some (tl_route xl r [])) (@rev _).
Lemma te_client r : (0 <= r < 2)%Z -> good_client (te r).
Proof.
  intros H. split; [|split; [|split; [exact (xe_connected r H)|reflexivity]]].
  - constructor; [exact xl_good|reflexivity|exact H|reflexivity|]. intros l. apply Permutation_sym, Permutation_rev.
  - intros s p _ _. exists 0%Z. split; [reflexivity|]. split; [apply Z.le_refl|reflexivity].
Qed.
Lemma te_same r r' : same_cluster (te r) (te r').
Proof. split; [reflexivity|]. split; [reflexivity|]. intros s p. reflexivity. Qed.
Lemma te_0 r : always_0 (te r).
Proof. intros s p. reflexivity. Qed.
Lemma te_fresh r : fresh (te r) (opened_session (te r)).
Proof. split; reflexivity. Qed.
Definition tcl (k : backend) : cluster := fun r off => if (off =? 0)%Z then Some (opened k (session exact_libm u_d)) else None.
Lemma tcl_holds k : holds (te 0) (tcl k) (fun _ => opened k (session exact_libm u_d)).
Proof. intros id Hid. unfold tcl. cbn [e_layout te l_per xl]. rewrite Z.mod_1_r. reflexivity. Qed.
Definition tbase (r : Z) : N := 4096.
Definition tat (r : Z) : N := 1024.
(* 1/3 and 5 on rank 0, 1/3 and 5 on rank 1 the other way round *)
Definition ttemps (r : Z) (x y : N) : spec_float := if Bool.eqb (r =? 0)%Z (y =? 0) then third else five.
Lemma ttemps_good r x y : good_temp exact_libm u_d (ttemps r x y).
Proof.
  unfold ttemps. destruct (Bool.eqb (r =? 0)%Z (y =? 0)).
  - split; [reflexivity|]. split; [exact Logic.I|]. exists third', (bstr "::10333333333333333/"). split; [vm_compute; reflexivity|]. split; [reflexivity|vm_compute; reflexivity].
  - split; [reflexivity|]. split; [exact Logic.I|]. exists five, (bstr "::20500000000000000/"). split; [vm_compute; reflexivity|]. split; [reflexivity|vm_compute; reflexivity].
Qed.
Definition tprogram (k : backend) (i : Z) (n op : N) : outcome (cluster * list (list result)) :=
  lowest_program te (fun r => opened_session (te r)) (tcl k) tbase tat 1 2 ttemps [1%Z; 0%Z] i n op.
Definition undefined {A} (x : outcome A) : bool := match x with UB => true | _ => false end.
Lemma undefined_ub {A} (x : outcome A) : undefined x = true -> x = UB.
Proof. destruct x; [discriminate|discriminate|reflexivity]. Qed.
Lemma others_ask k : tprogram k 1 1 GETOP_LOWEST = UB.
Proof. apply undefined_ub. destruct k; vm_compute; reflexivity. Qed.
Lemma highest_ub k : tprogram k 0 1 GETOP_HIGHEST = UB.
Proof. apply undefined_ub. destruct k; vm_compute; reflexivity. Qed.
Lemma thypotheses : good_libm exact_libm /\ sym_ord (ne_neg (cb_num u_d)) (ne_pos (cb_num u_d)) /\ N_of_ascii (ne_pos (cb_num u_d)) < 67 /\ room 1 2 /\
  (forall r, In r [1%Z; 0%Z] -> (0 <= r < 2 ^ 31)%Z) /\ (forall r, In r [1%Z; 0%Z] -> good_addresses (tbase r) (tat r) 1 2) /\
  (forall p, places [1%Z; 0%Z] 1 2 p -> good_temp exact_libm u_d (temp_of ttemps p)) /\
  (forall j, j = 0%Z \/ In j [1%Z; 0%Z] -> good_client (te j) /\ same_cluster (te 0) (te j) /\ always_0 (te j) /\ fresh (te j) (opened_session (te j))) /\
  (forall k, holds (te 0) (tcl k) (fun _ => opened k (session exact_libm u_d))) /\ far (te 0) 0 = false.
Proof.
  split; [exact exact_good|]. split; [exact sym_default|]. split; [reflexivity|]. split; [repeat split; try reflexivity; left; apply N.le_refl|].
  split; [intros r [<-|[<-|[]]]; (split; [vm_compute; congruence|reflexivity])|]. split; [intros r _; repeat split; discriminate|].
  split; [intros [[r x] y] _; apply ttemps_good|]. split.
  - intros j Hj. split; [apply te_client; cbn [In] in Hj; lia|]. split; [apply te_same|]. split; [apply te_0|apply te_fresh].
  - split; [exact tcl_holds|reflexivity].
Qed.
(* 2 x 3: cells 2 and 3 have two places each *)
Definition stored_names (x : outcome (list call)) : list bytes :=
  match x with Ok cs => map (fun c => match c with CPut s _ _ _ => a_data s | _ => [] end) cs | _ => [] end.
Lemma two_places : stored_names (cell_puts 4096 1024 0 2 3 (fun _ _ => five)) =
  map (fun s => bstr s) ["Cell-(0, 0, 0)"; "Cell-(0, 0, 1)"; "Cell-(0, 1, 0)"; "Cell-(0, 1, 0)"; "Cell-(0, 1, 1)"; "Cell-(0, 1, 2)"]%string.
Proof. vm_compute. reflexivity. Qed.
Lemma place_lost : ~ In (cell_name 0 0 2) (stored_names (cell_puts 4096 1024 0 2 3 (fun _ _ => five))).
Proof. rewrite two_places. vm_compute. intuition congruence. Qed.
Lemma too_wide E S cl base temp_at nx ny temps r order i n op : 2 <= nx -> 1 <= ny -> ny < nx -> nx * nx < 2 ^ 64 ->
  lowest_program E S cl base temp_at nx ny temps (r :: order) i n op = UB.
Proof. intros H1 H2 H3 H4. unfold lowest_program. cbn [omap]. rewrite (cell_puts_ub _ _ _ nx ny _ H1 H2 H3 H4). reflexivity. Qed.
