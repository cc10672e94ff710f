(* the cells of lowest.c *)
From Verif Require Import ModelBytes ProofBytes ModelKey ModelWire ModelHist ModelMsg ModelStore ModelGetOp ModelDs ModelElen ProofElen ModelFloat ModelRoute ModelClient SpecCluster ModelCli
  SpecElen SpecFp ModelTransform ModelLowest SpecTemps.
Local Open Scope N_scope.

Lemma counts_In n x : In x (counts n) <-> x < n.
Proof.
  unfold counts. rewrite in_map_iff. split.
  - intros (k & <- & H). apply in_seq in H. lia.
  - intros H. exists (N.to_nat x). split; [lia|]. apply in_seq. lia.
Qed.
Lemma counts_NoDup n : NoDup (counts n).
Proof. unfold counts. apply FinFun.Injective_map_NoDup; [intros a b E; lia|apply seq_NoDup]. Qed.
Lemma grid_In nx ny x y : In (x, y) (grid nx ny) <-> x < nx /\ y < ny.
Proof.
  unfold grid. rewrite in_flat_map. split.
  - intros (a & A & B). apply in_map_iff in B as (b & E & B). injection E as -> ->. apply counts_In in A, B. auto.
  - intros [A B]. exists x. split; [apply counts_In, A|]. apply in_map_iff. exists y. split; [reflexivity|apply counts_In, B].
Qed.
Lemma NoDup_app_intro {A} (l1 l2 : list A) : NoDup l1 -> NoDup l2 -> (forall a, In a l1 -> ~ In a l2) -> NoDup (l1 ++ l2).
Proof.
  induction 1 as [|a l H _ IH]; intros N2 D; [exact N2|]. cbn [app]. constructor.
  - intros I. apply in_app_or in I as [I|I]; [contradiction|]. exact (D a (or_introl eq_refl) I).
  - apply IH; [exact N2|]. intros b I. apply D. right. exact I.
Qed.
Lemma grid_NoDup nx ny : NoDup (grid nx ny).
Proof.
  unfold grid. assert (G : forall l : list N, NoDup l -> NoDup (flat_map (fun x => map (fun y => (x, y)) (counts ny)) l)).
  { induction 1 as [|x l H _ IH]; [constructor|]. cbn [flat_map]. apply NoDup_app_intro.
    - apply FinFun.Injective_map_NoDup; [intros a b E; congruence|apply counts_NoDup].
    - exact IH.
    - intros [a b] I1 I2. apply in_map_iff in I1 as (b1 & E & _). injection E as <- <-. apply in_flat_map in I2 as (c & C & I2).
      apply in_map_iff in I2 as (b2 & E & _). injection E as -> _. contradiction. }
  apply G, counts_NoDup.
Qed.
Lemma index_small nx ny x y : room nx ny -> x < nx -> y < ny -> index nx (x, y) = x * nx + y /\ x * nx + y < nx * ny.
Proof.
  intros (R & B & B1 & B2) Hx Hy. unfold index. cbn [fst snd]. assert (x * nx + y < nx * ny).
  { destruct R as [R| ->]; [assert (x = 0) by lia; assert (nx = 1) by lia; subst; lia|]. assert (x + 1 <= ny) by lia. nia. }
  split; [|assumption]. apply N.mod_small. lia.
Qed.
Lemma index_inj nx ny p q : room nx ny -> In p (grid nx ny) -> In q (grid nx ny) -> index nx p = index nx q -> p = q.
Proof.
  destruct p as [x y], q as [x' y']. intros R Hp Hq E. apply grid_In in Hp as [Hx Hy]. apply grid_In in Hq as [Hx' Hy'].
  rewrite (proj1 (index_small nx ny x y R Hx Hy)), (proj1 (index_small nx ny x' y' R Hx' Hy')) in E.
  destruct R as ([R| ->] & _); [assert (x = 0) by lia; assert (x' = 0) by lia; subst; f_equal; lia|].
  assert (x = x') by nia. subst. f_equal. lia.
Qed.

Section Fill.
Context (rank : Z) (nx total : N) (temps : N -> N -> spec_float).
Let nm (p : N * N) := cell_name rank (fst p) (snd p).
Lemma fill_ok : forall l m, NoDup (map (index nx) l) -> Forall (fun p => index nx p < total) l ->
  exists m', fill rank nx total temps l m = Ok (m', map (fun p => (index nx p, blen (printed (nm p)))) l) /\
    (forall p, In p l -> exists old, m' (index nx p) = mkCell (write_name old (nm p)) (temps (fst p) (snd p))) /\
    (forall i, ~ In i (map (index nx) l) -> m' i = m i).
Proof.
  induction l as [|p l IH]; intros m ND B.
  - exists m. split; [reflexivity|]. split; [intros p []|reflexivity].
  - inversion ND as [|? ? N1 N2]; subst. inversion B as [|? ? B1 B2]; subst. cbn [fill map].
    destruct (IH (mset m (index nx p) (mkCell (write_name (c_name (m (index nx p))) (nm p)) (temps (fst p) (snd p)))) N2 B2) as (m' & E & A & O).
    exists m'. destruct (N.ltb_spec (index nx p) total) as [_|]; [|lia]. cbv zeta. fold (nm p). rewrite E. cbn [obind]. split; [reflexivity|]. split.
    + intros q [<-|I]; [|exact (A q I)]. exists (c_name (m (index nx p))). rewrite O by exact N1. unfold mset. rewrite N.eqb_refl. reflexivity.
    + intros i I. cbn [In] in I. rewrite O by tauto. unfold mset. destruct (N.eqb_spec i (index nx p)) as [->|]; [tauto|reflexivity].
Qed.
End Fill.

(* the calls of the program, cell by cell *)
Definition cell_call (base temp_at : N) (rank : Z) (nx : N) (temps : N -> N -> spec_float) (p : N * N) : call :=
  CPut (mkArg (base + 112 * index nx p) (cell_name rank (fst p) (snd p)) T_BYTE) (mkArg temp_at TEMP T_BYTE)
       (mkArg (base + 112 * index nx p + 104) (store_fp DBL (temps (fst p) (snd p))) T_DOUBLE) 63.
Lemma firstn_len {A} (l l' : list A) : firstn (List.length l) (l ++ l') = l.
Proof. rewrite firstn_app, Nat.sub_diag, firstn_all. cbn [firstn]. apply app_nil_r. Qed.
Lemma name_short rank x y : (0 <= rank < 2 ^ 31)%Z -> x < 2 ^ 64 -> y < 2 ^ 64 -> blen (cell_name rank x y) < 100.
Proof.
  intros Hr Hx Hy. unfold cell_name. rewrite !blen_app. unfold show_int. destruct (Z.ltb_spec rank 0) as [|_]; [lia|].
  pose proof (to_string_len_bound (Z.to_N rank) 20 ltac:(assert (Z.to_N rank < 2 ^ 31) by lia; lia) ltac:(lia)).
  pose proof (to_string_len_bound x 20 ltac:(lia) ltac:(lia)). pose proof (to_string_len_bound y 20 ltac:(lia) ltac:(lia)).
  change (blen (bstr "Cell-(")) with 6. change (blen (bstr ", ")) with 2. change (blen (bstr ")")) with 1. lia.
Qed.
Lemma printed_name rank x y : (0 <= rank < 2 ^ 31)%Z -> x < 2 ^ 64 -> y < 2 ^ 64 -> printed (cell_name rank x y) = cell_name rank x y.
Proof.
  intros Hr Hx Hy. unfold printed. apply firstn_all2. pose proof (name_short rank x y Hr Hx Hy) as B. unfold blen in B. change (N.to_nat BUF_SIZE - 1)%nat with 99%nat. lia.
Qed.
Lemma cell_puts_ok base temp_at rank nx ny temps : (0 <= rank < 2 ^ 31)%Z -> room nx ny ->
  cell_puts base temp_at rank nx ny temps = Ok (map (cell_call base temp_at rank nx temps) (grid nx ny)).
Proof.
  intros Hr R. unfold cell_puts. rewrite (N.mod_small (nx * ny)) by apply R.
  assert (F : Forall (fun p => index nx p < nx * ny) (grid nx ny)).
  { apply Forall_forall. intros [x y] I. apply grid_In in I as [Hx Hy]. destruct (index_small nx ny x y R Hx Hy) as [-> B]. exact B. }
  assert (ND : NoDup (map (index nx) (grid nx ny))).
  { pose proof (grid_NoDup nx ny) as G. assert (P : forall p q, In p (grid nx ny) -> In q (grid nx ny) -> index nx p = index nx q -> p = q) by (intros p q; apply index_inj, R).
    clear F. revert G P. induction (grid nx ny) as [|p l IH]; intros G P; [constructor|]. inversion G; subst. constructor.
    - intros I. apply in_map_iff in I as (q & E & I). assert (p = q) by (apply P; [left; reflexivity|right; exact I|symmetry; exact E]). subst. contradiction.
    - apply IH; [assumption|]. intros a b Ia Ib. apply P; right; assumption. }
  destruct (fill_ok rank nx (nx * ny) temps (grid nx ny) (fun _ => blank) ND F) as (m & E & A & _). rewrite E. cbn [obind]. f_equal. rewrite map_map.
  apply map_ext_in. intros [x y] I. destruct (A _ I) as [old O]. apply grid_In in I as [Hx Hy]. unfold put_call, cell_call. cbn [fst snd] in *. rewrite O. cbn [c_name c_temp].
  unfold write_name. rewrite (printed_name rank x y) by (try assumption; destruct R as (_ & _ & ? & ?); lia).
  unfold blen. rewrite Nnat.Nat2N.id, firstn_len. reflexivity.
Qed.
(* otherwise: a cell too far, or one cell for two places *)
Lemma grid_split nx ny x y : x < nx -> y < ny -> exists a b, grid nx ny = a ++ (x, y) :: b.
Proof. intros Hx Hy. apply in_split, grid_In. auto. Qed.
Lemma fill_ub rank nx total temps : forall l m, (exists p, In p l /\ total <= index nx p) -> fill rank nx total temps l m = UB.
Proof.
  induction l as [|p l IH]; intros m (q & I & H); [destruct I|]. cbn [fill]. destruct (N.ltb_spec (index nx p) total) as [L|]; [|reflexivity].
  cbv zeta. rewrite IH; [reflexivity|]. destruct I as [<-|I]; [lia|]. exists q. auto.
Qed.
Lemma cell_puts_ub base temp_at rank nx ny temps : 2 <= nx -> 1 <= ny -> ny < nx -> nx * nx < 2 ^ 64 -> cell_puts base temp_at rank nx ny temps = UB.
Proof.
  intros H1 H2 H3 H4. unfold cell_puts. rewrite fill_ub; [reflexivity|]. exists (nx - 1, ny - 1). split; [apply grid_In; lia|].
  unfold index. cbn [fst snd]. assert ((nx - 1) * nx + (ny - 1) < nx * nx) by nia. rewrite !N.mod_small by nia. nia.
Qed.
