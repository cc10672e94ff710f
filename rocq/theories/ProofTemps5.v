(* lowest.c with more rows than columns: cells that share a place *)
From Verif Require Import ModelBytes ProofBytes ModelKey ModelWire ModelHist ModelMsg ModelStore ModelGetOp ModelDs ModelElen ProofElen ModelFloat ModelRoute ModelClient SpecCluster ModelCli
  SpecElen SpecFp ModelTransform ModelLowest SpecTemps ProofTemps ProofRoute2 ExampleFloat ExampleTemps.
Local Open Scope N_scope.

Section Last.
Context (rank : Z) (nx total : N) (temps : N -> N -> spec_float).
Let nm (p : N * N) := cell_name rank (fst p) (snd p).
(* every cell has the name that was written last *)
Lemma fill_last : forall l m, Forall (fun p => index nx p < total) l ->
  exists m', fill rank nx total temps l m = Ok (m', map (fun p => (index nx p, blen (printed (nm p)))) l) /\
    (forall l1 p l2, l = l1 ++ p :: l2 -> (forall q, In q l2 -> index nx q <> index nx p) -> exists old, c_name (m' (index nx p)) = write_name old (nm p)) /\
    (forall i, (forall q, In q l -> index nx q <> i) -> m' i = m i).
Proof.
  induction l as [|p l IH]; intros m B.
  - exists m. split; [reflexivity|]. split; [intros l1 p l2 E; destruct l1; discriminate E|reflexivity].
  - inversion B as [|? ? B1 B2]; subst. cbn [fill map].
    destruct (IH (mset m (index nx p) (mkCell (write_name (c_name (m (index nx p))) (nm p)) (temps (fst p) (snd p)))) B2) as (m' & E & A & O).
    exists m'. destruct (N.ltb_spec (index nx p) total) as [_|]; [|lia]. cbv zeta. fold (nm p). rewrite E. cbn [obind]. split; [reflexivity|]. split.
    + intros [|x l1] q l2 El Nq; cbn [app] in El; injection El as -> ->.
      * exists (c_name (m (index nx q))). rewrite O by exact Nq. unfold mset. rewrite N.eqb_refl. reflexivity.
      * exact (A l1 q l2 eq_refl Nq).
    + intros i I. rewrite O by (intros q Hq; apply I; right; exact Hq). unfold mset. destruct (N.eqb_spec i (index nx p)) as [->|]; [|reflexivity].
      exfalso. exact (I p (or_introl eq_refl) eq_refl).
Qed.
End Last.

Lemma last_writer nx : forall l p, In p l -> exists l1 w l2, l = l1 ++ w :: l2 /\ index nx w = index nx p /\ (forall q, In q l2 -> index nx q <> index nx w).
Proof.
  induction l as [|x l IH]; intros p I; [destruct I|].
  destruct (existsb (fun q => index nx q =? index nx p) l) eqn:Ex.
  - apply existsb_exists in Ex as (q & Hq & Eq). apply N.eqb_eq in Eq. destruct (IH q Hq) as (l1 & w & l2 & -> & Ew & Nw).
    exists (x :: l1), w, l2. split; [reflexivity|]. split; [congruence|exact Nw].
  - assert (N : forall q, In q l -> index nx q <> index nx p).
    { intros q Hq Eq. enough (existsb (fun q => index nx q =? index nx p) l = true) by congruence. apply existsb_exists. exists q. split; [exact Hq|]. apply N.eqb_eq, Eq. }
    destruct I as [->|I]; [|exfalso; exact (N p I eq_refl)]. exists [], p, l. split; [reflexivity|]. split; [reflexivity|exact N].
Qed.

(* up to the first c *)
Lemma until_first {A} (c : A) : forall a b x y, ~ In c a -> ~ In c b -> a ++ c :: x = b ++ c :: y -> a = b /\ x = y.
Proof.
  induction a as [|u a IH]; intros [|v b] x y Ha Hb E; cbn [app] in E.
  - injection E as E. auto.
  - exfalso. apply Hb. left. congruence.
  - exfalso. apply Ha. left. congruence.
  - injection E as -> E. destruct (IH b x y) as [-> ->]; auto; intros C; [apply Ha|apply Hb]; right; exact C.
Qed.
Lemma no_char c n : is_digit c = false -> ~ In c (to_string n).
Proof. intros D H. destruct (to_string_spec n) as [A _]. unfold all_digits in A. rewrite Forall_forall in A. specialize (A _ H). congruence. Qed.
Lemma name_until rank x y x' y' u u' : (0 <= rank)%Z -> cell_name rank x y ++ u = cell_name rank x' y' ++ u' -> x = x' /\ y = y'.
Proof.
  intros Hr E. unfold cell_name, show_int in E. destruct (Z.ltb_spec rank 0) as [|_]; [lia|]. rewrite <- !app_assoc in E. apply app_inv_head in E. apply app_inv_head in E.
  apply app_inv_head in E. change (bstr ", ") with [","%char; " "%char] in E. change (bstr ")") with [")"%char] in E. cbn [app] in E.
  apply until_first in E as [E1 E2]; [|apply no_char; reflexivity|apply no_char; reflexivity]. injection E2 as E2.
  apply until_first in E2 as [E2 _]; [|apply no_char; reflexivity|apply no_char; reflexivity]. split; apply to_string_inj; assumption.
Qed.

(* the first row comes first *)
Lemma grid_first nx ny : 1 <= nx -> exists R, grid nx ny = map (fun y => (0, y)) (counts ny) ++ R /\ (forall p, In p R -> fst p <> 0).
Proof.
  intros H. unfold grid, counts at 2. replace (N.to_nat nx) with (S (N.to_nat (nx - 1))) by lia. cbn [seq map flat_map]. eexists. split; [reflexivity|].
  intros p I. apply in_flat_map in I as (x & Hx & I). apply in_map_iff in Hx as (k & <- & Hk). apply in_seq in Hk. apply in_map_iff in I as (y & <- & _). cbn [fst]. lia.
Qed.
Lemma overwritten nx ny y l1 l2 : 2 <= nx -> nx <= y -> y < ny -> nx * ny < 2 ^ 64 -> y < 2 * nx -> grid nx ny = l1 ++ (0, y) :: l2 -> exists q, In q l2 /\ index nx q = index nx (0, y).
Proof.
  intros H1 H2 H3 H4 H5 E. exists (1, y - nx). split.
  - destruct (grid_first nx ny) as (R & G & N); [lia|]. assert (I : In (1, y - nx) R).
    { assert (J : In (1, y - nx) (grid nx ny)) by (apply grid_In; lia). rewrite G in J. apply in_app_or in J as [J|J]; [|exact J]. apply in_map_iff in J as (k & C & _). discriminate C. }
    rewrite E in G. symmetry in G. destruct (app_eq_app _ _ _ _ G) as (z & [(A & B)|(A & B)]).
    + destruct z as [|w z]; cbn [app] in B.
      * destruct R as [|r R]; [destruct I|]. injection B as B1 B2. subst r. exfalso. apply (N (0, y)); [left; reflexivity|reflexivity].
      * injection B as _ B. rewrite B. apply in_or_app. right. exact I.
    + exfalso. apply (N (0, y)); [|reflexivity]. rewrite B. apply in_or_app. right. left. reflexivity.
  - unfold index. cbn [fst snd]. f_equal. lia.
Qed.

Lemma lost base temp_at rank nx ny temps y : (0 <= rank < 2 ^ 31)%Z -> 2 <= nx -> nx <= y -> y < ny -> y < 2 * nx -> nx * ny < 2 ^ 64 ->
  exists cs, cell_puts base temp_at rank nx ny temps = Ok cs /\ ~ In (cell_name rank 0 y) (stored_names (Ok cs)).
Proof.
  intros Hr H1 H2 H3 H5 H4. unfold cell_puts. rewrite (N.mod_small (nx * ny)) by exact H4.
  assert (F : Forall (fun p => index nx p < nx * ny) (grid nx ny)).
  { apply Forall_forall. intros [x z] I. apply grid_In in I as [Hx Hz]. unfold index. cbn [fst snd]. assert (x * nx + z < nx * ny) by nia. rewrite N.mod_small by lia. assumption. }
  destruct (fill_last rank nx (nx * ny) temps (grid nx ny) (fun _ => blank) F) as (m & E & A & _). rewrite E. cbn [obind]. eexists. split; [reflexivity|].
  cbn [stored_names]. rewrite !map_map. intros I. apply in_map_iff in I as (p & Ep & Ip). unfold put_call in Ep. cbn [a_data fst snd] in Ep.
  destruct (last_writer nx (grid nx ny) p Ip) as (l1 & [x z] & l2 & El & Ew & Nw). destruct (A l1 (x, z) l2 El Nw) as [old O]. rewrite <- Ew, O in Ep. unfold write_name in Ep. cbn [fst snd] in Ep.
  assert (Iw : In (x, z) (grid nx ny)) by (rewrite El; apply in_elt). apply grid_In in Iw as [Hx Hz].
  rewrite (printed_name rank x z) in Ep by (try assumption; nia).
  set (t := cell_name rank x z ++ _) in Ep. pose proof (firstn_skipn (N.to_nat (blen (printed (cell_name rank (fst p) (snd p))))) t) as S. rewrite Ep in S. unfold t in S.
  apply name_until in S as [S1 S2]; [|lia]. subst x z. destruct (overwritten nx ny y l1 l2 H1 H2 H3 H4 H5 El) as (q & Iq & Eq). exact (Nw q Iq Eq).
Qed.

(* 91 x 101: place (1, 9) is written over place (0, 100), and its name is two bytes shorter *)
Lemma tail_kept : In (bstr "Cell-(0, 1, 9)" ++ zero :: bstr ")") (stored_names (cell_puts 4096 1024 0 91 101 (fun _ _ => five))).
Proof.
  assert (E : existsb (beqb (bstr "Cell-(0, 1, 9)" ++ zero :: bstr ")")) (stored_names (cell_puts 4096 1024 0 91 101 (fun _ _ => five))) = true) by (vm_cast_no_check (eq_refl true)).
  apply existsb_exists in E as (k & I & E). apply beqb_true in E. rewrite E. exact I.
Qed.
