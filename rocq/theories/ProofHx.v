(* What hx.cpp shows *)
From Verif Require Import ModelBytes ProofBytes ModelKey ModelWire ModelHist ModelMsg SpecMsg ModelStore ModelGetOp ModelDs
  SpecStore ProofStore ProofDs ModelElen ProofElen ModelTransform ModelFloat ModelRoute SpecRoute ProofRoute ProofRoute2 ModelClient SpecClient SpecCluster ProofCluster ProofCluster2
  SpecGetOp SpecScan ModelTyped SpecTyped ProofTyped ProofTyped2 SpecElen SpecFp ProofFpLibm ProofFloat ProofTyped3
  SpecMixed ProofMixed ModelCli ProofMixed2 SpecMixed3 ProofMixed3 ProofMixed4 ModelLowest ProofTemps ProofTemps3 ProofTemps4 ModelHx SpecHx SpecStore.
From Verif Require Import SpecFp SpecTyped.
Local Open Scope N_scope.

(* ---- the texts ---- *)
Lemma pattern_short w r i : blen w <= 9 -> (0 <= r < 2 ^ 31)%Z -> i < 2 ^ 64 -> blen (pattern w r i) < 100.
Proof.
  intros Hw Hr Hi. unfold pattern. rewrite !blen_app. unfold show_int. destruct (Z.ltb_spec r 0) as [|_]; [lia|].
  pose proof (to_string_len_bound (Z.to_N r) 20 ltac:(assert (Z.to_N r < 2 ^ 31) by lia; lia) ltac:(lia)).
  pose proof (to_string_len_bound i 20 ltac:(lia) ltac:(lia)). change (blen (bstr "-")) with 1. lia.
Qed.
Lemma pattern_subject r i : (0 <= r)%Z -> pattern (bstr "subject") r i = subject r i.
Proof. intro H. unfold pattern, subject, show_int. destruct (Z.ltb_spec r 0); [lia|]. reflexivity. Qed.
Lemma pattern_predicate r i : (0 <= r)%Z -> pattern (bstr "predicate") r i = predicate r i.
Proof. intro H. unfold pattern, predicate, show_int. destruct (Z.ltb_spec r 0); [lia|]. reflexivity. Qed.
Lemma split_first (d : byte) : forall x y a b : bytes, ~ In d x -> ~ In d y -> x ++ d :: a = y ++ d :: b -> x = y /\ a = b.
Proof.
  induction x as [|c x IH]; intros y a b Hx Hy H; destruct y as [|c' y]; cbn [app] in H.
  - injection H as ->. split; reflexivity.
  - injection H as <- _. exfalso. apply Hy. left. reflexivity.
  - injection H as -> _. exfalso. apply Hx. left. reflexivity.
  - injection H as -> H. destruct (IH y a b) as [-> ->]; [intro I; apply Hx; right; exact I|intro I; apply Hy; right; exact I|exact H|]. split; reflexivity.
Qed.
Lemma subject_inj r i r' i' : (0 <= r)%Z -> (0 <= r')%Z -> subject r i = subject r' i' -> r = r' /\ i = i'.
Proof.
  intros Hr Hr' H. unfold subject in H. apply app_inv_head in H. cbn [bstr list_ascii_of_string app] in H.
  apply split_first in H as [A B]; try apply to_string_no_dash. apply to_string_inj in A, B. split; [lia|exact B].
Qed.

Section Rank.
Context (L : libm) (u : callbacks) (E : Z -> env) (h : Z -> hx_memory) (d y : Z -> N -> spec_float) (n : N).
Let c := session L u.
Let sa (r : Z) (i : N) := subject_at (h r) r i.
Let pa (r : Z) (i : N) := predicate_at (h r) r i.
Let oa (r : Z) (i : N) := fp_arg T_DOUBLE (mkPtr (hx_doubles (h r) + 8 * i) (store_fp DBL (d r i))).
Definition puts_of (r : Z) : list call := map (fun i => CPut (sa r i) (pa r i) (oa r i) 1) (below_n n).
Definition gets_of (r : Z) : list call := map (fun i => CGet (sa r i) (pa r i) T_DOUBLE) (below_n n).
Definition program_of (r : Z) : list move := map Say (puts_of r) ++ map Say (gets_of r) ++ [Send (Some Gets); Send (Some Puts)] ++ map Say (gets_of r) ++ [Send None].

Lemma below_In i : In i (below_n n) <-> i < n.
Proof. exact (counts_In n i). Qed.
Lemma hx_program r : (0 <= r < 2 ^ 31)%Z -> n < 2 ^ 64 -> hx_moves (h r) (d r) r n = Ok (program_of r).
Proof.
  intros Hr Hn. unfold hx_moves. rewrite (omap_all _ (fun i => (i, (sa r i, pa r i)))).
  - cbn [obind]. unfold program_of, puts_of, gets_of. rewrite !map_map. reflexivity.
  - intros i Hi. apply counts_In in Hi. unfold hx_pair, gen_fixed_pattern, bufsize.
    rewrite (proj2 (N.ltb_lt _ _) (pattern_short (bstr "subject") r i ltac:(discriminate) Hr ltac:(lia))). cbn [obind].
    rewrite (proj2 (N.ltb_lt _ _) (pattern_short (bstr "predicate") r i ltac:(discriminate) Hr ltac:(lia))). cbn [obind].
    rewrite pattern_subject, pattern_predicate by lia. reflexivity.
Qed.

(* ---- the arguments ---- *)
Lemma text_arg a s : a <> 0 -> a < 2 ^ 64 -> s <> [] -> blen s < 2 ^ 32 -> good_arg c (mkArg a s T_BYTE).
Proof.
  intros Ha Hu Hs Hl. split; [|split; [|split; [exact Hu|exact Hl]]].
  - unfold given. cbn [a_addr a_data]. destruct (N.eqb_spec a 0); [contradiction|]. destruct s; [contradiction|reflexivity].
  - exists s. cbn [fa a_data a_type f_data f_type]. split; [|split; [|split; [|reflexivity]]].
    + intros null Hnull. destruct null; [destruct (Hs (Hnull eq_refl))|apply byte_enc].
    + apply byte_dec.
    + assert (2 ^ 32 < 2 ^ 64) by reflexivity. lia.
Qed.
Context (J : Z -> Prop) (Rng : forall r, J r -> (0 <= r < 2 ^ 31)%Z) (Mem : forall r, J r -> good_memory (h r) n).
Context (Back : forall r i, J r -> i < n -> comes_back L u T_DOUBLE DBL (d r i) (y r i)).
Lemma n_small r : J r -> n < 2 ^ 64.
Proof. intro Hj. destruct (Mem r Hj) as (_ & _ & H). lia. Qed.
Lemma sa_good r i : J r -> i < n -> good_arg c (sa r i).
Proof.
  intros Hj Hi. pose proof (Rng r Hj) as Hr. destruct (proj1 (Mem r Hj) i Hi) as (A & B & _). pose proof (n_small r Hj). apply text_arg; try assumption.
  - discriminate.
  - rewrite <- pattern_subject by lia. pose proof (pattern_short (bstr "subject") r i ltac:(discriminate) Hr ltac:(lia)). lia.
Qed.
Lemma pa_good r i : J r -> i < n -> good_arg c (pa r i).
Proof.
  intros Hj Hi. pose proof (Rng r Hj) as Hr. destruct (proj1 (Mem r Hj) i Hi) as (_ & _ & A & B). pose proof (n_small r Hj). apply text_arg; try assumption.
  - discriminate.
  - rewrite <- pattern_predicate by lia. pose proof (pattern_short (bstr "predicate") r i ltac:(discriminate) Hr ltac:(lia)). lia.
Qed.
Lemma dbl_all x : firstn (fp_size T_DOUBLE) (store_fp DBL x) = store_fp DBL x.
Proof. apply firstn_all2. unfold store_fp. rewrite le_enc_length. apply Nat.le_refl. Qed.
Lemma oa_good r i : J r -> i < n -> good_obj c (oa r i) /\ fa (oa r i) = mkField (store_fp DBL (d r i)) T_DOUBLE.
Proof.
  intros Hj Hi. destruct (Mem r Hj) as (_ & A & B).
  apply (fp_arg_good L u T_DOUBLE DBL (d r i) (y r i)); [right; split; reflexivity|apply Back; assumption| | |apply dbl_all]; cbn [fp_addr]; unfold u64; lia.
Qed.
Lemma oa_kept r i : J r -> i < n -> fa (kept_arg c (oa r i)) = mkField (store_fp DBL (y r i)) T_DOUBLE.
Proof.
  intros Hj Hi. rewrite kept_fa. destruct (oa_good r i Hj Hi) as [_ ->].
  apply (proj2 (comes_back_codable L u T_DOUBLE DBL (d r i) (y r i) (or_intror (conj eq_refl eq_refl)) (Back r i Hj Hi))).
Qed.
Lemma program_obj r : J r -> Forall (obj_move c) (map (pair r) (program_of r)).
Proof.
  intros Hj. apply Forall_map. unfold program_of, puts_of, gets_of. rewrite !map_map.
  assert (G : Forall (fun m => obj_move c (r, m)) (map (fun i => Say (CGet (sa r i) (pa r i) T_DOUBLE)) (below_n n))).
  { apply Forall_map, Forall_forall. intros i Hi. apply below_In in Hi. cbn [obj_move snd obj_call]. split; [apply sa_good; assumption|]. split; [apply pa_good; assumption|reflexivity]. }
  apply Forall_app. split; [|apply Forall_app; split; [exact G|]; constructor; [exact Logic.I|]; constructor; [exact Logic.I|]; apply Forall_app; split; [exact G|]; constructor; [exact Logic.I|constructor]].
  apply Forall_map, Forall_forall. intros i Hi. apply below_In in Hi. cbn [obj_move snd obj_call]. split; [apply sa_good; assumption|]. split; [apply pa_good; assumption|].
  split; [apply oa_good; assumption|]. left. reflexivity.
Qed.

(* ---- what one rank sees alone ---- *)
Lemma says_seen k xs r : forall M W l rs, moves_seen E k c M W (map (fun x => (r, Say x)) xs ++ l) rs ->
  exists W', W' r = fold_left (wait (E r)) xs (W r) /\ moves_seen E k c M W' l rs.
Proof.
  induction xs as [|x xs IH]; intros M W l rs H; [exists W; split; [reflexivity|exact H]|]. cbn [map app moves_seen] in H. apply IH in H as (W' & A & B).
  exists W'. split; [|exact B]. rewrite A. unfold waits. rewrite Z.eqb_refl. reflexivity.
Qed.
Context (r : Z) (Hj : J r) (GC : good_client (E r)).
Let kputs := map (fun i => (sa r i, pa r i, kept_arg c (oa r i))) (below_n n).
Let gets := map (fun i => (sa r i, pa r i, T_DOUBLE)) (below_n n).
Lemma flat_one {A B C} (g : A -> list C) (f : B -> A) (f' : B -> C) l : (forall b, In b l -> g (f b) = [f' b]) -> flat_map g (map f l) = map f' l.
Proof. induction l as [|b l IH]; intro H; [reflexivity|]. cbn [map flat_map]. rewrite H by (left; reflexivity). cbn [app]. f_equal. apply IH. intros b' I. apply H. right. exact I. Qed.
Lemma flat_none {A B C} (g : A -> list C) (f : B -> A) l : (forall b, In b l -> g (f b) = []) -> flat_map g (map f l) = [].
Proof. induction l as [|b l IH]; intro H; [reflexivity|]. cbn [map flat_map]. rewrite H by (left; reflexivity). apply IH. intros b' I. apply H. right. exact I. Qed.
Lemma puts_wait w : fold_left (wait (E r)) (map (kept c) (puts_of r)) w = mkWaiting (w_puts w ++ kputs) (w_gets w) (w_getops w) (w_dels w).
Proof.
  rewrite wait_calls. unfold puts_of. rewrite map_map. cbn [kept]. rewrite (flat_one (call_puts (E r)) _ (fun i => (sa r i, pa r i, kept_arg c (oa r i)))).
  - rewrite !flat_none by reflexivity. rewrite !app_nil_r. reflexivity.
  - intros i Hi. apply below_In in Hi. cbn [call_puts]. pose proof (sa_good r i Hj Hi) as Gs. pose proof (pa_good r i Hj Hi) as Gp.
    rewrite (kept_given c _ (proj1 (oa_good r i Hj Hi))), (proj1 Gs), (proj1 Gp). cbn [andb]. destruct GC as (_ & T & _). destruct (at_total c (E r) (sa r i) (pa r i) T Gs Gp) as (_ & _ & Pl).
    unfold one_put. change (put_triples ?s ?p ?o 1) with [(s, p, o)]. cbn [while]. rewrite Pl. reflexivity.
Qed.
Lemma gets_wait w : fold_left (wait (E r)) (map (kept c) (gets_of r)) w = mkWaiting (w_puts w) (w_gets w ++ gets) (w_getops w) (w_dels w).
Proof.
  rewrite wait_calls. unfold gets_of. rewrite map_map. cbn [kept]. rewrite (flat_one call_gets _ (fun i => (sa r i, pa r i, T_DOUBLE))).
  - rewrite !flat_none by reflexivity. rewrite !app_nil_r. reflexivity.
  - intros i Hi. apply below_In in Hi. cbn [call_gets]. rewrite (proj1 (sa_good r i Hj Hi)), (proj1 (pa_good r i Hj Hi)). reflexivity.
Qed.
Lemma put_all_keys l i : NoDup l -> In i l -> forall M, put_all M (map (fun i => (sa r i, pa r i, kept_arg c (oa r i))) l) (fa (sa r i)) (fa (pa r i)) = Some (fa (kept_arg c (oa r i))).
Proof.
  intros ND. induction ND as [|j l Nj ND IH]; intros I M; [destruct I|]. cbn [map put_all]. destruct I as [->|I]; [|apply IH, I].
  rewrite put_all_leaves; [apply tset_same|]. apply Forall_map, Forall_forall. intros j Ij Q. pose proof (f_equal (fun q => f_data (fst q)) Q) as A. change (subject r j = subject r i) in A. apply subject_inj in A as [_ ->]; [contradiction|apply (Rng r Hj)|apply (Rng r Hj)].
Qed.
Lemma kept_says xs : map (kept_move c) (map (pair r) (map Say xs)) = map (fun x => (r, Say x)) (map (kept c) xs).
Proof. rewrite !map_map. reflexivity. Qed.
Lemma alone_shows k rs : moves_seen E k c no_triples (fun _ => idle) (map (kept_move c) (map (pair r) (program_of r))) rs -> hx_shows (E r) (h r) (y r) r n rs.
Proof.
  intros H. unfold program_of in H. rewrite !map_app, !kept_says in H.
  apply says_seen in H as (W1 & E1 & H). apply says_seen in H as (W2 & E2 & H). rewrite puts_wait in E1. rewrite E1, gets_wait in E2. cbn [idle w_puts w_gets w_getops w_dels app] in E2.
  cbn [map kept_move fst snd app moves_seen] in H. destruct H as (r1 & y1 & rs1 & -> & P1 & G1 & H). rewrite E2 in G1, H.
  destruct H as (r2 & y2 & rs2 & -> & P2 & G2 & H).
  cbn [pieces fold_left without left_all left_ w_puts w_gets w_getops w_dels] in *. unfold waits in G2, H at 1. rewrite Z.eqb_refl in G2, H. cbn [w_puts w_gets w_getops w_dels] in *.
  apply says_seen in H as (W3 & E3 & H). unfold waits in E3. rewrite Z.eqb_refl in E3. rewrite gets_wait in E3. cbn [w_puts w_gets w_getops w_dels app without] in E3.
  cbn [map kept_move fst snd moves_seen] in H. destruct H as (r3 & y3 & rs3 & -> & P3 & G3 & ->). rewrite E3 in G3.
  cbn [pieces give gives left_ without w_puts w_gets w_getops w_dels put_all map] in G1, G2, G3.
  destruct G1 as (z1 & ? & -> & -> & ->). destruct G2 as (z2 & ? & -> & -> & ->).
  destruct G3 as (a1 & b1 & -> & (a2 & b2 & -> & (a3 & b3 & (gs & G & ->) & (a4 & b4 & -> & -> & ->) & ->) & ->) & ->). inversion G; subst gs.
  cbn [del_all snd concat app] in P3. rewrite app_nil_r in P1, P2, P3.
  exists r1, r2, r3. split; [reflexivity|]. unfold gets, kputs in *. rewrite map_map in P1, P2, P3. split; [exact P1|]. split; [exact P2|].
  eapply Permutation_trans; [exact P3|]. erewrite map_ext_in; [apply Permutation_refl|]. intros i Hi. cbv beta iota. unfold get_result.
  rewrite put_all_keys by (try exact Hi; apply (counts_NoDup n)). rewrite oa_kept by (try exact Hj; apply below_In, Hi). reflexivity.
Qed.
End Rank.

Lemma hx_program_ok h d r n : (0 <= r < 2 ^ 31)%Z -> n < 2 ^ 64 -> exists ms, hx_moves h d r n = Ok ms.
Proof.
  intros Hr Hn. unfold hx_moves. rewrite (omap_all _ (fun i => (i, (subject_at h r i, predicate_at h r i)))); [eexists; reflexivity|].
  intros i Hi. apply counts_In in Hi. unfold hx_pair, gen_fixed_pattern, bufsize.
  rewrite (proj2 (N.ltb_lt _ _) (pattern_short (bstr "subject") r i ltac:(discriminate) Hr ltac:(lia))). cbn [obind].
  rewrite (proj2 (N.ltb_lt _ _) (pattern_short (bstr "predicate") r i ltac:(discriminate) Hr ltac:(lia))). cbn [obind].
  rewrite pattern_subject, pattern_predicate by lia. reflexivity.
Qed.
