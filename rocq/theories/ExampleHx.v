(* hx.cpp on two ranks with two numbers each *)
From Verif Require Import ModelBytes ProofBytes ModelKey ModelWire ModelHist ModelMsg SpecMsg ModelStore ModelGetOp ModelDs
  SpecStore ProofStore ProofDs ModelElen ModelTransform ModelFloat ModelRoute SpecRoute ModelClient SpecClient SpecCluster ExampleClient
  SpecScan ModelTyped SpecElen ProofFpLibm ProofFloat ExampleFloat ExampleTyped SpecMixed SpecMixed3 ProofMixed3 ProofMixed4 ModelLowest ProofTemps ModelHx SpecHx ProofHx ProofHx2.
From Verif Require Import SpecFp SpecTyped.
From Coq Require Import Reals.
Local Open Scope N_scope.

Definition hh (r : Z) : hx_memory := mkHx (fun i => 16 + i) (fun i => 32 + i) 64.
Definition hd (r : Z) (i : N) : spec_float := third.
Definition hy (r : Z) (i : N) : spec_float := third'.
Definition hprog (r : Z) : list (Z * move) := match hx_moves (hh r) (hd r) r 2 with Ok ms => map (pair r) ms | _ => [] end.
(* one move of each in turn *)
Fixpoint turns {A} (l l' : list A) : list A := match l, l' with a :: l, b :: l' => a :: b :: turns l l' | _, _ => l ++ l' end.
Definition hl : list (Z * move) := turns (hprog 1) (hprog 0).
Lemma hl_runs : ranks_run [0; 1]%Z (fun r => hx_moves (hh r) (hd r) r 2) hl.
Proof.
  split.
  - intros r [<-|[<-|[]]]; (eexists; split; [vm_compute; reflexivity|vm_compute; reflexivity]).
  - assert (F : forallb (fun m => (fst m =? 0) || (fst m =? 1))%Z hl = true) by (vm_compute; reflexivity).
    intros m Hm. rewrite forallb_forall in F. specialize (F m Hm). apply orb_true_iff in F as [F|F]; apply Z.eqb_eq in F; rewrite F; [left|right; left]; reflexivity.
Qed.
Lemma hmem r : good_memory (hh r) 2.
Proof. split; [|split; [discriminate|reflexivity]]. intros i Hi. cbn [hh hx_subject hx_predicate]. repeat split; lia. Qed.
Lemma hranks r : In r [0; 1]%Z -> (0 <= r < 2 ^ 31)%Z /\ good_client (xe r) /\ same_cluster (xe 0) (xe r) /\ fresh (xe r) (opened_session (xe r)) /\ good_memory (hh r) 2 /\
  forall i, i < 2 -> comes_back exact_libm u_d T_DOUBLE DBL (hd r i) (hy r i).
Proof.
  intros H. assert (0 <= r < 2)%Z by (cbn [In] in H; lia). split; [lia|]. split; [apply xe_client; assumption|]. split; [apply xe_same|]. split; [split; reflexivity|].
  split; [apply hmem|]. intros i _. exact third_back.
Qed.
Lemma hkeeps : keeps third.
Proof. destruct third_ok as (_ & A & B & C & D & F & _). repeat split; try assumption; apply C. Qed.
Lemma hl_apart : moves_apart xe (fun _ => idle) hl.
Proof.
  eapply (ranks_apart xe (xe 0) (fun r => opened_session (xe r))); [|reflexivity|apply hl_runs]. intros r Hr. destruct (hranks r Hr) as (_ & A & B & C & _). auto.
Qed.
Lemma hl_clients : forall i, In i (map fst hl) -> good_client (xe i) /\ same_cluster (xe 0) (xe i) /\ fresh (xe i) (opened_session (xe i)).
Proof. intros i Hi. apply in_map_iff in Hi as (m & <- & Hm). destruct (hranks _ (proj2 hl_runs m Hm)) as (_ & A & B & C & _). auto. Qed.
Lemma hl_objects : Forall (obj_move ncodec) hl.
Proof.
  apply Forall_forall. intros [r m] Hm. pose proof (proj2 hl_runs _ Hm) as Hj. cbn [fst] in Hj. destruct (proj1 hl_runs r Hj) as (ms & Ep & Ea).
  rewrite (hx_program xe hh hd hy 2 r ltac:(apply (hranks r Hj)) eq_refl) in Ep. apply Ok_inj in Ep. subst ms. apply alone_In in Hm. rewrite Ea in Hm.
  assert (F : Forall (obj_move ncodec) (map (pair r) (program_of hh hd 2 r))).
  { apply (program_obj exact_libm u_d xe hh hd hy 2 (fun r => In r [0; 1]%Z)); try exact Hj; intros; apply (hranks r0); assumption. }
  rewrite Forall_forall in F. exact (F _ Hm).
Qed.
Lemma hl_left : Forall (left_to (of_rank hh 2 1) xe 1) (map (kept_move ncodec) hl).
Proof.
  apply (all_left exact_libm u_d xe hh hd hy 2 [0; 1]%Z); try apply hl_runs; try (right; left; reflexivity); intros; apply (hranks r); assumption.
Qed.
Definition hx_results (k : backend) (r : Z) : outcome (list (list result)) :=
  match moves xe (fun r => opened_session (xe r)) (ncl k) hl with Ok (_, rs) => Ok (mine r hl rs) | Throw => Throw | UB => UB end.
Definition hs (i : N) : ref := mkRef (16 + i) 11 T_BYTE.
Definition hp (i : N) : ref := mkRef (32 + i) 13 T_BYTE.
Definition hb : blob := mkBlob false (store_fp DBL third') T_DOUBLE.
Lemma hx_ran k : hx_results k 0 = Ok [[XGet 1 false (hs 0) (hp 0) blob_none; XGet 0 false (hs 1) (hp 1) blob_none]; [XPut 1 true (hs 0) (hp 0); XPut 0 true (hs 1) (hp 1)];
  [XGet 1 true (hs 0) (hp 0) hb; XGet 0 true (hs 1) (hp 1) hb]].
Proof. destruct k; vm_compute; reflexivity. Qed.
Lemma hx_exact : exists L u E k e0 S cl h d n ranks l r,
  (forall r, In r ranks -> (0 <= r < 2 ^ 31)%Z /\ good_client (E r) /\ same_cluster e0 (E r) /\ fresh (E r) (S r) /\ good_memory (h r) n /\ forall i, i < n -> keeps (d r i)) /\
  holds e0 cl (fun _ => opened k (session L u)) /\ ranks_run ranks (fun r => hx_moves (h r) (d r) r n) l /\ moves_apart E (fun _ => idle) l /\ In r ranks /\
  exists cl' rs, moves E S cl l = Ok (cl', rs) /\ ~ hx_shows (E r) (h r) (d r) r n (mine r l rs).
Proof.
  exists exact_libm, u_d, xe, InMemory, (xe 0), (fun r => opened_session (xe r)), (ncl InMemory), hh, hd, 2, [0; 1]%Z, hl, 0%Z.
  split. { intros r Hr. destruct (hranks r Hr) as (A & B & C & D & F & _). repeat (split; [assumption|]). intros i _. exact hkeeps. }
  split; [apply ncl_holds|]. split; [exact hl_runs|]. split; [exact hl_apart|]. split; [left; reflexivity|].
  destruct (hx_all exact_libm u_d xe InMemory (xe 0) (fun r => opened_session (xe r)) (ncl InMemory) hh hd hy 2 [0; 1]%Z hl hranks (ncl_holds _ _) hl_runs hl_apart) as (cl' & rs & Em & Sh).
  exists cl', rs. split; [exact Em|]. intros (a1 & a2 & a3 & Ea & _ & _ & Pa). destruct (Sh 0%Z (or_introl eq_refl)) as (b1 & b2 & b3 & Eb & _ & _ & Pb).
  rewrite Ea in Eb. injection Eb as _ _ <-. assert (I : In (returns (xe 0) (hh 0) (hy 0%Z) 0 0) (map (returns (xe 0) (hh 0) (hd 0%Z) 0) (below_n 2))).
  { eapply Permutation_in; [exact Pa|]. eapply Permutation_in; [apply Permutation_sym, Pb|]. left. reflexivity. }
  apply in_map_iff in I as (i & Ei & _). unfold returns in Ei.
  assert (Eb : forall x y : result, x = y -> match x, y with XGet _ _ _ _ b, XGet _ _ _ _ b' => b = b' | _, _ => True end) by (intros x z ->; destruct z; reflexivity || exact Logic.I).
  specialize (Eb _ _ Ei). cbn beta iota in Eb. assert (Q : store_fp DBL third = store_fp DBL third') by exact (f_equal b_data Eb).
  assert (beqb (store_fp DBL third) (store_fp DBL third') = false) as X by (vm_compute; reflexivity). rewrite Q in X.
  rewrite (proj2 (beqb_true _ _) eq_refl) in X. discriminate X.
Qed.

(* ---- what is printed ---- *)
From Verif Require Import ModelConf ModelCli ModelHxPrint SpecHxPrint ProofHxPrint.
Definition htexts (r : Z) (a : N) : bytes := if a <? 32 then subject r (a - 16) else predicate r (a - 32).
Lemma htexts_ok r : holds_texts (htexts r) (hh r) r 2.
Proof. intros i Hi. unfold htexts. cbn [hh hx_subject hx_predicate]. assert (C : i = 0 \/ i = 1) by lia. destruct C as [-> | ->]; split; reflexivity. Qed.
Definition hx_printed (p : (N -> bytes) -> Z -> list result -> outcome bytes) (k : backend) (r : Z) : outcome (list bytes) :=
  do rs <- hx_results k r; omap (p (htexts r) r) rs.
