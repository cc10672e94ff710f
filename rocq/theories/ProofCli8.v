(* scripts with GETOPs, and from the text to what is printed *)
From Verif Require Import ModelBytes ModelHist ModelKey ModelWire ModelMsg ModelStore ModelGetOp ModelDs ModelElen ModelConf ModelFloat ModelRoute SpecRoute SpecStore ModelClient SpecClient ModelCli SpecCluster SpecGetOp SpecScan SpecConf SpecOptions SpecFp SpecCli ProofBytes ProofStore ProofConf ProofClient4 ProofCluster2 ProofCluster3 ProofDs ProofScan ProofScan2 ProofScan3 ProofCli ProofCli3 ProofCli4 ProofCli5 ProofCli6 SpecStore.
Local Open Scope N_scope.

Lemma script_scans e k c s cl at_ bs : good_client e -> fresh e s -> holds e cl (fun _ => opened k c) -> Forall (Forall on_pairs) bs ->
  scans_fine (fun _ => e) k c no_triples (map (fun cs => (0%Z, cs)) (batches at_ 0 bs)) ->
  exists s' cl' rs xss, run_commands e at_ 0 s cl (script bs) = Ok (s', cl', rs) /\ List.length rs = List.length (script bs) /\
    flat_map fst rs = concat xss /\ scans_seen (fun _ => e) k c no_triples (map (fun cs => (0%Z, cs)) (batches at_ 0 bs)) xss.
Proof.
  intros G F H D C.
  destruct (cluster_scans (fun _ => e) k c e (fun _ => s) cl (map (fun cs => (0%Z, cs)) (batches at_ 0 bs))) as (cl' & xss & P & R).
  - intros i _. split; [exact G|]. split; [|exact F]. split; [reflexivity|]. split; reflexivity.
  - exact H.
  - exact C.
  - destruct (run_script e at_ bs D 0 (fun _ => s) s cl cl' xss eq_refl P) as [s' [rs [E [L X]]]]. exists s', cl', rs, xss. repeat split; assumption.
Qed.

(* ---- everything can be shown ---- *)
Lemma asked_some c cs : Forall (scan_call c) cs -> Forall (good_scan c) (flat_map call_getops cs).
Proof.
  intro F. apply Forall_forall. intros t I. apply in_flat_map in I. destruct I as [x [Ix It]]. rewrite Forall_forall in F. specialize (F x Ix).
  destruct x; cbn [scan_call call_getops In] in *; try contradiction.
  - destruct (given s); [|contradiction]. destruct It as [<-|[]]. exact F.
  - destruct l; cbn [In] in It; [|contradiction]. rewrite Forall_forall in F. exact (F t It).
Qed.
Lemma scan_shows mem e c M t xs : stored_ok M -> good_scan c t -> scan_result e c M t xs -> Forall (result_showable mem) xs.
Proof.
  intros SM G R. apply Forall_forall. intros x I.
  assert (1 <= snd (fst t)) as N by (destruct t as [[[[s p] ty] n] op]; apply G).
  assert ((exists id s p o, x = XGetOp id false s p o) \/ exists id s p o, x = XGetOp id true s p o /\ b_null s = false /\ b_null p = false /\ b_null o = false) as [X|X].
  { destruct t as [[[[s p] ty] n] op]. destruct R as (ts & _ & ->). destruct (reply c ts (getop_req (s, p, ty, n, op))) as [us|]; cbn [scan_results] in I.
    - apply in_map_iff in I. destruct I as [u [<- _]]. right. eexists _, _, _, _. split; [reflexivity|]. repeat split.
    - destruct I as [<-|[]]. left. eauto. }
  - destruct X as (id & s & p & o & ->). cbn [result_showable]. discriminate.
  - destruct X as (id & s & p & o & -> & Ns & Np & No). destruct (scan_sound e c M t xs id s p o R N I) as (_ & Ho & _).
    apply SM in Ho. destruct Ho as [A [B C]]. cbn [fld f_type f_data] in *. intros _. repeat split; assumption.
Qed.
Lemma scans_show mem e k c l : Forall (Forall (call_held mem)) l -> forall M rs, stored_ok M ->
  scans_fine (fun _ => e) k c M (map (fun cs => (0%Z, cs)) l) -> scans_seen (fun _ => e) k c M (map (fun cs => (0%Z, cs)) l) rs -> Forall (result_showable mem) (concat rs).
Proof.
  induction 1 as [|cs l F _ IH]; intros M rs SM HF HS; destruct rs as [|xs rs]; cbn [map scans_fine scans_seen] in *; try contradiction; [constructor|].
  destruct HF as (Hs & _ & _ & HF). destruct HS as [(gs & Hg & P) HS]. destruct (batch_ok mem e k M cs F SM) as [S1 R].
  cbn [concat]. apply Forall_app. split; [|exact (IH _ _ S1 HF HS)].
  eapply Permutation_Forall; [apply Permutation_sym, P|]. apply Forall_app. split; [exact R|].
  pose proof (put_all_ok mem _ (puts_held mem e cs F) M SM) as SP. fold (seen_by_scans e M cs) in SP.
  pose proof (asked_some c cs Hs) as A. clear - Hg SP A. revert A.
  induction Hg as [|t ys ts gs R _ IH]; intro A; [constructor|]. inversion A as [|? ? A1 A2]; subst. cbn [concat]. apply Forall_app.
  split; [exact (scan_shows mem e c _ t ys SP A1 R)|exact (IH A2)].
Qed.
Lemma scans_print e k c s cl at_ bs mem : good_client e -> fresh e s -> holds e cl (fun _ => opened k c) -> Forall (Forall on_pairs) bs ->
  scans_fine (fun _ => e) k c no_triples (map (fun cs => (0%Z, cs)) (batches at_ 0 bs)) -> kept_cmds mem at_ 0 (script bs) ->
  exists s' cl' rs xss ls, run_commands e at_ 0 s cl (script bs) = Ok (s', cl', rs) /\ flat_map fst rs = concat xss /\
    scans_seen (fun _ => e) k c no_triples (map (fun cs => (0%Z, cs)) (batches at_ 0 bs)) xss /\
    print_results mem (flat_map fst rs) = Ok (concat ls) /\ Forall2 (result_line mem) (flat_map fst rs) ls.
Proof.
  intros G F H D C K. destruct (script_scans e k c s cl at_ bs G F H D C) as (s' & cl' & rs & xss & E & _ & X & P).
  assert (Forall (result_showable mem) (flat_map fst rs)) as SH.
  { rewrite X. eapply scans_show; [exact (kept_batches mem at_ bs 0 D K)| |exact C|exact P]. intros ? ? ? Y. discriminate Y. }
  destruct (lines_print mem _ SH) as [ls [E1 E2]]. exists s', cl', rs, xss, ls. split; [exact E|]. split; [exact X|]. split; [exact P|]. split; assumption.
Qed.

(* ---- from the text ---- *)
Lemma text_prints t ls e k c s cl at_ mem : lines t ls -> Forall (fun l => correct l \/ foreign l) ls ->
  good_client e -> fresh e s -> holds e cl (fun _ => opened k c) ->
  exists us, Forall2 understood ls us /\ forall bs, flat_map fst us = script bs -> Forall (Forall on_pairs) bs ->
    scans_fine (fun _ => e) k c no_triples (map (fun cs => (0%Z, cs)) (batches at_ 0 bs)) -> kept_cmds mem at_ 0 (script bs) ->
    exists s' cl' rs xss out, run_commands e at_ 0 s cl (fst (parse_commands t)) = Ok (s', cl', rs) /\ flat_map fst rs = concat xss /\
      scans_seen (fun _ => e) k c no_triples (map (fun cs => (0%Z, cs)) (batches at_ 0 bs)) xss /\
      print_results mem (flat_map fst rs) = Ok (concat out) /\ Forall2 (result_line mem) (flat_map fst rs) out.
Proof.
  intros L F G Fr H. destruct (commands_read t ls L F) as [us [U P]]. exists us. split; [exact U|]. intros bs E D C K. rewrite P. cbn [fst]. rewrite E.
  exact (scans_print e k c s cl at_ bs mem G Fr H D C K).
Qed.
