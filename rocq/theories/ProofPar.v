(* Clients working at the same time: the requests of a Flush *)
From Verif Require Import ModelBytes ProofBytes ModelKey ModelWire ModelHist ModelMsg SpecMsg ModelStore ModelGetOp ModelDs
  SpecStore ProofStore ProofDs ProofDs2 ModelElen ModelRoute SpecRoute ProofRoute ProofRoute2 ModelClient SpecClient SpecCluster
  ProofClient ProofClient2 ProofClient3 ProofClient4 ProofClient5 ProofClient6 ProofCluster ProofCluster2 SpecGetOp ProofGetOp ProofGetOp2 SpecScan ProofScan ProofScan2 ModelPar SpecPar.
From Coq Require Import Sorted.
Local Open Scope N_scope.

(* ---- a client alone ---- *)
Lemma alone_app e t1 t2 : forall cl, alone e (t1 ++ t2) cl = do (cl1, xs) <- alone e t1 cl; do (cl2, ys) <- alone e t2 cl1; Ok (cl2, xs ++ ys).
Proof.
  induction t1 as [|t t1 IH]; intros cl; cbn [app alone obind].
  - destruct (alone e t2 cl) as [[cl2 ys]| |]; reflexivity.
  - destruct (match t_far t with [] => _ | _ => _ end) as [[cl1 xs]| |]; [|reflexivity|reflexivity]. cbn [obind].
    destruct (run_local e cl1 (t_near t)) as [[cl2 ys]| |]; [|reflexivity|reflexivity]. cbn [obind]. rewrite IH.
    destruct (alone e t1 cl2) as [[cl3 zs]| |]; [|reflexivity|reflexivity]. cbn [obind].
    destruct (alone e t2 cl3) as [[cl4 ws]| |]; [|reflexivity|reflexivity]. cbn [obind]. rewrite app_assoc. reflexivity.
Qed.
Lemma rounds_alone {A} e (wrap : list A -> body) : forall f qs cl, rounds f e wrap qs cl = alone e (rounds_tasks f e wrap qs) cl.
Proof.
  induction f as [|f IH]; intros qs cl; [reflexivity|]. cbn [rounds rounds_tasks]. destruct (remaining qs); [reflexivity|].
  destruct (pop wrap (e_rank e) 0 qs) as [ms qs']. cbn [alone round_task t_far t_near]. unfold round, round_task. cbn [t_far t_near].
  destruct (match remote_map e ms with [] => _ | _ => _ end) as [[cl1 xs]| |]; [|reflexivity|reflexivity]. cbn [obind].
  destruct (run_local e cl1 (filter (is_local e) ms)) as [[cl2 ys]| |]; [|reflexivity|reflexivity]. cbn [obind]. rewrite IH. reflexivity.
Qed.
Lemma flush_alone e s cl : flush e s cl = do (cl', xs) <- alone e (flush_tasks e s) cl; Ok (flushed s, cl', xs).
Proof.
  unfold flush, flush_puts, flush_gets, flush_getops, flush_dels, flush_hists, flush_tasks, process.
  rewrite !alone_app. rewrite !rounds_alone. fold (process_tasks e QPut (q_puts (s_qs s))).
  destruct (alone e (process_tasks e QPut (q_puts (s_qs s))) cl) as [[c1 x1]| |]; [|reflexivity|reflexivity]. cbn [obind fst snd].
  rewrite !alone_app, !rounds_alone. cbn [with_puts s_qs q_gets]. fold (process_tasks e QGet (q_gets (s_qs s))).
  destruct (alone e (process_tasks e QGet (q_gets (s_qs s))) c1) as [[c2 x2]| |]; [|reflexivity|reflexivity]. cbn [obind fst snd].
  rewrite !alone_app, !rounds_alone. cbn [with_puts with_gets s_qs q_getops]. fold (process_tasks e QGetOp (q_getops (s_qs s))).
  destruct (alone e (process_tasks e QGetOp (q_getops (s_qs s))) c2) as [[c3 x3]| |]; [|reflexivity|reflexivity]. cbn [obind fst snd].
  rewrite !alone_app, !rounds_alone. cbn [with_puts with_gets with_getops s_qs q_dels]. fold (process_tasks e QDel (q_dels (s_qs s))).
  destruct (alone e (process_tasks e QDel (q_dels (s_qs s))) c3) as [[c4 x4]| |]; [|reflexivity|reflexivity]. cbn [obind fst snd].
  rewrite !rounds_alone. cbn [with_puts with_gets with_getops with_dels s_qs q_hists]. fold (process_tasks e QHist (q_hists (s_qs s))).
  destruct (alone e (process_tasks e QHist (q_hists (s_qs s))) c4) as [[c5 x5]| |]; [|reflexivity|reflexivity]. reflexivity.
Qed.

(* ---- packets as operations ---- *)
Definition put_of (a : oper) := match a with OPut s p o => [put_req (s, p, o)] | _ => [] end.
Definition get_of (a : oper) := match a with OGet s p ty => [get_req (s, p, ty)] | _ => [] end.
Definition scan_of (a : oper) := match a with OScan t => [getop_req t] | _ => [] end.
Definition del_of (a : oper) := match a with ODel s p => [del_req (s, p)] | _ => [] end.
Definition body_of (n : nat) (l : list oper) : body :=
  match n with
  | O => QPut (flat_map put_of l) | 1%nat => QGet (flat_map get_of l) | 2%nat => QGetOp (flat_map scan_of l) | _ => QDel (flat_map del_of l)
  end.
Definition single_of (a : oper) : body :=
  match a with
  | OPut s p o => QPut [put_req (s, p, o)] | OGet s p ty => QGet [get_req (s, p, ty)] | OScan t => QGetOp [getop_req t]
  | ODel s p => QDel [del_req (s, p)]
  end.
Definition good_oper (e : env) (k : backend) (c : codec) (a : oper) : Prop :=
  match a with
  | OPut s p o => good_arg c s /\ good_arg c p /\ good_arg c o | OGet s p ty => good_arg c s /\ good_arg c p /\ u32 ty
  | OScan t => good_scan c t /\ steady e k t | ODel s p => good_arg c s /\ good_arg c p
  end.
Fixpoint effects (e : env) (k : backend) (c : codec) (M : tmap) (l : list oper) (M' : tmap) (xs : list result) : Prop :=
  match l with
  | [] => M' = M /\ xs = []
  | a :: l' => exists M1 x ys, effect e k c M a M1 x /\ effects e k c M1 l' M' ys /\ xs = x ++ ys
  end.

(* the answer to a steady GETOP is never an empty list *)
Lemma some_ne us l : (us <> [] -> l <> []) -> some_of us l <> Some [].
Proof. intros H. unfold some_of. destruct us; [discriminate|]. intros [= E]. apply H; [discriminate|exact E]. Qed.
Lemma first_ne n l : 1 <= n -> l <> [] -> first n l <> [].
Proof. intros Hn Hl. unfold first. destruct l; [congruence|]. destruct (N.to_nat n) eqn:E; [lia|]. discriminate. Qed.
Lemma steady_reply e k c t ts : good_scan c t -> steady e k t -> reply c ts (getop_req t) <> Some [].
Proof.
  destruct t as [[[[s p] ty] n] op]. intros (_ & _ & _ & _ & _ & Hn) H.
  assert (F : forall us l, (us <> [] -> l <> []) -> some_of us (first n l) <> Some []) by (intros us l Hl; apply some_ne; intros Hu; apply first_ne; auto).
  unfold reply. cbn [getop_req oi_op oi_num].
  destruct H as [->|[->|[->|(_ & [->|(-> & _)])]]]; cbn [N.eqb Pos.eqb GETOP_EQ GETOP_NEXT GETOP_PREV GETOP_FIRST GETOP_LAST].
  - apply some_ne. destruct (filter _ ts); [congruence|discriminate].
  - apply F. auto.
  - apply F. destruct (filter (over c _) ts); [congruence|discriminate].
  - apply F. auto.
  - apply F. intros Hu X. apply Hu. apply (f_equal (@rev _)) in X. rewrite rev_involutive in X. exact X.
Qed.

Section Served.
Context (e : env) (k : backend) (c : codec) (T : total_hash e).

Lemma oper_elsewhere id a m M M' xs : good_oper e k c a -> place e a <> id -> effect e k c M a M' xs -> part e id M m -> part e id M' m.
Proof.
  intros G Hp He Hm.
  assert (X : forall s p, good_arg c s -> good_arg c p -> at_ e s p <> id -> goesf e id (fa s) (fa p) = false).
  { intros s p Gs Gp Hn. destruct (at_total c e s p T Gs Gp) as (_ & Hg & _). rewrite <- goes_f, Hg. apply Z.eqb_neq, Hn. }
  destruct a as [s p o|s p ty|t|s p]; cbn [good_oper place effect] in *; destruct He as [-> _]; [|exact Hm|exact Hm|]; apply part_skip; try exact Hm; apply X; tauto.
Qed.
Lemma oper_named a M M' xs : good_oper e k c a -> effect e k c M a M' xs -> named M -> named M'.
Proof.
  intros G He N. destruct a as [s p o|s p ty|t|s p]; cbn [good_oper effect] in *; destruct He as [-> _]; [|exact N|exact N|]; apply named_set; try exact N.
  - intros _ _. split; eapply good_named; apply G.
  - discriminate.
Qed.
Lemma oper_served id a d m M : good_oper e k c a -> place e a = id -> at_ds k c d m -> part e id M m -> named M ->
  exists d' m' M' xs, effect e k c M a M' xs /\ serve_one (far e id) id d (single_of a) = Ok (d', xs) /\ at_ds k c d' m' /\ part e id M' m' /\
    (far e id = true -> fits_wire d [single_of a]).
Proof.
  intros G Hp Hd Hm N. destruct a as [s p o|s p ty|t|s p]; cbn [good_oper place single_of effect] in *.
  - destruct G as (Gs & Gp & Go). destruct (serve_put k c (far e id) id d m s p o Hd Gs Gp Go) as (d' & E & Hd' & F). subst id. exists d', (tset m (fa s) (fa p) (Some (fa o))).
    eexists _, _. split; [split; reflexivity|].
    split; [exact E|]. split; [exact Hd'|]. split; [apply part_set; [destruct (at_total c e s p T Gs Gp) as (_ & Hg & _); rewrite <- goes_f, Hg; apply Z.eqb_refl|exact Hm]|intros _; exact F].
  - destruct G as (Gs & Gp & Gt). destruct (serve_get k c (far e id) id d m s p ty Hd Gs Gp Gt) as (E & F).
    destruct (at_total c e s p T Gs Gp) as (_ & Hg & _). assert (G : goesf e id (fa s) (fa p) = true) by (rewrite <- goes_f, Hg, Hp; apply Z.eqb_refl).
    rewrite (part_at _ _ _ _ _ _ Hm G) in E. subst id. exists d, m. eexists _, _. split; [split; reflexivity|]. auto.
  - destruct G as (G & Ste). pose proof (fun ts => steady_reply e k c t ts G Ste) as Hne. destruct t as [[[[s p] ty] n] op]. destruct G as (Gs & Gp & Uty & Uop & Un & Hn).
    destruct Hd as (rws & Ed & Ha & Hfi). destruct (rows_contents _ _ _ Ha) as (ts & Hts & _).
    assert (Hd : at_ds k c d m) by (exists rws; auto). subst id.
    destruct (serve_scan k c (far e (at_ e s p)) (at_ e s p) d m ts s p ty n op Hd (named_part _ _ _ _ N Hm) Hts Gs Gp Uty Uop Un Hn) as (E & F).
    + intros ->. destruct Ste as [->|[->|[->|(_ & [->|(_ & X)])]]]; try discriminate X; split; discriminate.
    + intros Ho Hf. exfalso. destruct Ste as [->|[->|[->|(Hn' & _)]]]; [destruct Ho; discriminate..|]. congruence.
    + apply Hne.
    + exists d, m, M. eexists. split; [split; [reflexivity|]|].
      * exists ts. split; [|reflexivity]. eapply contents_ext; [|exact Hts]. intros s' p'. apply share_part, Hm.
      * split; [exact E|]. auto.
  - destruct G as (Gs & Gp). destruct (serve_del k c (far e id) id d m s p Hd Gs Gp) as (d' & m' & E & Hd' & Em & F).
    destruct (at_total c e s p T Gs Gp) as (_ & Hg & _). assert (G : goesf e id (fa s) (fa p) = true) by (rewrite <- goes_f, Hg, Hp; apply Z.eqb_refl).
    rewrite (part_at _ _ _ _ _ _ Hm G) in E. exists d', m'. eexists _, _. split; [split; reflexivity|]. split; [|split; [exact Hd'|split; [|intros _; exact F]]].
    + rewrite E. subst id. destruct (M (fa s) (fa p)); [|destruct k]; reflexivity.
    + eapply part_ext; [apply part_set; [exact G|exact Hm]|exact Em].
Qed.
Lemma opers_served id l : Forall (good_oper e k c) l -> Forall (fun a => place e a = id) l -> forall d m M, at_ds k c d m -> part e id M m -> named M ->
  exists d' m' M' xs, effects e k c M l M' xs /\ serve_all (far e id) id d (map single_of l) = Ok (d', xs) /\ at_ds k c d' m' /\ part e id M' m' /\
    (far e id = true -> fits_wire d (map single_of l)).
Proof.
  induction l as [|a l IH]; intros G P d m M Hd Hm N.
  - exists d, m, M, []. cbn [effects map serve_all fits_wire]. auto.
  - inversion G; subst. inversion P as [|? ? Pa Pl]; subst.
    destruct (oper_served (place e a) a d m M) as (d1 & m1 & M1 & x & X1 & E1 & Hd1 & Hm1 & F1); try assumption; [reflexivity|].
    destruct (IH H2 Pl d1 m1 M1 Hd1 Hm1 (oper_named _ _ _ _ H1 X1 N)) as (d2 & m2 & M2 & xs & X2 & E2 & Hd2 & Hm2 & F2).
    cbn [effects map serve_all]. exists d2, m2, M2, (x ++ xs). split; [exists M1, x, xs; auto|]. rewrite E1. cbn [obind]. rewrite E2. cbn [obind].
    split; [reflexivity|]. split; [exact Hd2|]. split; [exact Hm2|]. eapply serve_fits_cons; [exact E1|exact F1|exact F2].
Qed.
Lemma opers_elsewhere id l : Forall (good_oper e k c) l -> Forall (fun a => place e a <> id) l -> forall m M M' xs, effects e k c M l M' xs -> part e id M m -> part e id M' m.
Proof.
  induction l as [|a l IH]; intros G P m M M' xs He Hm; [destruct He as [-> _]; exact Hm|]. inversion G; subst. inversion P; subst.
  destruct He as (M1 & x & ys & He1 & He2 & _). eapply IH; [assumption..|exact He2|]. eapply oper_elsewhere; eassumption.
Qed.
Lemma opers_named l : Forall (good_oper e k c) l -> forall M M' xs, effects e k c M l M' xs -> named M -> named M'.
Proof.
  induction l as [|a l IH]; intros G M M' xs He N; [destruct He as [-> _]; exact N|]. inversion G; subst. destruct He as (M1 & x & ys & He1 & He2 & _).
  eapply IH; [assumption|exact He2|]. eapply oper_named; eassumption.
Qed.

(* a packet of one kind *)
Lemma puts_only l : Forall (fun a => phase a = 0%nat) l -> map single_of l = map (fun i => QPut [i]) (flat_map put_of l) /\ length (flat_map put_of l) = length l.
Proof. induction 1 as [|a l Ha _ [IH1 IH2]]; [auto|]. destruct a; try discriminate. cbn [map flat_map put_of app single_of length]. rewrite IH1, IH2. auto. Qed.
Lemma gets_only l : Forall (fun a => phase a = 1%nat) l -> map single_of l = map (fun i => QGet [i]) (flat_map get_of l) /\ length (flat_map get_of l) = length l.
Proof. induction 1 as [|a l Ha _ [IH1 IH2]]; [auto|]. destruct a; try discriminate. cbn [map flat_map get_of app single_of length]. rewrite IH1, IH2. auto. Qed.
Lemma scans_only l : Forall (fun a => phase a = 2%nat) l -> map single_of l = map (fun i => QGetOp [i]) (flat_map scan_of l) /\ length (flat_map scan_of l) = length l.
Proof. induction 1 as [|a l Ha _ [IH1 IH2]]; [auto|]. destruct a; try discriminate. cbn [map flat_map scan_of app single_of length]. rewrite IH1, IH2. auto. Qed.
Lemma dels_only l : Forall (fun a => phase a = 3%nat) l -> map single_of l = map (fun i => QDel [i]) (flat_map del_of l) /\ length (flat_map del_of l) = length l.
Proof. induction 1 as [|a l Ha _ [IH1 IH2]]; [auto|]. destruct a; try discriminate. cbn [map flat_map del_of app single_of length]. rewrite IH1, IH2. auto. Qed.
Lemma packet_join {A} n (wrap : list A -> body) (K : kind n wrap) f id d p d' xs : p <> [] -> u64 (N.of_nat (length p)) ->
  serve_all f id d (map (fun i => wrap [i]) p) = Ok (d', xs) -> (f = true -> fits_wire d (map (fun i => wrap [i]) p)) ->
  serve_one f id d (wrap p) = Ok (d', xs) /\ (f = true -> fits_wire d [wrap p]).
Proof.
  intros Hn Hu H F. split; [eapply join_packet; eassumption|]. intros Hf. change [wrap p] with (map wrap [p]). apply (fits_packets n wrap K).
  - constructor; [auto|constructor].
  - cbn [concat]. rewrite app_nil_r. apply F, Hf.
Qed.
Lemma packet_served id n l d m M : l <> [] -> u64 (N.of_nat (length l)) -> Forall (good_oper e k c) l -> Forall (fun a => place e a = id) l ->
  Forall (fun a => phase a = n) l -> at_ds k c d m -> part e id M m -> named M ->
  exists d' m' M' xs, effects e k c M l M' xs /\ serve_one (far e id) id d (body_of n l) = Ok (d', xs) /\ at_ds k c d' m' /\ part e id M' m' /\
    (far e id = true -> fits_wire d [body_of n l]).
Proof.
  intros Hn Hu G P Hph Hd Hm N. destruct (opers_served id l G P d m M Hd Hm N) as (d' & m' & M' & xs & X & E & Hd' & Hm' & F). exists d', m', M', xs.
  enough (Y : serve_one (far e id) id d (body_of n l) = Ok (d', xs) /\ (far e id = true -> fits_wire d [body_of n l])) by tauto.
  assert (Hcase : n = 0%nat \/ n = 1%nat \/ n = 2%nat \/ n = 3%nat).
  { destruct l as [|a l]; [congruence|]. inversion Hph; subst. destruct a; cbn [phase]; auto. }
  destruct Hcase as [ -> | [ -> | [ -> | -> ] ] ]; cbn [body_of].
  - destruct (puts_only l Hph) as [E1 L1]. rewrite E1 in E, F. apply (packet_join _ _ kind_put); try assumption.
    + intros Hx. rewrite Hx in L1. destruct l; [congruence|discriminate].
    + rewrite L1. exact Hu.
  - destruct (gets_only l Hph) as [E1 L1]. rewrite E1 in E, F. apply (packet_join _ _ kind_get); try assumption.
    + intros Hx. rewrite Hx in L1. destruct l; [congruence|discriminate].
    + rewrite L1. exact Hu.
  - destruct (scans_only l Hph) as [E1 L1]. rewrite E1 in E, F. apply (packet_join _ _ kind_getop); try assumption.
    + intros Hx. rewrite Hx in L1. destruct l; [congruence|discriminate].
    + rewrite L1. exact Hu.
  - destruct (dels_only l Hph) as [E1 L1]. rewrite E1 in E, F. apply (packet_join _ _ kind_del); try assumption.
    + intros Hx. rewrite Hx in L1. destruct l; [congruence|discriminate].
    + rewrite L1. exact Hu.
Qed.

(* ---- a request on the cluster ---- *)
Lemma stores_holds cl M : stores e k c cl M -> exists D, holds e cl D /\ forall id, an_id e id -> exists m, at_ds k c (D id) m /\ part e id M m.
Proof.
  intros St. destruct (choose e (fun id d => cl (rank_of e id) (id mod l_per (e_layout e))%Z = Some d /\ exists m, at_ds k c d m /\ part e id M m) (opened k c)) as [D HD].
  - intros id Hid. destruct (St id Hid) as (d & m & A & B). exists d. split; [exact A|]. exists m. exact B.
  - exists D. split; intros id Hid; apply HD, Hid.
Qed.
Lemma stores_set (S : setting e) cl M M' id d' m' : stores e k c cl M -> an_id e id -> at_ds k c d' m' -> part e id M' m' ->
  (forall j m, j <> id -> part e j M m -> part e j M' m) -> stores e k c (cl_set cl (fst (loc e id)) (snd (loc e id)) d') M'.
Proof.
  intros St Hid Hd Hm Ho j Hj. destruct (Z.eq_dec j id) as [->|Hn].
  - exists d', m'. split; [|auto]. unfold loc. cbn [fst snd]. apply cl_set_same.
  - destruct (St j Hj) as (d & m & A & B & C). exists d, m. split; [|split; [exact B|apply Ho; assumption]].
    rewrite cl_set_other; [exact A|]. intros X. apply Hn. apply (loc_inj e j id S Hj Hid). unfold loc in *. cbn [fst snd] in X. congruence.
Qed.
Definition req (n : nat) (x : Z * list oper) : msg := mkMsg (e_rank e) (fst x) (body_of n (snd x)).
Definition entry_ok (n : nat) (b : bool) (x : Z * list oper) : Prop :=
  an_id e (fst x) /\ far e (fst x) = b /\ snd x <> [] /\ u64 (N.of_nat (length (snd x))) /\
  Forall (fun a => good_oper e k c a /\ place e a = fst x /\ phase a = n) (snd x).
Lemma body_dir_of n l : body_dir (body_of n l) = 1.
Proof. destruct n as [|[|[|n]]]; reflexivity. Qed.
Lemma entry_served (S : setting e) (Co : connected e) cl M n b x : stores e k c cl M -> named M -> entry_ok n b x ->
  exists cl' M' xs, effects e k c M (snd x) M' xs /\ stores e k c cl' M' /\ named M' /\
    (b = false -> exists a, serve e cl (e_rank e) (req n x) = Ok (cl', a) /\ results_of a = Ok xs) /\
    (b = true -> exists route a, e_transport e = Some route /\ remote_call e route cl (rank_of e (fst x)) (req n x) = Ok (cl', Some a) /\
                   results_of a = Ok xs).
Proof.
  intros St N (Hid & Hb & Hn & Hu & HF). destruct x as [id l]. cbn [fst snd] in *. destruct (stores_holds cl M St) as (D & HD & HM). destruct (HM id Hid) as (m & Hd & Hm).
  assert (G : Forall (good_oper e k c) l /\ Forall (fun a => place e a = id) l /\ Forall (fun a => phase a = n) l).
  { rewrite !Forall_forall. rewrite Forall_forall in HF. split; [|split]; intros a Ha; apply HF, Ha. }
  destruct G as (G1 & G2 & G3). destruct (packet_served id n l (D id) m M Hn Hu G1 G2 G3 Hd Hm N) as (d' & m' & M' & xs & X & E & Hd' & Hm' & F). rewrite Hb in E, F.
  exists (cl_set cl (fst (loc e id)) (snd (loc e id)) d'), M', xs. split; [exact X|]. split; [|split; [eapply opers_named; eassumption|split]].
  - eapply stores_set; [exact S|exact St|exact Hid|exact Hd'|exact Hm'|]. intros j mj Hj Hp. eapply opers_elsewhere; [exact G1| |exact X|exact Hp].
    revert G2. apply Forall_impl. intros a Ha. congruence.
  - intros ->. apply (local_step e cl D (req n (id, l)) d' xs HD); cbn [req m_dst m_src m_body fst snd].
    + split; [exact Hid|]. split; [reflexivity|apply body_dir_of].
    + exact Hb.
    + exact E.
  - intros ->. destruct (Co id Hid Hb) as (route & Et & Er). exists route.
    destruct (far_step e route cl D (req n (id, l)) d' xs S HD) as (a & E1 & E2); cbn [req m_dst m_src m_body fst snd].
    + split; [exact Hid|]. split; [reflexivity|apply body_dir_of].
    + exact Er.
    + apply F. reflexivity.
    + exact E.
    + exists a. split; [exact Et|]. split; [exact E1|exact E2].
Qed.
End Served.
