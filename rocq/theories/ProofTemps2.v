(* a cluster whose clients put everything into datastore 0, with callbacks that need not give back what they were given *)
From Verif Require Import ModelBytes ProofBytes ModelKey ModelWire ModelHist ModelMsg SpecMsg ModelStore ModelGetOp ModelDs
  SpecStore ProofStore ProofDs ProofDs2 ModelElen ModelRoute SpecRoute ProofRoute ProofRoute2 ModelClient SpecClient SpecCluster
  ProofClient ProofClient2 ProofClient3 ProofClient4 ProofClient5 ProofClient6 ProofCluster ProofCluster2 SpecGetOp SpecLossy ProofLossy ModelFloat ModelTransform SpecElen SpecFp ModelLowest SpecTemps.
Local Open Scope N_scope.

Definition fit (c : codec) (a : arg) : Prop := given a = true /\ code c (ref_blob a) <> None /\ u64 (a_addr a) /\ blen (a_data a) < 2 ^ 32 /\ u32 (a_type a).
Definition fit3 (c : codec) (t : arg * arg * arg) : Prop := let '(s, p, o) := t in fit c s /\ fit c p /\ fit c o.
Definition put_reqs (l : list (arg * arg * arg)) : list body := map (fun i => QPut [i]) (map put_req l).
Definition all_triples (c : call) : list (arg * arg * arg) := match c with CPut s p o m => put_triples s p o m | _ => [] end.
Definition fit_put (c : codec) (x : call) : Prop := match x with CPut s p o _ => fit c s /\ fit c p /\ fit c o | _ => False end.

Lemma fit_given c a : fit c a -> (a_addr a =? 0) = false /\ a_data a <> [].
Proof.
  intros (G & _). unfold given in G. apply andb_true_iff in G as [A B]. apply negb_true_iff in A, B. split; [exact A|]. intros E. rewrite E in B. discriminate B.
Qed.
Lemma fit_seen c a : fit c a -> SpecMsg.seen (ref_blob a) = ref_blob a.
Proof. intros H. destruct (fit_given c a H) as [A B]. unfold SpecMsg.seen, ref_blob. cbn [b_data b_type]. rewrite A. destruct (a_data a); [congruence|reflexivity]. Qed.
Lemma fit_blob c a : fit c a -> blob_ok (ref_blob a).
Proof. intros H. destruct (fit_given c a H) as [A B]. destruct H as (_ & _ & _ & D & T). unfold blob_ok, ref_blob. cbn [b_null b_data b_type]. split; [exact A|]. split; [unfold u64; lia|exact T]. Qed.
Lemma fit_ref c a : fit c a -> ref_ok (rf a).
Proof. intros (_ & _ & A & D & T). unfold ref_ok, rf. cbn [r_addr r_len r_type]. split; [exact A|]. split; [unfold u64; lia|exact T]. Qed.
Lemma fit_enc c a : fit c a -> exists e, enc_blob c (ref_blob a) = Ok (Some e).
Proof. intros (_ & C & _). destruct (code c (ref_blob a)) as [f|] eqn:E; [|congruence]. exists (f_data f). apply enc_blob_code. rewrite E. f_equal. unfold code in E. destruct (c_enc c _ _ _) as [[x|]| |]; try discriminate E. injection E as <-. reflexivity. Qed.

Section Ds.
Context (k : backend) (c : codec).
Notation at0 := (fun r => mkDs k c true r []).
Lemma put_lossy rws t : fit3 c t -> exists rws', operate (at0 rws) (QPut [put_req t]) = Ok (at0 rws', Some (RPut [let '(s, p, _) := t in mkSt 1 (rf s) (rf p)])).
Proof.
  destruct t as [[s p] o]. intros (Fs & Fp & Fo). destruct (fit_enc c s Fs) as [es Es], (fit_enc c p Fp) as [ep Ep], (fit_enc c o Fo) as [eo Eo].
  assert (R : exists kv, put_row c (put_req (s, p, o)) = Ok (Some kv)).
  { unfold put_row, put_req. cbn [pi_sub pi_pred pi_obj]. rewrite Es. cbn [obind2]. rewrite Ep. cbn [obind2]. rewrite Eo. cbn [obind2]. eexists. reflexivity. }
  destruct R as [[ky vl] R]. exists (db_put ky vl rws). rewrite operate_put by reflexivity. cbn [d_kind d_codec d_rows d_hists].
  assert (Q : st_of_put (put_req (s, p, o)) ST_OK = mkSt 1 (rf s) (rf p)) by reflexivity.
  destruct k; cbn [bput].
  - cbn [im_bput]. rewrite R. cbn [obind]. rewrite track_nil. cbn [obind]. rewrite Q. reflexivity.
  - unfold ldb_bput. cbn [ldb_batch]. rewrite R. cbn [obind map]. rewrite track_nil. cbn [obind]. rewrite Q. reflexivity.
Qed.
Lemma put_same t : fit3 c t -> seen_body (QPut [put_req t]) = QPut [put_req t].
Proof.
  destruct t as [[s p] o]. intros (Fs & Fp & Fo). cbn [seen_body map put_req]. unfold seen_put. cbn [pi_sub pi_sub_addr pi_pred pi_pred_addr pi_obj].
  rewrite (fit_seen c s Fs), (fit_seen c p Fp), (fit_seen c o Fo). reflexivity.
Qed.
Lemma puts_lossy f id l : Forall (fit3 c) l -> forall rws, exists rws' xs rs,
  serve_all f id (at0 rws) (put_reqs l) = Ok (at0 rws', xs) /\ ds_run (at0 rws) (map CallReq (put_reqs l)) = Ok (at0 rws', rs) /\ fits_wire (at0 rws) (put_reqs l).
Proof.
  induction 1 as [|t l Ft _ IH]; intros rws; [exists rws, [], []; split; [reflexivity|]; split; [reflexivity|exact Logic.I]|].
  destruct (put_lossy rws t Ft) as [rws1 E1]. destruct (IH rws1) as (rws2 & xs & rs & E2 & E3 & E4). exists rws2.
  set (st := let '(s, p, _) := t in mkSt 1 (rf s) (rf p)) in *.
  exists (XPut id (status_ok (si_status st)) (si_sub st) (si_pred st) :: xs), (Some (RPut [st]) :: rs).
  unfold put_reqs in *. cbn [map]. split; [|split].
  - cbn [serve_all]. unfold serve_one. replace (if f then seen_body (QPut [put_req t]) else QPut [put_req t]) with (QPut [put_req t]) by (destruct f; [symmetry; apply put_same, Ft|reflexivity]).
    rewrite E1. cbn [obind]. replace (if f then seen_body (RPut [st]) else RPut [st]) with (RPut [st]) by (destruct f; reflexivity).
    cbn [results_of m_body m_src map obind]. rewrite E2. cbn [obind app]. reflexivity.
  - eapply run_cons; eassumption.
  - cbn [fits_wire]. rewrite (put_same t Ft). split.
    + split; [unfold u64; reflexivity|]. constructor; [|constructor]. destruct t as [[s p] o]. destruct Ft as (Fs & Fp & Fo).
      unfold put_ok, put_req. cbn [pi_sub pi_sub_addr pi_pred pi_pred_addr pi_obj].
      pose proof (fit_blob c s Fs). pose proof (fit_blob c p Fp). pose proof (fit_blob c o Fo). destruct Fs as (_ & _ & As & _), Fp as (_ & _ & Ap & _). auto.
    + eexists _, _. split; [exact E1|]. split; [|exact E4]. split; [unfold u64; reflexivity|]. constructor; [|constructor]. destruct t as [[s p] o]. destruct Ft as (Fs & Fp & _).
      split; [unfold int32; cbn; lia|]. split; eapply fit_ref; eassumption.
Qed.
End Ds.

Section Turn.
Context (e : env) (k : backend) (c : codec) (G : good_client e) (Z0 : always_0 e).
Notation at0 := (fun r => mkDs k c true r []).
Definition only0 (d : ds) : Z -> ds := fun id => if (id =? 0)%Z then d else opened k c.
Lemma zero_id : an_id e 0.
Proof. destruct G as (_ & T & _). destruct (T [] []) as (id & E & H); [reflexivity|reflexivity|]. rewrite Z0 in E. apply Ok_inj in E. subst id. exact H. Qed.
Lemma goes_0 id s p : goes e id s p = (id =? 0)%Z.
Proof. unfold goes, target. rewrite Z0. apply Z.eqb_sym. Qed.
Lemma placed_0 s p : placed e s p = true.
Proof. unfold placed, target. rewrite Z0. reflexivity. Qed.
Lemma while_all {A} (f : A -> bool) l : (forall a, In a l -> f a = true) -> while f l = l.
Proof. induction l as [|a l IH]; intros H; [reflexivity|]. cbn [while]. rewrite (H a (or_introl eq_refl)), IH; [reflexivity|]. intros b I. apply H. right. exact I. Qed.
Lemma filter_true {A} (f : A -> bool) l : (forall a, In a l -> f a = true) -> filter f l = l.
Proof. induction l as [|a l IH]; intros H; [reflexivity|]. cbn [filter]. rewrite (H a (or_introl eq_refl)), IH; [reflexivity|]. intros b I. apply H. right. exact I. Qed.
Lemma filter_false {A} (f : A -> bool) l : (forall a, In a l -> f a = false) -> filter f l = [].
Proof. induction l as [|a l IH]; intros H; [reflexivity|]. cbn [filter]. rewrite (H a (or_introl eq_refl)), IH; [reflexivity|]. intros b I. apply H. right. exact I. Qed.
Lemma fit_puts cs : Forall (fit_put c) cs -> flat_map (call_puts e) cs = flat_map all_triples cs /\ flat_map call_gets cs = [] /\ flat_map call_getops cs = [] /\
  flat_map call_dels cs = [] /\ flat_map (call_hists e) cs = [].
Proof.
  induction 1 as [|x cs Hx _ (A & B & C & D & H)]; [auto|]. cbn [flat_map]. rewrite A, B, C, D, H. destruct x; cbn [fit_put] in Hx; try contradiction.
  destruct Hx as ((Gs & _) & (Gp & _) & (Go & _)). cbn [call_puts call_gets call_getops call_dels call_hists all_triples app]. rewrite Gs, Gp, Go. cbn [andb].
  unfold one_put. rewrite while_all; [auto|]. intros [[a b] o'] _. apply placed_0.
Qed.
Lemma put_requests cs id : Forall (fit_put c) cs -> requests_to e id cs = if (id =? 0)%Z then put_reqs (flat_map all_triples cs) else [].
Proof.
  intros H. destruct (fit_puts cs H) as (A & B & C & D & Hh). unfold requests_to, puts_to, gets_to, getops_to, dels_to, hists_to. rewrite A, B, C, D, Hh. cbn [filter map]. rewrite app_nil_r.
  destruct (Z.eqb_spec id 0) as [->|N]; [rewrite filter_true; [reflexivity|]; intros [[a b] o] _; apply goes_0|].
  rewrite filter_false; [reflexivity|]. intros [[a b] o] _. rewrite goes_0. apply Z.eqb_neq, N.
Qed.
Lemma fit_triples cs : Forall (fit_put c) cs -> Forall (fit3 c) (flat_map all_triples cs).
Proof.
  induction 1 as [|x cs Hx _ IH]; [constructor|]. cbn [flat_map]. apply Forall_app. split; [|exact IH]. destruct x; cbn [fit_put] in Hx; try contradiction. destruct Hx as (Fs & Fp & Fo).
  cbn [all_triples]. unfold put_triples. apply Forall_flat_map. repeat (apply Forall_cons; [cbn [fst snd]; destruct (N.testbit _ _); [apply Forall_cons; [unfold fit3; auto|constructor]|constructor]|]). constructor.
Qed.
Lemma one_used (U : Z -> Prop) : (forall id, U id -> id = 0%Z) -> one_per_rank e U.
Proof. intros H i j _ _ Ui Uj _ _. rewrite (H i Ui), (H j Uj). reflexivity. Qed.
Lemma zero_defined : defined_hash e.
Proof. intros a b La Lb. exists 0%Z. split; [apply Z0|]. apply zero_id. Qed.
Lemma put_turn s cl cs rws : fresh e s -> holds e cl (only0 (at0 rws)) -> Forall (fit_put c) cs ->
  exists s1 oks s2 cl2 xs rws' rs, do_calls e s cl cs = Ok (s1, cl, oks) /\ flush e s1 cl = Ok (s2, cl2, xs) /\ fresh e s2 /\ holds e cl2 (only0 (at0 rws')) /\
    ds_run (at0 rws) (map CallReq (put_reqs (flat_map all_triples cs))) = Ok (at0 rws', rs).
Proof.
  intros F H Hc. destruct (puts_lossy k c (far e 0) 0 (flat_map all_triples cs) (fit_triples cs Hc) rws) as (rws' & xs0 & rs & E1 & E2 & E3).
  destruct G as (S & T & Co & Ops).
  destruct (calls_ok e S zero_defined Ops cs s cl (proj1 F) (fresh_sized e s F)) as [[[s1 cl1] oks] Ec].
  { revert Hc. apply Forall_impl. intros x Hx. destruct x; cbn [fit_put] in Hx; try contradiction. cbn [sane_call].
    assert (Q : forall a, fit c a -> sane a) by (intros a Fa; destruct (fit_given c a Fa) as [Na _]; split; [intros Ea; rewrite Ea in Na; discriminate Na|apply Fa]).
    destruct Hx as (? & ? & ?). auto. }
  { revert Hc. apply Forall_impl. intros x Hx. destruct x; cbn [fit_put] in Hx; try contradiction. exact Logic.I. }
  destruct (calls_then_flush e s cl cs s1 cl1 oks (only0 (at0 rws)) (only0 (at0 rws')) (fun id => if (id =? 0)%Z then xs0 else []) S F H) as (-> & s2 & cl2 & xs & Ef & F2 & _ & HH & _ & _ & _).
  - revert Hc. apply Forall_impl. intros x Hx. destruct x; cbn [fit_put] in Hx; try contradiction. exact Logic.I.
  - exact Ec.
  - destruct (fit_puts cs Hc) as (A & B & C & D & Hh). unfold spread, puts_to, gets_to, getops_to, dels_to, hists_to. rewrite A, B, C, D, Hh.
    split; [|repeat split; apply one_used; intros id Hn; destruct (Hn eq_refl)].
    apply one_used. intros id Hn. destruct (Z.eqb_spec id 0) as [|N]; [assumption|]. exfalso. apply Hn. rewrite filter_false; [reflexivity|].
    intros [[a b] o] _. rewrite goes_0. apply Z.eqb_neq, N.
  - intros id Hid Hf Hn. split; [apply Co; assumption|]. rewrite put_requests in * by exact Hc. unfold only0. destruct (id =? 0)%Z; [exact E3|exact Logic.I].
  - intros id Hid. rewrite put_requests by exact Hc. unfold only0. destruct (Z.eqb_spec id 0) as [->|]; [exact E1|reflexivity].
  - exists s1, oks, s2, cl2, xs, rws', rs. auto.
Qed.

(* GETOP by the rank of datastore 0 *)
Lemma ask_turn s cl d x y ty n op g rs : fresh e s -> holds e cl (only0 d) -> far e 0 = false -> given x = true -> sane x -> sane y ->
  asks d (getop_req (x, y, ty, n, op)) g -> getop_results 0 g = Ok rs -> Forall (fun r => from r = 0%Z) rs ->
  exists s1 oks s2 cl2, do_calls e s cl [CGetOp x y ty n op] = Ok (s1, cl, oks) /\ flush e s1 cl = Ok (s2, cl2, rs).
Proof.
  intros F H Far Gx Sx Sy A R O. pose proof zero_id as I0. destruct G as (S & T & Co & Ops).
  destruct (calls_ok e S zero_defined Ops [CGetOp x y ty n op] s cl (proj1 F) (fresh_sized e s F)) as [[[s1 cl1] oks] Ec].
  { constructor; [split; assumption|constructor]. } { repeat constructor. }
  assert (Rq : forall id, requests_to e id [CGetOp x y ty n op] = if (id =? 0)%Z then [QGetOp [getop_req (x, y, ty, n, op)]] else []).
  { intros id. unfold requests_to, puts_to, gets_to, getops_to, dels_to, hists_to. cbn [flat_map call_puts call_gets call_getops call_dels call_hists app filter map]. rewrite Gx. cbn [app filter].
    rewrite goes_0. destruct (id =? 0)%Z; reflexivity. }
  destruct (calls_then_flush e s cl [CGetOp x y ty n op] s1 cl1 oks (only0 d) (only0 d) (fun id => if (id =? 0)%Z then rs else []) S F H) as (-> & s2 & cl2 & xs & Ef & F2 & _ & HH & _ & B & P).
  - repeat constructor.
  - exact Ec.
  - unfold spread, puts_to, gets_to, getops_to, dels_to, hists_to. cbn [flat_map call_puts call_gets call_getops call_dels call_hists app filter map]. rewrite Gx. cbn [app filter].
    repeat split; apply one_used; intros id Hn; try (destruct (Hn eq_refl)). rewrite goes_0 in Hn. destruct (Z.eqb_spec id 0) as [|]; [assumption|]. destruct (Hn eq_refl).
  - intros id Hid Hf Hn. rewrite Rq in Hn. destruct (Z.eqb_spec id 0) as [->|]; [congruence|]. destruct (Hn eq_refl).
  - intros id Hid. rewrite Rq. unfold only0. destruct (Z.eqb_spec id 0) as [->|]; [|reflexivity]. cbn [serve_all]. rewrite Far. unfold serve_one. unfold asks in A. rewrite A. cbn [obind].
    cbn [results_of m_body m_src omap]. rewrite R. cbn [obind concat]. rewrite !app_nil_r. reflexivity.
  - exists s1, oks, s2, cl2. split; [exact Ec|]. rewrite Ef. do 2 f_equal. specialize (B 0%Z I0). cbn [Z.eqb] in B. rewrite <- B. symmetry. apply filter_true.
    intros r Ir. assert (In r (flat_map (fun id => if (id =? 0)%Z then rs else []) (upto (e_total e)))) as J by (eapply Permutation_in; eassumption).
    apply in_flat_map in J as (id & _ & J). destruct (id =? 0)%Z; [|destruct J]. rewrite Forall_forall in O. unfold of_id. rewrite (O r J). reflexivity.
Qed.
End Turn.
