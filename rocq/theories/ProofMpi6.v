(* The MPI transport: theorems *)
From Verif Require Import ModelBytes ProofBytes ModelRoute ModelMpi SpecMpi ProofMpi ProofMpi2 ProofMpi3 ProofMpi4 ProofMpi5 ProofMpi7.
From Verif Require ModelMsg SpecMsg ProofMsg ModelClient ModelMpiServe SpecRoute ProofRoute ProofRoute2 ProofStore.
From Coq Require Import Permutation.
Local Open Scope nat_scope.
Local Notation obind_ok := ProofStore.obind_ok.

Section Thms.
Context {store : Type} (handle : Z -> store -> bytes -> outcome (store * (Z * bytes))).
Context (eager : payload -> bool) (okc : Z) (eps : Z -> list (Z * Z)).
Context (listeners : list Z) (clients : list (Z * list call)) (s0 : store).
Notation run := (run handle eager okc eps (started listeners clients s0)).
Context (IDS : ids_are_ranks eps) (ND : NoDup (map fst clients)).
Context (OK_ : forall me cs c, In (me, cs) clients -> In c cs -> call_ok handle me c).

Lemma all_ok : Forall (fun x => Forall (call_ok handle (fst x)) (snd x)) clients.
Proof. apply Forall_forall. intros [me cs] I. apply Forall_forall. intros c J. exact (OK_ _ _ _ I J). Qed.
Lemma reach ls st : run ls = Some st -> inv handle okc eps s0 clients st /\ safe handle st.
Proof. intros R. eapply run_inv; [exact IDS|apply inv_start; [exact ND|exact all_ok]|left; reflexivity|exact R]. Qed.
Lemma reach_k ls st : run ls = Some st -> kinv listeners st.
Proof. intros R. eapply kinv_run; [apply kinv_start|exact R]. Qed.

(* a request that fails is one of a client *)
Lemma mpi_faults ls st : run ls = Some st -> n_fault st = None \/
  (n_fault st = Some Failed /\ exists me c b cs k d, In (me, LGot c b) (n_lis st) /\ In (c, cs) clients /\ In k cs /\ In (d, b) k /\ lookup d (eps c) = Some me /\
     forall x, handle me (n_store st) b <> Ok x).
Proof.
  intros R. destruct (reach _ _ R) as [H [S|(S & me & c & b & I & U)]]; [left; exact S|right]. split; [exact S|].
  destruct (i_pairs _ _ _ _ _ _ H c me) as (tail & P & _).
  assert (V : view st c me = Some (b, TWait)).
  { pose proof (in_eng c me (n_lis st) (LGot c b) I (Z.eqb_refl c)) as J. destruct (pair_eng _ _ _ _ _ _ _ _ P) as [Q|[z Q]]; rewrite Q in J; [destruct J|].
    destruct J as [J|[]]. subst z. rewrite Q in P. inversion P. reflexivity. }
  unfold view in V. destruct (thread_of c (n_cli st)) as [th|] eqn:T; [|discriminate V]. destruct (thread_nth _ _ _ T) as [i E].
  destruct (inv_thread _ _ _ _ _ _ _ _ _ H E) as (calls & NE & _ & _ & (done & D1 & D2) & _).
  assert (X : exists sent n, In sent (cur (h_at th)) /\ locate me 0 sent = Some (n, b)).
  { unfold tview in V. destruct (h_at th) as [|l ks sent|ks sent|w lens sent|w got sent];
      [destruct (locate me 0 []) as [[? ?]|]; discriminate V| | | |]; (exists sent; destruct (locate me 0 sent) as [[n b']|]; [|discriminate V]; exists n;
      split; [left; reflexivity|]; congruence). }
  destruct X as (sent & n & J & L).
  assert (JT : In sent (map (targets okc eps c) done)) by (rewrite <- D2; apply in_or_app; right; exact J).
  apply in_map_iff in JT as (k & <- & JK). destruct (locate_some _ _ _ _ _ L) as [_ N]. apply nth_error_In in N. unfold targets in N.
  apply in_flat_map in N as ([d b'] & JD & N). destruct (MESSAGE_SUCCESS =? okc)%Z; [|destruct N]. destruct (lookup d (eps c)) as [r|] eqn:LK; [|destruct N].
  destruct N as [N|[]]. injection N as -> ->. exists me, c, b, calls, k, d. split; [exact I|]. split; [eapply nth_error_In; exact NE|].
  split; [rewrite D1; apply in_or_app; left; exact JK|]. split; [exact JD|]. split; [exact LK|exact U].
Qed.
Lemma mpi_carried ls st : run ls = Some st -> carried handle s0 (n_hist st) (n_store st).
Proof. intros R. apply (i_carried _ _ _ _ _ _ (proj1 (reach _ _ R))). Qed.
Lemma mpi_logs ls st i c th : run ls = Some st -> nth_error (n_cli st) i = Some (c, th) ->
  exists calls done, nth_error clients i = Some (c, calls) /\ calls = done ++ h_todo th /\
    map fst (h_log th) ++ cur (h_at th) = map (targets okc eps c) done /\
    Forall (fun x => Permutation (map fst (fst x)) (map (fun y => snd (fst y)) (snd x))) (h_log th) /\
    forall s, exists tail, exchanged c s (n_hist st) = completed s (h_log th) ++ tail /\ length tail <= 1 /\ (h_at th = CIdle -> tail = []).
Proof.
  intros R E. destruct (reach _ _ R) as [H _]. destruct (inv_thread _ _ _ _ _ _ _ _ _ H E) as (calls & NE & _ & _ & (done & D1 & D2) & F).
  exists calls, done. split; [exact NE|]. split; [exact D1|]. split; [exact D2|]. split; [exact F|].
  intros s. destruct (i_pairs _ _ _ _ _ _ H c s) as (tail & P & X). pose proof (thread_at _ _ _ _ (inv_nodup _ _ _ _ _ _ H) E) as T.
  unfold logs in X. unfold view in P. rewrite T in X, P. exists tail. split; [exact X|]. split; [inversion P; cbn; lia|].
  intros A. rewrite A in P. unfold tview in P. cbn [locate] in P. inversion P. reflexivity.
Qed.
Lemma mpi_done ls st : run ls = Some st -> ((forall p, eager p = true) /\ listening eps 1 listeners) \/ listening eps (length clients) listeners ->
  n_fault st = None -> (forall l, step handle eager okc eps st l = None) -> finished st.
Proof. intros R LI NF ST. destruct (reach _ _ R) as [H _]. exact (stuck_finished _ _ _ _ _ _ _ _ H (reach_k _ _ R) NF ST LI). Qed.
Lemma mpi_completes ls st : run ls = Some st -> ((forall p, eager p = true) /\ listening eps 1 listeners) \/ listening eps (length clients) listeners ->
  (forall me cs c d b r s, In (me, cs) clients -> In c cs -> In (d, b) c -> exists x, handle r s b = Ok x) ->
  exists more st', run (ls ++ more) = Some st' /\ finished st'.
Proof.
  intros R LI SV. destruct (run_on handle eager okc eps st) as (more & st' & R' & Z). pose proof (run_app _ _ _ _ _ _ _ _ _ R R') as R2.
  exists more, st'. split; [exact R2|]. eapply mpi_done; [exact R2|exact LI| |exact Z].
  destruct (mpi_faults _ _ R2) as [F|(_ & me & c & b & cs & k & d & _ & I1 & I2 & I3 & _ & U)]; [exact F|]. destruct (SV c cs k d b me (n_store st') I1 I2 I3) as [x X]. destruct (U x X).
Qed.
End Thms.

Lemma mpi_bound {store} (handle : Z -> store -> bytes -> outcome (store * (Z * bytes))) eager okc eps listeners clients s0 ls st :
  run handle eager okc eps (started listeners clients s0) ls = Some st ->
  length ls <= 1 + fold_right Nat.add 0 (map (fun c => 5 + 12 * length c) (flat_map snd clients)).
Proof. intros R. apply run_cost in R. rewrite (start_cost handle) in R by assumption. change (length ls <= 1 + sum (map call_cost (flat_map snd clients))). lia. Qed.

(* with the constant of the code nothing is sent *)
Section Nothing.
Context {store : Type} (handle : Z -> store -> bytes -> outcome (store * (Z * bytes))).
Context (eager : payload -> bool) (okc : Z) (eps : Z -> list (Z * Z)) (NE : okc <> MESSAGE_SUCCESS).
Definition silent (s0 : store) (st : @net store) : Prop :=
  n_pks st = [] /\ n_hist st = [] /\ n_store st = s0 /\ n_fault st = None /\ Forall (fun x => snd x = LTop) (n_lis st) /\
  Forall (fun x => Forall (fun y => y = ([], [])) (h_log (snd x)) /\
    match h_at (snd x) with CIdle => True | CSend l ks c => l = [] /\ c = [] | CWait ks c => c = [] | CSizes w lens c => w = [] /\ c = [] | CDatas w got c => w = [] /\ got = [] /\ c = [] end) (n_cli st).
Lemma targets_none me c : targets okc eps me c = [].
Proof.
  unfold targets. induction c as [|[d b] c IH]; [reflexivity|]. cbn [flat_map]. rewrite IH. destruct (Z.eqb_spec MESSAGE_SUCCESS okc); [congruence|reflexivity].
Qed.
Lemma silent_step s0 st l st' : silent s0 st -> step handle eager okc eps st l = Some st' -> silent s0 st'.
Proof.
  intros (P & Hh & Hs & Hf & L & C). unfold step. rewrite Hf. destruct l as [i c|i j].
  - unfold lis_step. destruct (nth_error (n_lis st) i) as [[me x]|] eqn:E; [|discriminate]. rewrite Forall_forall in L. pose proof (L _ (nth_error_In _ _ E)) as X. cbn in X. subst x.
    rewrite P. cbn [take]. discriminate.
  - unfold cli_step. destruct (nth_error (n_cli st) i) as [[me [todo a log]]|] eqn:E; [|discriminate].
    pose proof (proj1 (Forall_forall _ _) C _ (nth_error_In _ _ E)) as [LG A]. cbn [h_at h_log snd] in LG, A.
    assert (GO : forall y todo' log', Forall (fun y => y = ([], [])) log' -> match y with CIdle => True | CSend l ks c => l = [] /\ c = [] | CWait ks c => c = [] | CSizes w lens c => w = [] /\ c = [] | CDatas w got c => w = [] /\ got = [] /\ c = [] end ->
      silent s0 (with_cli st i me (mkTh todo' y log'))).
    { intros y todo' log' Y1 Y2. split; [exact P|]. split; [exact Hh|]. split; [exact Hs|]. split; [exact Hf|]. split; [exact L|]. cbn [with_cli n_cli].
      apply forall_set; [exact C|]. split; assumption. }
    destruct a as [|l ks sent|ks sent|w lens sent|w got sent].
    + destruct todo as [|c todo]; [discriminate|]. intros Q. injection Q as <-. rewrite targets_none. apply GO; [exact LG|split; reflexivity].
    + destruct A as [-> ->]. intros Q. injection Q as <-. apply GO; [exact LG|reflexivity].
    + subst sent. destruct (forallb (sent_k eager st) ks); [|discriminate]. intros Q. injection Q as <-. apply GO; [exact LG|split; reflexivity].
    + destruct A as [-> ->]. intros Q. injection Q as <-. apply GO; [exact LG|]. split; [|split; reflexivity]. cbn. destruct (length (post_sizes eps me [])); reflexivity.
    + destruct A as (-> & -> & ->). intros Q. injection Q as <-. apply GO; [|exact Logic.I]. apply Forall_app. split; [exact LG|]. constructor; [reflexivity|constructor].
Qed.
Lemma silent_run s0 ls : forall st st', silent s0 st -> run handle eager okc eps st ls = Some st' -> silent s0 st'.
Proof.
  induction ls as [|l ls IH]; intros st st' H E; cbn [run] in E.
  - injection E as <-. exact H.
  - destruct (step handle eager okc eps st l) as [st1|] eqn:E1; [|discriminate E]. exact (IH _ _ (silent_step _ _ _ _ H E1) E).
Qed.
Lemma silent_start s0 listeners clients : silent s0 (started listeners clients s0).
Proof.
  split; [reflexivity|]. split; [reflexivity|]. split; [reflexivity|]. split; [reflexivity|]. split; apply Forall_forall; intros x X; cbn [started n_lis n_cli] in X; apply in_map_iff in X.
  - destruct X as (r & <- & _). reflexivity.
  - destruct X as ([r cs] & <- & _). split; [constructor|exact Logic.I].
Qed.
Lemma mpi_nothing s0 listeners clients ls st : run handle eager okc eps (started listeners clients s0) ls = Some st ->
  n_pks st = [] /\ n_hist st = [] /\ n_store st = s0 /\ Forall (fun x => Forall (fun y => y = ([], [])) (h_log (snd x))) (n_cli st).
Proof.
  intros R. destruct (silent_run _ _ _ _ (silent_start s0 listeners clients) R) as (A & B & C & _ & _ & D). split; [exact A|]. split; [exact B|]. split; [exact C|].
  eapply Forall_impl; [|exact D]. intros x [X _]. exact X.
Qed.
End Nothing.

(* ---- layouts whose range servers are numbered like ranks ---- *)
Section Layouts.
Import SpecRoute ProofRoute ProofRoute2.
Local Open Scope Z_scope.
Lemma mpi_ids L group : good L -> l_cr L <= l_sr L \/ l_size L <= l_cr L -> ids_are_ranks (fun me => mpi_endpoints L me (group me)).
Proof.
  intros G HL me id r E. unfold mpi_endpoints in E.
  set (is_rs := fun r => negb (rs_is_in r (l_size L) (l_cr L) (l_sr L) =? 0)) in E.
  destruct (add_ids_lookup is_rs _ id (upto (l_size L)) 0 (upto_NoDup _) r E) as (pre & post & U & H1 & _ & H3).
  destruct (upto_pre _ _ _ _ U) as [-> Hv].
  assert (SP : forall a, 0 <= a < l_size L -> is_rs a = server L a).
  { intros a Ha. unfold is_rs, rs_is_in. destruct (Z.leb_spec (l_size L) a); [lia|]. apply is_server_spec; [exact G|lia]. }
  assert (C : Z.of_nat (length (filter is_rs (upto r))) = servers L r).
  { unfold servers. rewrite (filter_ext_in is_rs (server L)); [reflexivity|]. intros a Ha. apply upto_In in Ha. apply SP. lia. }
  rewrite SP in H1 by lia. pose proof (proj2 (servers_fixed L r G ltac:(lia) H1)) as F.
  assert (servers L r = r) as Q; [|lia]. apply F. destruct HL as [HL|HL]; [left; exact HL|right].
  unfold server in H1. rewrite Z.mod_small in H1 by lia. apply Z.ltb_lt in H1. exact H1.
Qed.
Lemma mpi_listening L group n ls : (forall r, 0 <= r < l_size L -> (n <= count_occ Z.eq_dec ls r)%nat) -> listening (fun me => mpi_endpoints L me (group me)) n ls.
Proof.
  intros H me id r E. unfold mpi_endpoints in E. destruct (add_ids_lookup _ _ id (upto (l_size L)) 0 (upto_NoDup _) r E) as (pre & post & U & _).
  destruct (upto_pre _ _ _ _ U) as [_ Hv]. apply H. exact Hv.
Qed.
End Layouts.

(* ---- what the threads do with the bytes ---- *)
Section Bytes.
Import ModelMsg SpecMsg ProofMsg ModelClient ModelMpiServe.
Lemma mpi_call_ok e me c : NoDup (map fst c) ->
  Forall (fun x => exists m, is_request m /\ msg_ok m /\ m_src m = me /\ msg_pack m = Ok (snd x)) c -> call_ok (mpi_handle e) me c.
Proof.
  intros ND F. split; [exact ND|]. eapply Forall_impl; [|exact F]. intros [d b] (m & Q & K & M & P) r s s' d' a E. cbn [snd] in *.
  destruct (request_wire m Q K) as (b' & P' & U & _). assert (b' = b) as -> by (apply Ok_inj; congruence). specialize (U []). rewrite app_nil_r in U.
  unfold mpi_handle in E. rewrite U in E. cbn [obind] in E. apply obind_ok in E as ([cl' m2] & S & E). apply obind_ok in E as (b2 & P2 & E).
  assert (m_dst m2 = d') as <- by congruence. unfold serve in S. destruct (s r _) as [dd|]; [|discriminate S]. apply obind_ok in S as ([d2 o] & _ & S).
  apply Ok_inj in S. injection S as _ <-. cbn [m_dst seen_msg m_src]. exact M.
Qed.
(* one exchange does what the modelled call of the other transport does *)
Lemma mpi_call e route cl k m r : route k = Some r -> remote_call e route cl k m =
  obind (msg_pack m) (fun b => obind (mpi_handle e r cl b) (fun x => obind (unpack_response (snd (snd x))) (fun a => Ok (fst x, a)))).
Proof.
  intros E. unfold remote_call, mpi_handle. rewrite E. destruct (msg_pack m) as [b| |]; [|reflexivity|reflexivity]. cbn [obind].
  destruct (unpack_request b) as [[q|]| |]; [|reflexivity|reflexivity|reflexivity]. cbn [obind]. destruct (serve e cl r q) as [[cl' m2]| |]; [|reflexivity|reflexivity]. cbn [obind].
  destruct (msg_pack m2) as [b2| |]; reflexivity.
Qed.
Lemma mpi_returned_none okc l x : okc <> MESSAGE_SUCCESS -> mpi_returned okc l = Ok x -> x = [].
Proof.
  intros N. revert x. induction l as [|b l IH]; intros x E; cbn [mpi_returned] in E; [apply Ok_inj in E; congruence|].
  apply obind_ok in E as (m & _ & E). apply obind_ok in E as (r & R & E). apply IH in R. subst r. destruct m as [m|]; [|apply Ok_inj in E; congruence].
  destruct (Z.eqb_spec MESSAGE_SUCCESS okc); [congruence|]. apply Ok_inj in E. congruence.
Qed.
End Bytes.
