(* Open, Close and the collective calls of several ranks *)
From Verif Require Import ModelBytes ProofBytes ModelElen ModelRoute SpecRoute ProofRoute ProofRoute2 ModelLife SpecLife ProofLife ProofLife2.
From Verif Require ProofStore.
From Coq Require Import Permutation.
Local Notation obind_ok := ProofStore.obind_ok.
Local Open Scope Z_scope.

Lemma memory o l rs h t : orderly (apart o) o l (Hx None) -> do_calls o l (Hx None) = Ok (rs, h, t) ->
  exists live, replay t [] = Some live /\ (h = Hx None -> live = []).
Proof.
  intros O E. destruct (steps o l (Hx None) rs h t Logic.I O E) as [I M].
  destruct (M [] (Permutation_refl _) (NoDup_nil _)) as (r & R & P & _). exists r. split; [exact R|]. intros ->. cbn [hown] in P.
  apply Permutation_nil. symmetry. exact P.
Qed.

(* ---- Init and Open ---- *)
Lemma init_open o k : do_calls o [CInit true k; COpen] (Hx None) =
  do (r, t) <- open o (Hx (Some (fresh true k true))); Ok ([HXHIM_SUCCESS; fst r], snd r, [New OPrivate; New ODsConfig; New OTrConfig] ++ t).
Proof.
  cbn [do_calls do_call init obind fst snd]. destruct (open o (Hx (Some (fresh true k true)))) as [[[rc h] t]| |]; [|reflexivity|reflexivity].
  cbn [obind fst snd]. rewrite app_nil_r. reflexivity.
Qed.
Lemma tr_ok_connects o k : tr_ok o k = true <-> connects o k.
Proof. unfold tr_ok, has_tr, connects. destruct (k_transport k), (o_transport o); cbn; intuition congruence. Qed.
Lemma st_ready o k l th tr : fits o k -> l = map Some (hosted (world o k) (o_rank o)) -> ready o k (st o k l tr (st_queues o k) (st_ranks o k) th).
Proof.
  intros (G & Hr) ->. pose proof (proj2 (totals (world o k) G)) as T. unfold ready. cbn [p_running p_queues p_ds_to_rank p_ds st].
  split; [reflexivity|]. split; [|split; [|reflexivity]].
  - intros kind id Hk Hid. unfold st_queues. exists (repeat [] (Z.to_nat (total_datastores (world o k)))). split.
    + rewrite nth_error_repeat by exact Hk. reflexivity.
    + rewrite nth_error_repeat by (rewrite T; lia). reflexivity.
  - intros r off id H. pose proof (hosts_offset _ _ _ _ G H) as (_ & Hid). apply hosts_spec in H; [|exact G]. destruct H as (A1 & A2 & A3 & A4).
    unfold st_ranks. rewrite nth_error_map, T, upto_nth by exact Hid. cbn [option_map]. f_equal. rewrite A4. apply ds_to_rank_spec; assumption.
Qed.
Lemma usable_opens o k id : usable o k id = true <-> k_open_init k = false \/ o_opens o id = true.
Proof. unfold usable. destruct (k_open_init k), (o_opens o id); cbn; intuition congruence. Qed.

Lemma open_healthy o k : healthy o k -> exists p t, do_calls o [CInit true k; COpen] (Hx None) = Ok ([HXHIM_SUCCESS; HXHIM_SUCCESS], Hx (Some p), t)
  /\ ready o k p /\ collectives t = tr_calls k ++ [Barrier].
Proof.
  intros (F & Op & Cn). rewrite init_open. destruct (open_spec o k F) as (l & ok & t1 & Cl & T & Fa & M & Eo). rewrite Eo.
  apply tr_ok_connects in Cn. rewrite Cn. destruct ok.
  - cbn [obind fst snd]. do 2 eexists. split; [reflexivity|]. split; [apply st_ready; [exact F|apply T; reflexivity]|].
    rewrite !collectives_app, Cl. cbn. rewrite <- app_assoc. unfold tr_calls, has_tr, is_async.
    destruct (k_transport k); destruct (k_async k =? 0); reflexivity.
  - destruct (Fa eq_refl) as (id & Hid & U). apply Op in Hid. unfold usable in U. rewrite Hid, orb_true_r in U. discriminate U.
Qed.

Lemma open_fails o k : fits o k -> k_async k = 0 ->
  (broken o k -> exists t, do_calls o [CInit true k; COpen] (Hx None) = Ok ([HXHIM_SUCCESS; open_rc EDatastore], Hx None, t))
  /\ (~ broken o k -> ~ connects o k -> exists t, do_calls o [CInit true k; COpen] (Hx None) = Ok ([HXHIM_SUCCESS; open_rc ETransport], Hx None, t)).
Proof.
  intros F A. rewrite init_open. destruct (open_spec o k F) as (l & ok & t1 & Cl & T & Fa & M & Eo). rewrite Eo.
  assert (B : forall e t, e <> EBootstrap -> exists t', open_fail e (st o k l false no_queues [] false) t = Ok (open_rc e, Hx None, t')).
  { intros e t He. unfold open_fail. assert (Ab : async_enabled (st o k l false no_queues [] false) = false).
    { unfold async_enabled. cbn [p_conf st]. rewrite A. reflexivity. }
    destruct (close_spec (st o k l false no_queues [] false) eq_refl) as (l' & E' & _). { intros X. rewrite Ab in X. discriminate X. }
    rewrite E'. destruct e; try (exfalso; apply He; reflexivity); cbn [p_comm st barrier obind fst snd]; eexists; reflexivity. }
  split.
  - intros (Hi & id & Hid & Bad). destruct ok.
    + destruct (T eq_refl) as [_ U]. specialize (U id Hid). apply usable_opens in U. destruct U; congruence.
    + destruct (B EDatastore t1) as (t' & E'); [discriminate|]. rewrite E'. cbn [obind fst snd]. eexists. reflexivity.
  - intros NB NC. destruct ok.
    + destruct (tr_ok o k) eqn:Et; [exfalso; apply NC, tr_ok_connects, Et|].
      destruct (B ETransport (t1 ++ tr_calls k)) as (t' & E'); [discriminate|]. rewrite E'. cbn [obind fst snd]. eexists. reflexivity.
    + exfalso. apply NB. destruct (Fa eq_refl) as (id & Hid & U). unfold usable in U. apply orb_false_iff in U. destruct U as [U1 U2].
      split; [destruct (k_open_init k); [reflexivity|discriminate U1]|]. exists id. auto.
Qed.
Lemma open_throws o k : fits o k -> k_async k <> 0 -> ~ connects o k \/ broken o k ->
  do_calls o [CInit true k; COpen] (Hx None) = Throw.
Proof.
  intros F A Bad. rewrite init_open. destruct (open_spec o k F) as (l & ok & t1 & Cl & T & Fa & M & Eo). rewrite Eo.
  assert (B : forall e t, e <> EBootstrap -> open_fail e (st o k l false no_queues [] false) t = Throw).
  { intros e t He. unfold open_fail. assert (Ab : async_enabled (st o k l false no_queues [] false) = true).
    { unfold async_enabled. cbn [p_conf st]. destruct (Z.eqb_spec (k_async k) 0); [contradiction|reflexivity]. }
    assert (C : close (Hx (Some (st o k l false no_queues [] false))) = Throw).
    { unfold close. cbn [p_comm set_running st barrier obind]. unfold destroy_async_puts.
      change (async_enabled (set_running (st o k l false no_queues [] false) false)) with (async_enabled (st o k l false no_queues [] false)).
      rewrite Ab. reflexivity. }
    rewrite C. destruct e; try (exfalso; apply He; reflexivity); reflexivity. }
  destruct ok; [destruct (tr_ok o k) eqn:Et|].
  - exfalso. destruct Bad as [Bad|(Hi & id & Hid & Bad)]; [apply Bad, tr_ok_connects, Et|].
    destruct (T eq_refl) as [_ U]. specialize (U id Hid). apply usable_opens in U. destruct U; congruence.
  - rewrite B by discriminate. reflexivity.
  - rewrite B by discriminate. reflexivity.
Qed.

(* ---- collective calls ---- *)
Lemma round_quiet p q q' t : round p q = Ok (q', t) -> collectives t = [].
Proof.
  intros E. unfold round in E. apply obind_ok in E. destruct E as ([[x y] m] & E1 & E).
  assert (K : forall m : list (Z * N), collectives (map (fun rn => Del (OPacket (snd rn))) m ++ map (fun n => Del (OPacket n)) y) = []).
  { intros m0. rewrite collectives_app. rewrite <- (map_map (fun rn : Z * N => OPacket (snd rn)) Del), <- (map_map OPacket Del), !collectives_dels. reflexivity. }
  destruct m as [|z m]; [|destruct (p_transport p); [|discriminate E]]; apply Ok_inj in E; cbn [fst snd] in E; injection E as <- <-; [apply (K [])|apply (K (z :: m))].
Qed.
Lemma rounds_quiet p : forall fuel q q' t, rounds fuel p q = Ok (q', t) -> collectives t = [].
Proof.
  induction fuel as [|fuel IH]; intros q q' t E; cbn [rounds] in E.
  - apply Ok_inj in E. injection E as <- <-. reflexivity.
  - destruct (forallb _ q); [apply Ok_inj in E; injection E as <- <-; reflexivity|]. apply obind_ok in E. destruct E as ([q1 t1] & E1 & E).
    apply obind_ok in E. destruct E as ([q2 t2] & E2 & E). apply Ok_inj in E. injection E as <- <-. rewrite collectives_app, (round_quiet _ _ _ _ E1), (IH _ _ _ E2). reflexivity.
Qed.
Lemma process_all_quiet p : forall qs qs' t, process_all p qs = Ok (qs', t) -> collectives t = [].
Proof.
  induction qs as [|q qs IH]; intros qs' t E; cbn [process_all] in E.
  - apply Ok_inj in E. injection E as <- <-. reflexivity.
  - apply obind_ok in E. destruct E as ([q1 t1] & E1 & E). apply obind_ok in E. destruct E as ([q2 t2] & E2 & E).
    apply Ok_inj in E. injection E as <- <-. rewrite collectives_app, (rounds_quiet _ _ _ _ _ E1), (IH _ _ E2). reflexivity.
Qed.

(* the session as far as the other ranks are concerned *)
Inductive astate := ANo | AIdle (k : conf) | ARun (k : conf).
Definition abs (h : handle) (a : astate) : Prop :=
  match a with
  | ANo => h = Hx None
  | AIdle k => h = Hx (Some (fresh true k true))
  | ARun k => exists p, h = Hx (Some p) /\ p_running p = true /\ p_comm p = true /\ p_conf p = k /\ (p_thread p = true -> async_enabled p = true)
  end.
Definition astep (c : call) (a : astate) : astate * list ev :=
  match c, a with
  | CInit true k, ANo => (AIdle k, [])
  | COpen, AIdle k => (ARun k, tr_calls k ++ [Barrier])
  | COpenOne, AIdle k => (ANo, [Barrier; Barrier])
  | CClose, (AIdle _ | ARun _) => (ANo, [Barrier])
  | CSync, ARun _ => (a, [Barrier])
  | CChange, ARun _ => (a, [Barrier; Barrier; Barrier])
  | CSetOption f, AIdle k => (AIdle (f k), [])
  | _, _ => (a, [])
  end.
Fixpoint asteps (l : list call) (a : astate) : list ev := match l with [] => [] | c :: l' => snd (astep c a) ++ asteps l' (fst (astep c a)) end.
Definition agood (P : conf -> Prop) (a : astate) : Prop := match a with AIdle k => P k | _ => True end.

Lemma flush_abs k p r t : p_running p = true -> p_comm p = true -> p_conf p = k -> (p_thread p = true -> async_enabled p = true) ->
  flush (Hx (Some p)) = Ok (r, t) -> collectives t = [] /\ exists p', snd r = Hx (Some p') /\ p_running p' = true /\ p_comm p' = true /\ p_conf p' = k /\ (p_thread p' = true -> async_enabled p' = true).
Proof.
  intros R C K T E. unfold flush in E. apply obind_ok in E. destruct E as ([qs t'] & E1 & E). apply Ok_inj in E. injection E as <- <-.
  split; [apply (process_all_quiet _ _ _ _ E1)|]. cbn [snd]. eexists. split; [reflexivity|]. split; [exact R|]. split; [exact C|]. split; [exact K|exact T].
Qed.
Lemma sync_abs k p r t : p_running p = true -> p_comm p = true -> p_conf p = k -> (p_thread p = true -> async_enabled p = true) ->
  sync (Hx (Some p)) = Ok (r, t) -> collectives t = [Barrier] /\ exists p', snd r = Hx (Some p') /\ p_running p' = true /\ p_comm p' = true /\ p_conf p' = k /\ (p_thread p' = true -> async_enabled p' = true).
Proof.
  intros R C K T E. unfold sync in E. cbn [started] in E. rewrite R in E. cbn [negb] in E. apply obind_ok in E. destruct E as ([r1 t1] & E1 & E).
  destruct (flush_abs k p r1 t1 R C K T E1) as (Q & p' & Er & R' & C' & K' & T'). cbn [snd] in E. rewrite Er in E. unfold barrier in E. rewrite C' in E. cbn [obind] in E.
  apply Ok_inj in E. injection E as <- <-. split; [rewrite collectives_app, Q; reflexivity|]. exists p'. split; [reflexivity|]. auto.
Qed.

Lemma abs_step (P : conf -> Prop) o c h a r t : (forall k, P k -> healthy o k) -> agood P a -> abs h a -> allowed P c h -> do_call o c h = Ok (r, t) ->
  abs (snd r) (fst (astep c a)) /\ agood P (fst (astep c a)) /\ collectives t = snd (astep c a).
Proof.
  intros HP G A L E. destruct c as [comm k| | | |q id new| | | | |f|]; cbn [do_call] in E.
  - destruct L as [-> L]. destruct comm; [|discriminate E]. apply Ok_inj in E. injection E as <- <-.
    destruct a as [|k0|k0]; cbn [abs] in A.
    + cbn [astep fst snd abs agood]. split; [reflexivity|]. split; [exact L|reflexivity].
    + discriminate A.
    + destruct A as (p & A & _). discriminate A.
  - destruct a as [|k|k]; cbn [abs] in A.
    + subst h. discriminate E.
    + subst h. destruct (open_healthy o k (HP k G)) as (p & t' & E' & Rd & C'). rewrite init_open, E in E'. cbn [obind fst snd] in E'. apply Ok_inj in E'.
      injection E' as E1 E2 E3. cbn [astep fst snd abs agood]. split; [|split; [exact Logic.I|]].
      * destruct (open_spec o k (proj1 (HP k G))) as (l & ok & t1 & Cl & T & Fa & M & Eo). rewrite Eo in E. rewrite E2.
        assert (Tc : tr_ok o k = true) by (apply tr_ok_connects; apply (HP k G)). rewrite Tc in E. destruct ok.
        -- apply Ok_inj in E. injection E as <- <-. cbn [snd] in E2. injection E2 as <-. eexists. split; [reflexivity|]. split; [reflexivity|]. split; [reflexivity|].
           split; [reflexivity|]. intros X. exact X.
        -- exfalso. apply open_fail_step with (a := owned (st o k l false no_queues [] false)) in E; [|discriminate|discriminate|]. { rewrite (proj1 E) in E2. discriminate E2. }
           exfalso. destruct (Fa eq_refl) as (id & Hid & U). destruct (HP k G) as (_ & Op & _). apply Op in Hid. unfold usable in U. rewrite Hid, orb_true_r in U. discriminate U.
      * subst t'. exact C'.
    + destruct A as (p & -> & R & C & K & T). unfold open in E. cbn [started] in E. rewrite R in E. apply Ok_inj in E. injection E as <- <-.
      cbn [astep fst snd abs agood]. split; [exists p; auto|]. split; [exact Logic.I|reflexivity].
  - destruct a as [|k|k]; cbn [abs] in A.
    + subst h. discriminate E.
    + subst h. cbn [astep fst snd abs agood]. destruct (Z.eq_dec (o_size o) 1) as [E1|N1].
      { rewrite open_one_ub in E; [discriminate E|reflexivity|reflexivity|exact (proj1 (proj2 (proj1 (HP k G))))|exact E1]. }
      unfold open_one in E. change (started (Hx (Some (fresh true k true)))) with false in E. cbv iota in E.
      change (init_bootstrap o (fresh true k true)) with (Some (set_comm (fresh true k true) true (o_rank o) (o_size o))) in E. cbv iota in E.
      cbn [p_size set_comm] in E. destruct (Z.eqb_spec (o_size o) 1); [contradiction|]. cbn [negb] in E.
      unfold open_one_fail in E. cbn [p_comm set_comm barrier obind] in E. apply obind_ok in E. destruct E as ([[rc h] t2] & E2 & E).
      apply Ok_inj in E. injection E as <- <-. apply close_moves in E2; [|intros X; discriminate X]. destruct E2 as (-> & _ & C2).
      split; [reflexivity|]. split; [exact Logic.I|]. cbn [app collectives filter collective]. f_equal. exact C2.
    + destruct A as (p & -> & R & C & K & T). unfold open_one in E. cbn [started] in E. rewrite R in E. apply Ok_inj in E. injection E as <- <-.
      cbn [astep fst snd abs agood]. split; [exists p; auto|]. split; [exact Logic.I|reflexivity].
  - destruct a as [|k|k]; cbn [abs] in A.
    + subst h. apply Ok_inj in E. injection E as <- <-. cbn [astep fst snd abs agood]. auto.
    + subst h. destruct r as [rc h]. apply close_moves in E; [|intros X; discriminate X]. destruct E as (-> & _ & C2). cbn [astep fst snd abs agood]. auto.
    + destruct A as (p & -> & R & C & K & T). destruct r as [rc h]. apply close_moves in E; [|exact T]. destruct E as (-> & _ & C2). cbn [astep fst snd abs agood]. auto.
  - destruct a as [|k|k]; cbn [abs] in A.
    + subst h. apply Ok_inj in E. injection E as <- <-. cbn [astep fst snd abs agood]. auto.
    + subst h. apply Ok_inj in E. injection E as <- <-. cbn [astep fst snd abs agood]. auto.
    + destruct A as (p & -> & R & C & K & T). unfold enqueue in E. rewrite R in E. cbn [negb] in E. destruct (id <? 0); [discriminate E|].
      destruct (nth_error (p_queues p) q) as [q0|]; [|discriminate E]. destruct (nth_error q0 (Z.to_nat id)); [|discriminate E].
      cbn [astep fst snd abs agood]. destruct (new || _).
      * destruct (upd q0 _ _); [|discriminate E]. destruct (upd (p_queues p) q _); [|discriminate E]. apply Ok_inj in E. injection E as <- <-. cbn [snd].
        split; [eexists; split; [reflexivity|auto]|]. split; [exact Logic.I|reflexivity].
      * apply Ok_inj in E. injection E as <- <-. split; [eexists; split; [reflexivity|auto]|]. split; [exact Logic.I|reflexivity].
  - destruct a as [|k|k]; cbn [abs] in A.
    + subst h. discriminate E.
    + subst h. apply Ok_inj in E. injection E as <- <-. cbn [astep fst snd abs agood]. auto.
    + destruct A as (p & -> & R & C & K & T). destruct (flush_abs k p r t R C K T E) as (Q & p' & Er & X). cbn [astep fst snd abs agood].
      split; [exists p'; split; [exact Er|exact X]|]. split; [exact Logic.I|exact Q].
  - destruct a as [|k|k]; cbn [abs] in A.
    + subst h. apply Ok_inj in E. injection E as <- <-. cbn [astep fst snd abs agood]. auto.
    + subst h. apply Ok_inj in E. injection E as <- <-. cbn [astep fst snd abs agood]. auto.
    + destruct A as (p & -> & R & C & K & T). destruct (sync_abs k p r t R C K T E) as (Q & p' & Er & X). cbn [astep fst snd abs agood].
      split; [exists p'; split; [exact Er|exact X]|]. split; [exact Logic.I|exact Q].
  - destruct a as [|k|k]; cbn [abs] in A.
    + subst h. apply Ok_inj in E. injection E as <- <-. cbn [astep fst snd abs agood]. auto.
    + subst h. apply Ok_inj in E. injection E as <- <-. cbn [astep fst snd abs agood]. auto.
    + destruct A as (p & -> & R & C & K & T). unfold change in E. cbn [started] in E. rewrite R in E. cbn [negb] in E. apply obind_ok in E. destruct E as ([r1 t1] & E1 & E).
      destruct (sync_abs k p r1 t1 R C K T E1) as (Q & p' & Er & X). cbn [snd] in E. rewrite Er in E. pose proof X as (_ & C' & _). unfold barrier in E. rewrite C' in E. cbn [obind] in E.
      apply Ok_inj in E. injection E as <- <-. cbn [astep fst snd abs agood]. split; [exists p'; split; [reflexivity|exact X]|]. split; [exact Logic.I|].
      rewrite collectives_app, Q. reflexivity.
  - apply Ok_inj in E. injection E as <- <-. destruct a; cbn [astep fst snd]; auto.
  - destruct a as [|k|k]; cbn [abs] in A.
    + subst h. apply Ok_inj in E. injection E as <- <-. cbn [astep fst snd abs agood]. auto.
    + subst h. apply Ok_inj in E. injection E as <- <-. cbn [astep fst snd abs agood]. split; [reflexivity|]. split; [apply L, G|reflexivity].
    + destruct A as (p & -> & R & C & K & T). unfold set_option in E. rewrite R in E. apply Ok_inj in E. injection E as <- <-.
      cbn [astep fst snd abs agood]. split; [exists p; auto|]. split; [exact Logic.I|reflexivity].
  - unfold results_destroy in E. destruct h as [|[p|]]; try discriminate E. apply Ok_inj in E. injection E as <- <-. destruct a; cbn [astep fst snd]; auto.
Qed.
Lemma astep_local c a : local c = true -> astep c a = (a, []).
Proof. destruct c, a; try discriminate; reflexivity. Qed.
Lemma abs_steps (P : conf -> Prop) o l : (forall k, P k -> healthy o k) -> forall h a rs h' t, agood P a -> abs h a -> orderly P o l h -> do_calls o l h = Ok (rs, h', t) ->
  collectives t = asteps (shared l) a.
Proof.
  intros HP. induction l as [|c l IH]; intros h a rs h' t G A O E; cbn [do_calls] in E.
  - apply Ok_inj in E. injection E as <- <- <-. reflexivity.
  - apply obind_ok in E. destruct E as ([r t1] & E1 & E). apply obind_ok in E. destruct E as ([[rs2 h2] t2] & E2 & E). apply Ok_inj in E. cbn [fst snd] in E. injection E as <- <- <-.
    destruct O as [L O]. destruct (abs_step P o c h a r t1 HP G A L E1) as (A1 & G1 & C1). rewrite collectives_app, C1, (IH _ _ _ _ _ G1 A1 (O r t1 E1) E2).
    unfold shared. cbn [filter]. destruct (local c) eqn:Lc; cbn [negb].
    + rewrite (astep_local c a Lc). reflexivity.
    + reflexivity.
Qed.
Lemma same_collectives (P : conf -> Prop) o1 o2 l1 l2 r1 h1 t1 r2 h2 t2 :
  (forall k, P k -> healthy o1 k /\ healthy o2 k) -> shared l1 = shared l2 ->
  orderly P o1 l1 (Hx None) -> orderly P o2 l2 (Hx None) ->
  do_calls o1 l1 (Hx None) = Ok (r1, h1, t1) -> do_calls o2 l2 (Hx None) = Ok (r2, h2, t2) -> collectives t1 = collectives t2.
Proof.
  intros HP S O1 O2 E1 E2.
  rewrite (abs_steps P o1 l1 (fun k H => proj1 (HP k H)) _ ANo _ _ _ Logic.I eq_refl O1 E1).
  rewrite (abs_steps P o2 l2 (fun k H => proj2 (HP k H)) _ ANo _ _ _ Logic.I eq_refl O2 E2). rewrite S. reflexivity.
Qed.
