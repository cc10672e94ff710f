(* The Thallium transport: the requests of clients are carried out *)
From Verif Require Import ModelBytes ProofBytes ModelKey ModelWire ModelHist ModelMsg SpecMsg ModelStore ModelGetOp ModelDs ModelElen ModelRoute
  SpecStore SpecRoute ModelClient SpecClient SpecCluster ModelPar SpecPar ModelThal SpecThal ModelThalServe SpecThal2.
From Verif Require Import ProofClient ProofCluster2 ProofScan ProofPar ProofPar2 ProofPar3 ProofPar4 ProofThal4.
From Verif Require ProofStore ProofDs.
Local Notation obind_ok := ProofStore.obind_ok.

Lemma handle_layout e e' r cl b : e_layout e = e_layout e' -> thal_handle e r cl b = thal_handle e' r cl b.
Proof. intros L. unfold thal_handle, serve. rewrite L. reflexivity. Qed.

Lemma asked_entry e k c x : good_client e -> asked e k c x -> exists n y, entry_ok e k c n true y /\ msg_pack (req e n y) = Ok (snd x) /\ fst x = rank_of e (fst y).
Proof.
  intros G (s & cl & cs & s1 & cl1 & oks & t & m & F & DC & Ste & SP & DO & T & M & P).
  destruct (calls_going e k c s cl cs G F DC Ste SP) as (s2 & oks2 & ts & D2 & _ & FT & GO). rewrite DO in D2. apply Ok_inj in D2. injection D2 as <- -> <-.
  rewrite FT in T. apply in_map_iff in T as (at_ & <- & T). unfold task_of in M. cbn [t_far] in M. apply in_map_iff in M as (y & M & Y). injection M as M1 M2.
  pose proof (go_tasks _ _ _ _ _ GO) as TK. rewrite Forall_forall in TK. destruct (TK _ T) as (E1 & _). rewrite Forall_forall in E1.
  exists (fst at_), y. split; [apply E1, Y|]. rewrite M2. split; [exact P|]. symmetry. exact M1.
Qed.

Section Real.
Context (E : Z -> env) (e0 : env) (k : backend) (c : codec) (eps : Z -> list (Z * Z)) (threads : list (Z * bool * list (Z * bytes))).
Context (C : clients E e0 k c eps threads).
Lemma real_sound : sound (thal_handle e0) thal_accept eps threads (fun cl => exists M, stores e0 k c cl M /\ named M).
Proof.
  intros me mn q dst b T Q. destruct (C _ _ _ T) as (G & SC & TR & AS). rewrite Forall_forall in AS. specialize (AS _ Q).
  destruct (asked_entry _ _ _ _ G AS) as (n & y & EN & PK & DS). cbn [fst snd] in PK, DS. subst dst.
  destruct G as (ST & TH & CO & _).
  destruct EN as (HI & HF & HR). destruct (CO _ HI HF) as (route & RT & RR). rewrite TR in RT. injection RT as <-. exists (rank_of (E me) (fst y)). split; [exact RR|].
  intros cl (M & SM & NM). pose proof (stores_same _ _ _ _ _ _ SC SM) as SM'.
  destruct (entry_served (E me) k c TH ST CO cl M n true y SM' NM (conj HI (conj HF HR))) as (cl' & M' & xs & _ & SM2 & NM2 & _ & X).
  destruct (X eq_refl) as (route & a & RT & RC & _). rewrite TR in RT. injection RT as <-.
  rewrite (thal_call _ _ _ _ _ _ RR) in RC. rewrite PK in RC. cbn [obind] in RC.
  rewrite (handle_layout e0 (E me)) by exact (proj1 SC).
  destruct (thal_handle (E me) (rank_of (E me) (fst y)) cl b) as [[cl2 b2]| |]; [|discriminate RC|discriminate RC]. cbn [obind fst snd] in RC.
  apply obind_ok in RC as (a' & UA & RC). apply Ok_inj in RC. injection RC as -> ->. exists cl', b2. split; [reflexivity|]. split.
  - unfold thal_accept. rewrite UA. reflexivity.
  - exists M'. split; [|exact NM2]. eapply stores_same; [exact (same_sym _ _ SC)|exact SM2].
Qed.

Context (debug : bool) (ranks : list Z) (cl : cluster) (H0 : holds e0 cl (fun _ => ProofDs.opened k c)).
Notation runs ls st := (run (thal_handle e0) thal_accept eps debug (started ranks threads cl) ls = Some st).
Lemma real_start : exists M, stores e0 k c cl M /\ named M.
Proof. exists no_triples. split; [apply opened_stores, H0|]. intros s p o E1. discriminate E1. Qed.
Lemma real_faults ls st : runs ls st -> n_fault st = None \/ n_fault st = Some Late \/ n_fault st = Some Gone.
Proof. apply (sound_faults _ _ _ _ _ _ _ _ real_sound real_start). Qed.
Lemma real_main ls st : (forall me m q, In (me, m, q) threads -> m = true /\ In me ranks) -> runs ls st -> n_fault st = None \/ n_fault st = Some Late.
Proof. apply (main_faults _ _ _ _ _ _ _ _ real_sound real_start). Qed.
Lemma real_open ls st : (forall j, ~ In (Close j) ls) -> runs ls st -> n_fault st = None.
Proof. apply (open_faults _ _ _ _ _ _ _ _ real_sound real_start). Qed.
Lemma real_answers ls st i t : runs ls st -> nth_error (n_thr st) i = Some t ->
  exists q done, nth_error threads i = Some (h_rank t, h_main t, q) /\ q = done ++ h_todo t /\
    Forall2 (fun '(dst, b) '(b', f) => b' = b /\ exists r m, f = Got r m /\ lookup dst (eps (h_rank t)) = Some r /\ thal_accept m = true) done (h_log t).
Proof. apply (sound_answers _ _ _ _ _ _ _ _ real_sound real_start). Qed.
End Real.
