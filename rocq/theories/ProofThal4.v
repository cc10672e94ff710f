(* The Thallium transport: theorems *)
From Verif Require Import ModelBytes ProofBytes ModelRoute ModelThal SpecThal ProofThal ProofThal2 ProofThal3.
From Verif Require ModelMsg SpecMsg ProofMsg ModelClient ModelThalServe ProofStore.
From Coq Require Import Permutation.
Local Open Scope nat_scope.
Local Notation obind_ok := ProofStore.obind_ok.

Section Thms.
Context {store : Type} (handle : Z -> store -> bytes -> outcome (store * bytes)) (accept : bytes -> bool) (eps : Z -> list (Z * Z)) (debug : bool).
Context (threads : list (Z * bool * list (Z * bytes))) (ranks : list Z) (s0 : store).
Notation step := (step handle accept eps debug).
Notation run := (run handle accept eps debug).
Notation runs ls st := (run (started ranks threads s0) ls = Some st).
Let reach ls st : runs ls st -> inv handle accept eps threads ranks s0 st /\ why handle accept eps debug st := reach handle accept eps debug threads ranks s0 ls st.

Lemma thal_memory ls st : runs ls st -> n_fault st <> Some UseAfterFree /\ n_fault st <> Some DoubleFree.
Proof. intros R. destruct (reach _ _ R) as [_ W]. unfold why in W. destruct (n_fault st) as [[]|]; (split; [discriminate|discriminate]) || destruct W. Qed.
Lemma own_finished (st : @net store) : finished st -> flat_map own (n_thr st) = [].
Proof.
  unfold finished. generalize (n_thr st) as l. intros l F. induction F as [|t l [_ A] F IH]; [reflexivity|]. cbn [flat_map]. rewrite IH. unfold own. rewrite A. reflexivity.
Qed.
Lemma thal_buffers ls st : runs ls st -> NoDup (map fst (n_heap st)) /\ (finished st -> Permutation (map fst (n_heap st)) (n_clean st)).
Proof.
  intros R. destruct (reach _ _ R) as [H _]. destruct (i_mem _ _ _ _ _ _ _ H) as [ND P]. split; [exact ND|]. intros F. rewrite P.
  rewrite (own_finished _ F). reflexivity.
Qed.
Lemma thal_answers ls st i t : runs ls st -> nth_error (n_thr st) i = Some t ->
  exists q done tail, nth_error threads i = Some (h_rank t, h_main t, q) /\ q = done ++ h_todo t /\ answered accept (eps (h_rank t)) done (h_log t) /\
    carried_for i (n_hist st) = reached (h_log t) ++ tail /\ length tail <= 1 /\ (h_at t = TIdle -> tail = []).
Proof.
  intros R E. destruct (reach _ _ R) as [H _]. destruct (i_thr _ _ _ _ _ _ _ H i t E) as (q & Q & (done & D & AN) & K).
  assert (X : exists tail, carried_for i (n_hist st) = reached (h_log t) ++ tail /\ length tail <= 1 /\ (h_at t = TIdle -> tail = [])).
  { unfold tok in K. destruct (h_at t); try (destruct K as (dst0 & b1 & todo0 & _ & _ & K)).
    1: exists []; rewrite app_nil_r; split; [exact K|]; split; [cbn; lia|reflexivity].
    all: try (exists []; rewrite app_nil_r; split; [exact (proj1 K)|]; split; [cbn; lia|discriminate]).
    all: try (destruct K as (m0 & K & _); eexists [_]; split; [exact K|]; split; [cbn; lia|discriminate]).
    all: eexists [_]; split; [exact K|]; split; [cbn; lia|discriminate]. }
  destruct X as (tail & X). exists q, done, tail. split; [exact Q|]. split; [exact D|]. split; [exact AN|exact X].
Qed.
Lemma thal_carried ls st : runs ls st -> carried handle s0 (n_hist st) (n_store st).
Proof. intros R. exact (i_carried _ _ _ _ _ _ _ (proj1 (reach _ _ R))). Qed.

(* ---- faults ---- *)
Lemma hist_step st l st' : step st l = Some st' -> Forall (fun x => fst (fst (fst x)) < length (n_thr st)) (n_hist st) ->
  length (n_thr st') = length (n_thr st) /\ Forall (fun x => fst (fst (fst x)) < length (n_thr st)) (n_hist st').
Proof.
  intros S F. unfold ModelThal.step in S. destruct (n_fault st); [discriminate S|]. destruct l as [i x|j|j].
  - unfold thr_step in S. destruct (nth_error (n_thr st) i) as [t|] eqn:E; [|discriminate S].
    pose proof (fun y => upd_length _ _ _ y E) as U.
    assert (B : i < length (n_thr st)) by (apply nth_error_Some; congruence).
    unfold there, alloc, dealloc, pull, read, fails in S. cbv zeta in S.
    repeat match type of S with match ?c with _ => _ end = Some _ => destruct c eqn:? | None = Some _ => discriminate S end.
    all: injection S as <-; cbn [with_thr with_heap with_clean served n_thr n_hist]; (split; [first [apply U|reflexivity]|]); try exact F.
    apply Forall_app. split; [exact F|]. constructor; [exact B|constructor].
  - unfold clean_step, dealloc, fails in S. 
    repeat match type of S with match ?c with _ => _ end = Some _ => destruct c eqn:? | None = Some _ => discriminate S end.
    all: injection S as <-; split; [reflexivity|exact F].
  - unfold close_step in S. cbv zeta in S.
    repeat match type of S with match ?c with _ => _ end = Some _ => destruct c eqn:? | None = Some _ => discriminate S end.
    all: injection S as <-; split; [reflexivity|exact F].
Qed.
Lemma hist_run ls : forall st st', run st ls = Some st' -> Forall (fun x => fst (fst (fst x)) < length (n_thr st)) (n_hist st) ->
  length (n_thr st') = length (n_thr st) /\ Forall (fun x => fst (fst (fst x)) < length (n_thr st)) (n_hist st').
Proof.
  induction ls as [|l ls IH]; intros st st' R F; cbn [ModelThal.run] in R; [injection R as <-; split; [reflexivity|exact F]|].
  destruct (step st l) as [st1|] eqn:S; [|discriminate R]. destruct (hist_step _ _ _ S F) as [L1 F1]. rewrite <- L1 in F1. destruct (IH _ _ R F1) as [L2 F2].
  rewrite L1 in *. split; [exact L2|exact F2].
Qed.
Lemma carried_for_in i h r b m : In (r, b, m) (carried_for i h) -> In (i, r, b, m) h.
Proof.
  unfold carried_for. intros I. apply in_flat_map in I as ([[[j r'] b'] m'] & I & J). destruct (Nat.eqb_spec j i) as [->|]; [|destruct J]. destruct J as [J|[]].
  injection J as -> -> ->. exact I.
Qed.
(* what was carried out was asked for *)
Lemma hist_asked ls st i r b m : runs ls st -> In (i, r, b, m) (n_hist st) ->
  exists me mn q dst, In (me, mn, q) threads /\ In (dst, b) q /\ lookup dst (eps me) = Some r.
Proof.
  intros R I. destruct (reach _ _ R) as [H _].
  assert (B : i < length (n_thr st)).
  { destruct (hist_run _ _ _ R) as [L F]; [constructor|]. rewrite Forall_forall in F. specialize (F _ I). cbn [fst] in F. lia. }
  destruct (nth_error (n_thr st) i) as [t|] eqn:E; [|apply nth_error_None in E; lia].
  destruct (i_thr _ _ _ _ _ _ _ H i t E) as (q & Q & (done & D & AN) & K). apply nth_error_In in Q.
  assert (J : In (r, b, m) (carried_for i (n_hist st))).
  { unfold carried_for. apply in_flat_map. exists (i, r, b, m). split; [exact I|]. rewrite Nat.eqb_refl. left. reflexivity. }
  exists (h_rank t), (h_main t), q.
  assert (X : In (r, b, m) (reached (h_log t)) \/ exists dst todo, h_todo t = (dst, b) :: todo /\ lookup dst (eps (h_rank t)) = Some r).
  { unfold tok in K. destruct (h_at t); [left; rewrite <- K; exact J|..]; destruct K as (dst0 & b1 & todo0 & T0 & L0 & K); cbn [target] in L0.
    all: try (left; rewrite <- (proj1 K); exact J).
    all: try (destruct K as (m0 & K & _)); rewrite K in J; apply in_app_or in J as [J|[J|[]]]; [left; exact J|].
    all: injection J as <- <- <-; right; exists dst0, todo0; split; [exact T0|exact L0]. }
  destruct X as [X|(dst & todo & T & L)].
  - clear - X AN D Q. assert (Y : exists dst, In (dst, b) done /\ lookup dst (eps (h_rank t)) = Some r).
    { clear D Q. unfold answered in AN. induction AN as [|[dst b0] [b1 f] l l' A AN IH]; [destruct X|]. unfold reached in X. cbn [flat_map] in X. apply in_app_or in X as [X|X].
      - destruct A as [-> A]. exists dst. destruct f as [|r0 m0|r0 m0]; [destruct X|..]; destruct X as [X|[]]; injection X as -> -> ->; (split; [left; reflexivity|exact (proj1 A)]).
      - destruct (IH X) as (d & I & L). exists d. split; [right; exact I|exact L]. }
    destruct Y as (dst & I & L). exists dst. split; [exact Q|]. split; [rewrite D; apply in_or_app; left; exact I|exact L].
  - exists dst. split; [exact Q|]. split; [rewrite D, T; apply in_or_app; right; left; reflexivity|exact L].
Qed.
Section Sound.
Context (I : store -> Prop) (SO : sound handle accept eps threads I) (I0 : I s0).
Lemma carried_kind h s : carried handle s0 h s ->
  (forall i r b m, In (i, r, b, m) h -> exists me mn q dst, In (me, mn, q) threads /\ In (dst, b) q /\ lookup dst (eps me) = Some r) ->
  I s /\ forall i r b m, In (i, r, b, m) h -> accept m = true.
Proof.
  intros C. revert I0. induction C as [s|s h s1 i r b m s2 C IH E]; intros I1 HA; [split; [exact I1|intros ? ? ? ? []]|].
  destruct IH as [IS AC]; [exact I1|intros i' r' b' m' J; eapply HA; apply in_or_app; left; exact J|].
  destruct (HA i r b m) as (me & mn & q & dst & Q1 & Q2 & L); [apply in_or_app; right; left; reflexivity|].
  destruct (SO _ _ _ _ _ Q1 Q2) as (r' & L' & X). assert (r' = r) as -> by congruence. destruct (X _ IS) as (s' & a & HD & AA & IS').
  rewrite E in HD. apply Ok_inj in HD. injection HD as <- <-. split; [exact IS'|]. intros i' r'' b' m' J. apply in_app_or in J as [J|[J|[]]]; [eapply AC; exact J|].
  injection J as <- <- <- <-. exact AA.
Qed.
Lemma thal_kind ls st : runs ls st -> I (n_store st) /\ forall i r b m, In (i, r, b, m) (n_hist st) -> accept m = true.
Proof. intros R. eapply carried_kind; [exact (thal_carried _ _ R)|]. intros i r b m J. exact (hist_asked _ _ _ _ _ _ R J). Qed.
Lemma sound_faults ls st : runs ls st -> n_fault st = None \/ n_fault st = Some Late \/ n_fault st = Some Gone.
Proof.
  intros R. destruct (reach _ _ R) as [H W]. unfold why in W. destruct (n_fault st) as [[]|]; [destruct W|destruct W| | |right; right; reflexivity|right; left; reflexivity|left; reflexivity].
  - destruct W as (_ & i & t & E & C). destruct (i_thr _ _ _ _ _ _ _ H i t E) as (q & Q & (done & D & _) & K). apply nth_error_In in Q. destruct C as [(A & dst & b & todo & T & L)|(r & d & m & A & AC)].
    + exfalso. destruct (SO _ _ _ dst b Q) as (r & L' & _); [rewrite D, T; apply in_or_app; right; left; reflexivity|]. congruence.
    + exfalso. unfold tok in K. rewrite A in K. destruct K as (dst & b & todo & T & L & K).
      assert (AA : accept m = true).
      { eapply (proj2 (thal_kind _ _ R) i r b m). apply carried_for_in. rewrite K. apply in_or_app. right. left. reflexivity. }
      congruence.
  - destruct W as (i & t & r & a & c & b & E & A & P & NH). destruct (i_thr _ _ _ _ _ _ _ H i t E) as (q & Q & (done & D & _) & K). apply nth_error_In in Q.
    exfalso. unfold tok in K. rewrite A in K. destruct K as (dst & b' & todo & T & L & _ & K). cbn [target] in L. assert (b' = b) as -> by congruence.
    destruct (SO _ _ _ dst b Q) as (r' & L' & X); [rewrite D, T; apply in_or_app; right; left; reflexivity|]. assert (r' = r) as -> by congruence.
    destruct (X _ (proj1 (thal_kind _ _ R))) as (s' & a' & HD & _). exact (NH _ HD).
Qed.
(* without background threads *)
Lemma main_faults ls st : (forall me m q, In (me, m, q) threads -> m = true /\ In me ranks) -> runs ls st ->
  n_fault st = None \/ n_fault st = Some Late.
Proof.
  intros AM R. destruct (sound_faults _ _ R) as [F|[F|F]]; [left; exact F|right; exact F|]. exfalso.
  destruct (reach _ _ R) as [H W]. unfold why in W. rewrite F in W. destruct W as (i & t & r & E & T & D).
  destruct (i_thr _ _ _ _ _ _ _ H i t E) as (q & Q & _). apply nth_error_In in Q. destruct (AM _ _ _ Q) as [M IR].
  rewrite <- (i_ranks _ _ _ _ _ _ _ H) in IR. apply in_map_iff in IR as ([r' x] & RE & IR). cbn [fst] in RE. subst r'.
  pose proof (i_past _ _ _ _ _ _ _ H _ _ _ _ D (or_intror eq_refl) IR) as NX.
  pose proof (i_main _ _ _ _ _ _ _ H _ _ t IR NX (nth_error_In _ _ E) eq_refl M) as ID. unfold idle in ID.
  destruct (h_todo t); [|discriminate ID]. destruct (h_at t); try discriminate ID. discriminate T.
Qed.
(* before Close *)
Lemma ranks_kept ls : forall st st', (forall j, ~ In (Close j) ls) -> run st ls = Some st' -> n_ranks st' = n_ranks st.
Proof.
  induction ls as [|l ls IH]; intros st st' NC R; cbn [ModelThal.run] in R; [injection R as <-; reflexivity|].
  destruct (step st l) as [st1|] eqn:S; [|discriminate R]. rewrite (IH st1 st' (fun j I => NC j (or_intror I)) R). clear IH R.
  unfold ModelThal.step in S. destruct (n_fault st); [discriminate S|]. destruct l as [i x|j|j]; [| |destruct (NC j (or_introl eq_refl))].
  - unfold thr_step, there, alloc, dealloc, pull, read, fails in S. cbv zeta in S.
    repeat match type of S with match ?c with _ => _ end = Some _ => destruct c eqn:? | None = Some _ => discriminate S end.
    all: injection S as <-; reflexivity.
  - unfold clean_step, dealloc, fails in S.
    repeat match type of S with match ?c with _ => _ end = Some _ => destruct c eqn:? | None = Some _ => discriminate S end.
    all: injection S as <-; reflexivity.
Qed.
Lemma open_faults ls st : (forall j, ~ In (Close j) ls) -> runs ls st -> n_fault st = None.
Proof.
  intros NC R. pose proof (ranks_kept _ _ _ NC R) as RK. cbn [started n_ranks] in RK.
  assert (ND : forall r, ~ In (r, RDown) (n_ranks st)) by (intros r J; rewrite RK in J; apply in_map_iff in J as (? & J & _); discriminate J).
  destruct (reach _ _ R) as [_ W]. unfold why in W. destruct (sound_faults _ _ R) as [F|[F|F]]; [exact F| |]; rewrite F in W.
  - destruct W as (r & d & _ & D). destruct (ND _ D).
  - destruct W as (i & t & r & _ & _ & D). destruct (ND _ D).
Qed.
(* every request that a thread is done with has a response that can be unpacked *)
Lemma sound_answers ls st i t : runs ls st -> nth_error (n_thr st) i = Some t ->
  exists q done, nth_error threads i = Some (h_rank t, h_main t, q) /\ q = done ++ h_todo t /\
    Forall2 (fun '(dst, b) '(b', f) => b' = b /\ exists r m, f = Got r m /\ lookup dst (eps (h_rank t)) = Some r /\ accept m = true) done (h_log t).
Proof.
  intros R E. destruct (thal_answers _ _ _ _ R E) as (q & done & tail & Q & D & AN & CF & _). exists q, done. split; [exact Q|]. split; [exact D|].
  destruct (thal_kind _ _ R) as [_ AC]. apply nth_error_In in Q.
  assert (SD : forall dst b, In (dst, b) done -> lookup dst (eps (h_rank t)) <> None).
  { intros dst b J. destruct (SO _ _ _ dst b Q) as (r & L & _); [rewrite D; apply in_or_app; left; exact J|]. congruence. }
  assert (SA : forall r b m, In (r, b, m) (reached (h_log t)) -> accept m = true).
  { intros r b m J. eapply (AC i r b m). apply carried_for_in. rewrite CF. apply in_or_app. left. exact J. }
  clear - AN SD SA. unfold answered in AN. induction AN as [|[dst b] [b' f] l l' A AN IH]; constructor.
  - destruct A as [-> A]. split; [reflexivity|]. destruct f as [|r m|r m].
    + destruct (SD dst b (or_introl eq_refl) A).
    + destruct A as [_ A]. rewrite (SA r b m) in A; [discriminate A|]. left. reflexivity.
    + exists r, m. split; [reflexivity|exact A].
  - apply IH; [intros dst' b'' J; apply (SD dst' b''); right; exact J|]. intros r b'' m J. apply (SA r b'' m). unfold reached. cbn [flat_map]. apply in_or_app. right. exact J.
Qed.
End Sound.

(* ---- no deadlock ---- *)
Lemma fresh (h : heap) (r : Z) : exists x, peek h (r, x) = None.
Proof.
  set (m := fold_right (fun y n => Nat.max (snd (fst y)) n) 0 h).
  assert (B : forall k b, In (k, b) h -> snd k <= m).
  { unfold m. clear m. induction h as [|[k0 b0] h IH]; intros k b I; [destruct I|]. cbn [fold_right fst]. destruct I as [I|I]; [injection I as -> ->; lia|]. specialize (IH _ _ I). lia. }
  exists (S m). apply peek_none. intros I. apply in_map_iff in I as ([k b] & K & I). cbn [fst] in K. subst k. specialize (B _ _ I). cbn [snd] in B. lia.
Qed.
Lemma idle_finished t : idle t = true -> h_todo t = [] /\ h_at t = TIdle.
Proof. unfold idle. destruct (h_todo t); [|discriminate]. destruct (h_at t); try discriminate. split; reflexivity. Qed.
Definition over (st : @net store) : Prop := finished st /\ n_heap st = [] /\ n_clean st = [] /\ Forall (fun x => snd x = RDown) (n_ranks st).
Lemma thr_moves st i t : inv handle accept eps threads ranks s0 st -> nth_error (n_thr st) i = Some t -> idle t = false -> exists x st', thr_step handle accept eps debug st i x = Some st'.
Proof.
  intros H E ID. destruct (i_thr _ _ _ _ _ _ _ H i t E) as (q & _ & _ & K).
  assert (GO : exists x, match thr_step handle accept eps debug st i x with Some _ => True | None => False end).
  { unfold thr_step. rewrite E. unfold there, alloc, dealloc, pull, read, fails. cbv zeta. unfold tok in K.
    destruct (h_at t) as [|r a|r a len|r a len|r a len c|r a c|r a m|r a d len|r a d len|r d len|r d len e|r d e|r d m] eqn:A.
    - destruct (h_todo t) as [|[dst b] todo] eqn:TD; [unfold idle in ID; rewrite TD, A in ID; discriminate ID|]. destruct (fresh (n_heap st) (h_rank t)) as [x X]. exists x.
      destruct (lookup dst (eps (h_rank t))); [rewrite X; exact Logic.I|]. destruct debug; exact Logic.I.
    - exists 0. match goal with |- context [peek ?h ?k] => destruct (peek h k) end; exact Logic.I.
    - exists 0. destruct (down st r); exact Logic.I.
    - destruct (fresh (n_heap st) r) as [x X]. exists x. destruct (down st r); [exact Logic.I|]. rewrite X. exact Logic.I.
    - exists 0. destruct (down st r); [exact Logic.I|]. match goal with |- context [peek ?h ?k] => destruct (peek h k) end; [|exact Logic.I]. destruct (_ <? _)%N; [exact Logic.I|]. match goal with |- context [peek ?h ?k] => destruct (peek h k) end; exact Logic.I.
    - exists 0. destruct (down st r); [exact Logic.I|]. match goal with |- context [peek ?h ?k] => destruct (peek h k) end; [|exact Logic.I]. destruct (handle _ _ _) as [[s m]| |]; exact Logic.I.
    - destruct (fresh (n_heap st) r) as [x X]. exists x. destruct (down st r); [exact Logic.I|]. rewrite X. exact Logic.I.
    - exists 0. destruct (down st r); exact Logic.I.
    - exists 0. match goal with |- context [peek ?h ?k] => destruct (peek h k) end; exact Logic.I.
    - destruct (fresh (n_heap st) (h_rank t)) as [x X]. exists x. rewrite X. exact Logic.I.
    - exists 0. destruct (down st r); [exact Logic.I|]. match goal with |- context [peek ?h ?k] => destruct (peek h k) end; [|exact Logic.I]. destruct (_ <? _)%N; [exact Logic.I|]. match goal with |- context [peek ?h ?k] => destruct (peek h k) end; exact Logic.I.
    - exists 0. match goal with |- context [peek ?h ?k] => destruct (peek h k) end; exact Logic.I.
    - exists 0. destruct K as (dst & b & todo & TD & _). rewrite TD. destruct (_ && debug)%bool; exact Logic.I. }
  destruct GO as [x GO]. exists x. destruct (thr_step _ _ _ _ st i x) as [st'|]; [exists st'; reflexivity|destruct GO].
Qed.
Lemma find_nth {A} (p : A -> bool) (l : list A) : forallb p l = true \/ exists i x, nth_error l i = Some x /\ p x = false.
Proof.
  induction l as [|a l IH]; [left; reflexivity|]. destruct (p a) eqn:P.
  - destruct IH as [IH|(i & x & E & X)]; [left; cbn [forallb]; rewrite P; exact IH|right; exists (S i), x; split; assumption].
  - right. exists 0, a. split; [reflexivity|exact P].
Qed.
Lemma progress st : inv handle accept eps threads ranks s0 st -> n_fault st = None -> (exists l st', step st l = Some st') \/ over st.
Proof.
  intros H NF. unfold ModelThal.step. rewrite NF. destruct (find_nth idle (n_thr st)) as [ID|(i & t & E & ID)].
  2: { left. destruct (thr_moves _ _ _ H E ID) as (x & st' & S). exists (Thr i x), st'. exact S. }
  pose proof (i_mem _ _ _ _ _ _ _ H) as M. destruct (n_clean st) as [|[r d] cl] eqn:CL.
  2: { left. exists (Clean 0). unfold clean_step. rewrite CL. cbn [nth_error]. unfold dealloc, fails. destruct (down st r); [eexists; reflexivity|]. destruct (peek _ _); eexists; reflexivity. }
  destruct (find_nth (fun x : Z * rstate => match snd x with RDown => true | _ => false end) (n_ranks st)) as [DN|(j & [r x] & E & X)].
  - right. rewrite forallb_forall in ID, DN.
    assert (F : finished st) by (apply Forall_forall; intros t I; apply idle_finished; exact (ID t I)).
    split; [exact F|]. split; [|split; [exact CL|]].
    + destruct M as [_ P]. rewrite app_nil_r in P. destruct (n_heap st) as [|y h]; [reflexivity|]. exfalso.
      rewrite (own_finished _ F) in P. symmetry in P. apply Permutation_nil in P. discriminate P.
    + apply Forall_forall. intros x I. pose proof (DN x I) as B. cbn beta in B. destruct (snd x); try discriminate B. reflexivity.
  - left. cbn [snd] in X.
    destruct (find_nth (fun x : Z * rstate => match snd x with RUp => false | _ => true end) (n_ranks st)) as [NU|(j' & [r' x'] & E' & X')].
    + exists (Close j). unfold close_step. rewrite E. destruct x; try discriminate X.
      * rewrite forallb_forall in NU. specialize (NU _ (nth_error_In _ _ E)). discriminate NU.
      * rewrite NU. eexists. reflexivity.
      * replace (forallb _ (n_thr st)) with true; [eexists; reflexivity|]. symmetry. rewrite forallb_forall in *. intros t I. rewrite (ID t I). apply Bool.orb_true_r.
    + exists (Close j'). unfold close_step. rewrite E'. cbn [snd] in X'. destruct x'; try discriminate X'.
      replace (forallb _ (n_thr st)) with true; [eexists; reflexivity|]. symmetry. rewrite forallb_forall in *. intros t I. rewrite (ID t I). apply Bool.orb_true_r.
Qed.
Lemma thal_stuck ls st : runs ls st -> n_fault st = None -> (forall l, step st l = None) -> over st.
Proof. intros R NF ST. destruct (progress _ (proj1 (reach _ _ R)) NF) as [(l & st' & S)|O]; [rewrite ST in S; discriminate S|exact O]. Qed.
Lemma run_app st ls st1 more st2 : run st ls = Some st1 -> run st1 more = Some st2 -> run st (ls ++ more) = Some st2.
Proof.
  revert st. induction ls as [|l ls IH]; intros st R1 R2; cbn [ModelThal.run app] in *; [injection R1 as ->; exact R2|].
  destruct (step st l); [|discriminate R1]. exact (IH _ R1 R2).
Qed.
Lemma thal_completes ls st : runs ls st -> exists more st', runs (ls ++ more) st' /\ (n_fault st' <> None \/ over st').
Proof.
  intros R. remember (cost st) as n eqn:N. revert ls st R N. induction n as [n IH] using (well_founded_induction lt_wf). intros ls st R N.
  destruct (n_fault st) eqn:NF.
  - exists [], st. rewrite app_nil_r. split; [exact R|]. left. congruence.
  - destruct (progress _ (proj1 (reach _ _ R)) NF) as [(l & st1 & S)|O].
    + assert (R1 : runs (ls ++ [l]) st1) by (eapply run_app; [exact R|]; cbn [ModelThal.run]; rewrite S; reflexivity).
      destruct (IH (cost st1) ltac:(subst n; eapply step_cost; exact S) _ _ R1 eq_refl) as (more & st' & R2 & F). exists (l :: more), st'.
      rewrite <- app_assoc in R2. split; [exact R2|exact F].
    + exists [], st. rewrite app_nil_r. split; [exact R|right; exact O].
Qed.
Lemma thal_bound ls st : runs ls st -> length ls <= 1 + 3 * length ranks + 14 * length (flat_map snd threads).
Proof.
  intros R. apply run_cost in R. unfold cost at 2 in R. unfold started in R. cbn [n_thr n_clean n_ranks n_fault length] in R.
  assert (A : sum (map left_ (map (fun '(r, m, q) => mkTh r m q TIdle []) threads)) = 14 * length (flat_map snd threads)).
  { clear. induction threads as [|[[r m] q] l IH]; [reflexivity|]. cbn [map sum fold_right flat_map snd]. rewrite app_length. unfold sum in IH. rewrite IH. unfold left_. cbn [h_at h_todo]. lia. }
  assert (B : sum (map todo_rank (map (fun r => (r, RUp)) ranks)) = 3 * length ranks).
  { clear. induction ranks as [|r l IH]; [reflexivity|]. cbn [map sum fold_right length]. unfold sum in IH. rewrite IH. cbn [todo_rank snd]. lia. }
  rewrite A, B in R. lia.
Qed.
End Thms.

(* ---- what the handlers do with the bytes ---- *)
Section Bytes.
Import ModelMsg SpecMsg ProofMsg ModelClient ModelThalServe.
(* one exchange does what the modelled call does *)
Lemma thal_call e route cl k m r : route k = Some r -> remote_call e route cl k m =
  obind (msg_pack m) (fun b => obind (thal_handle e r cl b) (fun x => obind (unpack_response (snd x)) (fun a => Ok (fst x, a)))).
Proof.
  intros E. unfold remote_call, thal_handle. rewrite E. destruct (msg_pack m) as [b| |]; [|reflexivity|reflexivity]. cbn [obind].
  destruct (unpack_request b) as [[q|]| |]; [|reflexivity|reflexivity|reflexivity]. cbn [obind]. destruct (serve e cl r q) as [[cl' m2]| |]; [|reflexivity|reflexivity]. cbn [obind].
  destruct (msg_pack m2) as [b2| |]; reflexivity.
Qed.
End Bytes.
