(* The MPI transport: the invariant is kept *)
From Verif Require Import ModelBytes ProofBytes ModelRoute ModelMpi SpecMpi ProofMpi.
From Coq Require Import Permutation.
Local Open Scope N_scope.

Definition S_ (a : bytes) : payload := PSize (blen a).
(* one client and one server: what the client has done, the packets on the way (size and data of the request, of the answer),
   the listeners of the server that deal with the client, and what was served and has not been returned by the call *)
Inductive pair (c : Z) : option (bytes * tstate) -> list payload -> list payload -> list payload -> list payload -> list lstate -> list (bytes * bytes) -> Prop :=
| p_off : pair c None [] [] [] [] [] []
| p_all b : pair c (Some (b, TAll)) [] [] [] [] [] []
| p_b1 b : pair c (Some (b, TData)) [S_ b] [] [] [] [] []
| p_b2 b : pair c (Some (b, TData)) [] [] [] [] [LData c (blen b)] []
| p_w1 b : pair c (Some (b, TWait)) [S_ b] [PData b] [] [] [] []
| p_w2 b : pair c (Some (b, TWait)) [] [PData b] [] [] [LData c (blen b)] []
| p_w3 b : pair c (Some (b, TWait)) [] [] [] [] [LGot c b] []
| p_w4 b a : pair c (Some (b, TWait)) [] [] [] [] [LSend c [(RsSize, S_ a); (RsData, PData a)]] [(b, a)]
| p_w5 b a k p : pair c (Some (b, TWait)) [] [] [S_ a] [] [LWait k p c [(RsData, PData a)]] [(b, a)]
| p_w6 b a : pair c (Some (b, TWait)) [] [] [S_ a] [] [LSend c [(RsData, PData a)]] [(b, a)]
| p_w7 b a : pair c (Some (b, TWait)) [] [] [S_ a] [PData a] [] [(b, a)]
| p_l1 b a k p : pair c (Some (b, TLen (blen a))) [] [] [] [] [LWait k p c [(RsData, PData a)]] [(b, a)]
| p_l2 b a : pair c (Some (b, TLen (blen a))) [] [] [] [] [LSend c [(RsData, PData a)]] [(b, a)]
| p_l3 b a : pair c (Some (b, TLen (blen a))) [] [] [] [PData a] [] [(b, a)]
| p_done b a : pair c (Some (b, TDone a)) [] [] [] [] [] [(b, a)].

Definition thread_of (c : Z) (l : list (Z * thread)) : option thread := option_map snd (find (fun x => (fst x =? c)%Z) l).
Lemma thread_set l i me th th' c : NoDup (map fst l) -> nth_error l i = Some (me, th) ->
  thread_of c (firstn i l ++ (me, th') :: skipn (S i) l) = if (c =? me)%Z then Some th' else thread_of c l.
Proof.
  revert i. induction l as [|[r x] l IH]; intros [|i] D E; try discriminate E.
  - injection E as -> ->. cbn [firstn skipn app]. unfold thread_of. cbn [find fst]. rewrite (Z.eqb_sym c me). destruct (me =? c)%Z; reflexivity.
  - cbn [nth_error] in E. cbn [map fst] in D. inversion D as [|? ? N D']; subst.
    change (skipn (S (S i)) ((r, x) :: l)) with (skipn (S i) l). cbn [firstn app]. unfold thread_of in *. cbn [find fst].
    destruct (Z.eqb_spec r c) as [M|M].
    + destruct (Z.eqb_spec c me) as [M'|_]; [|reflexivity]. exfalso. apply N. rewrite M, M'. apply in_map_iff. exists (me, th). split; [reflexivity|]. eapply nth_error_In. exact E.
    + exact (IH i D' E).
Qed.
Lemma thread_at l i me th : NoDup (map fst l) -> nth_error l i = Some (me, th) -> thread_of me l = Some th.
Proof. intros D E. pose proof (thread_set l i me th th me D E) as T. rewrite <- (nth_split3 _ _ _ E), Z.eqb_refl in T. exact T. Qed.

Section Inv.
Context {store : Type} (handle : Z -> store -> bytes -> outcome (store * (Z * bytes))).
Context (eager : payload -> bool) (okc : Z) (eps : Z -> list (Z * Z)).
Context (s0 : store) (progs : list (Z * list call)).
Notation net := (@net store).

Definition tinv (me : Z) (calls : list call) (th : thread) : Prop :=
  wf handle eps me (h_at th) /\ Forall (call_ok handle me) (h_todo th) /\
  (exists done, calls = done ++ h_todo th /\ map fst (h_log th) ++ cur (h_at th) = map (targets okc eps me) done) /\
  Forall (fun x => Permutation (map fst (fst x)) (map (fun y => snd (fst y)) (snd x))) (h_log th).
Definition view (st : net) (c s : Z) : option (bytes * tstate) :=
  match thread_of c (n_cli st) with Some th => tview (h_at th) s | None => None end.
Definition logs (st : net) (c : Z) : list (call * list (nat * Z * bytes)) :=
  match thread_of c (n_cli st) with Some th => h_log th | None => [] end.
Definition pinv (st : net) (c s : Z) : Prop :=
  exists tail, pair c (view st c s) (chan c s RqSize (n_pks st)) (chan c s RqData (n_pks st)) (chan s c RsSize (n_pks st))
    (chan s c RsData (n_pks st)) (eng c s (n_lis st)) tail /\ exchanged c s (n_hist st) = completed s (logs st c) ++ tail.
Record inv (st : net) : Prop := {
  i_ranks : NoDup (map fst progs);
  i_cli : Forall2 (fun p x => fst p = fst x /\ tinv (fst p) (snd p) (snd x)) progs (n_cli st);
  i_pairs : forall c s, pinv st c s;
  i_carried : carried handle s0 (n_hist st) (n_store st) }.

Lemma forall2_ranks {A B} (P : Z * A -> Z * B -> Prop) l l' : Forall2 (fun p x => fst p = fst x /\ P p x) l l' -> map fst l' = map fst l.
Proof. induction 1 as [|p x l l' [E _] _ IH]; [reflexivity|]. cbn [map]. rewrite E, IH. reflexivity. Qed.
Lemma inv_nodup st : inv st -> NoDup (map fst (n_cli st)).
Proof. intros H. rewrite (forall2_ranks _ _ _ (i_cli _ H)). exact (i_ranks _ H). Qed.
Lemma inv_thread st i me th : inv st -> nth_error (n_cli st) i = Some (me, th) ->
  exists calls, nth_error progs i = Some (me, calls) /\ tinv me calls th.
Proof.
  intros H. generalize (i_cli _ H). generalize (n_cli st) as l. revert i. generalize progs as ps. intros ps i l F. revert i.
  induction F as [|[r c] [r' x] ps l [E T] _ IH]; intros [|i] N; try discriminate N.
  - injection N as -> ->. cbn [fst snd] in *. subst r. exists c. split; [reflexivity|exact T].
  - exact (IH i N).
Qed.
Lemma cli_set i me th' calls st : inv st -> nth_error progs i = Some (me, calls) -> tinv me calls th' ->
  Forall2 (fun p x => fst p = fst x /\ tinv (fst p) (snd p) (snd x)) progs (firstn i (n_cli st) ++ (me, th') :: skipn (S i) (n_cli st)).
Proof.
  intros H. generalize (i_cli _ H). generalize (n_cli st) as l. generalize progs as ps. intros ps l F. revert i.
  induction F as [|[r c] [r' x] ps l A F IH]; intros [|i] N T; try discriminate N.
  - injection N as -> ->. cbn [firstn skipn app]. constructor; [split; [reflexivity|exact T]|exact F].
  - change (skipn (S (S i)) ((r', x) :: l)) with (skipn (S i) l). cbn [firstn app]. constructor; [exact A|exact (IH i N T)].
Qed.

Lemma same_no f t g f' t' g' : (f = f' -> t = t' -> g = g' -> False) -> same3 f t g f' t' g' = false.
Proof. intros N. apply Bool.not_true_iff_false. rewrite same3_spec. intros (A & B & C). exact (N A B C). Qed.
Lemma two (c s c1 s1 : Z) : (c = c1 /\ s = s1) \/ (c = c1 -> s = s1 -> False).
Proof. destruct (Z.eq_dec c c1), (Z.eq_dec s s1); tauto. Qed.

(* ---- listeners ---- *)
Definition lis_fault (st st' : net) : Prop :=
  n_fault st' = n_fault st \/ (n_fault st' = Some Failed /\ exists me c b, In (me, LGot c b) (n_lis st') /\ forall x, handle me (n_store st') b <> Ok x).
Lemma view_same st st' c s : n_cli st' = n_cli st -> view st' c s = view st c s.
Proof. unfold view. intros ->. reflexivity. Qed.
Lemma logs_same st st' c : n_cli st' = n_cli st -> logs st' c = logs st c.
Proof. unfold logs. intros ->. reflexivity. Qed.

Ltac s3 := apply same_no; intros; congruence.
Ltac keep C := rewrite !C by (apply same_no; intros; first [congruence | tauto | intuition congruence]).

(* listener i, of rank me, changes from x to y; (c, me) is the only pair that is concerned *)
Lemma lis_pairs st i me x y c pks tick stor h :
  nth_error (n_lis st) i = Some (me, x) ->
  (forall c', c' <> c -> engaged c' x = false /\ engaged c' y = false) ->
  (forall f t g, ~ (f = c /\ t = me /\ (g = RqSize \/ g = RqData)) -> ~ (f = me /\ t = c /\ (g = RsSize \/ g = RsData)) -> chan f t g pks = chan f t g (n_pks st)) ->
  (forall c' s, ~ (c' = c /\ s = me) -> exchanged c' s h = exchanged c' s (n_hist st)) ->
  let st' := mkNet (firstn i (n_lis st) ++ (me, y) :: skipn (S i) (n_lis st)) (n_cli st) pks tick stor (n_fault st) h in
  inv st -> carried handle s0 h stor -> pinv st' c me -> inv st'.
Proof.
  intros E G C X st' H K P. constructor; [exact (i_ranks _ H)|exact (i_cli _ H)| |exact K].
  intros c' s. destruct (two c' s c me) as [ [-> ->] |N]; [exact P|].
  destruct (i_pairs _ H c' s) as (tail & A & B). exists tail. cbn [n_pks n_hist n_lis].
  rewrite (view_same st st' c' s) by reflexivity. rewrite (logs_same st st' c') by reflexivity. cbn [st' n_pks n_hist n_lis].
  rewrite !C; [|intuition congruence..]. rewrite (proj1 (eng_change _ _ _ x y E c' s)).
  - rewrite X by intuition congruence. split; [exact A|exact B].
  - destruct (Z.eq_dec me s) as [->|M]; [|left; exact M]. right. apply G. intros ->. apply N; reflexivity.
Qed.
Lemma other_tag f t g c me k l pks : take c me g pks = Some (k, l) -> ~ (f = c /\ t = me) -> chan f t g l = chan f t g pks.
Proof. intros T N. apply (chan_take _ _ _ _ _ _ T). apply same_no. intros -> -> _. apply N. split; reflexivity. Qed.

Lemma pair_size c v n l q1 q2 q3 e t : pair c v (PSize n :: l) q1 q2 q3 e t -> l = [] /\ q2 = [] /\ q3 = [] /\ e = [] /\ t = [] /\
  exists b, n = blen b /\ ((v = Some (b, TData) /\ q1 = []) \/ (v = Some (b, TWait) /\ q1 = [PData b])).
Proof. intros P. inversion P; subst; do 5 (split; [reflexivity|]); eexists; (split; [reflexivity|]); [left|right]; split; reflexivity. Qed.
Lemma pair_data c v q0 p l q2 q3 d n t : pair c v q0 (p :: l) q2 q3 [LData d n] t -> d = c /\
  q0 = [] /\ l = [] /\ q2 = [] /\ q3 = [] /\ t = [] /\ exists b, n = blen b /\ p = PData b /\ v = Some (b, TWait).
Proof. intros P. inversion P; subst. do 6 (split; [reflexivity|]). eexists. split; [reflexivity|]. split; reflexivity. Qed.
Lemma pair_got c v q0 q1 q2 q3 d b t : pair c v q0 q1 q2 q3 [LGot d b] t -> d = c /\
  q0 = [] /\ q1 = [] /\ q2 = [] /\ q3 = [] /\ t = [] /\ v = Some (b, TWait).
Proof. intros P. inversion P; subst. do 6 (split; [reflexivity|]). reflexivity. Qed.
Lemma pair_send c v q0 q1 q2 q3 d x l t : pair c v q0 q1 q2 q3 [LSend d (x :: l)] t -> d = c /\ q0 = [] /\ q1 = [] /\ q3 = [] /\
  exists b a, t = [(b, a)] /\
  ((x = (RsSize, S_ a) /\ l = [(RsData, PData a)] /\ v = Some (b, TWait) /\ q2 = []) \/
   (x = (RsData, PData a) /\ l = [] /\ ((v = Some (b, TWait) /\ q2 = [S_ a]) \/ (v = Some (b, TLen (blen a)) /\ q2 = [])))).
Proof.
  intros P. inversion P; subst; do 4 (split; [reflexivity|]); do 2 eexists; (split; [reflexivity|]); [left|right..];
    (split; [reflexivity|]); (split; [reflexivity|]); [|left|right]; split; reflexivity.
Qed.
Lemma pair_wait c v q0 q1 q2 q3 k p d x l t : pair c v q0 q1 q2 q3 [LWait k p d (x :: l)] t -> d = c /\ q0 = [] /\ q1 = [] /\ q3 = [] /\
  exists b a, t = [(b, a)] /\ x = (RsData, PData a) /\ l = [] /\ ((v = Some (b, TWait) /\ q2 = [S_ a]) \/ (v = Some (b, TLen (blen a)) /\ q2 = [])).
Proof.
  intros P. inversion P; subst; do 4 (split; [reflexivity|]); do 2 eexists; do 3 (split; [reflexivity|]); [left|right]; split; reflexivity.
Qed.
Lemma pair_eng c v q0 q1 q2 q3 e t : pair c v q0 q1 q2 q3 e t -> e = [] \/ exists z, e = [z].
Proof. intros P. inversion P; subst; first [left; reflexivity|right; eexists; reflexivity]. Qed.
Lemma eng_is (st : net) c s i x v q0 q1 q2 q3 t : nth_error (n_lis st) i = Some (s, x) -> engaged c x = true ->
  pair c v q0 q1 q2 q3 (eng c s (n_lis st)) t -> eng c s (n_lis st) = [x].
Proof.
  intros E G P. destruct (eng_change _ _ _ x x E c s) as (_ & A & _ & B). destruct (pair_eng _ _ _ _ _ _ _ _ P) as [N|[z Z]].
  - destruct (B eq_refl G N).
  - destruct (A eq_refl G z Z) as [-> _]. exact Z.
Qed.
Lemma eng_to (st : net) c s i x y : nth_error (n_lis st) i = Some (s, x) -> engaged c x = true -> eng c s (n_lis st) = [x] ->
  eng c s (firstn i (n_lis st) ++ (s, y) :: skipn (S i) (n_lis st)) = if engaged c y then [y] else [].
Proof. intros E G N. exact (proj2 (proj1 (proj2 (eng_change _ _ _ x y E c s)) eq_refl G x N)). Qed.
Lemma misfit_same b : misfit (blen b) b = None.
Proof. unfold misfit. rewrite N.ltb_irrefl. reflexivity. Qed.
Lemma engaged_self c y : match y with LData d _ | LGot d _ | LSend d (_ :: _) | LWait _ _ d (_ :: _) => d = c | _ => False end -> engaged c y = true.
Proof. destruct y as [|d n|d b|d [|? ?]|k p d [|? ?]]; intros G; try destruct G; cbn; apply Z.eqb_refl. Qed.
Lemma exchanged_app c s h h' : exchanged c s (h ++ h') = exchanged c s h ++ exchanged c s h'.
Proof. apply flat_map_app. Qed.

Lemma lis_inv st i c st' : inv st -> lis_step handle eager st i c = Some st' -> inv st' /\ lis_fault st st'.
Proof.
  intros H. unfold lis_step. destruct (nth_error (n_lis st) i) as [[me x]|] eqn:E; [|discriminate].
  destruct x as [|d n|d b|d l|k p d l].
  - (* a size *)
    destruct (take c me RqSize (n_pks st)) as [[[kf kt kg kk kl] l]|] eqn:T; [|discriminate].
    destruct kl as [n|b]; [|discriminate]. intros Q. injection Q as <-. split; [|left; reflexivity].
    destruct (chan_take _ _ _ _ _ _ T) as (_ & A & B). cbn [k_load] in A.
    apply (lis_pairs st i me LTop (LData c n) c l _ (n_store st) (n_hist st)); try assumption.
    + intros c' N. split; [reflexivity|]. cbn. apply Z.eqb_neq. congruence.
    + intros f t g N _. apply B. apply same_no. intros <- <- <-. tauto.
    + reflexivity.
    + exact (i_carried _ H).
    + destruct (i_pairs _ H c me) as (tail & P & O). exists tail. cbn [n_pks n_lis n_hist].
      split; [|exact O]. rewrite (B c me RqData), (B me c RsSize), (B me c RsData) by (apply same_no; intros; congruence).
      change (view _ c me) with (view st c me). rewrite A in P.
      destruct (pair_size _ _ _ _ _ _ _ _ _ P) as (-> & -> & -> & R & -> & b & -> & V).
      rewrite (proj1 (proj2 (proj2 (eng_change _ _ _ LTop (LData c (blen b)) E c me))) eq_refl eq_refl R), engaged_self by reflexivity.
      destruct V as [ [-> ->] | [-> ->] ]; [apply p_b2|apply p_w2].
  - (* the data *)
    destruct (i_pairs _ H d me) as (tail & P & O).
    assert (G : engaged d (LData d n) = true) by (apply engaged_self; reflexivity).
    pose proof (eng_is _ _ _ _ _ _ _ _ _ _ _ E G P) as W. rewrite W in P.
    destruct (take d me RqData (n_pks st)) as [[[kf kt kg kk kl] l]|] eqn:T; [|discriminate].
    destruct (chan_take _ _ _ _ _ _ T) as (_ & A & B). cbn [k_load] in A. rewrite A in P.
    destruct (pair_data _ _ _ _ _ _ _ _ _ _ P) as (_ & R0 & R1 & R2 & R3 & -> & b & -> & -> & V). rewrite misfit_same.
    intros Q. injection Q as <-. split; [|left; reflexivity].
    apply (lis_pairs st i me _ (LGot d b) d l _ (n_store st) (n_hist st) E); try assumption.
    + intros c' N. cbn. split; apply Z.eqb_neq; congruence.
    + intros f t g N _. apply B. apply same_no. intros <- <- <-. tauto.
    + reflexivity.
    + exact (i_carried _ H).
    + exists []. cbn [n_pks n_lis n_hist]. split; [|exact O]. change (view _ d me) with (view st d me).
      rewrite (B d me RqSize), (B me d RsSize), (B me d RsData) by (apply same_no; intros; congruence).
      rewrite (eng_to _ _ _ _ _ (LGot d b) E G W), engaged_self by reflexivity. rewrite R0, R1, R2, R3, V. apply p_w3.
  - (* served *)
    destruct (i_pairs _ H d me) as (tail & P & O).
    assert (G : engaged d (LGot d b) = true) by (apply engaged_self; reflexivity).
    pose proof (eng_is _ _ _ _ _ _ _ _ _ _ _ E G P) as W. rewrite W in P.
    destruct (pair_got _ _ _ _ _ _ _ _ _ P) as (_ & R0 & R1 & R2 & R3 & -> & V).
    assert (F : n_fault (fails st Failed) = Some Failed /\ exists me' c' b', In (me', LGot c' b') (n_lis (fails st Failed)) /\ n_store (fails st Failed) = n_store st /\ me' = me /\ b' = b).
    { split; [reflexivity|]. exists me, d, b. split; [|split; [reflexivity|split; reflexivity]]. eapply nth_error_In. exact E. }
    assert (Fi : inv (fails st Failed)). { constructor; [exact (i_ranks _ H)|exact (i_cli _ H)|exact (i_pairs _ H)|exact (i_carried _ H)]. }
    destruct (handle me (n_store st) b) as [ [s' [d' a]] | | ] eqn:S; cycle 1.
    { intros Q. injection Q as <-. split; [exact Fi|]. right. destruct F as (F1 & m' & c' & b' & F2 & F3 & -> & ->). split; [exact F1|].
      exists me, c', b. split; [exact F2|]. rewrite F3, S. discriminate. }
    { intros Q. injection Q as <-. split; [exact Fi|]. right. destruct F as (F1 & m' & c' & b' & F2 & F3 & -> & ->). split; [exact F1|].
      exists me, c', b. split; [exact F2|]. rewrite F3, S. discriminate. }
    assert (d' = d) as ->.
    { unfold view in V. destruct (thread_of d (n_cli st)) as [th|] eqn:TH; [|discriminate V].
      assert (exists j, nth_error (n_cli st) j = Some (d, th)) as [j J].
      { unfold thread_of in TH. destruct (find _ (n_cli st)) as [[r y]|] eqn:FD; [|discriminate TH]. injection TH as ->.
        apply find_some in FD. destruct FD as [I Z]. apply Z.eqb_eq in Z. cbn in Z. subst r. apply In_nth_error in I. exact I. }
      destruct (inv_thread _ _ _ _ H J) as (calls & _ & WF & _).
      assert (exists sent i0, known handle eps d sent /\ locate me 0 sent = Some (i0, b)) as (sent & i0 & K & L).
      { unfold tview in V. destruct (h_at th) as [|l ks sent|ks sent|w lens sent|w got sent]; cbn [wf] in WF; cbn zeta in V;
          [discriminate V|..]; exists sent; destruct (locate me 0 sent) as [[i0 b0]|]; try discriminate V; injection V; intros; subst b0;
          exists i0; (split; [tauto|reflexivity]). }
      destruct (known_found _ _ _ _ _ _ _ K L) as (_ & _ & AS). exact (AS _ _ _ _ _ S). }
    intros Q. injection Q as <-. split; [|left; reflexivity].
    apply (lis_pairs st i me _ (LSend d [(RsSize, PSize (blen a)); (RsData, PData a)]) d (n_pks st) (n_tick st) s' (n_hist st ++ [(d, me, b, a)]) E); try assumption.
    + intros c' N. cbn. split; apply Z.eqb_neq; congruence.
    + reflexivity.
    + intros c' s N. rewrite exchanged_app. cbn. destruct (Z.eqb_spec d c') as [<-|M]; [|cbn; apply app_nil_r].
      destruct (Z.eqb_spec me s) as [<-|M]; [tauto|]. cbn. apply app_nil_r.
    + exact (carried_snoc _ _ _ _ _ _ _ _ _ _ (i_carried _ H) S).
    + exists [(b, a)]. cbn [n_pks n_lis n_hist]. change (view _ d me) with (view st d me). change (logs _ d) with (logs st d).
      rewrite (eng_to _ _ _ _ _ _ E G W), engaged_self by reflexivity. rewrite R0, R1, R2, R3, V. split; [apply p_w4|].
      rewrite exchanged_app, O, app_nil_r. cbn. rewrite !Z.eqb_refl. reflexivity.
  - (* sending *)
    destruct l as [|[t p] l].
    { intros Q. injection Q as <-. split; [|left; reflexivity]. 
      apply (lis_pairs st i me _ LTop d (n_pks st) (n_tick st) (n_store st) (n_hist st) E); try assumption; try reflexivity.
      + intros c' _. split; reflexivity.
      + exact (i_carried _ H).
      + destruct (i_pairs _ H d me) as (tail & P & O). exists tail. split; [|exact O]. cbn [n_pks n_lis].
        rewrite (proj1 (eng_change _ _ _ (LSend d []) LTop E d me)); [exact P|]. right. split; reflexivity. }
    destruct (i_pairs _ H d me) as (tail & P & O).
    assert (G : engaged d (LSend d ((t, p) :: l)) = true) by (apply engaged_self; reflexivity).
    pose proof (eng_is _ _ _ _ _ _ _ _ _ _ _ E G P) as W. rewrite W in P.
    destruct (pair_send _ _ _ _ _ _ _ _ _ _ P) as (_ & R0 & R1 & R3 & b & a & -> & V).
    intros Q. injection Q as <-. split; [|left; reflexivity].
    assert (KT : t = RsSize \/ t = RsData) by (destruct V as [ [X _] | [X _] ]; injection X as -> _; tauto).
    apply (lis_pairs st i me _ (LWait (n_tick st) p d l) d (n_pks st ++ [mkPk me d t (n_tick st) p]) (S (n_tick st)) (n_store st) (n_hist st) E); try assumption.
    + intros c' N. split; [apply Z.eqb_neq; congruence|]. destruct l; [reflexivity|]. apply Z.eqb_neq. congruence.
    + intros f t' g _ N. rewrite chan_app, chan_one, same_no; [apply app_nil_r|]. intros <- <- <-. tauto.
    + reflexivity.
    + exact (i_carried _ H).
    + exists [(b, a)]. cbn [n_pks n_lis n_hist]. split; [|exact O]. change (view _ d me) with (view st d me).
      rewrite (eng_to _ _ _ _ _ (LWait (n_tick st) p d l) E G W).
      rewrite !chan_app, !chan_one, R0, R1, R3. rewrite (same_no me d t d me RqSize), (same_no me d t d me RqData) by (intros; destruct KT; congruence).
      destruct V as [ (X & -> & V & R2) | (X & -> & V) ]; injection X as -> ->.
      * rewrite (proj2 (same3_spec me d RsSize me d RsSize)) by tauto. rewrite (same_no me d RsSize me d RsData) by (intros; congruence).
        rewrite engaged_self by reflexivity. rewrite V, R2. apply p_w5.
      * rewrite (proj2 (same3_spec me d RsData me d RsData)) by tauto. rewrite (same_no me d RsData me d RsSize) by (intros; congruence).
        cbn [engaged app]. rewrite app_nil_r. destruct V as [ [V R2] | [V R2] ]; rewrite V, R2; [apply p_w7|apply p_l3].
  - (* sent *)
    destruct (sent_k eager st (k, p)); [|discriminate]. intros Q. injection Q as <-. split; [|left; reflexivity].
    apply (lis_pairs st i me _ (LSend d l) d (n_pks st) (n_tick st) (n_store st) (n_hist st) E); try assumption; try reflexivity.
    + intros c' N. cbn. destruct l; [split; reflexivity|]. split; apply Z.eqb_neq; congruence.
    + exact (i_carried _ H).
    + destruct (i_pairs _ H d me) as (tail & P & O). exists tail. split; [|exact O]. cbn [n_pks n_lis]. change (view _ d me) with (view st d me).
      destruct l as [|x l].
      { rewrite (proj1 (eng_change _ _ _ (LWait k p d []) (LSend d []) E d me)); [exact P|]. right. split; reflexivity. }
      assert (G : engaged d (LWait k p d (x :: l)) = true) by (apply engaged_self; reflexivity).
      pose proof (eng_is _ _ _ _ _ _ _ _ _ _ _ E G P) as W. rewrite W in P.
      destruct (pair_wait _ _ _ _ _ _ _ _ _ _ _ _ P) as (_ & R0 & R1 & R3 & b & a & -> & -> & -> & V).
      rewrite (eng_to _ _ _ _ _ (LSend d [(RsData, PData a)]) E G W), engaged_self by reflexivity. rewrite R0, R1, R3.
      destruct V as [ [-> ->] | [-> ->] ]; [apply p_w6|apply p_l2].
Qed.

(* ---- clients ---- *)
Lemma cli_pairs st i me th th' calls pks tick :
  nth_error (n_cli st) i = Some (me, th) -> nth_error progs i = Some (me, calls) -> tinv me calls th' ->
  (forall f t g, ~ (f = me /\ (g = RqSize \/ g = RqData)) -> ~ (t = me /\ (g = RsSize \/ g = RsData)) -> chan f t g pks = chan f t g (n_pks st)) ->
  let st' := mkNet (n_lis st) (firstn i (n_cli st) ++ (me, th') :: skipn (S i) (n_cli st)) pks tick (n_store st) (n_fault st) (n_hist st) in
  inv st ->
  (forall s, exists tail, pair me (tview (h_at th') s) (chan me s RqSize pks) (chan me s RqData pks) (chan s me RsSize pks) (chan s me RsData pks)
     (eng me s (n_lis st)) tail /\ exchanged me s (n_hist st) = completed s (h_log th') ++ tail) -> inv st'.
Proof.
  intros E PE T C st' H P. pose proof (inv_nodup _ H) as D.
  constructor; [exact (i_ranks _ H)|exact (cli_set _ _ _ _ _ H PE T)| |exact (i_carried _ H)].
  intros c s. unfold pinv, view, logs. cbn [st' n_cli n_pks n_lis n_hist]. rewrite (thread_set _ _ _ _ th' c D E).
  destruct (Z.eqb_spec c me) as [->|N]; [exact (P s)|].
  destruct (i_pairs _ H c s) as (tail & A & B). exists tail. rewrite !C by (intuition congruence). split; [exact A|exact B].
Qed.
Lemma old_pair st me th i s : inv st -> nth_error (n_cli st) i = Some (me, th) -> exists tail,
  pair me (tview (h_at th) s) (chan me s RqSize (n_pks st)) (chan me s RqData (n_pks st)) (chan s me RsSize (n_pks st)) (chan s me RsData (n_pks st))
    (eng me s (n_lis st)) tail /\ exchanged me s (n_hist st) = completed s (h_log th) ++ tail.
Proof.
  intros H E. destruct (i_pairs _ H me s) as (tail & A & B). unfold view, logs in *. rewrite (thread_at _ _ _ _ (inv_nodup _ H) E) in *.
  exists tail. split; [exact A|exact B].
Qed.
(* nothing but the thread changes, and servers do not notice *)
Lemma cli_silent st i me th th' calls :
  nth_error (n_cli st) i = Some (me, th) -> nth_error progs i = Some (me, calls) -> tinv me calls th' -> inv st ->
  h_log th' = h_log th -> (forall s, tview (h_at th') s = tview (h_at th) s) -> inv (with_cli st i me th').
Proof.
  intros E PE T H L V. apply (cli_pairs st i me th th' calls (n_pks st) (n_tick st) E PE T); [reflexivity|exact H|].
  intros s. rewrite V, L. exact (old_pair _ _ _ _ s H E).
Qed.
Lemma pair_all c v b q0 q1 q2 q3 e t : v = Some (b, TAll) -> pair c v q0 q1 q2 q3 e t -> q0 = [] /\ q1 = [] /\ q2 = [] /\ q3 = [] /\ e = [] /\ t = [].
Proof. intros -> P. inversion P; subst. repeat split. Qed.
Lemma pair_tdata c v b q0 q1 q2 q3 e t : v = Some (b, TData) -> pair c v q0 q1 q2 q3 e t -> pair c (Some (b, TWait)) q0 (q1 ++ [PData b]) q2 q3 e t.
Proof. intros -> P. inversion P; subst; [apply p_w1|apply p_w2]. Qed.
Lemma pair_twait c v b q0 q1 p q2 q3 e t : v = Some (b, TWait) -> pair c v q0 q1 (p :: q2) q3 e t ->
  exists z, p = PSize z /\ pair c (Some (b, TLen z)) q0 q1 q2 q3 e t.
Proof.
  intros -> P. inversion P; subst; eexists; (split; [reflexivity|]);
    first [apply p_l1|apply p_l2|apply p_l3].
Qed.
Lemma pair_tlen c v b z q0 q1 p q2 q3 e t : v = Some (b, TLen z) -> pair c v q0 q1 q2 (p :: q3) e t ->
  exists a, p = PData a /\ z = blen a /\ pair c (Some (b, TDone a)) q0 q1 q2 q3 e t.
Proof. intros -> P. inversion P; subst. eexists. split; [reflexivity|]. split; [reflexivity|]. apply p_done. Qed.

(* under this assumption the requests of a call go where their dst says *)
Context (IDS : ids_are_ranks eps).
Lemma targets_filter me c : targets okc eps me c =
  filter (fun x => ((MESSAGE_SUCCESS =? okc)%Z && match lookup (fst x) (eps me) with Some _ => true | None => false end)%bool) c.
Proof.
  unfold targets. induction c as [|[d b] c IH]; [reflexivity|]. cbn [flat_map filter fst]. rewrite IH.
  destruct (MESSAGE_SUCCESS =? okc)%Z; [|reflexivity]. destruct (lookup d (eps me)) as [r|] eqn:L; [|reflexivity].
  pose proof (IDS _ _ _ L) as <-. reflexivity.
Qed.
Lemma nodup_filter (f : Z * bytes -> bool) c : NoDup (map fst c) -> NoDup (map fst (filter f c)).
Proof.
  induction c as [|[d b] c IH]; [constructor|]. cbn [map fst filter]. intros D. inversion D as [|? ? N D']; subst.
  destruct (f (d, b)); [|exact (IH D')]. cbn [map fst]. constructor; [|exact (IH D')]. intros I. apply N.
  apply in_map_iff in I. destruct I as (x & Eq & I). apply filter_In in I. apply in_map_iff. exists x. split; [exact Eq|exact (proj1 I)].
Qed.
Lemma targets_known me c : call_ok handle me c -> known handle eps me (targets okc eps me c).
Proof.
  intros [D A]. rewrite targets_filter. split; [exact (nodup_filter _ _ D)|].
  split; apply Forall_forall; intros x I; apply filter_In in I; destruct I as [I L].
  - apply Bool.andb_true_iff in L. destruct L as [_ L]. destruct (lookup (fst x) (eps me)) as [r|] eqn:R; [|discriminate L].
    pose proof (IDS _ _ _ R). congruence.
  - rewrite Forall_forall in A. exact (A x I).
Qed.

Lemma tinv_move me calls todo x log y : tinv me calls (mkTh todo x log) -> wf handle eps me y -> cur y = cur x -> tinv me calls (mkTh todo y log).
Proof. intros (_ & T & G & L) W C. unfold tinv in *. cbn [h_at h_todo h_log] in *. rewrite C. split; [exact W|]. split; [exact T|]. split; [exact G|exact L]. Qed.
Lemma to_send_cons rest r t p l : to_send rest = (r, t, p) :: l -> exists b rest', rest = (r, b) :: rest' /\ t = RqSize /\ p = PSize (blen b) /\ l = (r, RqData, PData b) :: to_send rest'.
Proof. destruct rest as [|[q b] rest']; [discriminate|]. cbn [to_send flat_map app]. intros E. injection E as <- <- <- <-. exists b, rest'. repeat split. Qed.

Lemma cli_inv st i j st' : inv st -> cli_step eager okc eps st i j = Some st' -> inv st' /\ n_fault st' = n_fault st.
Proof.
  intros H. unfold cli_step. destruct (nth_error (n_cli st) i) as [[me [todo x log]]|] eqn:E; [|discriminate].
  destruct (inv_thread _ _ _ _ H E) as (calls & PE & T). pose proof T as (WF & TD & GO & LG). cbn [h_at h_todo h_log] in *.
  destruct x as [|l ks sent|ks sent|w lens sent|w got sent].
  - (* a new call *)
    destruct todo as [|c todo]; [discriminate|]. intros Q. injection Q as <-. split; [|reflexivity].
    inversion TD as [|? ? Tc TD']; subst. pose proof (targets_known me c Tc) as K.
    apply (cli_pairs st i me _ (mkTh todo (CSend (to_send (targets okc eps me c)) [] (targets okc eps me c)) log) calls (n_pks st) (n_tick st) E PE); try assumption.
    + split; [|split; [exact TD'|split; [|exact LG]]]; cbn [h_at h_todo h_log wf cur].
      * split; [exact K|]. exists [], (targets okc eps me c). left. split; reflexivity.
      * destruct GO as (done & -> & M). exists (done ++ [c]). rewrite <- app_assoc, map_app. split; [reflexivity|]. cbn [cur] in M. rewrite app_nil_r in M. rewrite M. reflexivity.
    + reflexivity.
    + intros s. destruct (old_pair _ _ _ _ s H E) as (tail & P & O). exists tail. cbn [h_at h_log]. cbn [h_at h_log] in P, O. split; [|exact O].
      change (tview CIdle s) with (@None (bytes * tstate)) in P. inversion P; subst.
      destruct (view_start s (targets okc eps me c)) as [-> | [b ->] ]; [apply p_off|apply p_all].
  - destruct l as [|[[r t] p] l].
    + (* all are sent *)
      intros Q. injection Q as <-. split; [|reflexivity]. apply (cli_silent st i me _ _ calls E PE); try reflexivity; try assumption.
      apply (tinv_move _ _ _ _ _ _ T); [exact (proj1 WF)|reflexivity].
    + (* one packet is sent *)
      intros Q. injection Q as <-. split; [|reflexivity]. destruct WF as (K & pre & rest & W).
      assert (KT : t = RqSize \/ t = RqData).
      { destruct W as [ [W _] | (r' & b & W & _)]; [symmetry in W; apply to_send_cons in W; destruct W as (? & ? & _ & -> & _); tauto|]. injection W as -> -> -> ->. tauto. }
      set (y := CSend l (ks ++ [(n_tick st, p)]) sent).
      apply (cli_pairs st i me _ (mkTh todo y log) calls (n_pks st ++ [mkPk me r t (n_tick st) p]) (S (n_tick st)) E PE); try assumption.
      * apply (tinv_move _ _ _ _ _ _ T); [|reflexivity]. cbn [wf y]. split; [exact K|].
        destruct W as [ [W S] | (r' & b & W & S)].
        -- symmetry in W. apply to_send_cons in W. destruct W as (b & rest' & -> & -> & -> & ->). exists pre, rest'. right. exists r, b. split; [reflexivity|exact S].
        -- injection W as -> -> -> ->. exists (pre ++ [(r', b)]), rest. left. split; [reflexivity|]. rewrite <- app_assoc. exact S.
      * intros f t' g N _. rewrite chan_app, chan_one, same_no; [apply app_nil_r|]. intros <- <- <-. tauto.
      * intros s. destruct (old_pair _ _ _ _ s H E) as (tail & P & O). exists tail. cbn [h_at h_log]. cbn [h_at h_log] in P, O. split; [|exact O].
        rewrite !chan_app, !chan_one. rewrite (same_no me r t s me RsSize), (same_no me r t s me RsData) by (intros; destruct KT; congruence). rewrite !app_nil_r.
        destruct W as [ [W S] | (r' & b & W & S)].
        -- symmetry in W. pose proof W as W'. apply to_send_cons in W. destruct W as (b & rest' & -> & -> & -> & ->). rewrite <- W' in P. subst sent.
           pose proof (view_size handle eps s pre r b rest' ks (ks ++ [(n_tick st, PSize (blen b))]) (proj1 K)) as V. cbn zeta in V.
           rewrite (same_no me r RqSize me s RqData) by (intros; congruence). rewrite app_nil_r.
           destruct (Z.eqb_spec s r) as [->|N].
           ++ destruct V as [V V']. unfold y. rewrite V'. destruct (pair_all _ _ _ _ _ _ _ _ _ V P) as (-> & -> & -> & -> & -> & ->).
              rewrite (proj2 (same3_spec me r RqSize me r RqSize)) by tauto. apply p_b1.
           ++ unfold y. rewrite V. rewrite same_no by (intros; congruence). rewrite app_nil_r. exact P.
        -- injection W as -> -> -> ->. subst sent.
           pose proof (view_data handle eps s pre r' b rest ks (ks ++ [(n_tick st, PData b)]) (proj1 K)) as V. cbn zeta in V.
           rewrite (same_no me r' RqData me s RqSize) by (intros; congruence). rewrite app_nil_r.
           destruct (Z.eqb_spec s r') as [->|N].
           ++ destruct V as [V V']. unfold y. rewrite V'. rewrite (proj2 (same3_spec me r' RqData me r' RqData)) by tauto.
              exact (pair_tdata _ _ _ _ _ _ _ _ _ V P).
           ++ unfold y. rewrite V. rewrite same_no by (intros; congruence). rewrite app_nil_r. exact P.
  - (* receives are posted *)
    destruct (forallb (sent_k eager st) ks); [|discriminate]. intros Q. injection Q as <-. split; [|reflexivity]. cbn [wf] in WF.
    apply (cli_silent st i me _ _ calls E PE); try assumption; try reflexivity.
    + apply (tinv_move _ _ _ _ _ _ T); [exact (wf_wait _ _ _ _ WF)|reflexivity].
    + intros s. exact (view_wait _ _ _ _ _ _ WF).
  - destruct w as [|w0 w].
    + intros Q. injection Q as <-. split; [|reflexivity].
      apply (cli_silent st i me _ _ calls E PE); try assumption; try reflexivity.
      * apply (tinv_move _ _ _ _ _ _ T); [exact (proj1 (view_sizes _ _ _ 0%Z _ _ WF))|reflexivity].
      * intros s. exact (proj2 (view_sizes _ _ _ s _ _ WF)).
    + (* a size is received *)
      destruct (nth_error (w0 :: w) j) as [[n r]|] eqn:J; [|discriminate].
      destruct (take r me RsSize (n_pks st)) as [[[kf kt kg kk kl] l]|] eqn:TK; [|discriminate].
      destruct (chan_take _ _ _ _ _ _ TK) as (_ & A & B). cbn [k_load] in A.
      destruct kl as [z|z]; [|discriminate]. intros Q. injection Q as <-. split; [|reflexivity].
      set (y := CSizes (firstn j (w0 :: w) ++ skipn (S j) (w0 :: w)) ((n, z) :: lens) sent).
      pose proof (fun s => view_len handle eps me s j (w0 :: w) lens sent n r z WF J) as V. cbn zeta in V. fold y in V.
      apply (cli_pairs st i me _ (mkTh todo y log) calls l (n_tick st) E PE); try assumption.
      * apply (tinv_move _ _ _ _ _ _ T); [exact (proj1 (V 0%Z))|reflexivity].
      * intros f t g _ N. apply B. apply same_no. intros <- <- <-. tauto.
      * intros s. destruct (old_pair _ _ _ _ s H E) as (tail & P & O). exists tail. cbn [h_at h_log]. cbn [h_at h_log] in P, O. split; [|exact O].
        rewrite (B me s RqSize), (B me s RqData), (B s me RsData) by (apply same_no; intros; congruence).
        destruct (V s) as (_ & _ & W). destruct (Z.eqb_spec s r) as [->|N].
        -- destruct W as (b & W & ->). rewrite A in P. destruct (pair_twait _ _ _ _ _ _ _ _ _ _ W P) as (z' & Ez & P'). injection Ez as <-. exact P'.
        -- rewrite W, (B s me RsSize) by (apply same_no; intros; congruence). exact P.
  - destruct w as [|w0 w].
    + (* the call returns *)
      intros Q. injection Q as <-. split; [|reflexivity].
      apply (cli_pairs st i me _ (mkTh todo CIdle (log ++ [(sent, got)])) calls (n_pks st) (n_tick st) E PE); try assumption.
      * split; [exact Logic.I|]. split; [exact TD|]. cbn [h_at h_todo h_log cur]. split.
        -- destruct GO as (done & -> & M). exists done. split; [reflexivity|]. rewrite map_app, app_nil_r. exact M.
        -- apply Forall_app. split; [exact LG|]. constructor; [|constructor]. exact (proj1 (view_end handle eps me 0%Z got sent WF)).
      * reflexivity.
      * intros s. destruct (old_pair _ _ _ _ s H E) as (tail & P & O). exists []. cbn [h_at h_log]. cbn [h_at h_log] in P, O.
        pose proof (proj2 (view_end handle eps me s got sent WF)) as V. change (tview CIdle s) with (@None (bytes * tstate)).
        unfold completed in *. rewrite flat_map_app. cbn [flat_map]. rewrite !app_nil_r.
        destruct (tview (CDatas [] got sent) s) as [[b [| | |z|a]]|]; try (exfalso; exact V).
        -- inversion P; subst. split; [apply p_off|]. rewrite O, V. reflexivity.
        -- inversion P; subst. split; [apply p_off|]. rewrite O, V. reflexivity.
    + (* the data is received *)
      destruct (nth_error (w0 :: w) j) as [[[n r] z]|] eqn:J; [|discriminate].
      destruct (take r me RsData (n_pks st)) as [[[kf kt kg kk kl] l]|] eqn:TK; [|discriminate].
      destruct (chan_take _ _ _ _ _ _ TK) as (_ & A & B). cbn [k_load] in A.
      destruct kl as [a|a]; [discriminate|].
      pose proof (fun s => view_got handle eps me s j (w0 :: w) got sent n r z a WF J) as V. cbn zeta in V.
      destruct (old_pair _ _ _ _ r H E) as (tl & Pr & _). cbn [h_at] in Pr. rewrite A in Pr.
      destruct (V r) as (_ & Vr). rewrite Z.eqb_refl in Vr. destruct Vr as (br & Vr & _).
      destruct (pair_tlen _ _ _ _ _ _ _ _ _ _ _ Vr Pr) as (a' & Ea & -> & _). injection Ea as <-. rewrite misfit_same.
      intros Q. injection Q as <-. split; [|reflexivity].
      set (y := CDatas (firstn j (w0 :: w) ++ skipn (S j) (w0 :: w)) ((n, r, a) :: got) sent) in *.
      apply (cli_pairs st i me _ (mkTh todo y log) calls l (n_tick st) E PE); try assumption.
      * apply (tinv_move _ _ _ _ _ _ T); [exact (proj1 (V 0%Z))|reflexivity].
      * intros f t g _ N. apply B. apply same_no. intros <- <- <-. tauto.
      * intros s. destruct (old_pair _ _ _ _ s H E) as (tail & P & O). exists tail. cbn [h_at h_log]. cbn [h_at h_log] in P, O. split; [|exact O].
        rewrite (B me s RqSize), (B me s RqData), (B s me RsSize) by (apply same_no; intros; congruence).
        destruct (V s) as (_ & W). destruct (Z.eqb_spec s r) as [->|N].
        -- destruct W as (b & W & ->). rewrite A in P. destruct (pair_tlen _ _ _ _ _ _ _ _ _ _ _ W P) as (a' & Ea & _ & P'). injection Ea as <-. exact P'.
        -- rewrite W, (B s me RsData) by (apply same_no; intros; congruence). exact P.
Qed.
End Inv.
