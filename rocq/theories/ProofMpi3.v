(* The MPI transport: runs, their length, and that they do not get stuck *)
From Verif Require Import ModelBytes ProofBytes ModelRoute ModelMpi SpecMpi ProofMpi ProofMpi2.
From Coq Require Import Permutation.
Local Open Scope N_scope.

(* ---- runs keep the invariant ---- *)
Section Runs.
Context {store : Type} (handle : Z -> store -> bytes -> outcome (store * (Z * bytes))).
Context (eager : payload -> bool) (okc : Z) (eps : Z -> list (Z * Z)).
Notation net := (@net store).
Notation run := (run handle eager okc eps).
Notation step := (step handle eager okc eps).

Lemma inv_start s0 listeners clients : NoDup (map fst clients) -> Forall (fun x => Forall (call_ok handle (fst x)) (snd x)) clients ->
  inv handle okc eps s0 clients (started listeners clients s0).
Proof.
  intros D F. constructor.
  - exact D.
  - cbn [n_cli started]. clear D. induction F as [|[r cs] l A F IH]; [constructor|]. cbn [map]. constructor; [|exact IH].
    split; [reflexivity|]. cbn [fst snd] in *. split; [exact Logic.I|]. split; [exact A|]. cbn [h_at h_todo h_log cur]. split; [|constructor].
    exists []. split; reflexivity.
  - intros c s. exists []. cbn [n_pks n_lis n_hist started]. split.
    + assert (view (started listeners clients s0) c s = None) as ->.
      { unfold view, thread_of. cbn [n_cli started]. induction clients as [|[r cs] l IH]; [reflexivity|]. cbn [map find fst].
        destruct (r =? c)%Z; [reflexivity|]. inversion D; inversion F; subst. apply IH; assumption. }
      assert (eng c s (map (fun r => (r, LTop)) listeners) = []) as ->.
      { induction listeners as [|r l IH]; [reflexivity|]. cbn. rewrite Bool.andb_false_r. exact IH. }
      apply p_off.
    + assert (logs (started listeners clients s0) c = []) as ->; [|reflexivity].
      unfold logs, thread_of. cbn [n_cli started]. induction clients as [|[r cs] l IH]; [reflexivity|]. cbn [map find fst].
      destruct (r =? c)%Z; [reflexivity|]. inversion D; inversion F; subst. apply IH; assumption.
  - apply carried_nil.
Qed.

Definition safe (st : net) : Prop :=
  n_fault st = None \/ (n_fault st = Some Failed /\ exists me c b, In (me, LGot c b) (n_lis st) /\ forall x, handle me (n_store st) b <> Ok x).
Lemma step_inv s0 progs st l st' : ids_are_ranks eps -> inv handle okc eps s0 progs st -> step st l = Some st' ->
  inv handle okc eps s0 progs st' /\ safe st'.
Proof.
  intros IDS H. unfold ModelMpi.step. destruct (n_fault st) eqn:F; [discriminate|]. destruct l as [i c|i j]; intros E.
  - destruct (lis_inv _ _ _ _ _ _ _ _ _ _ H E) as [A [B|B]]; (split; [exact A|]); [left; congruence|right; exact B].
  - destruct (cli_inv _ _ _ _ _ _ IDS _ _ _ _ H E) as [A B]. split; [exact A|]. left. congruence.
Qed.
Lemma run_inv s0 progs ls : ids_are_ranks eps -> forall st st', inv handle okc eps s0 progs st -> safe st -> run st ls = Some st' ->
  inv handle okc eps s0 progs st' /\ safe st'.
Proof.
  intros IDS. induction ls as [|l ls IH]; intros st st' H S E; cbn [ModelMpi.run] in E.
  - injection E as <-. split; assumption.
  - destruct (step st l) as [st1|] eqn:E1; [|discriminate E]. destruct (step_inv _ _ _ _ _ IDS H E1) as [H1 S1]. exact (IH _ _ H1 S1 E).
Qed.

(* ---- the length of runs ---- *)
Local Open Scope nat_scope.
Definition send_cost (x : Z * tag * payload) : nat := match snd (fst x) with RqSize => 9 | _ => 1 end.
Definition sum (l : list nat) : nat := fold_right Nat.add 0 l.
Lemma sum_app l l' : sum (l ++ l') = sum l + sum l'.
Proof. induction l as [|x l IH]; [reflexivity|]. cbn. fold (sum (l ++ l')). rewrite IH. fold (sum l). lia. Qed.
Definition call_cost (c : call) : nat := 5 + 12 * length c.
Definition at_cost (x : cstate) : nat :=
  match x with
  | CIdle => 0
  | CSend l _ sent => sum (map send_cost l) + 4 + 2 * length sent
  | CWait _ sent => 3 + 2 * length sent
  | CSizes w _ sent => length w + 2 + length sent
  | CDatas w _ _ => length w + 1
  end.
Definition th_cost (th : thread) : nat := sum (map call_cost (h_todo th)) + at_cost (h_at th).
Definition ans_cost (x : tag * payload) : nat := match fst x with RqSize => 10 | _ => 2 end.
Definition lis_cost (x : lstate) : nat :=
  match x with LTop => 0 | LData _ _ => 7 | LGot _ _ => 6 | LSend _ l => 1 + sum (map ans_cost l) | LWait _ _ _ l => 2 + sum (map ans_cost l) end.
Definition pk_cost (k : packet) : nat := match k_tag k with RqSize => 8 | _ => 0 end.
Definition cost (st : net) : nat :=
  sum (map (fun x => th_cost (snd x)) (n_cli st)) + sum (map (fun x => lis_cost (snd x)) (n_lis st)) + sum (map pk_cost (n_pks st)) +
  match n_fault st with None => 1 | Some _ => 0 end.
Lemma sum_set {A} (f : A -> nat) l i x y : nth_error l i = Some x -> sum (map f (firstn i l ++ y :: skipn (S i) l)) + f x = sum (map f l) + f y.
Proof.
  intros E. rewrite (nth_split3 _ _ _ E) at 3. rewrite !map_app, !sum_app. cbn [map sum fold_right]. fold (sum (map f (skipn (S i) l))). lia.
Qed.
Lemma take_cost f t g l k r : take f t g l = Some (k, r) -> sum (map pk_cost l) = pk_cost k + sum (map pk_cost r) /\ k_tag k = g.
Proof.
  revert k r. induction l as [|x l IH]; cbn [take]; intros k r E; [discriminate E|]. destruct (on f t g x) eqn:O.
  - injection E as <- <-. split; [reflexivity|]. apply on_spec in O. tauto.
  - destruct (take f t g l) as [[y s]|]; [|discriminate E]. injection E as <- <-. destruct (IH y s eq_refl) as [A B]. split; [|exact B].
    cbn [map sum fold_right]. fold (sum (map pk_cost l)). fold (sum (map pk_cost s)). rewrite A. lia.
Qed.
Lemma targets_length me c : length (targets okc eps me c) <= length c.
Proof.
  unfold targets. induction c as [|[d b] c IH]; [cbn; lia|]. cbn [flat_map length]. rewrite app_length.
  destruct (MESSAGE_SUCCESS =? okc)%Z; [|cbn [length]; lia]. destruct (lookup d (eps me)); cbn [length]; lia.
Qed.
Lemma to_send_cost c : sum (map send_cost (to_send c)) = 10 * length c.
Proof.
  induction c as [|[r b] c IH]; [reflexivity|]. cbn [to_send flat_map app map sum fold_right length]. fold (to_send c). fold (sum (map send_cost (to_send c))).
  rewrite IH. unfold send_cost. cbn. lia.
Qed.
Lemma post_sizes_length me l : length (post_sizes eps me l) <= length l.
Proof.
  unfold post_sizes. generalize 0. induction l as [|s l IH]; intros n; [cbn; lia|]. cbn [length seq combine flat_map]. rewrite app_length.
  specialize (IH (S n)). destruct (lookup s (eps me)); cbn [length]; lia.
Qed.
Lemma post_datas_length me l count lens : length (post_datas eps me l count lens) <= length l.
Proof.
  unfold post_datas. rewrite map_length. pose proof (post_sizes_length me (firstn count l)) as L. rewrite firstn_length in L. lia.
Qed.
Lemma one_cost a b t d e : sum (map pk_cost [mkPk a b t d e]) = match t with RqSize => 8 | _ => 0 end.
Proof. destruct t; reflexivity. Qed.
Lemma pk_app l l' : sum (map pk_cost (l ++ l')) = sum (map pk_cost l) + sum (map pk_cost l').
Proof. rewrite map_app. apply sum_app. Qed.
Lemma step_cost st l st' : step st l = Some st' -> cost st' < cost st.
Proof.
  unfold ModelMpi.step. destruct (n_fault st) eqn:F; [discriminate|].
  assert (FA : forall f, cost (fails st f) < cost st) by (intros f; unfold cost; cbn [fails n_cli n_lis n_pks n_fault]; rewrite F; lia).
  destruct l as [i c|i j].
  - unfold lis_step. destruct (nth_error (n_lis st) i) as [[me x]|] eqn:E; [|discriminate].
    pose proof (fun y => sum_set (fun x => lis_cost (snd x)) (n_lis st) i (me, x) (me, y) E) as U. cbn [snd] in U.
    destruct x as [|d n|d b|d l|k p d l].
    + destruct (take c me RqSize (n_pks st)) as [[[kf kt kg kk kl] l]|] eqn:T; [|discriminate]. destruct kl as [n|b]; [|discriminate].
      intros Q. injection Q as <-. destruct (take_cost _ _ _ _ _ _ T) as [A B]. cbn [k_tag] in B. subst kg.
      unfold cost. cbn [with_lis with_pks n_cli n_lis n_pks n_fault]. specialize (U (LData c n)). cbn [lis_cost pk_cost k_tag] in U, A. rewrite F. lia.
    + destruct (take d me RqData (n_pks st)) as [[[kf kt kg kk kl] l]|] eqn:T; [|discriminate]. destruct kl as [z|b]; [discriminate|].
      destruct (misfit n b) as [f|]; intros Q; injection Q as <-; [apply FA|]. destruct (take_cost _ _ _ _ _ _ T) as [A B]. cbn [k_tag] in B. subst kg.
      unfold cost. cbn [with_lis with_pks n_cli n_lis n_pks n_fault]. specialize (U (LGot d b)). cbn [lis_cost pk_cost k_tag] in U, A. rewrite F. lia.
    + destruct (handle me (n_store st) b) as [[s [d' a]]| |]; intros Q; injection Q as <-; [|apply FA|apply FA].
      unfold cost. cbn [with_lis served n_cli n_lis n_pks n_fault]. specialize (U (LSend d' [(RsSize, PSize (blen a)); (RsData, PData a)])).
      cbn [lis_cost map sum fold_right ans_cost fst] in U. rewrite F. lia.
    + destruct l as [|[t p] l]; intros Q; injection Q as <-; unfold cost; cbn [with_lis isend n_cli n_lis n_pks n_fault]; rewrite F.
      * specialize (U LTop). cbn [lis_cost map sum fold_right] in U. lia.
      * specialize (U (LWait (n_tick st) p d l)). cbn [lis_cost] in U. cbn [map sum fold_right] in U. fold (sum (map ans_cost l)) in U.
        rewrite pk_app.
        change (ans_cost (t, p)) with (match t with RqSize => 10 | _ => 2 end) in U. rewrite one_cost. destruct t; lia.
    + destruct (sent_k eager st (k, p)); [|discriminate]. intros Q. injection Q as <-. unfold cost. cbn [with_lis n_cli n_lis n_pks n_fault]. rewrite F.
      specialize (U (LSend d l)). cbn [lis_cost] in U. lia.
  - unfold cli_step. destruct (nth_error (n_cli st) i) as [[me [todo a log]]|] eqn:E; [|discriminate]. cbn [h_at h_todo h_log].
    pose proof (fun y => sum_set (fun x => th_cost (snd x)) (n_cli st) i _ (me, y) E) as U. cbn [snd] in U.
    assert (TC : forall cs y lg, th_cost (mkTh cs y lg) = sum (map call_cost cs) + at_cost y) by reflexivity.
    assert (LE : forall y j, length (firstn j y ++ skipn (S j) y) < length y \/ @nth_error (nat * Z) y j = None).
    { intros y j'. destruct (nth_error y j') eqn:X; [|right; reflexivity]. left. rewrite (nth_split3 _ _ _ X) at 3. rewrite !app_length. cbn [length]. lia. }
    assert (LE' : forall y j, length (firstn j y ++ skipn (S j) y) < length y \/ @nth_error (nat * Z * N) y j = None).
    { intros y j'. destruct (nth_error y j') eqn:X; [|right; reflexivity]. left. rewrite (nth_split3 _ _ _ X) at 3. rewrite !app_length. cbn [length]. lia. }
    destruct a as [|l ks sent|ks sent|w lens sent|w got sent].
    + destruct todo as [|c todo]; [discriminate|]. intros Q. injection Q as <-. unfold cost. cbn [with_cli n_cli n_lis n_pks n_fault]. rewrite F.
      specialize (U (mkTh todo (CSend (to_send (targets okc eps me c)) [] (targets okc eps me c)) log)). rewrite !TC in U. cbn [at_cost] in U.
      rewrite to_send_cost in U. pose proof (targets_length me c) as L. cbn [map sum fold_right] in U. fold (sum (map call_cost todo)) in U.
      change (call_cost c) with (5 + 12 * length c) in U. lia.
    + destruct l as [|[[r t] p] l]; intros Q; injection Q as <-; unfold cost; cbn [with_cli isend n_cli n_lis n_pks n_fault]; rewrite F.
      * specialize (U (mkTh todo (CWait ks sent) log)). rewrite !TC in U. cbn [at_cost map sum fold_right] in U. lia.
      * specialize (U (mkTh todo (CSend l (ks ++ [(n_tick st, p)]) sent) log)). rewrite !TC in U. cbn [at_cost] in U. cbn [map sum fold_right] in U.
        fold (sum (map send_cost l)) in U. change (send_cost (r, t, p)) with (match t with RqSize => 9 | _ => 1 end) in U.
        rewrite pk_app, one_cost. destruct t; lia.
    + destruct (forallb (sent_k eager st) ks); [|discriminate]. intros Q. injection Q as <-. unfold cost. cbn [with_cli n_cli n_lis n_pks n_fault]. rewrite F.
      specialize (U (mkTh todo (CSizes (post_sizes eps me (map fst sent)) [] sent) log)). rewrite !TC in U. cbn [at_cost] in U.
      pose proof (post_sizes_length me (map fst sent)) as L. rewrite map_length in L. lia.
    + destruct w as [|w0 w'] eqn:W.
      * intros Q. injection Q as <-. unfold cost. cbn [with_cli n_cli n_lis n_pks n_fault]. rewrite F.
        specialize (U (mkTh todo (CDatas (post_datas eps me (map fst sent) (length (post_sizes eps me (map fst sent))) lens) [] sent) log)).
        rewrite !TC in U. cbn [at_cost length] in U. pose proof (post_datas_length me (map fst sent) (length (post_sizes eps me (map fst sent))) lens) as L.
        rewrite map_length in L. lia.
      * rewrite <- W in *. destruct (nth_error w j) as [[n r]|] eqn:X; [|discriminate]. destruct (LE w j) as [Y|Y]; [|congruence].
        destruct (take r me RsSize (n_pks st)) as [[[kf kt kg kk kl] l]|] eqn:T; [|discriminate]. destruct kl as [z|b]; [|discriminate].
        intros Q. injection Q as <-. destruct (take_cost _ _ _ _ _ _ T) as [A B]. cbn [k_tag] in B. subst kg.
        unfold cost. cbn [with_cli with_pks n_cli n_lis n_pks n_fault]. rewrite F.
        specialize (U (mkTh todo (CSizes (firstn j w ++ skipn (S j) w) ((n, z) :: lens) sent) log)). rewrite !TC in U. cbn [at_cost] in U.
        cbn [pk_cost k_tag] in A.
        change (match w with [] => [] | _ :: l0 => skipn j l0 end) with (skipn (S j) w). lia.
    + destruct w as [|w0 w'] eqn:W.
      * intros Q. injection Q as <-. unfold cost. cbn [with_cli n_cli n_lis n_pks n_fault]. rewrite F.
        specialize (U (mkTh todo CIdle (log ++ [(sent, got)]))). rewrite !TC in U. cbn [at_cost length] in U. lia.
      * rewrite <- W in *. destruct (nth_error w j) as [[[n r] z]|] eqn:X; [|discriminate]. destruct (LE' w j) as [Y|Y]; [|congruence].
        destruct (take r me RsData (n_pks st)) as [[[kf kt kg kk kl] l]|] eqn:T; [|discriminate]. destruct kl as [z'|b]; [discriminate|].
        destruct (misfit z b) as [f|]; intros Q; injection Q as <-; [apply FA|]. destruct (take_cost _ _ _ _ _ _ T) as [A B]. cbn [k_tag] in B. subst kg.
        unfold cost. cbn [with_cli with_pks n_cli n_lis n_pks n_fault]. rewrite F.
        specialize (U (mkTh todo (CDatas (firstn j w ++ skipn (S j) w) ((n, r, b) :: got) sent) log)). rewrite !TC in U. cbn [at_cost] in U.
        cbn [pk_cost k_tag] in A.
        change (match w with [] => [] | _ :: l0 => skipn j l0 end) with (skipn (S j) w). lia.
Qed.
Lemma run_cost ls : forall st st', run st ls = Some st' -> length ls + cost st' <= cost st.
Proof.
  induction ls as [|l ls IH]; intros st st' E; cbn [ModelMpi.run] in E.
  - injection E as <-. cbn. lia.
  - destruct (step st l) as [st1|] eqn:E1; [|discriminate E]. apply step_cost in E1. apply IH in E. cbn [length]. lia.
Qed.
Lemma start_cost listeners clients s0 : cost (started listeners clients s0) = 1 + sum (map call_cost (flat_map snd clients)).
Proof.
  unfold cost. cbn [started n_cli n_lis n_pks n_fault]. rewrite !map_map.
  assert (L : sum (map (fun x : Z => lis_cost (snd (x, LTop))) listeners) = 0) by (induction listeners as [|x l IH]; [reflexivity|exact IH]).
  assert (C : sum (map (fun x : Z * list call => th_cost (snd (let '(r, cs) := x in (r, mkTh cs CIdle [])))) clients) = sum (map call_cost (flat_map snd clients))).
  { induction clients as [|[r cs] l IH]; [reflexivity|]. cbn [map flat_map snd]. rewrite map_app, sum_app, <- IH. unfold sum at 1. cbn [fold_right].
    unfold th_cost at 1. cbn [h_todo h_at at_cost]. unfold sum. lia. }
  rewrite C, L. cbn [map sum fold_right]. lia.
Qed.
End Runs.
