(* The Thallium transport: executions *)
From Verif Require Import ModelBytes ProofBytes ModelRoute ModelThal SpecThal ProofThal ProofThal2.
From Coq Require Import Permutation.
Local Open Scope nat_scope.

Section Runs.
Context {store : Type} (handle : Z -> store -> bytes -> outcome (store * bytes)) (accept : bytes -> bool) (eps : Z -> list (Z * Z)) (debug : bool).
Context (threads : list (Z * bool * list (Z * bytes))) (ranks : list Z) (s0 : store).
Notation inv := (inv handle accept eps threads ranks s0).
Notation why := (why handle accept eps debug).
Notation done_ := (done_ handle accept eps debug threads ranks s0).
Notation step := (step handle accept eps debug).
Notation run := (run handle accept eps debug).

Lemma take_nth {A} (l : list A) j x : nth_error l j = Some x -> Permutation l (x :: firstn j l ++ skipn (Datatypes.S j) l).
Proof. intros E. rewrite (nth_split _ _ _ E) at 1. symmetry. apply Permutation_middle. Qed.

Lemma clean_ok st j st' : inv st -> n_fault st = None -> clean_step st j = Some st' -> done_ st'.
Proof.
  intros H NF S. unfold clean_step in S. destruct (nth_error (n_clean st) j) as [[r d]|] eqn:E; [|discriminate S].
  destruct (down st r) eqn:D.
  - eapply done_fails; [exact H| |exact S]. intros _. exists r, d. split; [eapply nth_error_In; exact E|exact (down_in _ _ D)].
  - pose proof (i_mem _ _ _ _ _ _ _ H) as M. pose proof (take_nth _ _ _ E) as TP.
    assert (M2 : mem (n_heap st) ((r, d) :: flat_map own (n_thr st) ++ firstn j (n_clean st) ++ skipn (Datatypes.S j) (n_clean st))).
    { eapply mem_perm; [|exact M]. eapply Permutation_trans; [apply Permutation_app_head; exact TP|]. symmetry. apply Permutation_middle. }
    unfold dealloc in S. destruct (mem_in _ _ (r, d) M2 (or_introl eq_refl)) as [b B]. rewrite B in S. injection S as <-.
    split; [|apply nofault_why; exact NF]. destruct H as [_ T LN CA RK MA PA DO]. constructor; try assumption.
    + exact (mem_free _ _ _ M2).
    + intros i t N. destruct (T i t N) as (q & Q & P & K). exists q. split; [exact Q|]. split; [exact P|]. eapply tok_ext; [|exact K]. intros k IK.
      cbn [n_heap with_clean with_heap]. apply peek_release. intros <-. pose proof (mem_nodup _ _ M2) as ND. inversion ND as [|? ? NI _]. apply NI.
      apply in_or_app. left. apply in_flat_map. exists t. split; [eapply nth_error_In; exact N|exact IK].
Qed.

Lemma in_upd {A} (l : list A) j x y z : nth_error l j = Some x -> In z (firstn j l ++ y :: skipn (Datatypes.S j) l) -> z = y \/ In z l.
Proof.
  intros E I. apply in_app_or in I. cbn [In] in I. destruct I as [I|[I|I]]; [right|left; symmetry; exact I|right]; rewrite (nth_split _ _ _ E); apply in_or_app.
  - left. exact I.
  - right. right. exact I.
Qed.
Lemma close_ok st j st' : inv st -> n_fault st = None -> close_step st j = Some st' -> done_ st'.
Proof.
  intros H NF S. unfold close_step in S. destruct (nth_error (n_ranks st) j) as [[r x]|] eqn:E; [|discriminate S].
  destruct H as [M T LN CA RK MA PA DO]. pose proof (nth_error_In _ _ E) as IR.
  assert (KF : forall y, map fst (firstn j (n_ranks st) ++ (r, y) :: skipn (Datatypes.S j) (n_ranks st)) = ranks).
  { intros y. rewrite <- RK. rewrite (nth_split _ _ _ E) at 3. rewrite !map_app. reflexivity. }
  destruct x.
  - destruct (forallb _ (n_thr st)) eqn:F in S; [|discriminate S]. injection S as <-. split; [|apply nofault_why; exact NF].
    rewrite forallb_forall in F. constructor; cbn [n_heap n_thr n_clean n_ranks n_store n_hist with_ranks]; try assumption; try apply KF.
    + intros r' x' t I NX J HR HM. apply (in_upd _ _ _ _ _ E) in I as [I|I].
      * injection I as -> ->. pose proof (F t J) as B. rewrite HR, Z.eqb_refl, HM in B. exact B.
      * exact (MA _ _ _ I NX J HR HM).
    + intros r1 x1 r2 x2 I1 P1 I2. apply (in_upd _ _ _ _ _ E) in I1 as [I1|I1].
      * injection I1 as -> ->. destruct P1; discriminate.
      * destruct (PA _ _ _ _ I1 P1 IR eq_refl).
    + intros r' t I J HR. apply (in_upd _ _ _ _ _ E) in I as [I|I]; [discriminate I|exact (DO _ _ I J HR)].
  - destruct (forallb _ (n_ranks st)) eqn:F in S; [|discriminate S]. injection S as <-. split; [|apply nofault_why; exact NF].
    rewrite forallb_forall in F. constructor; cbn [n_heap n_thr n_clean n_ranks n_store n_hist with_ranks]; try assumption; try apply KF.
    + intros r' x' t I NX J HR HM. apply (in_upd _ _ _ _ _ E) in I as [I|I].
      * injection I as -> ->. exact (MA _ _ _ IR ltac:(discriminate) J HR HM).
      * exact (MA _ _ _ I NX J HR HM).
    + intros r1 x1 r2 x2 _ _ I2. apply (in_upd _ _ _ _ _ E) in I2 as [I2|I2]; [injection I2 as -> ->; discriminate|].
      intros ->. specialize (F _ I2). discriminate F.
    + intros r' t I J HR. apply (in_upd _ _ _ _ _ E) in I as [I|I]; [discriminate I|exact (DO _ _ I J HR)].
  - destruct (forallb _ (n_thr st)) eqn:F in S; [|discriminate S]. injection S as <-. split; [|apply nofault_why; exact NF].
    rewrite forallb_forall in F. constructor; cbn [n_heap n_thr n_clean n_ranks n_store n_hist with_ranks]; try assumption; try apply KF.
    + intros r' x' t I NX J HR HM. apply (in_upd _ _ _ _ _ E) in I as [I|I].
      * injection I as -> ->. exact (MA _ _ _ IR ltac:(discriminate) J HR HM).
      * exact (MA _ _ _ I NX J HR HM).
    + intros r1 x1 r2 x2 I1 P1 I2. apply (in_upd _ _ _ _ _ E) in I2 as [I2|I2]; [injection I2 as -> ->; discriminate|].
      exact (PA _ _ _ _ IR (or_introl eq_refl) I2).
    + intros r' t I J HR. apply (in_upd _ _ _ _ _ E) in I as [I|I]; [|exact (DO _ _ I J HR)]. injection I as ->.
      pose proof (F t J) as B. rewrite HR, Z.eqb_refl in B. exact B.
  - discriminate S.
Qed.

Lemma step_ok st l st' : inv st -> step st l = Some st' -> done_ st'.
Proof.
  unfold ModelThal.step. intros H S. destruct (n_fault st) eqn:NF; [discriminate S|]. destruct l.
  - eapply thr_ok; eassumption.
  - eapply clean_ok; eassumption.
  - eapply close_ok; eassumption.
Qed.
Lemma run_ok ls : forall st st', done_ st -> run st ls = Some st' -> done_ st'.
Proof.
  induction ls as [|l ls IH]; cbn [ModelThal.run]; intros st st' D R.
  - injection R as <-. exact D.
  - destruct (step st l) as [st1|] eqn:S; [|discriminate R]. exact (IH _ _ (step_ok _ _ _ (proj1 D) S) R).
Qed.

Lemma start_ok : done_ (started ranks threads s0).
Proof.
  split; [|exact Logic.I]. unfold started.
  assert (FM : flat_map own (map (fun '(r, m, q) => mkTh r m q TIdle []) threads) = []).
  { induction threads as [|[[r m] q] l IH]; [reflexivity|exact IH]. }
  constructor; cbn [n_heap n_thr n_clean n_ranks n_store n_hist].
  - rewrite FM. split; [constructor|reflexivity].
  - intros i t N. rewrite nth_error_map in N. destruct (nth_error threads i) as [[[r m] q]|] eqn:E; [|discriminate N]. injection N as <-.
    exists q. split; [reflexivity|]. split; [|reflexivity]. exists []. split; [reflexivity|constructor].
  - apply map_length.
  - constructor.
  - rewrite map_map. apply map_id.
  - intros r x t I NX. apply in_map_iff in I as (r' & I & _). injection I as _ <-. destruct (NX eq_refl).
  - intros r x r' x' I P. apply in_map_iff in I as (r0 & I & _). injection I as _ <-. destruct P; discriminate.
  - intros r t I. apply in_map_iff in I as (r0 & I & _). discriminate I.
Qed.
Lemma reach ls st : run (started ranks threads s0) ls = Some st -> inv st /\ why st.
Proof. apply run_ok. exact start_ok. Qed.

End Runs.

(* ---- measure ---- *)
Section Measure.
Context {store : Type} (handle : Z -> store -> bytes -> outcome (store * bytes)) (accept : bytes -> bool) (eps : Z -> list (Z * Z)) (debug : bool).
Notation step := (step handle accept eps debug).
Notation run := (run handle accept eps debug).
Definition left_ (t : thread) : nat :=
  match h_at t with
  | TIdle => 14 * length (h_todo t)
  | p => 14 * (length (h_todo t) - 1) +
         match p with
         | TIdle => 14 | TPacked _ _ => 13 | TSent _ _ _ => 12 | HStart _ _ _ => 11 | HRecv _ _ _ _ => 10 | HGot _ _ _ => 9 | HDone _ _ _ => 8
         | HSend _ _ _ _ => 7 | TResp _ _ _ _ => 6 | TFreed _ _ _ => 5 | TRecv _ _ _ _ => 4 | TGot _ _ _ => 3 | TClean _ _ _ => 2
         end
  end.
Definition todo_rank (x : Z * rstate) : nat := match snd x with RUp => 3 | RAt => 2 | RPast => 1 | RDown => 0 end.
Definition sum (l : list nat) : nat := fold_right Nat.add 0 l.
Definition cost (st : @net store) : nat :=
  sum (map left_ (n_thr st)) + length (n_clean st) + sum (map todo_rank (n_ranks st)) + match n_fault st with None => 1 | Some _ => 0 end.
Lemma sum_app a b : sum (a ++ b) = sum a + sum b.
Proof. unfold sum. induction a as [|x a IH]; cbn [app fold_right]; [reflexivity|]. rewrite IH. lia. Qed.
Lemma sum_upd {A} (f : A -> nat) l j x y : nth_error l j = Some x -> sum (map f (firstn j l ++ y :: skipn (Datatypes.S j) l)) + f x = sum (map f l) + f y.
Proof.
  intros E. replace (sum (map f l)) with (sum (map f (firstn j l ++ x :: skipn (Datatypes.S j) l))) by (rewrite <- (nth_split _ _ _ E); reflexivity).
  rewrite !map_app, !sum_app. cbn [map sum fold_right]. unfold sum. lia.
Qed.
Lemma fails_cost st f st' : n_fault st = None -> fails st f = Some st' -> cost st' < cost st.
Proof. intros NF E. injection E as <-. unfold cost. cbn [n_thr n_clean n_ranks n_fault]. rewrite NF. lia. Qed.
Lemma thr_cost st i x st' : n_fault st = None -> thr_step handle accept eps debug st i x = Some st' -> cost st' < cost st.
Proof.
  intros NF S. unfold thr_step in S. destruct (nth_error (n_thr st) i) as [t|] eqn:E; [|discriminate S].
  assert (UP : forall h c ti s hist, c <= length (n_clean st) + 1 -> forall cl, length cl = c -> left_ ti + c < left_ t + length (n_clean st) ->
             cost (mkNet (firstn i (n_thr st) ++ ti :: skipn (Datatypes.S i) (n_thr st)) h cl (n_ranks st) s (n_fault st) hist) < cost st).
  { intros h c ti s hist _ cl LC LT. unfold cost. cbn [n_thr n_clean n_ranks n_fault]. pose proof (sum_upd left_ _ _ _ ti E) as X. lia. }
  destruct (h_at t) as [|r a|r a len|r a len|r a len c|r a c|r a m|r a d len|r a d len|r d len|r d len e|r d e|r d m] eqn:A.
  1: { destruct (h_todo t) as [|[dst b] todo] eqn:TD; [discriminate S|]. destruct (lookup dst (eps (h_rank t))).
       2: { destruct debug; [exact (fails_cost _ _ _ NF S)|]. injection S as <-. eapply UP; [|reflexivity|]; [lia|]. unfold left_. cbn [h_at h_todo]. rewrite A, TD. cbn [length]. lia. }
       unfold alloc in S. destruct (peek _ _); [discriminate S|]. injection S as <-. eapply UP; [|reflexivity|]; cbn [with_heap n_clean]; [lia|].
       unfold left_. cbn [at_phase h_at h_todo]. rewrite A, TD. cbn [length]. lia. }
  all: unfold there, alloc, dealloc, pull, read in S; cbv zeta in S.
  all: repeat (try (exact (fails_cost _ _ _ NF S)); try discriminate S; match type of S with match ?c with _ => _ end = Some _ => destruct c eqn:? end).
  all: injection S as <-; eapply UP; [|reflexivity|]; cbn [with_heap with_clean served n_clean]; rewrite ?app_length; cbn [length]; try lia.
  all: unfold left_; cbn [at_phase h_at h_todo]; rewrite A; cbn [length]; try lia.
  match goal with L : h_todo t = _ |- _ => rewrite L end. cbn [length]. lia.
Qed.
Lemma clean_cost st j st' : n_fault st = None -> clean_step st j = Some st' -> cost st' < cost st.
Proof.
  intros NF S. unfold clean_step in S. destruct (nth_error (n_clean st) j) as [[r d]|] eqn:E; [|discriminate S].
  destruct (down st r); [exact (fails_cost _ _ _ NF S)|]. unfold dealloc in S. destruct (peek _ _); [|exact (fails_cost _ _ _ NF S)]. injection S as <-.
  pose proof (Permutation_length (take_nth (A := key) _ _ _ E)) as L. change (length (n_clean st) = 1 + length (firstn j (n_clean st) ++ skipn (Datatypes.S j) (n_clean st))) in L.
  unfold cost. destruct st as [thr hp cl rk sto fl hi]. cbv beta iota delta [n_thr n_clean n_ranks n_fault with_clean with_heap] in *. change (match cl with [] => [] | _ :: l => skipn j l end) with (skipn (Datatypes.S j) cl). lia.
Qed.
Lemma close_cost st j st' : n_fault st = None -> close_step st j = Some st' -> cost st' < cost st.
Proof.
  intros NF S. unfold close_step in S. destruct (nth_error (n_ranks st) j) as [[r x]|] eqn:E; [|discriminate S].
  assert (UP : forall y, todo_rank (r, y) < todo_rank (r, x) -> cost (with_ranks st (firstn j (n_ranks st) ++ (r, y) :: skipn (Datatypes.S j) (n_ranks st))) < cost st).
  { intros y L. unfold cost. cbn [n_thr n_clean n_ranks n_fault with_ranks]. pose proof (sum_upd todo_rank _ _ _ (r, y) E) as X. lia. }
  destruct x; try discriminate S; destruct (forallb _ _) in S; try discriminate S; injection S as <-; apply UP; cbn; lia.
Qed.
Lemma step_cost st l st' : step st l = Some st' -> cost st' < cost st.
Proof.
  unfold ModelThal.step. intros S. destruct (n_fault st) eqn:NF; [discriminate S|]. destruct l; [eapply thr_cost|eapply clean_cost|eapply close_cost]; eassumption.
Qed.
Lemma run_cost ls : forall st st', run st ls = Some st' -> length ls + cost st' <= cost st.
Proof.
  induction ls as [|l ls IH]; cbn [ModelThal.run length]; intros st st' R.
  - injection R as <-. lia.
  - destruct (step st l) as [st1|] eqn:S; [|discriminate R]. pose proof (IH _ _ R). pose proof (step_cost _ _ _ S). lia.
Qed.
End Measure.
