(* The MPI transport: whether anything can move is decidable *)
From Verif Require Import ModelBytes ProofBytes ModelRoute ModelMpi SpecMpi ProofMpi ProofMpi3.
Local Open Scope nat_scope.

Section Moves.
Context {store : Type} (handle : Z -> store -> bytes -> outcome (store * (Z * bytes))).
Context (eager : payload -> bool) (okc : Z) (eps : Z -> list (Z * Z)).
Notation net := (@net store).
Definition is_none {A} (x : option A) : bool := match x with Some _ => false | None => true end.
Definition width (x : cstate) : nat := match x with CSizes w _ _ => length w | CDatas w _ _ => length w | _ => 0 end.
Definition moves (st : net) : list label :=
  flat_map (fun i => map (Lis i) (0%Z :: map k_from (n_pks st))) (seq 0 (length (n_lis st))) ++
  flat_map (fun i => map (Cli i) (seq 0 (S (match nth_error (n_cli st) i with Some (_, th) => width (h_at th) | None => 0 end)))) (seq 0 (length (n_cli st))).
Definition no_move (st : net) : bool := forallb (fun l => is_none (step handle eager okc eps st l)) (moves st).

Lemma take_from c t g l : ~ In c (map k_from l) -> take c t g l = None.
Proof.
  induction l as [|k l IH]; intros N; [reflexivity|]. cbn [take map In] in *. unfold on. destruct (Z.eqb_spec (k_from k) c) as [E|_]; [tauto|]. cbn [andb]. rewrite IH by tauto. reflexivity.
Qed.
Lemma no_move_spec st : no_move st = true -> forall l, step handle eager okc eps st l = None.
Proof.
  intros N l. unfold no_move in N. rewrite forallb_forall in N.
  assert (M : forall l, In l (moves st) -> step handle eager okc eps st l = None) by (intros l' I; specialize (N l' I); destruct (step handle eager okc eps st l'); [discriminate N|reflexivity]).
  unfold step in *. destruct (n_fault st); [reflexivity|]. destruct l as [i c|i j].
  - destruct (nth_error (n_lis st) i) as [[me x]|] eqn:E; [|unfold lis_step; rewrite E; reflexivity].
    assert (LI : i < length (n_lis st)) by (apply nth_error_Some; congruence).
    assert (MI : forall c, In c (0%Z :: map k_from (n_pks st)) -> lis_step handle eager st i c = None).
    { intros c' I. apply (M (Lis i c')). apply in_or_app. left. apply in_flat_map. exists i. split; [apply in_seq; lia|]. apply in_map. exact I. }
    destruct x as [|d n|d b|d l|k p d l]; [|specialize (MI 0%Z (or_introl eq_refl)); unfold lis_step in *; rewrite E in *; exact MI..].
    destruct (in_dec Z.eq_dec c (map k_from (n_pks st))) as [I|I]; [apply MI; right; exact I|]. unfold lis_step. rewrite E, (take_from _ _ _ _ I). reflexivity.
  - destruct (nth_error (n_cli st) i) as [[me th]|] eqn:E; [|unfold cli_step; rewrite E; reflexivity].
    assert (LI : i < length (n_cli st)) by (apply nth_error_Some; congruence).
    assert (MI : forall j, j <= width (h_at th) -> cli_step eager okc eps st i j = None).
    { intros j' I. apply (M (Cli i j')). apply in_or_app. right. apply in_flat_map. exists i. split; [apply in_seq; lia|]. apply in_map. rewrite E. apply in_seq. lia. }
    destruct th as [todo a log]. cbn [h_at] in MI.
    destruct a as [|l ks sent|ks sent|w lens sent|w got sent]; [specialize (MI 0 ltac:(cbn; lia)); unfold cli_step in *; rewrite E in *; exact MI..| |].
    + destruct (le_lt_dec (length w) j) as [G|G]; [|apply MI; cbn; lia]. destruct w as [|w0 w]; [specialize (MI 0 ltac:(cbn; lia)); unfold cli_step in *; rewrite E in *; exact MI|].
      unfold cli_step. rewrite E. apply nth_error_None in G. rewrite G. reflexivity.
    + destruct (le_lt_dec (length w) j) as [G|G]; [|apply MI; cbn; lia]. destruct w as [|w0 w]; [specialize (MI 0 ltac:(cbn; lia)); unfold cli_step in *; rewrite E in *; exact MI|].
      unfold cli_step. rewrite E. apply nth_error_None in G. rewrite G. reflexivity.
Qed.
Lemma move_or st : (forall l, step handle eager okc eps st l = None) \/ exists l st', step handle eager okc eps st l = Some st'.
Proof.
  destruct (no_move st) eqn:N; [left; apply no_move_spec; exact N|right]. unfold no_move in N.
  assert (X : exists l, In l (moves st) /\ is_none (step handle eager okc eps st l) = false).
  { induction (moves st) as [|l m IH]; [discriminate N|]. cbn [forallb] in N. destruct (is_none (step handle eager okc eps st l)) eqn:Q; [|exists l; split; [left; reflexivity|exact Q]].
    destruct (IH N) as (l' & A & B). exists l'. split; [right; exact A|exact B]. }
  destruct X as (l & _ & Q). destruct (step handle eager okc eps st l) as [st'|] eqn:E; [|discriminate Q]. exists l, st'. exact E.
Qed.
(* every run can be continued to one that cannot *)
Lemma run_on st : exists ls st', run handle eager okc eps st ls = Some st' /\ forall l, step handle eager okc eps st' l = None.
Proof.
  remember (cost st) as n eqn:C. revert st C. induction n as [n IH] using lt_wf_ind. intros st ->.
  destruct (move_or st) as [S|(l & st1 & S)]; [exists [], st; split; [reflexivity|exact S]|].
  destruct (IH (cost st1) (step_cost _ _ _ _ _ _ _ S) st1 eq_refl) as (ls & st' & R & Z). exists (l :: ls), st'. split; [cbn [run]; rewrite S; exact R|exact Z].
Qed.
Lemma run_app st st1 st2 l1 l2 : run handle eager okc eps st l1 = Some st1 -> run handle eager okc eps st1 l2 = Some st2 -> run handle eager okc eps st (l1 ++ l2) = Some st2.
Proof.
  revert st. induction l1 as [|l l1 IH]; intros st A B; cbn [run app] in *; [injection A as ->; exact B|].
  destruct (step handle eager okc eps st l) as [s|]; [|discriminate A]. exact (IH _ A B).
Qed.
End Moves.
