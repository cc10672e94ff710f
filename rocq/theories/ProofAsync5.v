(* The two threads never block each other for good, and every program ends *)
From Verif Require Import ModelBytes ModelKey ModelWire ModelHist ModelMsg ModelAsync SpecAsync ProofAsync ProofAsync2 ProofAsync3 ProofAsync4.
Local Open Scope nat_scope.

Lemma deadlock_free g s : inv g s -> v_bad s = false -> step_c g s = None -> step_t g s = None -> finished s.
Proof.
  destruct s as [c t p ru pm am n q k f d r lo tr re a x o b]. unfold inv, inv_lock, inv_wait, inv_round, step_c, step_t, finished. pcs.
  intros ((H1 & H2 & H3 & H4) & (W1 & W2 & W3 & W4 & W5) & R & _) -> Hc Ht. subst pm am ru.
  destruct t; pcs; try discriminate;
    (destruct c as [|l9|l9|w|w i|w i|w i|w i|w i|w i| | | | | | | | | |]; try destruct w; try destruct i; pcs; try discriminate; auto;
     try (destruct p as [|[]]; [auto|discriminate|discriminate|discriminate]);
     try (split_step Hc; fail); try (split_step Ht; fail); try contradiction; use; try discriminate; try congruence).
  all: destruct d; use; try discriminate; repeat match goal with H : _ \/ _ |- _ => destruct H end; use; try discriminate; try congruence.
Qed.

Definition base (k : caller) : nat := match k with FromOpen => 0 | FromFlush => 6 | FromClose => 2 end.
Definition cost_c (c : cpc) : nat :=
  match c with
  | CIdle | CGone => 0
  | CPutLock l => 16 + length l
  | CPutDo l => 15 + length l
  | WLock k => 39 + base k
  | WReset k i => base k + if i then 19 else 38
  | WPuts k i => base k + if i then 18 else 37
  | WSet k i => base k + if i then 17 else 36
  | WTest k i => base k + if i then 2 else 21
  | WWait k i => base k + if i then 1 else 20
  | WWake k i => base k + if i then 3 else 22
  | FAppend => 6 | FFree => 5 | FNull => 4 | FLock => 3 | FRun => 2 | FDone => 1
  | XStop => 54 | XJoin => 2 | XFree => 1
  end.
Fixpoint cost_p (p : list cmd) : nat :=
  match p with [] => 0 | KPut l :: p' => 17 + length l + cost_p p' | KFlush :: p' => 46 + cost_p p' | KClose :: p' => 55 + cost_p p' end.
Definition cost_t (t : tpc) : nat :=
  match t with
  | TEnd | TWait => 0 | TTest => 1 | TLock | TWake => 2 | TLoop => 3 | TNotify => 6 | TDone => 7 | TDoneLock => 8
  | TSet | TApp => 9 | TStore => 10 | TRun => 11 | TTake => 12
  end.
Definition pot (g : cfg) (s : st) : nat :=
  match v_t s with TTake => 0 | _ => if v_flushed s || (g_max g <=? v_count s) then 12 else 0 end.
Definition pot_stop (s : st) : nat :=
  match v_t s with TLock | TTest | TWake | TWait => if v_running s then 0 else 12 | _ => 0 end.
Definition cost (g : cfg) (s : st) : nat :=
  cost_c (v_c s) + cost_p (v_prog s) + cost_t (v_t s) + pot g s + pot_stop s + length (v_queue s) + length (v_local s) + (if v_bad s then 0 else 1).

Ltac costs := unfold cost, pot, pot_stop in *; pcs; cbn [cost_c cost_p cost_t base length orb] in *; rewrite ?app_length; cbn [length].
Ltac ifs := repeat match goal with |- context [if ?b then _ else _] => destruct b eqn:? end.
Lemma max_pos g : 1 <= g_max g -> (g_max g <=? 0) = false.
Proof. intros H. apply Nat.leb_gt. lia. Qed.
Lemma cost_c_step g s s' : 1 <= g_max g -> step_c g s = Some s' -> cost g s' < cost g s.
Proof.
  intros Hm. pose proof (max_pos g Hm) as M0. destruct s as [c t p ru pm am n q k f d r lo tr re a x o b]. unfold step_c. pcs. destruct b; [discriminate|]. intros H.
  destruct c as [|l9|l9|w|w i|w i|w i|w i|w i|w i| | | | | | | | | |]; try destruct w; try destruct i; pcs; split_step H; costs; try lia;
    (destruct t; costs; rewrite ?M0, ?orb_false_r, ?orb_true_r; cbn [orb]; try lia; ifs; try discriminate; lia).
Qed.
Lemma cost_t_step g s s' : order_ok g -> 1 <= g_max g -> step_t g s = Some s' -> cost g s' < cost g s.
Proof.
  intros Or Hm. pose proof (max_pos g Hm) as M0. destruct s as [c t p ru pm am n q k f d r lo tr re a x o b]. unfold step_t. pcs. destruct b; [discriminate|]. intros H.
  assert (Lq : length (g_order g q) = length q) by (apply Permutation_length, Or).
  destruct t; pcs; split_step H; costs; rewrite ?M0, ?Lq; cbn [orb]; try lia.
  all: try (ifs; cbn [length]; try discriminate; lia).
  all: try (destruct c as [|l9|l9|w|w i|w i|w i|w i|w i|w i| | | | | | | | | |]; costs; ifs; lia).
  all: destruct ru, f; cbn [orb negb] in *; try discriminate; try lia; rewrite ?Heqb; try lia; ifs; lia.
Qed.
Lemma cost_wake_c g s s' : wake_c s = Some s' -> cost g s' <= cost g s + 2.
Proof. destruct s as [c t p ru pm am n q k f d r lo tr re a x o b]. unfold wake_c. pcs. intros H. destruct c; split_step H; costs. destruct i; lia. Qed.
Lemma cost_wake_t g s s' : wake_t s = Some s' -> cost g s' <= cost g s + 2.
Proof. destruct s as [c t p ru pm am n q k f d r lo tr re a x o b]. unfold wake_t. pcs. intros H. destruct t; split_step H; costs. lia. Qed.
Lemma cost_steps g n w s s' : order_ok g -> 1 <= g_max g -> steps g n w s s' -> n + cost g s' <= cost g s + 2 * w.
Proof.
  intros Or Hm H. induction H as [|n w s s1 s' E H IH|n w s s1 s' E H IH|n w s s1 s' E H IH|n w s s1 s' E H IH]; [lia| | | |].
  - apply cost_c_step in E; [lia|exact Hm].
  - apply cost_t_step in E; [lia|exact Or|exact Hm].
  - apply (cost_wake_c g) in E. lia.
  - apply (cost_wake_t g) in E. lia.
Qed.
Lemma work_cost p : work p = 43 + cost_p p.
Proof. induction p as [|[l| |] p IH]; cbn [work cost_p]; lia. Qed.
Lemma start_cost g p : 1 <= g_max g -> cost g (start g p) = work p.
Proof. intros Hm. rewrite work_cost. unfold cost, start, pot, pot_stop. pcs. cbn [cost_c base cost_t length orb]. rewrite (max_pos g Hm). lia. Qed.
Lemma terminates g p n w s : order_ok g -> 1 <= g_max g -> steps g n w (start g p) s -> n <= work p + 2 * w.
Proof. intros Or Hm H. pose proof (cost_steps g n w _ _ Or Hm H). rewrite (start_cost g p Hm) in H0. lia. Qed.
Lemma run_app g l1 : forall s l2, run g s (l1 ++ l2) = run g (run g s l1) l2.
Proof. induction l1 as [|m l IH]; intros s l2; [reflexivity|]. cbn [app run]. apply IH. Qed.
Lemma steps_run g n w s s' : steps g n w s s' -> exists l, s' = run g s l.
Proof.
  intros H. induction H as [|n w s s1 s' E H [l ->]|n w s s1 s' E H [l ->]|n w s s1 s' E H [l ->]|n w s s1 s' E H [l ->]]; [exists []; reflexivity| | | |].
  - exists (MClient :: l). cbn [run turn]. rewrite E. reflexivity.
  - exists (MThread :: l). cbn [run turn]. rewrite E. reflexivity.
  - exists (MWakeClient :: l). cbn [run turn]. rewrite E. reflexivity.
  - exists (MWakeThread :: l). cbn [run turn]. rewrite E. reflexivity.
Qed.
(* an execution that cannot be continued is one of a program that was carried out to its end *)
Lemma ends g p n w s : order_ok g -> steps g n w (start g p) s -> step_c g s = None -> step_t g s = None -> v_bad s = true \/ finished s.
Proof.
  intros Or H Hc Ht. destruct (v_bad s) eqn:Hb; [auto|]. right. destruct (steps_run _ _ _ _ _ H) as [l E].
  apply (deadlock_free g); [apply (reach_inv g p); [exact Or|exists l; exact E|exact Hb]|exact Hb|exact Hc|exact Ht].
Qed.
