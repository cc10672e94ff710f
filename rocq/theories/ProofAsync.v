(* Invariants of the two threads *)
From Verif Require Import ModelBytes ModelKey ModelWire ModelHist ModelMsg ModelAsync SpecAsync.
Local Open Scope nat_scope.

Definition c_pm (c : cpc) : bool := match c with CPutDo _ | WSet _ _ | FRun | FDone => true | _ => false end.
Definition t_pm (t : tpc) : bool := match t with TTest | TTake => true | _ => false end.
Definition c_am (c : cpc) : bool := match c with WReset _ _ | WPuts _ _ | WSet _ _ | WTest _ _ => true | _ => false end.
Definition t_am (t : tpc) : bool := match t with TDone => true | _ => false end.
Definition owner (a b : bool) : option who := if a then Some Client else if b then Some Thread else None.
Definition closing (c : cpc) : bool :=
  match c with
  | WLock FromClose | WReset FromClose _ | WPuts FromClose _ | WSet FromClose _ | WTest FromClose _ | WWait FromClose _ | WWake FromClose _
  | XJoin | XFree | CGone => true | _ => false end.
(* has told the thread to stop *)
Definition told (c : cpc) : bool :=
  match c with
  | WReset FromClose true | WPuts FromClose true | WSet FromClose true | WTest FromClose _ | XJoin | XFree | CGone => true | _ => false end.
Definition busy (t : tpc) : bool := match t with TRun | TStore | TApp | TSet | TDoneLock | TDone => true | _ => false end.
Definition in_flush (c : cpc) : bool := match c with FAppend | FFree | FNull | FLock | FRun | FDone => true | _ => false end.
Definition has_res (c : cpc) : bool :=
  match c with WLock FromFlush | WReset FromFlush _ | WPuts FromFlush _ | WSet FromFlush _ | WTest FromFlush _ | WWait FromFlush _ | WWake FromFlush _
  | FAppend | FFree | FNull | FLock | FRun | FDone => true | _ => false end.
Definition no_res (c : cpc) : bool :=
  match c with WLock FromFlush | WReset FromFlush _ | WPuts FromFlush _ | WSet FromFlush _ | WTest FromFlush _ | WWait FromFlush _ | WWake FromFlush _
  | FAppend => true | _ => false end.
Definition emptied (c : cpc) : bool := match c with FFree | FNull | FLock | FRun | FDone => true | _ => false end.
Definition held (r : rptr) : list op := match r with PLive l => l | _ => [] end.

Definition inv_lock (s : st) : Prop :=
  v_pm s = owner (c_pm (v_c s)) (t_pm (v_t s)) /\ c_pm (v_c s) && t_pm (v_t s) = false /\
  v_am s = owner (c_am (v_c s)) (t_am (v_t s)) /\ c_am (v_c s) && t_am (v_t s) = false.
Definition inv_wait (g : cfg) (s : st) : Prop :=
  v_running s = negb (closing (v_c s)) /\
  (v_t s = TEnd -> v_running s = false) /\
  (v_t s = TWait -> v_flushed s = false /\ v_count s < g_max g) /\
  (told (v_c s) = true -> v_t s <> TWait) /\
  match v_c s with
  | WWait FromClose _ | WWake FromClose _ => False
  | WWait _ _ => v_done s = true -> v_t s = TNotify
  | WPuts _ _ | WSet _ _ => v_done s = false
  | _ => True
  end.
Definition inv_round (s : st) : Prop :=
  v_running s = true ->
  match v_c s with
  | WTest _ false | WWait _ false | WWake _ false =>
      if v_done s then busy (v_t s) = false /\ v_flushed s = true \/ v_queue s = []
      else v_flushed s = true \/ busy (v_t s) = true /\ v_queue s = []
  | WReset _ true | WPuts _ true | WSet _ true => busy (v_t s) = false /\ v_flushed s = true \/ v_queue s = []
  | WTest _ true | WWait _ true | WWake _ true =>
      if v_done s then v_queue s = [] /\ v_local s = [] /\ v_tres s = []
      else v_queue s = [] /\ busy (v_t s) = true \/ v_flushed s = true /\ (busy (v_t s) = false \/ v_queue s = [])
  | FAppend | FFree | FNull | FLock | FRun | FDone => v_queue s = [] /\ v_local s = [] /\ v_tres s = []
  | _ => True
  end.
Definition inv_local (s : st) : Prop :=
  (v_t s <> TRun -> v_local s = []) /\
  match v_t s with TRun | TStore | TApp | TSet => True | _ => v_tres s = [] end /\
  (v_t s = TSet -> v_ptr s = PNull) /\
  (v_ptr s = PFreed -> v_c s = FNull) /\
  (emptied (v_c s) = true -> held (v_ptr s) = []) /\
  (no_res (v_c s) = true -> v_res s = []).
Definition inv_data (s : st) : Prop :=
  forall i, (exists r, at_ds i (v_acc s) = at_ds i (v_exec s) ++ at_ds i (v_local s) ++ at_ds i (v_queue s) ++ r /\ (v_running s = true -> r = [])) /\
    (closing (v_c s) = false -> at_ds i (v_exec s) = at_ds i (concat (v_out s)) ++ at_ds i (if has_res (v_c s) then v_res s else []) ++ at_ds i (held (v_ptr s)) ++ at_ds i (v_tres s)).

Definition inv (g : cfg) (s : st) : Prop := inv_lock s /\ inv_wait g s /\ inv_round s /\ inv_local s /\ inv_data s.

Lemma at_app i a b : at_ds i (a ++ b) = at_ds i a ++ at_ds i b.
Proof. apply filter_app. Qed.
Lemma at_nil i : at_ds i [] = [].
Proof. reflexivity. Qed.

Ltac pcs := unfold t_cond, c_cond in *; cbn [orb c_pm t_pm c_am t_am owner closing told busy in_flush emptied has_res no_res held after andb negb
  v_c v_t v_prog v_running v_pm v_am v_len v_queue v_count v_flushed v_done v_ptr v_local v_tres v_res v_acc v_exec v_out v_bad
  set_c set_t set_prog set_running set_pm set_am set_queue set_done set_ptr set_local set_res set_hist set_bad notify_thread notify_client t_cond c_cond] in *.

Lemma start_inv g p : inv g (start g p).
Proof.
  unfold inv, inv_lock, inv_wait, inv_round, inv_local, inv_data, start. pcs. split; [auto|]. split; [repeat split; discriminate|]. split; [auto|].
  split; [repeat split; try discriminate; reflexivity|]. intros i. rewrite !at_nil. split; [exists []; auto|auto].
Qed.

(* inversion of a step: one goal per case *)
Ltac split_step H :=
  repeat match type of H with
  | context [match ?x with _ => _ end] => destruct x eqn:?; try discriminate H
  end; first [discriminate H | (injection H as H; subst)].
Ltac fin := try discriminate; try contradiction; auto; try congruence.
Ltac fina := fin; try lia.

Lemma lock_c g s s' : inv_lock s -> step_c g s = Some s' -> v_bad s' = false -> inv_lock s'.
Proof.
  destruct s as [c t p ru pm am n q k f d r lo tr re a x o b]. unfold inv_lock, step_c. pcs. intros (H1 & H2 & H3 & H4) H Hb.
  destruct b; [discriminate|]. subst pm am.
  destruct c; pcs; (destruct t; pcs; try discriminate); split_step H; pcs; fin; (split; [|split; [|split]]); fin; destruct k0; fin.
Qed.
Lemma lock_t g s s' : inv_lock s -> step_t g s = Some s' -> v_bad s' = false -> inv_lock s'.
Proof.
  destruct s as [c t p ru pm am n q k f d r lo tr re a x o b]. unfold inv_lock, step_t. pcs. intros (H1 & H2 & H3 & H4) H Hb.
  destruct b; [discriminate|]. subst pm am.
  destruct t; pcs; (destruct c; pcs; try discriminate); split_step H; pcs; fin; (split; [|split; [|split]]); fin.
Qed.

Ltac conj4 := repeat match goal with |- _ /\ _ => split end; intros; fin.
Lemma wait_c g s s' : inv_lock s -> inv_wait g s -> step_c g s = Some s' -> v_bad s' = false -> inv_wait g s'.
Proof.
  destruct s as [c t p ru pm am n q k f d r lo tr re a x o b]. unfold inv_lock, inv_wait, step_c. pcs.
  intros (H1 & H2 & H3 & H4) (W1 & W2 & W3 & W4 & W5) H Hb. destruct b; [discriminate|]. subst pm am ru.
  destruct c as [|l|l|w|w i|w i|w i|w i|w i|w i| | | | | | | | | |]; try destruct w; pcs; split_step H; pcs; fin;
    try (destruct t; pcs; conj4; fail);
    try (destruct t; pcs; conj4; try (specialize (W3 eq_refl); lia); fin; try lia).
Qed.
