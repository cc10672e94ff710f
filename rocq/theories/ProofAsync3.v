(* Invariants of the two threads: what has been executed and which results are where *)
From Verif Require Import ModelBytes ModelKey ModelWire ModelHist ModelMsg ModelAsync SpecAsync ProofAsync ProofAsync2.
Local Open Scope nat_scope.

Ltac ors := repeat match goal with
  | H : _ \/ _ |- _ => destruct H
  | H : _ /\ _ |- _ => destruct H
  end.
Ltac tryor := first [ (use; fin; fail) | (left; repeat split; use; fin; fail) | (right; repeat split; use; fin; fail)
                    | (right; split; [use; fin; fail|left; use; fin; fail]) | (right; split; [use; fin; fail|right; use; fin; fail]) | idtac ].

Lemma round_c g s s' : order_ok g -> inv_lock s -> inv_wait g s -> inv_local s -> inv_round s -> step_c g s = Some s' -> v_bad s' = false -> inv_round s'.
Proof.
  intros Or. destruct s as [c t p ru pm am n q k f d r lo tr re a x o b]. unfold inv_lock, inv_wait, inv_round, inv_local, step_c. pcs.
  intros (H1 & H2 & H3 & H4) (W1 & W2 & W3 & W4 & W5) (L1 & L2 & L3 & L4 & L5 & L6) R H Hb Hr. destruct b; [discriminate|]. subst pm am ru.
  destruct c as [|l|l|w|w i|w i|w i|w i|w i|w i| | | | | | | | | |]; try destruct w; try destruct i; try destruct d; pcs; split_step H; pcs; fin;
    try (use; fin; fail); try (destruct t; pcs; use; ors; try discriminate; try subst q; tryor).
Qed.
Lemma round_t g s s' : order_ok g -> inv_lock s -> inv_wait g s -> inv_local s -> inv_round s -> step_t g s = Some s' -> v_bad s' = false -> inv_round s'.
Proof.
  intros Or. pose proof (order_nil g Or) as On. destruct s as [c t p ru pm am n q k f d r lo tr re a x o b]. unfold inv_lock, inv_wait, inv_round, inv_local, step_t. pcs.
  intros (H1 & H2 & H3 & H4) (W1 & W2 & W3 & W4 & W5) (L1 & L2 & L3 & L4 & L5 & L6) R H Hb Hr. destruct b; [discriminate|]. subst pm am ru.
  destruct c as [|l9|l9|w|w i|w i|w i|w i|w i|w i| | | | | | | | | |]; try destruct w; try destruct i; try destruct d; pcs; try discriminate;
   destruct t; pcs; split_step H; pcs; fin; try (use; fin; fail); try (use; ors; try discriminate; try subst; fin; try rewrite On; tryor).
Qed.
