(* Invariants of the two threads: waiting, rounds of wait_for_background_puts *)
From Verif Require Import ModelBytes ModelKey ModelWire ModelHist ModelMsg ModelAsync SpecAsync ProofAsync.
Local Open Scope nat_scope.
Lemma wait_t g s s' : inv_lock s -> inv_wait g s -> step_t g s = Some s' -> v_bad s' = false -> inv_wait g s'.
Proof.
  destruct s as [c t p ru pm am n q k f d r lo tr re a x o b]. unfold inv_lock, inv_wait, step_t. pcs.
  intros (H1 & H2 & H3 & H4) (W1 & W2 & W3 & W4 & W5) H Hb. destruct b; [discriminate|]. subst pm am ru.
  destruct t; pcs; split_step H; pcs; fin;
    (destruct c as [|l9|l9|w|w i|w i|w i|w i|w i|w i| | | | | | | | | |]; try destruct w; try destruct i; pcs; fin; conj4; try (split; fina; fail); try lia; try (specialize (W5 eq_refl); discriminate);
     try (match goal with H : ?d = true, W : ?d = true -> _ |- _ => specialize (W H); discriminate end)).
Qed.

Lemma order_nil g : order_ok g -> g_order g [] = [].
Proof. intros H. destruct (H []) as [P _]. apply Permutation_nil, Permutation_sym, P. Qed.

Ltac use := repeat match goal with
  | W : ?x = ?x -> _ |- _ => specialize (W eq_refl)
  | H : ?A = ?B, W : ?A = ?B -> _ |- _ => specialize (W H)
  | W : ?x <> ?y -> _ |- _ => specialize (W ltac:(discriminate))
  | H : _ /\ _ |- _ => destruct H
  end.
Ltac done9 := use; fin; try (match goal with H : _ \/ _ |- _ => destruct H; use; fin end).
Lemma local_c g s s' : order_ok g -> inv_lock s -> inv_wait g s -> inv_round s -> inv_local s -> step_c g s = Some s' -> v_bad s' = false -> inv_local s'.
Proof.
  intros Or. destruct s as [c t p ru pm am n q k f d r lo tr re a x o b]. unfold inv_lock, inv_wait, inv_round, inv_local, step_c. pcs.
  intros (H1 & H2 & H3 & H4) (W1 & W2 & W3 & W4 & W5) R (L1 & L2 & L3 & L4 & L5 & L6) H Hb. destruct b; [discriminate|]. subst pm am ru.
  destruct c as [|l|l|w|w i|w i|w i|w i|w i|w i| | | | | | | | | |]; try destruct w; pcs; split_step H; pcs; fin;
    (try destruct t; pcs; conj4; done9).
Qed.
Lemma local_t g s s' : order_ok g -> inv_lock s -> inv_wait g s -> inv_round s -> inv_local s -> step_t g s = Some s' -> v_bad s' = false -> inv_local s'.
Proof.
  intros Or. destruct s as [c t p ru pm am n q k f d r lo tr re a x o b]. unfold inv_lock, inv_wait, inv_round, inv_local, step_t. pcs.
  intros (H1 & H2 & H3 & H4) (W1 & W2 & W3 & W4 & W5) R (L1 & L2 & L3 & L4 & L5 & L6) H Hb. destruct b; [discriminate|]. subst pm am ru.
  assert (TF : emptied c = true -> tr = []) by (intros Hc; destruct c; try discriminate Hc; apply R; reflexivity).
  destruct t; pcs; split_step H; pcs; fin; (conj4; try (apply L4; reflexivity); try (apply L5; assumption); try (apply L6; assumption);
    try (rewrite (TF ltac:(assumption)); try rewrite app_nil_r; try reflexivity; try (apply L5; assumption)); try (apply L1; discriminate)).
  all: destruct c; done9.
Qed.
