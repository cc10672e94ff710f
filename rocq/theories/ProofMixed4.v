(* What a client sees of pairs that only it changes *)
From Verif Require Import ModelBytes ProofBytes ModelKey ModelWire ModelHist ModelMsg SpecMsg ModelStore ModelGetOp ModelDs
  SpecStore ProofStore ModelElen ModelRoute SpecRoute ModelClient SpecClient SpecCluster SpecGetOp SpecScan SpecTyped SpecMixed SpecMixed3 SpecStore.
Local Open Scope N_scope.

Section Alone.
Context (K : field -> field -> Prop).
Definition same_on (M M' : tmap) : Prop := forall s p, K s p -> M s p = M' s p.
Definition its_own (w : waiting) : Prop :=
  Forall (fun t : arg * arg * arg => let '(s, p, _) := t in K (fa s) (fa p)) (w_puts w) /\ Forall (fun t : arg * arg * N => let '(s, p, _) := t in K (fa s) (fa p)) (w_gets w) /\
  Forall (fun t : arg * arg => let '(s, p) := t in K (fa s) (fa p)) (w_dels w) /\ w_getops w = [].
Definition of_others (w : waiting) : Prop :=
  Forall (fun t : arg * arg * arg => let '(s, p, _) := t in ~ K (fa s) (fa p)) (w_puts w) /\ Forall (fun t : arg * arg => let '(s, p) := t in ~ K (fa s) (fa p)) (w_dels w).

Lemma tset_on M M' s p o : same_on M M' -> same_on (tset M s p o) (tset M' s p o).
Proof. intros H s' p' Hk. unfold tset. destruct (_ && _)%bool; [reflexivity|apply H, Hk]. Qed.
Lemma put_on l : forall M M', same_on M M' -> same_on (put_all M l) (put_all M' l).
Proof. induction l as [|[[s p] o] l IH]; intros M M' H; [exact H|]. cbn [put_all]. apply IH, tset_on, H. Qed.
Lemma del_on e k l : forall M M', Forall (fun t : arg * arg => let '(s, p) := t in K (fa s) (fa p)) l -> same_on M M' ->
  same_on (fst (del_all e k M l)) (fst (del_all e k M' l)) /\ snd (del_all e k M l) = snd (del_all e k M' l).
Proof.
  induction l as [|[s p] l IH]; intros M M' F H; [split; [exact H|reflexivity]|]. apply Forall_cons_iff in F as [Ks F]. cbn [del_all].
  destruct (IH _ _ F (tset_on M M' (fa s) (fa p) None H)) as [A B].
  destruct (del_all e k (tset M _ _ _) l), (del_all e k (tset M' _ _ _) l). cbn [fst snd] in *. split; [exact A|]. rewrite B, (H _ _ Ks). reflexivity.
Qed.
Lemma put_out l : forall M, Forall (fun t : arg * arg * arg => let '(s, p, _) := t in ~ K (fa s) (fa p)) l -> same_on (put_all M l) M.
Proof.
  induction l as [|[[s p] o] l IH]; intros M F; [intros s p _; reflexivity|]. apply Forall_cons_iff in F as [N F]. cbn [put_all]. intros s' p' Hk.
  rewrite (IH _ F s' p' Hk). apply tset_other. intros [= E1 E2]. rewrite E1, E2 in N. exact (N Hk).
Qed.
Lemma del_out e k l : forall M, Forall (fun t : arg * arg => let '(s, p) := t in ~ K (fa s) (fa p)) l -> same_on (fst (del_all e k M l)) M.
Proof.
  induction l as [|[s p] l IH]; intros M F; [intros s p _; reflexivity|]. apply Forall_cons_iff in F as [N F]. cbn [del_all]. intros s' p' Hk.
  specialize (IH (tset M (fa s) (fa p) None) F s' p' Hk). destruct (del_all e k _ l). cbn [fst] in *. rewrite IH. apply tset_other. intros [= E1 E2]. rewrite E1, E2 in N. exact (N Hk).
Qed.
Lemma own_without w p : its_own w -> its_own (without w p).
Proof. intros (A & B & C & D). destruct p; (split; [|split; [|split]]); cbn [without w_puts w_gets w_dels w_getops]; try assumption; constructor. Qed.
Lemma other_without w p : of_others w -> of_others (without w p).
Proof. intros (A & B). destruct p; split; cbn [without w_puts w_dels]; try assumption; constructor. Qed.
Lemma own_pieces ps : forall w, its_own w -> its_own (fold_left without ps w).
Proof. induction ps as [|p ps IH]; intros w H; [exact H|]. apply IH, own_without, H. Qed.
Lemma other_pieces ps : forall w, of_others w -> of_others (fold_left without ps w).
Proof. induction ps as [|p ps IH]; intros w H; [exact H|]. apply IH, other_without, H. Qed.
Lemma left_on e k w p M M' : its_own w -> same_on M M' -> same_on (left_ e k M w p) (left_ e k M' w p).
Proof. intros (A & B & C & D) H. destruct p; cbn [left_]; try exact H; [apply put_on, H|apply (del_on e k _ M M' C H)]. Qed.
Lemma left_all_on e k ps : forall w M M', its_own w -> same_on M M' -> same_on (left_all e k M w ps) (left_all e k M' w ps).
Proof. induction ps as [|p ps IH]; intros w M M' O H; [exact H|]. cbn [left_all]. apply IH; [apply own_without, O|apply left_on; assumption]. Qed.
Lemma left_all_out e k ps : forall w M, of_others w -> same_on (left_all e k M w ps) M.
Proof.
  induction ps as [|p ps IH]; intros w M O s q Hk; [reflexivity|]. cbn [left_all]. rewrite (IH _ _ (other_without w p O) s q Hk).
  destruct p; cbn [left_]; try reflexivity; [apply put_out; [apply O|exact Hk]|apply del_out; [apply O|exact Hk]].
Qed.
Lemma gives_on e k c w p M M' ys : its_own w -> same_on M M' -> gives e k c M w p ys -> gives e k c M' w p ys.
Proof.
  intros (A & B & C & D) H. destruct p; cbn [gives].
  - exact (fun x => x).
  - intros ->. apply map_ext_in. intros [[s q] ty] Hi. rewrite Forall_forall in B. specialize (B _ Hi). cbn beta iota in B. unfold get_result. rewrite (H _ _ B). reflexivity.
  - rewrite D. intros (gs & H2 & ->). inversion H2; subst. exists []. split; [constructor|reflexivity].
  - intros ->. apply (del_on e k _ M M' C H).
Qed.
Lemma give_on e k c ps : forall w M M' ys, its_own w -> same_on M M' -> give e k c M w ps ys -> give e k c M' w ps ys.
Proof.
  induction ps as [|p ps IH]; intros w M M' ys O H G; [exact G|]. destruct G as (y & z & Gy & Gz & ->). exists y, z. split; [eapply gives_on; eassumption|]. split; [|reflexivity].
  eapply IH; [apply own_without, O|apply left_on; [exact O|exact H]|exact Gz].
Qed.
Lemma seen_alone E k c i : forall l rs M M' W W', moves_seen E k c M W l rs -> same_on M M' -> W' i = W i -> its_own (W i) -> (forall j, j <> i -> of_others (W j)) ->
  Forall (left_to K E i) l -> moves_seen E k c M' W' (alone i l) (mine i l rs).
Proof.
  induction l as [|[j [x|p]] l IH]; intros rs M M' W W' Hs HM EW Ho Hx HF; [cbn [moves_seen] in Hs; subst rs; reflexivity| |];
    apply Forall_cons_iff in HF as [Hl HF]; cbn [moves_seen] in Hs; unfold alone; cbn [filter fst mine]; fold (alone i l).
  - unfold left_to in Hl. cbn [fst snd] in Hl. destruct (Z.eqb_spec j i) as [->|Ne].
    + cbn [moves_seen]. eapply IH; [exact Hs|exact HM| | | |exact HF]; unfold waits; try rewrite Z.eqb_refl.
      * rewrite EW. reflexivity.
      * destruct Ho as (A & B & C & D), Hl as (A' & B' & C' & D'). unfold its_own. cbn [wait w_puts w_gets w_dels w_getops]. rewrite D, D'.
        repeat (split; [apply Forall_app; auto|]). reflexivity.
      * intros j Hj. destruct (Z.eqb_spec j i); [contradiction|]. apply Hx, Hj.
    + eapply IH; [exact Hs|exact HM| | | |exact HF]; unfold waits.
      * destruct (Z.eqb_spec i j); [congruence|exact EW].
      * destruct (Z.eqb_spec i j); [congruence|exact Ho].
      * intros j' Hj. destruct (Z.eqb_spec j' j) as [->|]; [|apply Hx, Hj]. destruct (Hx j Hj) as (A & B), Hl as (A' & B').
        split; cbn [wait w_puts w_dels]; apply Forall_app; auto.
  - destruct Hs as (xs & ys & rs' & -> & P & G & Hs). destruct (Z.eqb_spec j i) as [->|Ne].
    + cbn [moves_seen]. exists xs, ys, (mine i l rs'). split; [reflexivity|]. split; [exact P|]. rewrite EW. split; [eapply give_on; eassumption|].
      eapply IH; [exact Hs|apply left_all_on; assumption| | | |exact HF]; unfold waits; try rewrite Z.eqb_refl.
      * reflexivity.
      * apply own_pieces, Ho.
      * intros j Hj. destruct (Z.eqb_spec j i); [contradiction|]. apply Hx, Hj.
    + eapply IH; [exact Hs| | | | |exact HF]; unfold waits.
      * intros s q Hk. rewrite (left_all_out (E j) k (pieces p) (W j) M (Hx j Ne) s q Hk). apply HM, Hk.
      * destruct (Z.eqb_spec i j); [congruence|exact EW].
      * destruct (Z.eqb_spec i j); [congruence|exact Ho].
      * intros j' Hj. destruct (Z.eqb_spec j' j) as [->|]; [|apply Hx, Hj]. apply other_pieces, Hx, Hj.
Qed.
End Alone.
Lemma client_alone K E k c i l rs : moves_seen E k c no_triples (fun _ => idle) l rs -> Forall (left_to K E i) l ->
  moves_seen E k c no_triples (fun _ => idle) (alone i l) (mine i l rs).
Proof.
  intros H HF. eapply (seen_alone K); [exact H|intros s p _; reflexivity|reflexivity| | |exact HF].
  - repeat split; constructor.
  - intros j _. split; constructor.
Qed.
