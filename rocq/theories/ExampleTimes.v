(* A client at work, for the theorems about times *)
From Verif Require Import ModelBytes ProofBytes ModelKey ProofStore ModelWire ModelHist ModelMsg SpecMsg ExampleMsg ModelStore ModelGetOp ModelDs
  SpecStore ModelElen ModelRoute SpecRoute ExampleStore ModelClient SpecClient SpecCluster ExampleClient ModelTimes SpecTimes.
Local Open Scope N_scope.

(* five triples (three for datastore 0 on the own rank, two for datastore 1 on the other), a pair, the first three pairs of datastore 1 *)
Definition tacts : list step :=
  [ SOp (OPut (xa 1 "s") (xa 2 "p") (xa 3 "old")); SOp (OPut (xa 1 "s") (xa 2 "p") (xa 3 "new")); SOp (OPut (xa 5 "a") (xa 6 "b") (xa 7 "c"));
    SOp (OPut (xa 8 "x") (xa 9 "y") (xa 10 "z")); SOp (OPut (xa 8 "c") (xa 9 "b") (xa 10 "a"));
    SOp (OGet (xa 11 "s") (xa 12 "p") T_BYTE); SFlush; SOp (OGetOp (xa 13 "a") (xa 14 "b") T_BYTE 3 GETOP_FIRST); SSync ].
Definition ticks : clock := fun n => (100 + Z.of_nat n)%Z.
Definition tstart (k : backend) : world := mkWorld (xcl k) 0 [].
Definition tseen (x : outcome (tqueues * world * list event * list (result * times))) : outcome (nat * list body * list event * list (result * times)) :=
  do (a, xs) <- x; let '(_, w, evs) := a in Ok (w_now w, w_wire w, evs, xs).
Lemma tseen_inv x n wi evs xs : tseen x = Ok (n, wi, evs, xs) -> exists qs w, x = Ok (qs, w, evs, xs) /\ w_wire w = wi /\ w_now w = n.
Proof. destruct x as [[[[qs w] ev] ys]| |]; cbn; intros H; try discriminate H. apply Ok_inj in H as [= <- <- <- <-]. exists qs, w. auto. Qed.
Definition trun (l : list step) := tseen (t_run (xe 0) ticks (t_opened (xe 0)) (tstart InMemory) l).

Definition twire : list body := Eval vm_compute in match trun tacts with Ok (_, wi, _, _) => wi | _ => [] end.
Definition tevents : list event := Eval vm_compute in match trun tacts with Ok (_, _, evs, _) => evs | _ => [] end.
Definition tresults : list (result * times) := Eval vm_compute in match trun tacts with Ok (_, _, _, xs) => xs | _ => [] end.
Lemma tacts_seen : tseen (t_run (xe 0) ticks (t_opened (xe 0)) (tstart InMemory) tacts) = Ok (107%nat, twire, tevents, tresults).
Proof. vm_compute. reflexivity. Qed.
Lemma tacts_run : exists qs w, t_run (xe 0) ticks (t_opened (xe 0)) (tstart InMemory) tacts = Ok (qs, w, tevents, tresults) /\ w_wire w = twire.
Proof.
  destruct (tseen_inv _ _ _ _ _ tacts_seen) as (qs & w & R & W & _). exists qs, w. split; [exact R|exact W].
Qed.
Lemma twire_ok : Forall body_ok twire.
Proof. unfold twire. okk; unfold st_ok; okk. unfold gotop_ok. okk; unfold rec_ok; cbn; okk; intros _; okk. Qed.
Lemma ticks_steady : steady ticks.
Proof. intros i j H. unfold ticks. lia. Qed.

(* the second record of a GETOP *)
Lemma second_record : exists e T cl l qs w evs xs x, setting e /\ steady T /\
  t_run e T (t_opened e) (mkWorld cl 0 []) l = Ok (qs, w, evs, xs) /\ Forall body_ok (w_wire w) /\
  In x xs /\ of_sync x = false /\ far e (from (fst x)) = true /\ forall ev, In ev evs -> ti_send (snd x) <> event_send T ev.
Proof.
  destruct tacts_run as (qs & w & R & W). exists (xe 0), ticks, (xcl InMemory), tacts, qs, w, tevents, tresults, (nth 7 tresults (XSync 0 true, no_times)).
  split; [apply xe_setting; lia|]. split; [exact ticks_steady|]. split; [exact R|]. split; [rewrite W; exact twire_ok|].
  split; [unfold tresults; cbn; tauto|]. split; [reflexivity|]. split; [reflexivity|].
  intros ev H E. assert (Z0 : ticks (ev_before ev) = 0%Z) by (change (fst (sn_hash (event_send ticks ev)) = 0%Z); rewrite <- E; reflexivity).
  unfold ticks in Z0. lia.
Qed.

(* an operation that stays on the rank of the client *)
Lemma near_result : exists e T cl l qs w evs xs s p x, setting e /\ steady T /\
  t_run e T (t_opened e) (mkWorld cl 0 []) l = Ok (qs, w, evs, xs) /\ Forall body_ok (w_wire w) /\
  fst x = XPut 0 true (arg_ref s) (arg_ref p) /\ In x xs /\ far e 0 = false /\ forall ev, In ev evs -> ti_send (snd x) <> event_send T ev.
Proof.
  destruct tacts_run as (qs & w & R & W). exists (xe 0), ticks, (xcl InMemory), tacts, qs, w, tevents, tresults, (xa 1 "s"%string), (xa 2 "p"%string), (nth 2 tresults (XSync 0 true, no_times)).
  split; [apply xe_setting; lia|]. split; [exact ticks_steady|]. split; [exact R|]. split; [rewrite W; exact twire_ok|].
  split; [reflexivity|]. split; [unfold tresults; cbn; tauto|]. split; [reflexivity|].
  intros ev H E. assert (Z0 : ticks (ev_before ev) = 0%Z) by (change (fst (sn_hash (event_send ticks ev)) = 0%Z); rewrite <- E; reflexivity).
  unfold ticks in Z0. lia.
Qed.

(* the results of Sync: the trip starts after it ended *)
Lemma sync_times e T : (forall i, 0 < T i)%Z -> (forall i j, (i < j)%nat -> (T i < T j)%Z) -> forall offs w w' xs, t_sync_local e T w offs = Ok (w', xs) ->
  Forall (fun x => ~ ascending (moments (snd x)) /\ (snd (tr_unpack (ti_trip (snd x))) < tr_start (ti_trip (snd x)))%Z /\
    tr_cleanup (ti_trip (snd x)) = no_stamp) xs.
Proof.
  intros P L. induction offs as [|off offs IH]; cbn [t_sync_local]; intros w w' xs H; [apply Ok_inj in H as [= _ <-]; constructor|].
  destruct (w_cl w (e_rank e) off) as [d|]; [|exact (IH _ _ _ H)].
  obind H a Ea. destruct a as [d' st]. obind H b Eb. destruct b as [w1 ys]. apply Ok_inj in H as [= _ <-]. constructor; [|exact (IH _ _ _ Eb)].
  cbn -[Nat.add]. pose proof (L (w_now w + 9) (w_now w + 10))%nat. pose proof (P (w_now w + 9)%nat). repeat split; lia.
Qed.
Lemma tsync_example : (do (w, xs) <- t_sync_local (xe 0) ticks (tstart InMemory) (upto 1); Ok (w_now w, map (fun x => tr_start (ti_trip (snd x))) xs)) = Ok (14%nat, [110%Z]).
Proof. vm_compute. reflexivity. Qed.
