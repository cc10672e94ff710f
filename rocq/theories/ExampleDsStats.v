(* Datastores at work, for the theorems about their statistics *)
From Verif Require Import ModelBytes ProofBytes ModelKey ModelWire ModelHist ModelMsg ModelStore ModelGetOp ModelDs ModelElen ModelFloat ModelRoute
  SpecRoute SpecClient ModelClient ModelStats SpecStats ModelDsStats SpecDsStats ExampleStore.
Local Open Scope N_scope.

Definition from (a b : Z) : nat -> stamp := fun _ => (a, b).
(* two triples; a pair that is there and one that is not; the first three triples, of which there are two; one that is not there *)
Definition dacts : list timed :=
  [ (CallOpen None, from 0 0);
    (CallReq (QPut [mkPut (xb "s") 1 (xb "p") 2 (xb "obj"); mkPut (xb "t") 3 (xb "p") 4 (xb "o")]), from 1000 3000);
    (CallReq (QGet [mkGet (xb "s") 1 (xb "p") 2 T_BYTE; mkGet (xb "x") 1 (xb "p") 2 T_BYTE]), from 4000 4500);
    (CallReq (QGetOp [mkGetOp GETOP_FIRST (xb "") (xb "") T_BYTE 3]), from 5000 7000);
    (CallReq (QGetOp [mkGetOp GETOP_EQ (xb "zz") (xb "p") T_BYTE 1]), from 7000 8000);
    (CallReq (QDel [mkDel (xb "s") 1 (xb "p") 2]), from 8000 9000);
    (CallReq (QHist [xb "h"]), from 9000 9100) ].
Definition seen (x : outcome (ds * list (option body) * dstats)) : outcome (N * list (option body) * dstats) :=
  do (dr, st) <- x; Ok (lenN (d_rows (fst dr)), snd dr, st).
Lemma seen_inv x n rs st : seen x = Ok (n, rs, st) -> exists d, x = Ok (d, rs, st) /\ lenN (d_rows d) = n.
Proof. destruct x as [[[d r] s]| |]; cbn; intros H; try discriminate H. apply Ok_inj in H as [= <- <- <-]. exists d. split; reflexivity. Qed.
Definition run_seen (k : backend) (l : list timed) := seen (truns (ds_new k ex_codec) no_events l).
Definition counts (x : outcome (N * list (option body) * dstats)) :=
  do (_, st) <- x; Ok (map (fun e => (ev_count e, ev_size e)) (st_puts st), map (fun e => (ev_count e, ev_size e)) (st_gets st)).
Definition line_of (l : list event) : outcome (N * N * bytes) :=
  do x <- report l; Ok (ln_count x, ln_size x, match ln_rates x with Some (_, t) => t | None => [] end).
