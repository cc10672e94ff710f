(* Sessions with the background PUT thread in a cluster (C79) *)
From Verif Require Import ModelBytes ModelKey ModelWire ModelHist ModelMsg ModelStore ModelGetOp ModelDs ProofDs ModelElen ModelRoute SpecRoute
  ExampleStore ModelClient SpecClient SpecCluster SpecScan ExampleClient ModelPar SpecPar ExamplePar ModelAsync SpecAsync ModelBack SpecStore SpecBack
  ProofBack ProofBack4 ProofBack5 ExampleBack.
Local Open Scope N_scope.

(* Whatever the schedule of the client, its background thread and all other clients (W: who takes part; m: the client, t: its thread):
   no request fails, and what all see is explained by operations on one map that take effect one at a time: the PUTs of the session
   after the thread has taken them and before it has stored their results.
   Missing: programs whose PUTs use two datastores of the same other rank, GETOPs that are not steady, histograms. *)
Theorem C79_explained_partial g E k c e0 S cl p m t (W : Z -> Prop) xs :
  order_ok g -> (forall i, W i -> good_client (E i) /\ same_cluster e0 (E i) /\ fresh (E i) (S i)) -> W m -> W t -> m <> t ->
  holds e0 cl (fun _ => opened k c) -> good_program c (E t) p -> Forall (bmove_ok E k c m W) xs ->
  exists w h, brun g E m t (bstart g p S cl) xs = Ok (w, h) /\ explained E k c h /\ reach g p (b_a w).
Proof.
  intros Or HW Wm Wt Hmt Hcl Hp F. destruct (brun_known g E k c e0 S cl p m t W Or HW Wt Hmt Hcl Hp xs _ _ (bstart_known g E k c S cl p t W) F) as (w & h & R & K).
  exists w, h. split; [exact R|]. split; [exact (known_explained g E k c e0 S cl p t W HW Hcl w h K)|exact (proj1 (proj2 K))].
Qed.
Print Assumptions C79_explained_partial.
Example C79_explained_example : order_ok bg /\ (forall i, bW i -> good_client (be i) /\ same_cluster (xe 0) (be i) /\ fresh (be i) (opened_session (be i))) /\
  bW 0 /\ bW 2 /\ 0%Z <> 2%Z /\ holds (xe 0) (xcl InMemory) (fun _ => opened InMemory ex_codec) /\ good_program ex_codec (be 2) bprog /\ Forall (bmove_ok be InMemory ex_codec 0 bW) (bwait ++ bask).
Proof.
  split; [exact bg_order|]. split; [exact be_clients|]. split; [unfold bW; lia|]. split; [unfold bW; lia|]. split; [discriminate|]. split; [apply xcl_holds|]. split; [exact bprog_good|exact b_moves].
Qed.

(* When FlushPuts returns, the last PUT of a pair that was called is what everyone gets, until someone changes it: any client j, also
   the session's own, with GETs called afterwards. Missing besides: executions with the use after free of C38, pairs that others have changed. *)
Theorem C79_flushed_partial g E k c e0 S cl p m t (W : Z -> Prop) xs ys w h w' j cs h3 h4 rs h5 s q :
  order_ok g -> (forall i, W i -> good_client (E i) /\ same_cluster e0 (E i) /\ fresh (E i) (S i)) -> W m -> W t -> m <> t ->
  holds e0 cl (fun _ => opened k c) -> good_program c (E t) p -> Forall (bmove_ok E k c m W) (xs ++ ys) ->
  brun g E m t (bstart g p S cl) xs = Ok (w, h) -> v_bad (b_a w) = false -> v_c (b_a w) = FDone ->
  brun g E m t w ys = Ok (w', h3 ++ Called j cs :: h4 ++ Returned j rs :: h5) ->
  only E t s q h -> untouched E s q (h3 ++ Called j cs :: h4) -> still j h4 ->
  forall x y ty, In (OGet x y ty) (opers (E j) cs) -> fa x = s -> fa y = q -> In (get_gives (E j) x y (last_put s q (v_acc (b_a w)))) rs.
Proof.
  intros Or HW Wm Wt Hmt Hcl Hp F R Hb Hc R2. apply Forall_app in F as [F1 F2].
  destruct (brun_known g E k c e0 S cl p m t W Or HW Wt Hmt Hcl Hp xs _ _ (bstart_known g E k c S cl p t W) F1) as (w1 & h1 & R1 & K). rewrite R in R1. injection R1 as <- <-.
  exact (flushed_seen g E k c e0 S cl p m t W Or HW Wt Hmt Hcl Hp w h ys w' j cs h3 h4 rs h5 s q K F2 Hb Hc R2).
Qed.
Print Assumptions C79_flushed_partial.
(* two PUTs of one pair and one of another, carried out by the thread; a client of another rank reads *)
Example C79_flushed_example : exists w h w' rs, brun bg be 0 2 b0 bwait = Ok (w, h) /\ v_c (b_a w) = FDone /\ v_bad (b_a w) = false /\ (forall s p, only be 2 s p h) /\
  last_put (mkField (bstr "s") T_BYTE) (mkField (bstr "p") T_BYTE) (v_acc (b_a w)) = Some (mkField (bstr "new") T_BYTE) /\
  brun bg be 0 2 w bask = Ok (w', [] ++ Called 1 pgets :: [] ++ Returned 1 rs :: []) /\ rs = [bgot 0 11 12 "new"; bgot 1 13 14 "c"] /\
  In (OGet (xa 11 "s") (xa 12 "p") T_BYTE) (opers (be 1) pgets).
Proof.
  destruct b_run as (w & h & w' & rs & H1 & H2 & H3 & H4 & H5 & H6 & H7). exists w, h, w', rs. split; [exact H1|]. split; [exact H2|]. split; [exact H3|]. split; [exact H4|]. split; [exact H5|]. split; [exact H6|]. split; [exact H7|].
  left. reflexivity.
Qed.

(* the thread can carry out what it has taken, whatever the others have done and without their help *)
Theorem C79_completes_partial g E k c e0 S cl p m t (W : Z -> Prop) xs w h :
  order_ok g -> (forall i, W i -> good_client (E i) /\ same_cluster e0 (E i) /\ fresh (E i) (S i)) -> W m -> W t -> m <> t ->
  holds e0 cl (fun _ => opened k c) -> good_program c (E t) p -> Forall (bmove_ok E k c m W) xs ->
  brun g E m t (bstart g p S cl) xs = Ok (w, h) -> v_bad (b_a w) = false -> v_running (b_a w) = true -> v_t (b_a w) = TRun ->
  exists ls w' rs, Forall (fun l => ModelPar.who l = t) ls /\ brun g E m t w (map BP ls) = Ok (w', [Returned t rs]) /\
    v_t (b_a w') = TStore /\ v_exec (b_a w') = v_exec (b_a w) ++ v_local (b_a w) /\ v_local (b_a w') = [].
Proof.
  intros Or HW Wm Wt Hmt Hcl Hp F R. destruct (brun_known g E k c e0 S cl p m t W Or HW Wt Hmt Hcl Hp xs _ _ (bstart_known g E k c S cl p t W) F) as (w1 & h1 & R1 & K). rewrite R in R1. injection R1 as <- <-.
  exact (completes g E k c e0 S cl p m t W w h Or HW Wt Hcl K).
Qed.
Print Assumptions C79_completes_partial.
Example C79_completes_example : Forall (bmove_ok be InMemory ex_codec 0 bW) btaken /\
  exists w h, brun bg be 0 2 b0 btaken = Ok (w, h) /\ v_bad (b_a w) = false /\ v_running (b_a w) = true /\ v_t (b_a w) = TRun /\ v_local (b_a w) = all_puts bprog /\ v_exec (b_a w) = [].
Proof. exact b_taken. Qed.
