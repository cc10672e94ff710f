(* Two clients that call and flush in any order *)
From Verif Require Import ModelBytes ProofBytes ModelKey ModelWire ModelHist ModelMsg SpecMsg ModelStore ModelGetOp ModelDs
  SpecStore ProofDs ModelElen ModelRoute SpecRoute ModelClient SpecClient SpecCluster ProofClient ProofClient2 ProofClient3 ProofClient4 ProofClient5 ProofCluster ProofCluster2 ExampleStore ExampleClient
  SpecGetOp SpecScan ProofScan ProofScan2 ProofScan3 SpecMixed ProofMixed SpecStore.
Local Open Scope N_scope.

(* ---- one datastore on every range server, no GETOPs: nothing is left to assume ---- *)
Lemma per_one e U : setting e -> l_per (e_layout e) = 1%Z -> one_per_rank e U.
Proof. intros S H1 i j Hi Hj _ _ _ Hr. apply (loc_inj e i j S Hi Hj). unfold loc. rewrite Hr, H1, !Z.mod_1_r. reflexivity. Qed.
Definition data_move (c : codec) (m : Z * move) : Prop := match snd m with Say x => data_call c x | Send _ => True end.
Lemma data_scan c x : data_call c x -> scan_call c x.
Proof. destruct x; cbn [data_call scan_call]; tauto. Qed.
Lemma no_getops c x : data_call c x -> call_getops x = [].
Proof.
  destruct x as [s p o m|s p ty|s p ty n op|s p|id nm|l|l|l|l|l|t ty l|t ty l|t ops ty l]; cbn [data_call call_getops]; try reflexivity; try contradiction.
Qed.
Lemma pieces_per_one e k c ps : setting e -> l_per (e_layout e) = 1%Z -> forall M w, w_getops w = [] -> pieces_fine e k c M w ps.
Proof.
  intros S H. induction ps as [|p ps IH]; intros M w G; [exact Logic.I|]. cbn [pieces_fine]. split; [apply per_one; assumption|].
  split; [intros _; rewrite G; constructor|]. apply IH. destruct p; cbn [without w_getops]; try exact G; reflexivity.
Qed.
Lemma without_getops ps : forall w, w_getops w = [] -> w_getops (fold_left without ps w) = [].
Proof. induction ps as [|p ps IH]; intros w G; [exact G|]. apply IH. destruct p; cbn [without w_getops]; try exact G; reflexivity. Qed.
Lemma fine_per_one E k c l : (forall i, In i (map fst l) -> setting (E i) /\ l_per (e_layout (E i)) = 1%Z) -> Forall (data_move c) l ->
  forall M W, (forall i, w_getops (W i) = []) -> moves_fine E k c M W l.
Proof.
  intros HE HF. induction HF as [|[i [x|p]] l Hm _ IH]; intros M W G; [exact Logic.I| |]; cbn [moves_fine].
  - cbn in Hm. split; [apply data_scan, Hm|]. apply IH; [intros j Hj; apply HE; right; exact Hj|]. intro j. unfold waits. destruct (j =? i)%Z; [|apply G].
    cbn [wait w_getops]. rewrite (no_getops c x Hm), app_nil_r. apply G.
  - destruct (HE i (or_introl eq_refl)) as [A B]. split; [apply pieces_per_one; auto|]. apply IH; [intros j Hj; apply HE; right; exact Hj|].
    intro j. unfold waits. destruct (j =? i)%Z; [|apply G]. apply without_getops, G.
Qed.
Lemma moves_per_one E k c e0 S cl l :
  (forall i, In i (map fst l) -> good_client (E i) /\ same_cluster e0 (E i) /\ fresh (E i) (S i)) -> l_per (e_layout e0) = 1%Z ->
  holds e0 cl (fun _ => opened k c) -> Forall (data_move c) l ->
  exists cl' rs, moves E S cl l = Ok (cl', rs) /\ moves_seen E k c no_triples (fun _ => idle) l rs.
Proof.
  intros HE H1 H HF. eapply cluster_moves; [exact HE|exact H|]. apply fine_per_one; [|exact HF|reflexivity].
  intros i Hi. destruct (HE i Hi) as ((A & _) & (B & _) & _). split; [exact A|]. rewrite <- B. exact H1.
Qed.

(* ---- two clients ---- *)
Definition asks : call := CGetOp (xa 5 "a") (xa 6 "b") T_BYTE 2 GETOP_NEXT.
Definition ab_get : call := CGet (xa 1 "a") (xa 2 "b") T_BYTE.
Definition mixed : list (Z * move) :=
  [(0, Say (CPut (xa 1 "a") (xa 2 "b") (xa 3 "c") 1)); (1, Say ab_get); (1, Send (Some Gets)); (1, Say ab_get); (0, Say (CDelete (xa 1 "a") (xa 2 "b")));
   (0, Send (Some Puts)); (1, Send (Some Gets)); (1, Say asks); (1, Say ab_get); (1, Send (Some GetOps)); (0, Send (Some Dels)); (1, Send None); (0, Send None)]%Z.
Definition rerun (k : backend) (l : list (Z * move)) : outcome (list (list result)) :=
  do (_, rs) <- moves xe (fun i => opened_session (xe i)) (xcl k) l; Ok rs.
Lemma mixed_clients : forall i, In i (map fst mixed) -> good_client (xe i) /\ same_cluster (xe 0) (xe i) /\ fresh (xe i) (opened_session (xe i)).
Proof. intros i Hi. assert (0 <= i < 2)%Z by (cbn [mixed map fst In] in Hi; lia). split; [apply xe_client; assumption|]. split; [apply xe_same|]. split; reflexivity. Qed.
Lemma xe_one i U : (0 <= i < 2)%Z -> one_per_rank (xe i) U.
Proof. intro H. apply per_one; [apply xe_setting, H|reflexivity]. Qed.
Lemma asks_fine k M : scannable (xe 1) k ex_codec M (xa 5 "a", xa 6 "b", T_BYTE, 2, GETOP_NEXT).
Proof. cbn [scannable]. split; [discriminate|]. intros ts _. split; [apply reply_some; discriminate|]. split; [discriminate|]. intros [E|E]; discriminate E. Qed.
Ltac sent := split; [cbn [pieces pieces_fine]; repeat (split; [apply xe_one; lia|split; [first [discriminate | intros _; constructor; [apply asks_fine|constructor] | intros _; constructor]|]]); exact Logic.I|].
Ltac said := split; [cbn [scan_call data_call good_scan ab_get asks]; xargs; try reflexivity; repeat (split; [reflexivity|]); try reflexivity; discriminate|].
Lemma mixed_fine k : moves_fine xe k ex_codec no_triples (fun _ => idle) mixed.
Proof.
  cbn [mixed moves_fine].
  said. said. sent. said. said. sent. sent. said. said. sent. sent. sent. sent. exact Logic.I.
Qed.
Definition xr (n : N) : ref := mkRef n 1 T_BYTE.
Lemma mixed_run k : rerun k mixed = Ok
  [[XGet 1 false (xr 1) (xr 2) blob_none]; [XPut 1 true (xr 1) (xr 2)]; [XGet 1 true (xr 1) (xr 2) (xb_of "c")];
   [XGetOp 1 true (xb_of "a") (xb_of "b") (xb_of "c")]; [XDel 1 true (xr 1) (xr 2)]; [XGet 1 false (xr 1) (xr 2) blob_none]; []].
Proof. destruct k; vm_compute; reflexivity. Qed.
(* a GET after the PUT of the same pair, flushed before it *)
Definition own : list (Z * move) := [(0, Say (CPut (xa 1 "a") (xa 2 "b") (xa 3 "c") 1)); (0, Say ab_get); (0, Send (Some Gets)); (0, Send None)]%Z.
Lemma own_run k : rerun k own = Ok [[XGet 1 false (xr 1) (xr 2) blob_none]; [XPut 1 true (xr 1) (xr 2)]].
Proof. destruct k; vm_compute; reflexivity. Qed.
Lemma one_turn : exists ys, give (xe 0) InMemory ex_codec no_triples (fold_left (wait (xe 0)) [CPut (xa 1 "a") (xa 2 "b") (xa 3 "c") 1; CGet (xa 1 "a") (xa 2 "b") T_BYTE] idle) (pieces None) ys /\ List.length ys = 2%nat.
Proof.
  assert (fold_left (wait (xe 0)) [CPut (xa 1 "a") (xa 2 "b") (xa 3 "c") 1; CGet (xa 1 "a") (xa 2 "b") T_BYTE] idle =
    {| w_puts := [(xa 1 "a", xa 2 "b", xa 3 "c")]; w_gets := [(xa 1 "a", xa 2 "b", T_BYTE)]; w_getops := []; w_dels := [] |}) as E by reflexivity.
  rewrite E. set (w := mkWaiting _ _ _ _).
  exists (map (put_result (xe 0)) (w_puts w) ++ map (get_result (xe 0) (left_ (xe 0) InMemory no_triples w Puts)) (w_gets (without w Puts)) ++ [] ++ [] ++ []).
  split; [|rewrite !app_length, !map_length; reflexivity].
  cbn [pieces give gives]. eexists _, _. split; [reflexivity|]. split; [|reflexivity]. eexists _, _. split; [reflexivity|]. split; [|reflexivity].
  exists [], []. split; [exists []; split; [constructor|reflexivity]|]. split; [|reflexivity]. exists [], []. split; [reflexivity|]. split; reflexivity.
Qed.
