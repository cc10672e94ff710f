(* A concrete session with the background PUT thread *)
From Verif Require Import ModelBytes ProofBytes ModelKey ModelWire ModelHist ModelMsg SpecMsg ModelStore ModelGetOp ModelDs
  ProofStore ProofDs ModelElen ModelRoute SpecRoute ExampleStore ModelClient SpecClient SpecCluster ProofClient SpecScan ExampleClient ModelPar SpecPar ProofPar3 ExamplePar
  ModelAsync SpecAsync ModelBack SpecStore SpecBack ProofBack ProofBack2 ProofBack3 ProofBack4 ProofBack5.
Local Open Scope N_scope.

(* 0: the client, 2: its background thread, both of rank 0; 1: a client of rank 1 *)
Definition be (i : Z) : env := xe (if (i =? 1)%Z then 1 else 0).
Definition bW (i : Z) : Prop := (0 <= i < 3)%Z.
Lemma be_rank i : (0 <= (if (i =? 1)%Z then 1 else 0) < 2)%Z.
Proof. destruct (i =? 1)%Z; lia. Qed.
Lemma be_clients : forall i, bW i -> good_client (be i) /\ same_cluster (xe 0) (be i) /\ fresh (be i) (opened_session (be i)).
Proof. intros i _. split; [apply xe_client, be_rank|]. split; [apply xe_same|]. split; reflexivity. Qed.
Definition xop (i : nat) (n : N) (s p o : string) : op := mkOp i (mkPut (mkBlob false (bstr s) T_BYTE) n (mkBlob false (bstr p) T_BYTE) (n + 1) (mkBlob false (bstr o) T_BYTE)).
Definition bg : cfg := mkCfg 2 2 2 (fun l => l).
Lemma bg_order : order_ok bg.
Proof. intros l. split; [apply Permutation_refl|reflexivity]. Qed.
Definition bprog : list cmd := [KPut [xop 0 1 "s" "p" "old"]; KPut [xop 0 3 "s" "p" "new"; xop 1 5 "a" "b" "c"]; KFlush; KClose].
Lemma bprog_good : good_program ex_codec (be 2) bprog.
Proof.
  split; [|exact (proj1 (xe_spread 0 (map call_of (all_puts bprog)) (be_rank 2)))].
  unfold all_puts, bprog. cbn [flat_map app].
  assert (G : forall i n s p o, n <> 0 -> n + 1 < 2 ^ 64 -> bstr s <> [] -> bstr p <> [] -> bstr o <> [] -> blen (bstr s) < 2 ^ 32 -> blen (bstr p) < 2 ^ 32 -> blen (bstr o) < 2 ^ 32 -> good_op ex_codec (xop i n s p o)).
  { intros i n s p o H1 H2 H3 H4 H5 H6 H7 H8. unfold good_op, xop. cbn [o_put]. split; [apply (xa_good n s); try assumption; lia|]. split; [apply (xa_good (n + 1) p); try assumption; lia|].
    split; [apply (xa_good 1 o); try assumption; [discriminate|reflexivity]|reflexivity]. }
  constructor; [apply G; try reflexivity; discriminate|]. constructor; [apply G; try reflexivity; discriminate|]. constructor; [apply G; try reflexivity; discriminate|constructor].
Qed.
Definition bwork : list bmove := [BA MThread; BP (LFar 2 0); BP (LNear 2); BP (LNext 2); BP (LReturn 2); BP (LFar 2 0)].
Fixpoint bweave (n : nat) : list bmove := match n with O => [] | Datatypes.S n' => BA MClient :: BA MClient :: bwork ++ bweave n' end.
Definition bwait : list bmove := bweave 45.
Definition bask : list bmove := [BA MClient; BP (LCall 1 pgets); BP (LFar 1 0); BP (LNear 1); BP (LNext 1); BP (LReturn 1)].
Definition b0 : both := bstart bg bprog (fun i => opened_session (be i)) (xcl InMemory).
Lemma b_moves : Forall (bmove_ok be InMemory ex_codec 0 bW) (bwait ++ bask).
Proof.
  assert (G : forall i, (0 <= i < 3)%Z -> forall l, ModelPar.who l = i -> match l with LCall _ _ => False | _ => True end -> bmove_ok be InMemory ex_codec 0 bW (BP l)).
  { intros i Hi l Hl Hc. split; [rewrite Hl; exact Hi|]. destruct l; try contradiction; split; exact Logic.I. }
  assert (B : forall n, Forall (bmove_ok be InMemory ex_codec 0 bW) (bweave n)).
  { induction n as [|n IH]; [constructor|]. cbn [bweave bwork app]. constructor; [exact Logic.I|]. constructor; [exact Logic.I|]. constructor; [exact Logic.I|].
    repeat (constructor; [apply (G 2%Z); [lia|reflexivity|exact Logic.I]|]). exact IH. }
  apply Forall_app. split; [apply B|]. unfold bask. constructor; [exact Logic.I|]. constructor.
  - split; [unfold bW; cbn [ModelPar.who]; lia|]. split; [|discriminate]. destruct (data_scans (be 1) InMemory ex_codec pgets pgets_data) as [H1 H2]. split; [exact H1|]. split; [exact H2|]. apply (xe_spread 1). lia.
  - repeat (constructor; [apply (G 1%Z); [lia|reflexivity|exact Logic.I]|]). constructor.
Qed.
(* what is seen of a run; not its state, of which the datastores hold functions *)
Definition b_seen (r : outcome (both * list shown)) : option (cpc * bool * list op * bool) :=
  match r with Ok (w, h) => Some (v_c (b_a w), v_bad (b_a w), v_acc (b_a w), forallb (fun x => match x with Called i _ => (i =? 2)%Z | _ => true end) h) | _ => None end.
Definition b_asked : option (list shown) :=
  match brun bg be 0 2 b0 bwait with Ok (w, _) => match brun bg be 0 2 w bask with Ok (_, h) => Some h | _ => None end | _ => None end.
Definition bgot (d n1 n2 : N) (o : string) : result := XGet (Z.of_N d) true (mkRef n1 1 T_BYTE) (mkRef n2 1 T_BYTE) (mkBlob false (bstr o) T_BYTE).
Lemma b_run : exists w h w' rs, brun bg be 0 2 b0 bwait = Ok (w, h) /\ v_c (b_a w) = FDone /\ v_bad (b_a w) = false /\ (forall s p, only be 2 s p h) /\
  last_put (mkField (bstr "s") T_BYTE) (mkField (bstr "p") T_BYTE) (v_acc (b_a w)) = Some (mkField (bstr "new") T_BYTE) /\
  brun bg be 0 2 w bask = Ok (w', [] ++ Called 1 pgets :: [] ++ Returned 1 rs :: []) /\ rs = [bgot 0 11 12 "new"; bgot 1 13 14 "c"].
Proof.
  assert (X : b_seen (brun bg be 0 2 b0 bwait) = Some (FDone, false, all_puts bprog, true)) by (vm_compute; reflexivity).
  assert (Y : b_asked = Some [Called 1 pgets; Returned 1 [bgot 0 11 12 "new"; bgot 1 13 14 "c"]]) by (vm_compute; reflexivity).
  unfold b_asked in Y. revert X Y. destruct (brun bg be 0 2 b0 bwait) as [[w h]| |]; [|discriminate|discriminate]. unfold b_seen. intros X Y.
  assert (Some_inj : forall A (x y : A), Some x = Some y -> x = y) by congruence. apply Some_inj in X.
  destruct (brun bg be 0 2 w bask) as [[w' h']| |] eqn:Rb; [|discriminate|discriminate]. apply Some_inj in Y. subst h'.
  exists w, h, w', [bgot 0 11 12 "new"; bgot 1 13 14 "c"].
  assert (X1 : v_c (b_a w) = FDone) by exact (f_equal (fun z => fst (fst (fst z))) X). assert (X2 : v_bad (b_a w) = false) by exact (f_equal (fun z => snd (fst (fst z))) X).
  assert (X3 : v_acc (b_a w) = all_puts bprog) by exact (f_equal (fun z => snd (fst z)) X). apply (f_equal snd) in X. cbn [snd] in X. rewrite forallb_forall in X.
  split; [reflexivity|]. split; [exact X1|]. split; [exact X2|]. split.
  - intros s p i cs Hi Hc. specialize (X _ Hc). cbn beta iota in X. apply Z.eqb_eq in X. contradiction.
  - split; [rewrite X3; vm_compute; reflexivity|]. split; [exact Rb|reflexivity].
Qed.
(* the thread has taken the three PUTs and has sent nothing yet *)
Definition btaken : list bmove := bweave 25 ++ [BA MThread].
Lemma b_taken : Forall (bmove_ok be InMemory ex_codec 0 bW) btaken /\
  exists w h, brun bg be 0 2 b0 btaken = Ok (w, h) /\ v_bad (b_a w) = false /\ v_running (b_a w) = true /\ v_t (b_a w) = TRun /\ v_local (b_a w) = all_puts bprog /\ v_exec (b_a w) = [].
Proof.
  split.
  - assert (B := b_moves). apply Forall_app in B as [B _]. unfold btaken, bwait in *.
    assert (C : forall n, bweave (25 + n) = bweave 25 ++ bweave n) by reflexivity. change 45%nat with (25 + 20)%nat in B. rewrite C in B. apply Forall_app in B as [B _]. apply Forall_app. split; [exact B|]. constructor; [exact Logic.I|constructor].
  - assert (X : match brun bg be 0 2 b0 btaken with Ok (w, h) => Some (v_bad (b_a w), v_running (b_a w), v_t (b_a w), v_local (b_a w), v_exec (b_a w)) | _ => None end =
      Some (false, true, TRun, all_puts bprog, [])) by (vm_compute; reflexivity).
    destruct (brun bg be 0 2 b0 btaken) as [[w h]| |]; [|discriminate|discriminate]. exists w, h. assert (Some_inj : forall A (x y : A), Some x = Some y -> x = y) by congruence. apply Some_inj in X.
    split; [reflexivity|]. split; [exact (f_equal (fun z => fst (fst (fst (fst z)))) X)|]. split; [exact (f_equal (fun z => snd (fst (fst (fst z)))) X)|]. split; [exact (f_equal (fun z => snd (fst (fst z))) X)|].
    split; [exact (f_equal (fun z => snd (fst z)) X)|exact (f_equal snd X)].
Qed.
