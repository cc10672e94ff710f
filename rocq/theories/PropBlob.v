(* C24: ownership of the memory of fields *)
From Verif Require Import ModelBytes ModelBlob SpecBlob ProofBytes ProofBlob.

(* RealBlob; copy; move into a third; assign; destroy all *)
Definition xprog : list bop :=
  [BOwn 4; BCopy 2; BCopyCtor 0; BMoveCtor 0; BRef (POther 64) 8; BMoveAssign 2 3; BAssign 0 1; BMoveAssign 1 1;
   BDealloc 4; BUnpack 3 100 5 true; BDestroy 2; BDestroy 3; BDestroy 1; BDestroy 0; BDestroy 4].
Lemma xprog_decent : decent_program bs_start xprog.
Proof.
  unfold xprog.
  cbn [decent_program]. repeat (split; [first [exact I | intros b (len & H); vm_compute in H; discriminate H]
                 | intros s' H; vm_compute in H; apply Ok_inj in H; subst s']).
  exact I.
Qed.

(* Programs in this file do not use clear and set_clean, and unpack only into handles that own nothing
   ([decent_program]; what happens otherwise is below). All programs that create, copy, move, assign, release
   and destroy handles are such programs. *)
Theorem C24_programs : forall l s, Forall handle_op l -> decent_program s l.
Proof. exact handle_ops_decent. Qed.
Print Assumptions C24_programs.
(* No such program releases memory twice, or memory
   that alloc did not give out. *)
Theorem C24_no_double_free : forall l, decent_program bs_start l -> brun bs_start l <> UB.
Proof. exact blob_safe. Qed.
Print Assumptions C24_no_double_free.
(* Every block that is live is owned by exactly one handle *)
Theorem C24_owned : forall l s b, decent_program bs_start l -> brun bs_start l = Ok s -> is_live s b ->
  exists i, owns s i b /\ forall j, owns s j b -> j = i.
Proof. exact blob_owned. Qed.
Print Assumptions C24_owned.
(* so nothing is left when all handles are gone *)
Theorem C24_no_leak : forall l s, decent_program bs_start l -> brun bs_start l = Ok s -> all_destroyed s -> bs_live s = [].
Proof. exact blob_no_leak. Qed.
Print Assumptions C24_no_leak.
(* Whatever operation comes next (also clear, set_clean or unpack of another handle), an owned block stays with its owner unless
   the operation acts on the owner *)
Theorem C24_kept : forall l s o s' i b, decent_program bs_start l -> brun bs_start l = Ok s -> bstep s o = Ok s' ->
  owns s i b -> ~ acts_on o i -> is_live s' b /\ owns s' i b.
Proof. exact blob_keeps. Qed.
Print Assumptions C24_kept.
(* and is released only by an operation on the owner *)
Theorem C24_released : forall l s o s' b, decent_program bs_start l -> brun bs_start l = Ok s -> decent s o -> bstep s o = Ok s' ->
  is_live s b -> ~ is_live s' b -> exists i, owns s i b /\ acts_on o i.
Proof. exact blob_releases. Qed.
Print Assumptions C24_released.
Example C24_example : decent_program bs_start xprog /\
  (exists s, brun bs_start (firstn 10 xprog) = Ok s /\ bs_live s = [2; 1; 0] /\ owns s 2 0 /\ owns s 1 1 /\ owns s 3 2)%nat /\
  brun bs_start xprog = Ok (mkB [] 3 [None; None; None; None; None]).
Proof.
  split; [exact xprog_decent|]. split; [|reflexivity]. eexists. split; [reflexivity|].
  split; [reflexivity|]. split; [eexists; reflexivity|]. split; eexists; reflexivity.
Qed.

(* Unpacking into a handle that owns a block, or clear, loses the block *)
Theorem C24_unpack_leaks : forall l s i b o s', decent_program bs_start l -> brun bs_start l = Ok s -> owns s i b ->
  ((exists src len copy, o = BUnpack i src len copy) \/ (exists a len, o = BUnpackRef i (POther a) len) \/ o = BClear i) ->
  bstep s o = Ok s' -> is_live s' b /\ forall j, ~ owns s' j b.
Proof. exact unpack_leaks. Qed.
Print Assumptions C24_unpack_leaks.
Example C24_unpack_example : exists s s', brun bs_start [BOwn 4] = Ok s /\ owns s 0 0 /\ bstep s (BUnpack 0 100 5 true) = Ok s' /\
  brun s' [BDestroy 0] = Ok (mkB [0] 2 [None])%nat.
Proof. eexists. eexists. split; [reflexivity|]. split; [eexists; reflexivity|]. split; reflexivity. Qed.
