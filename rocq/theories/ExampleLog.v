From Verif Require Import ModelBytes ModelLog SpecLog SpecLog2 ProofBytes ProofStore ProofLog ProofLog2 ProofLog3 ProofLog4 ProofLog5.

Definition wt (p : N) (t : string) : N * bytes * bytes := (p, bstr "h ", bstr t).
(* the buffer holds 16 bytes; the third message is not wanted, the fourth ends in a newline *)
Definition some_lines : list (N * bytes * bytes) := [wt 4194304 "one"; wt 5242880 "two"; wt 1048576 "three"; wt 7340034 "four
"; wt 4194304 "five"].
Definition some_facs : facs := fold_left run_op [OMore (Some (bstr "net")) None; OMask 1 983040] (facs_open 4194304 0).
Lemma some_buffer : exists m, mb_logs (facs_open 4194304 0) (mb_open 16) some_lines = Ok m /\ mb_read m = Ok (bstr "o
h four
h five
").
Proof. eexists. split; vm_compute; reflexivity. Qed.
Lemma some_copy : exists m, mb_logs (facs_open 4194304 0) (mb_open 16) some_lines = Ok m /\ mb_copy m 7 4 = Ok (Some (bstr "our
")).
Proof. eexists. split; vm_compute; reflexivity. Qed.

Definition in_memory (m : mbuf) : bytes := bstr "core>CpM" ++ mb_head true m ++ mb_data m ++ bstr "end".
Lemma some_found : exists m x, mb_logs (facs_open 4194304 0) (mb_open 16) some_lines = Ok m /\ find_mbuf (in_memory m) = Some x /\ seen_at (in_memory m) x = bstr "o
h four
h five
".
Proof. eexists. eexists. split; [vm_compute; reflexivity|]. split; vm_compute; reflexivity. Qed.

(* names, a text of masks *)
Definition some_ops : list log_op :=
  [OMore (Some (bstr "net")) (Some (bstr "network")); OMore (Some (bstr "db")) None; OMask 1 983040;
   OText (bstr " ") [(None, bstr "Warn", 3145728); (Some (bstr "NETWORK"), bstr "D12", 393216); (Some (bstr "xyz"), bstr "INFO", 1048576)]%N [newline]].
Lemma some_ops_fine : forall o, In o some_ops -> op_fine o.
Proof.
  intros o [<-|[<-|[<-|[<-|[]]]]]; try exact Logic.I. cbn [op_fine]. split; [intros c [<-|[]]; left; reflexivity|].
  split; [intros c [<-|[]]; right; reflexivity|]. split; [intros K; discriminate K|]. split.
  - intros e [<-|[<-|[<-|[]]]]; unfold entry_fine; (split; [apply pri_name; vm_compute; reflexivity|]); try exact Logic.I;
      intros c [<-|[<-|[]]] K; vm_compute in K; repeat (destruct K as [K|K]; [discriminate K|]); exact K.
  - intros c r E. vm_compute in E. injection E as <- _. intros [K|K]; discriminate K.
Qed.
Lemma some_masks : map f_mask (firstn 3 (fs_list (fold_left run_op some_ops (facs_open 4194304 0)))) = [3145728; 393216; 3145728]%N
  /\ masks_text (fold_left run_op some_ops (facs_open 4194304 0)) true = bstr "MLOG=WARN,network=D12,db=WARN
".
Proof. split; vm_compute; reflexivity. Qed.

(* a facility without a name: the text says 2, and nothing has that name *)
Definition unnamed : facs := setlogmask (setlogmask (facs_open 4194304 0) 1 983040) 2 1048576.
Lemma unnamed_lost : masks_text unnamed true = bstr "MLOG=ERR,1=DBUG,2=INFO
" /\ map f_mask (firstn 3 (fs_list (setmasks (setnfac (facs_open 4194304 0) 3) (masks_text unnamed true)))) = [4194304; 4194304; 4194304]%N
  /\ map f_mask (firstn 3 (fs_list unnamed)) = [4194304; 983040; 1048576]%N.
Proof. repeat split; vm_compute; reflexivity. Qed.
(* a mask of a level and a stream: written as the level *)
Lemma both_lost : let fs := setlogmask (facs_open 0 0) 0 1572864 in
  masks_text fs true = bstr "MLOG=INFO
" /\ option_map f_mask (nth_error (fs_list (setmasks fs (masks_text fs true))) 0) = Some 1048576%N.
Proof. split; vm_compute; reflexivity. Qed.

(* a core file that ends within the buffer *)
Definition cut_memory (m : mbuf) : bytes := mb_head false m ++ firstn 4 (mb_data m).
Lemma cut_found : exists m x, mb_put (mb_open 16) (bstr "0123456789") = Ok m /\ find_mbuf (cut_memory m) = Some x /\ ~ inside (cut_memory m) x.
Proof.
  eexists. eexists. split; [vm_compute; reflexivity|]. split; [vm_compute; reflexivity|]. intros K. vm_compute in K. destruct K as (K & _). apply K. reflexivity.
Qed.

(* sessions that overlap *)
Lemma overlap : hx_run None [HOpen 0 4194304; HOpen 1 1048576; HLog 1 3145728] = [None; None; Some false]
  /\ hx_run None [HOpen 0 4194304; HOpen 1 1048576; HClose 0; HLog 1 7340032] = [None; None; None; Some false].
Proof. split; vm_compute; reflexivity. Qed.
