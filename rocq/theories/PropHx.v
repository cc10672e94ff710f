(* C87: what the example hx.cpp shows *)
From Verif Require Import ModelBytes ModelKey ModelWire ModelHist ModelMsg SpecMsg ModelStore ModelGetOp ModelDs
  SpecStore ProofDs ModelElen ModelTransform ModelFloat ModelRoute SpecRoute ModelClient SpecClient SpecCluster ExampleClient
  SpecScan ModelTyped SpecElen ProofFpLibm ProofFloat ExampleFloat ExampleTyped SpecMixed SpecMixed3 ModelHx SpecHx ProofHx ProofHx2 ExampleHx.
From Verif Require Import SpecFp.
From Coq Require Import Reals.
Local Open Scope N_scope.

(* No text is longer than its buffer. *)
Theorem C87_program : forall h d r n, (0 <= r < 2 ^ 31)%Z -> n < 2 ^ 64 -> exists ms, hx_moves h d r n = Ok ms.
Proof. exact hx_program_ok. Qed.
Print Assumptions C87_program.
Example C87_program_example : exists ms, hx_moves (hh 0) (hd 0) 0 2 = Ok ms /\ List.length ms = 9%nat.
Proof. eexists. split; [vm_compute; reflexivity|reflexivity]. Qed.

(* Any number of ranks run the program. Every rank sees its GETs fail before it has flushed its PUTs, its PUTs succeed, and then every GET return what
   the callbacks make of the number, whatever the other ranks do in the meantime: the barriers are not needed.
   Missing: flushes that use two datastores of the same other rank (C33) *)
Theorem C87_hx_partial : forall L u E k e0 S cl h d y n ranks l,
  (forall r, In r ranks -> (0 <= r < 2 ^ 31)%Z /\ good_client (E r) /\ same_cluster e0 (E r) /\ fresh (E r) (S r) /\ good_memory (h r) n /\
     forall i, i < n -> comes_back L u T_DOUBLE DBL (d r i) (y r i)) ->
  holds e0 cl (fun _ => opened k (session L u)) -> ranks_run ranks (fun r => hx_moves (h r) (d r) r n) l -> moves_apart E (fun _ => idle) l ->
  exists cl' rs, moves E S cl l = Ok (cl', rs) /\ forall r, In r ranks -> hx_shows (E r) (h r) (y r) r n (mine r l rs).
Proof. exact hx_all. Qed.
Print Assumptions C87_hx_partial.
Example C87_hx_example : forall k,
  (forall r, In r [0; 1]%Z -> (0 <= r < 2 ^ 31)%Z /\ good_client (xe r) /\ same_cluster (xe 0) (xe r) /\ fresh (xe r) (opened_session (xe r)) /\ good_memory (hh r) 2 /\
     forall i, i < 2 -> comes_back exact_libm u_d T_DOUBLE DBL (hd r i) (hy r i)) /\
  holds (xe 0) (ncl k) (fun _ => opened k (session exact_libm u_d)) /\ ranks_run [0; 1]%Z (fun r => hx_moves (hh r) (hd r) r 2) hl /\ moves_apart xe (fun _ => idle) hl /\
  hx_results k 0 = Ok [[XGet 1 false (hs 0) (hp 0) blob_none; XGet 0 false (hs 1) (hp 1) blob_none]; [XPut 1 true (hs 0) (hp 0); XPut 0 true (hs 1) (hp 1)];
    [XGet 1 true (hs 0) (hp 0) hb; XGet 0 true (hs 1) (hp 1) hb]].
Proof. intro k. split; [exact hranks|]. split; [apply ncl_holds|]. split; [exact hl_runs|]. split; [exact hl_apart|apply hx_ran]. Qed.

(* With one datastore on every range server nothing is assumed of the datastores. *)
Theorem C87_one_each : forall L u E k e0 S cl h d y n ranks l,
  (forall r, In r ranks -> (0 <= r < 2 ^ 31)%Z /\ good_client (E r) /\ same_cluster e0 (E r) /\ fresh (E r) (S r) /\ good_memory (h r) n /\
     forall i, i < n -> comes_back L u T_DOUBLE DBL (d r i) (y r i)) -> l_per (e_layout e0) = 1%Z ->
  holds e0 cl (fun _ => opened k (session L u)) -> ranks_run ranks (fun r => hx_moves (h r) (d r) r n) l ->
  exists cl' rs, moves E S cl l = Ok (cl', rs) /\ forall r, In r ranks -> hx_shows (E r) (h r) (y r) r n (mine r l rs).
Proof.
  intros L u E k e0 S cl h d y n ranks l HR H1 Hc Hl. apply (hx_all L u E k e0 S cl h d y n ranks l HR Hc Hl).
  apply (ranks_apart E e0 S ranks (fun r => hx_moves (h r) (d r) r n) l); [|exact H1|exact Hl]. intros r Hr. destruct (HR r Hr) as (_ & A & B & C & _). auto.
Qed.
Print Assumptions C87_one_each.
Example C87_one_each_example : l_per (e_layout (xe 0)) = 1%Z.
Proof. reflexivity. Qed.

(* The numbers that the default callbacks keep (C10) are shown to fourteen digits. *)
Theorem C87_numbers_partial : forall L u E k e0 S cl h d n ranks l,
  good_libm L -> sym_ok (ne_neg (cb_num u)) (ne_pos (cb_num u)) -> ne_double (cb_num u) = DOUBLE_PRECISION ->
  (forall r, In r ranks -> (0 <= r < 2 ^ 31)%Z /\ good_client (E r) /\ same_cluster e0 (E r) /\ fresh (E r) (S r) /\ good_memory (h r) n /\ forall i, i < n -> keeps (d r i)) ->
  holds e0 cl (fun _ => opened k (session L u)) -> ranks_run ranks (fun r => hx_moves (h r) (d r) r n) l -> moves_apart E (fun _ => idle) l ->
  exists cl' rs, moves E S cl l = Ok (cl', rs) /\ forall r, In r ranks -> exists y, hx_shows (E r) (h r) y r n (mine r l rs) /\
    forall i, i < n -> finite_fp (y i) /\ (Rabs (val (y i) - val (d r i)) <= Rabs (val (d r i)) * ten (-14))%R.
Proof. exact hx_close. Qed.
Print Assumptions C87_numbers_partial.
Example C87_numbers_example : good_libm exact_libm /\ sym_ok (ne_neg (cb_num u_d)) (ne_pos (cb_num u_d)) /\ ne_double (cb_num u_d) = DOUBLE_PRECISION /\ keeps third.
Proof. split; [exact exact_good|]. split; [split; [reflexivity|]; split; [reflexivity|discriminate]|]. split; [reflexivity|exact hkeeps]. Qed.

(* They are not shown exactly: a third comes back as something else. *)
Theorem C87_exact_refuted : exists L u E k e0 S cl h d n ranks l r,
  (forall r, In r ranks -> (0 <= r < 2 ^ 31)%Z /\ good_client (E r) /\ same_cluster e0 (E r) /\ fresh (E r) (S r) /\ good_memory (h r) n /\ forall i, i < n -> keeps (d r i)) /\
  holds e0 cl (fun _ => opened k (session L u)) /\ ranks_run ranks (fun r => hx_moves (h r) (d r) r n) l /\ moves_apart E (fun _ => idle) l /\ In r ranks /\
  exists cl' rs, moves E S cl l = Ok (cl', rs) /\ ~ hx_shows (E r) (h r) (d r) r n (mine r l rs).
Proof. exact hx_exact. Qed.
Print Assumptions C87_exact_refuted.

(* ---- what is printed ---- *)
From Verif Require Import ModelConf SpecConf ModelCli SpecCli ModelHxPrint SpecHxPrint ProofHxPrint.
From Verif Require Import SpecFp.
(* Of results as they should be, hx.cpp and hx.c print one line for each pair, with the rank and the range server: failures, successes, and the numbers
   to 17 digits behind the point. *)
Theorem C87_lines : forall mem e h r n y rs, (0 <= r < 2 ^ 31)%Z -> good_memory h n -> holds_texts mem h r n ->
  (forall i, i < n -> valid DBL (y i) /\ finite_fp (y i)) -> hx_shows e h y r n rs ->
  prints (hx_print mem r) rs (lines n (fail_line e h r)) (lines n (done_line e h r)) (lines n (number_line e h r (nearly y))) /\
  prints (hx_c_print mem r) rs (lines n (fail_line e h r)) (lines n (done_c_line e h r)) (lines n (number_line e h r (nearly y))).
Proof. intros mem e h r n y rs A B C D. exact (hx_prints mem e h r n A B C y D rs). Qed.
Print Assumptions C87_lines.
Example C87_lines_example : holds_texts (htexts 0) (hh 0) 0 2 /\ valid DBL third' /\ finite_fp third' /\ hx_printed hx_print InMemory 0 =
  Ok [bstr "Rank 0 GET returned ERROR from range server 1" ++ [nl] ++ bstr "Rank 0 GET returned ERROR from range server 0" ++ [nl];
      bstr "Rank 0 PUT returned SUCCESS from range server 1" ++ [nl] ++ bstr "Rank 0 PUT returned SUCCESS from range server 0" ++ [nl];
      bstr "Rank 0 GET returned {subject-0-0, predicate-0-0} -> 0.33333333333333298 from range server 1" ++ [nl] ++
      bstr "Rank 0 GET returned {subject-0-1, predicate-0-1} -> 0.33333333333333298 from range server 0" ++ [nl]].
Proof. split; [apply htexts_ok|]. split; [reflexivity|]. split; [exact Logic.I|]. vm_compute. reflexivity. Qed.

(* Any number of ranks run the program: the numbers printed are the numbers that were PUT to fourteen digits. Missing: what C87_numbers_partial misses *)
Theorem C87_output_partial : forall L u E k e0 S cl h d n ranks l mem,
  good_libm L -> sym_ok (ne_neg (cb_num u)) (ne_pos (cb_num u)) -> ne_double (cb_num u) = DOUBLE_PRECISION ->
  (forall r, In r ranks -> (0 <= r < 2 ^ 31)%Z /\ good_client (E r) /\ same_cluster e0 (E r) /\ fresh (E r) (S r) /\ good_memory (h r) n /\ forall i, i < n -> keeps (d r i)) ->
  (forall r, In r ranks -> holds_texts (mem r) (h r) r n) ->
  holds e0 cl (fun _ => opened k (session L u)) -> ranks_run ranks (fun r => hx_moves (h r) (d r) r n) l -> moves_apart E (fun _ => idle) l ->
  exists cl' rs, moves E S cl l = Ok (cl', rs) /\ forall r, In r ranks ->
    prints (hx_print (mem r) r) (mine r l rs) (lines n (fail_line (E r) (h r) r)) (lines n (done_line (E r) (h r) r)) (lines n (number_line (E r) (h r) r (fourteen (d r)))) /\
    prints (hx_c_print (mem r) r) (mine r l rs) (lines n (fail_line (E r) (h r) r)) (lines n (done_c_line (E r) (h r) r)) (lines n (number_line (E r) (h r) r (fourteen (d r)))).
Proof. exact hx_output. Qed.
Print Assumptions C87_output_partial.
Example C87_output_example : (forall r, holds_texts (htexts r) (hh r) r 2) /\ keeps third /\ hx_printed hx_c_print InMemory 1 =
  Ok [bstr "Rank 1 GET returned ERROR from range server 0" ++ [nl] ++ bstr "Rank 1 GET returned ERROR from range server 1" ++ [nl];
      bstr "Rank 1 PUT          {subject-1-0, predicate-1-0} returned SUCCESS from range server 0" ++ [nl] ++
      bstr "Rank 1 PUT          {subject-1-1, predicate-1-1} returned SUCCESS from range server 1" ++ [nl];
      bstr "Rank 1 GET returned {subject-1-0, predicate-1-0} -> 0.33333333333333298 from range server 0" ++ [nl] ++
      bstr "Rank 1 GET returned {subject-1-1, predicate-1-1} -> 0.33333333333333298 from range server 1" ++ [nl]].
Proof. split; [intro r; apply htexts_ok|]. split; [exact hkeeps|]. vm_compute. reflexivity. Qed.
