(* C50, C51: lists of results *)
From Verif Require Import ModelBytes ModelKey ModelWire ModelHist ModelMsg ModelStore ModelGetOp ModelElen ModelRoute ModelDs ModelClient ModelResults SpecResults ProofResults.
Local Open Scope N_scope.

Definition xl : list result :=
  [XPut 0 true (mkRef 1 2 7) (mkRef 3 2 7); XGet 1 false (mkRef 1 2 7) (mkRef 3 2 7) blob_none;
   XGetOp 1 true (mkBlob false ["s"%char] 7) (mkBlob false ["p"%char] 7) (mkBlob false ["o"%char] 7);
   XHist 0 true (Some (hist_new ["n"%char] 3 None)); XSync 0 true].

(* C50: the loop from the head shows the bodies all results, in order, and ends behind the last *)
Theorem C50_loop : forall r fuel, (length (rs_list r) < fuel)%nat ->
  loop fuel (goto_head r) = Ok (Some (rs_list r, mkResults (rs_list r) (Some (length (rs_list r))))).
Proof. exact loop_visits. Qed.
Print Assumptions C50_loop.
Example C50_loop_example : loop 6 (goto_head (results_add xl results_new)) = Ok (Some (xl, mkResults xl (Some 5%nat))).
Proof. reflexivity. Qed.

(* n steps from the head are at the n-th result, or at the end *)
Theorem C50_position : forall r n,
  exists r', steps n (goto_head r) = Ok r' /\ rs_list r' = rs_list r /\
    valid_iterator r' = Ok (Nat.ltb n (length (rs_list r))) /\
    ((n < length (rs_list r))%nat -> exists x, nth_error (rs_list r) n = Some x /\ deref r' = Ok x).
Proof. exact position. Qed.
Print Assumptions C50_position.
Example C50_position_example : exists r', steps 9 (goto_head (results_add xl results_new)) = Ok r' /\ get_subject r' = Ok None /\ get_op r' = Ok None.
Proof. exists (mkResults xl (Some 5%nat)). split; [vm_compute; reflexivity|]. split; vm_compute; reflexivity. Qed.

(* at every position, including the end, every accessor gives what the result has or reports an error *)
Theorem C50_accessors : forall l, shows get_op (fun x => Some (shows_op x)) l /\
  shows get_status (fun x => Some (x_ok x)) l /\ shows get_range_server (fun x => Some (x_from x)) l /\
  shows get_subject shows_subject l /\ shows get_predicate shows_predicate l /\ shows get_object shows_object l.
Proof. exact shows_all. Qed.
Print Assumptions C50_accessors.
Example C50_accessors_example :
  map (fun n => get_object (mkResults xl (Some n))) [0; 1; 2; 3; 4; 5]%nat
  = [Ok None; Ok None; Ok (Some (mkBlob false ["o"%char] 7)); Ok None; Ok None; Ok None] /\
  map (fun n => get_status (mkResults xl (Some n))) [1; 4; 5]%nat = [Ok (Some false); Ok (Some true); Ok None].
Proof. split; reflexivity. Qed.
Theorem C50_histogram : forall l, Forall has_histogram l -> shows get_histogram shows_histogram l.
Proof. exact shows_hist. Qed.
Print Assumptions C50_histogram.
(* what servers answer, on this rank or unpacked from a message, meets the hypothesis *)
Theorem C50_histogram_served : forall e cl r m cl' m' l, is_request (m_body m) -> serve e cl r m = Ok (cl', m') ->
  results_of m' = Ok l -> Forall has_histogram l.
Proof. exact served_there. Qed.
Print Assumptions C50_histogram_served.
Theorem C50_histogram_unpacked : forall b m l, unpack_response b = Ok (Some m) -> results_of m = Ok l -> Forall has_histogram l.
Proof. exact unpacked_there. Qed.
Print Assumptions C50_histogram_unpacked.
Example C50_histogram_example : Forall has_histogram xl /\ get_histogram (mkResults xl (Some 3%nat)) = Ok None /\
  get_histogram (mkResults [XHist 0 true (Some (hist_new ["n"%char] 0 None))] (Some O)) = Ok (Some (["n"%char], (None, 0, None, 0))).
Proof. split; [|split; reflexivity]. unfold xl. constructor; [exact I|]. constructor; [exact I|]. constructor; [exact I|]. constructor; [exact I|]. constructor; [exact I|]. constructor. Qed.

(* results of failed operations have no data *)
Theorem C50_failed : forall m l x, results_of m = Ok l -> In x l -> x_ok x = false ->
  match x with XGet _ _ _ _ o | XGetOp _ _ _ _ o => o = mkBlob true [] 0 | XHist _ _ h => h = None | _ => True end.
Proof. exact failed_no_object. Qed.
Print Assumptions C50_failed.
Example C50_failed_example : results_of (mkMsg 3 0 (RGet [mkGot 2 (mkRef 1 2 7) (mkRef 3 2 7) (mkBlob false ["o"%char] 7)]))
  = Ok [XGet 3 false (mkRef 1 2 7) (mkRef 3 2 7) blob_none].
Proof. reflexivity. Qed.

(* the functions of the C interface report an error without a list *)
Theorem C50_no_list : forall A (f : results -> outcome (option A)), c_access f None = Ok None.
Proof. exact @no_list. Qed.
Print Assumptions C50_no_list.

(* one list appended to another: its results come behind, and leave the other list *)
Theorem C50_append : forall o r fuel, (length (rs_list r) + length (rs_list o) < fuel)%nat ->
  (exists r', loop fuel (goto_head (fst (results_append o r))) = Ok (Some (rs_list r ++ rs_list o, r'))) /\
  loop 1 (goto_head (snd (results_append o r))) = Ok (Some ([], results_new)) /\ results_size (snd (results_append o r)) = 0.
Proof. exact append_loop. Qed.
Print Assumptions C50_append.
Example C50_append_example : exists r', loop 8 (goto_head (fst (results_append (results_add xl results_new) (results_add [XSync 3 false] results_new)))) = Ok (Some (XSync 3 false :: xl, r')).
Proof. eexists. reflexivity. Qed.

(* Not part of the claim, which begins at the head: after adding, the position is undefined until the next GoToHead *)
Theorem C50_added_undefined : forall l r, l <> [] -> let r' := results_add l r in
  valid_iterator r' = UB /\ goto_next r' = UB /\ get_op r' = UB /\ rs_list r' = rs_list r ++ l.
Proof. exact add_stale. Qed.
Print Assumptions C50_added_undefined.

(* C51, without answers that have no records (see below): the results are the records, in order *)
Theorem C51_records_partial : forall m q, m_body m = RGetOp q -> Forall (fun i => gp_recs i <> []) q ->
  results_of m = Ok (concat (map (getop_expected (m_src m)) q)).
Proof. exact getop_all. Qed.
Print Assumptions C51_records_partial.
Theorem C51_count_partial : forall from i, length (getop_expected from i) = length (gp_recs i).
Proof. exact getop_count. Qed.
Print Assumptions C51_count_partial.
Definition xr (c : byte) : rec3 := mkRec (mkBlob false [c] 7) (mkBlob false ["p"%char] 7) (mkBlob false ["o"%char] 7).
Definition xi : gotop_item := mkGotOp 1 [xr "a"; xr "b"; xr "c"]%char.
Example C51_example : Forall (fun i => gp_recs i <> []) [xi; mkGotOp 2 [xr "z"%char]] /\
  exists l, results_of (mkMsg 5 0 (RGetOp [xi; mkGotOp 2 [xr "z"%char]])) = Ok l /\ length l = 4%nat.
Proof. split; [constructor; [discriminate|constructor; [discriminate|constructor]]|]. eexists. split; reflexivity. Qed.

(* the same with the pointers: in every memory the nodes built are the nodes added, each once, all of them
   still there, nothing else changed; reading them gives the results *)
Theorem C51_nodes_partial : forall ok rs m, rs <> [] -> exists m' ns l, getop_init ok rs m = Ok (m', length m) /\
  m' = m ++ map Some ns ++ [None] /\ length ns = length rs /\
  getop_add m' (length m) = Ok l /\ NoDup l /\ length l = length rs /\
  (forall a, In a l <-> (length m <= a)%nat /\ exists n, nth_error m' a = Some (Some n)).
Proof. exact nodes_safe. Qed.
Print Assumptions C51_nodes_partial.
Theorem C51_pointers_partial : forall from i m, gp_recs i <> [] -> getop_pointers from i m = Ok (getop_expected from i).
Proof. exact pointers_some. Qed.
Print Assumptions C51_pointers_partial.
Example C51_pointers_example : exists m l, getop_init true (gp_recs xi) [None; Some empty_node] = Ok (m, 2%nat) /\ length m = 6%nat /\
  getop_add m 2 = Ok l /\ l = [2; 3; 4]%nat /\ nth_error m 5 = Some None.
Proof. eexists. eexists. split; [reflexivity|]. split; [reflexivity|]. split; [reflexivity|]. split; reflexivity. Qed.
(* the model of the client (C32) uses the results without the pointers: the same *)
Theorem C51_refines : forall from i m, getop_pointers from i m = getop_results from i.
Proof. exact pointers_refine. Qed.
Print Assumptions C51_refines.

(* an answer without records: its only node is destroyed, then read. C32_getop_refuted has a session in which this happens *)
Theorem C51_zero_refuted : forall m q, m_body m = RGetOp q -> Exists (fun i => gp_recs i = []) q -> results_of m = UB.
Proof. exact getop_zero. Qed.
Print Assumptions C51_zero_refuted.
Theorem C51_zero_pointers_refuted : forall from i m, gp_recs i = [] -> getop_pointers from i m = UB.
Proof. exact pointers_none. Qed.
Print Assumptions C51_zero_pointers_refuted.
Example C51_zero_example : exists m, getop_init false [] [] = Ok (m, O) /\ m = [None].
Proof. eexists. split; reflexivity. Qed.
