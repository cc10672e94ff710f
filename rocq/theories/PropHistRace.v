(* Histogram requests while others store (C58) *)
From Verif Require Import ModelBytes ModelKey ModelWire ModelHist ModelMsg SpecMsg ModelStore ModelGetOp ModelDs SpecStore
  ExampleHist ModelHistRace SpecHistRace ProofHistRace ExampleHistRace.
Local Open Scope N_scope.

(* C58: every histogram in the answer is the one the datastore had at some moment after the request, whatever was in the buffer
   before. Missing: histograms without buckets to which others add meanwhile; false for them, see below. *)
Theorem C58_snapshot_partial src dst d names between junk d' rs :
  ds_run d (map CallReq (concat (firstn (length names) between))) = Ok (d', rs) ->
  (forall b h, In b names -> has_hist d (b_data b) h -> settled h \/ Forall (leaves (b_data b)) (concat between)) ->
  exists is, length is = length names /\
    (forall i b x, nth_error names i = Some b -> nth_error is i = Some x ->
       exists d1 rs1, ds_run d (map CallReq (concat (firstn (S i) between))) = Ok (d1, rs1) /\ item_at d1 b x) /\
    (msg_ok (mkMsg src dst (RHist is)) ->
       histogram_reply src dst d names between junk = Ok (Some (mkMsg src dst (RHist (map seen_hitem is))))).
Proof. exact (snapshot src dst d names between junk d' rs). Qed.
Print Assumptions C58_snapshot_partial.
Example C58_snapshot_example :
  (exists d' rs, ds_run rd3 (map CallReq (concat (firstn 2 rbetween))) = Ok (d', rs)) /\
  (forall b h, In b [rname "h"; rname "k"] -> has_hist rd3 (b_data b) h -> settled h \/ Forall (leaves (b_data b)) (concat rbetween)) /\
  histogram_reply 0 1 rd3 [rname "h"; rname "k"] rbetween [] =
    Ok (Some (mkMsg 0 1 (RHist [mkHI 1 (Some (mkHist (bstr "h") 2 None 0 [] 3 (Some [d1; d3]) d5 (Some [1; 2]) 2)); mkHI 1 (Some (rsent "k"))]))).
Proof. exact (conj ex_between (conj ex_fine ex_reply)). Qed.

(* One PUT by someone else between looking the histograms up and packing them, and the server writes past the end of its buffer. *)
Theorem C58_overflow_refuted : exists d names q is h k, (exists d' x, operate d q = Ok (d', Some (RPut [x])) /\ si_status x = ST_OK) /\
  (forall junk, histogram_reply 0 1 d names [] junk = Ok (Some (mkMsg 0 1 (RHist [mkHI 1 (Some h); mkHI 1 (Some k)])))) /\
  moments d (answer d names) [[q]] = Ok is /\ pack_answer 0 1 (answer d names) is = UB /\
  (forall junk, histogram_reply 0 1 d names [[q]] junk = UB).
Proof. exact race_overflow. Qed.
Print Assumptions C58_overflow_refuted.

(* With one histogram it is not written at all; the client reads uninitialised memory, with the status of a success. *)
Theorem C58_garbage_refuted : exists d names q, (exists d' x, operate d q = Ok (d', Some (RPut [x])) /\ si_status x = ST_OK) /\
  (forall junk, histogram_reply 0 1 d names [] junk = Ok (Some (mkMsg 0 1 (RHist [mkHI 1 (Some (rsent "h"))])))) /\
  (exists junk, histogram_reply 0 1 d names [[q]] junk = Ok (Some (mkMsg 0 1 (RHist [mkHI 1 (Some (hist_new [] 0 None))])))) /\
  (exists junk, histogram_reply 0 1 d names [[q]] junk = UB).
Proof. exact race_garbage. Qed.
Print Assumptions C58_garbage_refuted.

(* A result from the client's own rank is the datastore's own histogram: it changes after Flush has returned. *)
Theorem C58_local_refuted : exists d names q d' x, operate d q = Ok (d', Some (RPut [x])) /\ si_status x = ST_OK /\
  local_results d names d = [mkHI 1 (Some (rh (bstr "h")))] /\ local_results d names d' <> local_results d names d.
Proof. exact local_changes. Qed.
Print Assumptions C58_local_refuted.
