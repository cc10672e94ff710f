(* C21, C22, C23: messages on the wire *)
From Verif Require Import ModelBytes ModelHist ModelMsg SpecMsg ProofMsg ExampleMsg.
Local Open Scope N_scope.

(* seen_msg (SpecMsg.v) is what the receiver should see; it is the message itself when nothing
   in it is empty (exact_body). [t] is whatever lies behind the message in the buffer. *)
Theorem C21_request_round_trip : forall m, is_request m -> msg_ok m ->
  exists b, msg_pack m = Ok b /\
    (forall t, unpack_request (b ++ t) = Ok (Some (seen_msg m))) /\
    (forall t, unpack_response (b ++ t) = Ok None) /\
    (exact_body (m_body m) -> seen_msg m = m).
Proof. exact request_wire. Qed.
Print Assumptions C21_request_round_trip.

Example C21_example : is_request ex_put /\ msg_ok ex_put /\ exact_body (m_body ex_put)
                   /\ is_request ex_getop /\ msg_ok ex_getop /\ exact_body (m_body ex_getop).
Proof. exact ex_requests_ok. Qed.

(* Missing from the full statement: successful items whose object (or a recovered subject or
   predicate) is a null Blob, which is what an empty one is in memory; see C22_..._refuted. *)
Theorem C22_response_round_trip_partial : forall m, is_response m -> msg_ok m ->
  exists b, msg_pack m = Ok b /\
    (forall t, unpack_response (b ++ t) = Ok (Some (seen_msg m))) /\
    (forall t, unpack_request (b ++ t) = Ok None) /\
    (exact_body (m_body m) -> seen_msg m = m).
Proof. exact response_wire. Qed.
Print Assumptions C22_response_round_trip_partial.

Example C22_example : is_response ex_got /\ msg_ok ex_got /\ exact_body (m_body ex_got)
                   /\ is_response ex_hist /\ msg_ok ex_hist.
Proof. exact ex_responses_ok. Qed.

(* Writing never overflows, for any message at all. *)
Theorem C23_packing_fits : forall m b, msg_bytes m = Ok b -> blen b <= msg_size m.
Proof. exact msg_bytes_fit. Qed.
Print Assumptions C23_packing_fits.

(* Reading stays inside what was written when no field is a null pointer.
   Missing: messages with null fields, for which it is false; see C23_unpack_in_bounds_refuted. *)
Theorem C23_unpack_in_bounds_partial : forall m, msg_ok m ->
  exists b, msg_bytes m = Ok b /\ blen b <= msg_size m /\ msg_pack m = Ok b /\
    msg_unpack_dir (body_dir (m_body m)) b = Ok (Some (seen_msg m)).
Proof. exact wire_buffers. Qed.
Print Assumptions C23_unpack_in_bounds_partial.

(* GETOP EQ with a null predicate is accepted by the API (GETOP.cpp checks only the subject). *)
Theorem C23_unpack_in_bounds_refuted : exists m b,
  is_request m /\ (exists i, m_body m = QGetOp [i] /\ blob_ok (oi_sub i) /\ oi_pred i = nothing) /\
  msg_pack m = Ok b /\ unpack_request b = UB.
Proof. exact null_predicate_ub. Qed.
Print Assumptions C23_unpack_in_bounds_refuted.
