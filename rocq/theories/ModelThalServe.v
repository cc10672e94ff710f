(* The Thallium transport: what the handlers of ModelThal do with the bytes *)
From Verif Require Import ModelBytes ModelKey ModelWire ModelHist ModelMsg ModelStore ModelGetOp ModelDs ModelElen ModelRoute ModelClient.
Local Open Scope Z_scope.

(* RangeServer::process, src/transport/backend/Thallium/RangeServer.cpp:67-87: unpack, local::range_server (ModelClient.serve), pack.
   A request that cannot be unpacked is answered with two values instead of three: undefined when the client reads the third. *)
Definition thal_handle (e : env) (r : Z) (cl : cluster) (b : bytes) : outcome (cluster * bytes) :=
  do m <- unpack_request b;
  match m with
  | None => UB
  | Some m => do (cl', m2) <- serve e cl r m; do b2 <- msg_pack m2; Ok (cl', b2)
  end.
(* process_request, src/transport/backend/Thallium/EndpointGroup.cpp:160-180: whether the response can be unpacked *)
Definition thal_accept (b : bytes) : bool := match unpack_response b with Ok (Some _) => true | _ => false end.
