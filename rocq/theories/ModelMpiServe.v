(* The MPI transport: what the threads of ModelMpi do with the bytes *)
From Verif Require Import ModelBytes ModelKey ModelWire ModelHist ModelMsg ModelStore ModelGetOp ModelDs ModelElen ModelRoute ModelClient.
Local Open Scope Z_scope.

(* RangeServer::listener_thread, src/transport/backend/MPI/RangeServer.cpp:53-68: unpack, local::range_server (ModelClient.serve), pack;
   the response goes to its dst. A request that cannot be unpacked is a null pointer: undefined. *)
Definition mpi_handle (e : env) (r : Z) (cl : cluster) (b : bytes) : outcome (cluster * (Z * bytes)) :=
  do m <- unpack_request b;
  match m with
  | None => UB
  | Some m => do (cl', m2) <- serve e cl r m; do b2 <- msg_pack m2; Ok (cl', (m_dst m2, b2))
  end.
(* parallel_recv and return_msgs, include/transport/backend/MPI/EndpointGroup.tpp:310-324, 355-370: the responses in the list that is returned,
   in the order of srcs; okc is the value that the result of Unpacker::unpack is compared with: TRANSPORT_SUCCESS in the code.
   Responses of another kind than asked for (dynamic_cast) are not modelled: range servers answer with the kind they were asked for. *)
Fixpoint mpi_returned (okc : Z) (l : list bytes) : outcome (list msg) :=
  match l with
  | [] => Ok []
  | b :: l' =>
      do m <- unpack_response b; do r <- mpi_returned okc l';
      match m with
      | Some m => if MESSAGE_SUCCESS =? okc then Ok (m :: r) else Ok r
      | None => Ok r
      end
  end.
