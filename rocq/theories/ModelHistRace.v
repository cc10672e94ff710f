(* A histogram request, with requests of other clients between looking the histograms up and sending them.
   src/datastore/datastore.cpp:174-206 (the mutex is released at its end), src/message/BHistogram.cpp:55-64,
   src/message/Packer.cpp:304-322, src/transport/backend/Thallium/RangeServer.cpp (process). *)
From Verif Require Import ModelBytes ModelKey ModelWire ModelHist ModelMsg ModelStore ModelGetOp ModelDs.
Local Open Scope N_scope.

(* One entry of the response: the status, the shared pointer (here the name under which the datastore has the histogram: the map is
   not changed while the datastore is open, the histograms in it are), and what Response::BHistogram::add added to the size of the
   message when the entry was made. *)
Record hist_ref := mkRef_ { hr_status : Z; hr_name : bytes; hr_size : N }.
(* operate(BHistogram), datastore.cpp:186-199, with add, BHistogram.cpp:55-64 *)
Definition answer (d : ds) (names : list blob) : list hist_ref :=
  map (fun b => match hist_find (b_data b) (d_hists d) with
                | Some h => mkRef_ ST_OK (b_data b) (4 + hist_pack_size h)
                | None => mkRef_ ST_ERR (b_data b) 4
                end) names.
(* Message::size(), the size of the buffer that will be allocated, Packer.cpp:329-334 *)
Definition answer_size (l : list hist_ref) : N := header_size + sumN (map hr_size l).
(* what an entry is when it is looked at *)
Definition now (d : ds) (r : hist_ref) : hist_item :=
  mkHI (hr_status r) (if status_ok (hr_status r) then hist_find (hr_name r) (d_hists d) else None).
(* Before the first and between two histograms the other threads carry out requests. (Here they do not interrupt the packing of one
   histogram; in the code they can, which is a data race and undefined.) *)
Fixpoint moments (d : ds) (l : list hist_ref) (between : list (list body)) : outcome (list hist_item) :=
  match l with
  | [] => Ok []
  | r :: l' => do (d', _) <- ds_run d (map CallReq (hd [] between)); do is <- moments d' l' (tl between); Ok (now d' r :: is)
  end.
(* Packer::pack(BHistogram), Packer.cpp:304-322: the bytes written. The size of the buffer and avail come from the size computed before. *)
Definition pack_answer (src dst : Z) (l : list hist_ref) (is : list hist_item) : outcome bytes :=
  do b <- wr_hists (answer_size l - header_size) is;
  let b := wr_header (mkMsg src dst (RHist is)) ++ b in
  if blen b <=? answer_size l then Ok b else UB.
(* The whole buffer is sent; junk is what was in the part of it that has not been written. None: MESSAGE_ERROR at the client. *)
Definition histogram_reply (src dst : Z) (d : ds) (names : list blob) (between : list (list body)) (junk : bytes) : outcome (option msg) :=
  let l := answer d names in
  do is <- moments d l between;
  do b <- pack_answer src dst l is;
  unpack_response (b ++ firstn (N.to_nat (answer_size l - blen b)) junk).

(* A request to a datastore of the client's own rank: the results have the shared pointers (local/RangeServer.hpp, Results.cpp:
   Hist's constructor). What they show when they are looked at. *)
Definition local_results (d : ds) (names : list blob) (later : ds) : list hist_item := map (now later) (answer d names).
