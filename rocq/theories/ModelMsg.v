(* Messages and their wire format: src/message/*.cpp, src/utils/Blob.cpp *)
From Verif Require Import ModelBytes ModelWire ModelHist.
Local Open Scope N_scope.

(* Blob as seen by pack/unpack (src/utils/Blob.cpp:10-15): whether ptr is null, the len bytes, the type.
   For a null ptr only the length of b_data is meaningful. *)
Record blob := mkBlob { b_null : bool; b_data : bytes; b_type : N }.

(* Blob::pack, src/utils/Blob.cpp:114-131: writes nothing for a null pointer *)
Definition blob_pack (with_type : bool) (b : blob) : bytes :=
  if b_null b then []
  else le_enc 8 (blen (b_data b)) ++ b_data b ++ (if with_type then le_enc 4 (b_type b) else []).

(* Blob::pack_size, src/utils/Blob.cpp:133-139: does not look at the pointer *)
Definition blob_pack_size (with_type : bool) (b : blob) : N :=
  blen (b_data b) + 8 + (if with_type then 4 else 0).

(* Blob::unpack(src, type, copy=true), src/utils/Blob.cpp:143-166.
   alloc(0) is null (src/utils/memory.cpp:3-9). Without a type in the buffer the type keeps the value
   it had, which for freshly constructed blobs is INVALID (Blob.cpp:10). *)
Definition rd_blob (with_type : bool) : parser blob :=
  rd n <- rd_u 8; rd d <- take n;
  rd t <- (if with_type then rd_u 4 else pret T_INVALID);
  pret (mkBlob (n =? 0) d t).

(* A reference: the address, length and type of a caller's field (Blob used by Response.orig). *)
Record ref := mkRef { r_addr : N; r_len : N; r_type : N }.

(* Blob::pack_ref / pack_ref_size / unpack_ref, src/utils/Blob.cpp:169-211 *)
Definition ref_pack (r : ref) : bytes := le_enc 8 (r_addr r) ++ le_enc 8 (r_len r) ++ le_enc 4 (r_type r).
Definition ref_pack_size : N := 8 + 8 + 4.
Definition rd_ref : parser ref := rd a <- rd_u 8; rd l <- rd_u 8; rd t <- rd_u 4; pret (mkRef a l t).

(* ---- request items ----
   The address next to a field is, on the sender, subjects[i].data(); SubjectPredicate::add
   (src/message/SubjectPredicate.cpp:22-31) stores the same value in orig; on the receiver it is orig. *)
Record put_item := mkPut { pi_sub : blob; pi_sub_addr : N; pi_pred : blob; pi_pred_addr : N; pi_obj : blob }.
Record get_item := mkGet { gi_sub : blob; gi_sub_addr : N; gi_pred : blob; gi_pred_addr : N; gi_type : N }.
Record getop_item := mkGetOp { oi_op : N; oi_sub : blob; oi_pred : blob; oi_type : N; oi_num : N }.
Record del_item := mkDel { di_sub : blob; di_sub_addr : N; di_pred : blob; di_pred_addr : N }.

(* hxhim_getop_t, include/hxhim/constants.h *)
Definition GETOP_EQ : N := 0.
Definition GETOP_NEXT : N := 1.
Definition GETOP_PREV : N := 2.
Definition GETOP_FIRST : N := 3.
Definition GETOP_LAST : N := 4.
Definition GETOP_LOWEST : N := 5.
Definition GETOP_HIGHEST : N := 6.
Definition GETOP_INVALID : N := 7.

Definition op_has_key (op : N) : bool := negb (op =? GETOP_FIRST) && negb (op =? GETOP_LAST).

(* default-constructed Blob, src/utils/Blob.cpp:10 and include/utils/Blob.hpp *)
Definition blob_none : blob := mkBlob true [] T_INVALID.

(* ---- response items ---- *)
Record st_item := mkSt { si_status : Z; si_sub : ref; si_pred : ref }.              (* BPut, BDelete *)
Record got_item := mkGot { go_status : Z; go_sub : ref; go_pred : ref; go_obj : blob }. (* BGet *)
Record rec3 := mkRec { rc_sub : blob; rc_pred : blob; rc_obj : blob }.
Record gotop_item := mkGotOp { gp_status : Z; gp_recs : list rec3 }.                 (* BGetOp; num_recs = |gp_recs| *)
Record hist_item := mkHI { hi_status : Z; hi_hist : option hist }.                   (* BHistogram *)

Definition status_ok (z : Z) : bool := (z =? Z.of_N DATASTORE_SUCCESS)%Z.

Inductive body :=
| QPut (l : list put_item) | QGet (l : list get_item) | QGetOp (l : list getop_item)
| QDel (l : list del_item) | QHist (l : list blob)
| RPut (l : list st_item) | RGet (l : list got_item) | RGetOp (l : list gotop_item)
| RDel (l : list st_item) | RHist (l : list hist_item).

(* struct Message, include/message/Message.hpp: src/dst are ints; timestamps are not sent and not modelled *)
Record msg := mkMsg { m_src : Z; m_dst : Z; m_body : body }.

(* enum Direction (include/message/Message.hpp:15-19), hxhim_op_t (include/hxhim/constants.h) *)
Definition body_dir (b : body) : N :=
  match b with QPut _ | QGet _ | QGetOp _ | QDel _ | QHist _ => 1 | _ => 2 end.
Definition body_op (b : body) : N :=
  match b with
  | QPut _ | RPut _ => 0 | QGet _ | RGet _ => 1 | QGetOp _ | RGetOp _ => 2
  | QDel _ | RDel _ => 3 | QHist _ | RHist _ => 5   (* SYNC is 4 and never sent *)
  end.
Definition body_count (b : body) : N :=
  match b with
  | QPut l => N.of_nat (length l) | QGet l => N.of_nat (length l) | QGetOp l => N.of_nat (length l)
  | QDel l => N.of_nat (length l) | QHist l => N.of_nat (length l)
  | RPut l => N.of_nat (length l) | RGet l => N.of_nat (length l) | RGetOp l => N.of_nat (length l)
  | RDel l => N.of_nat (length l) | RHist l => N.of_nat (length l)
  end.

(* ---- Packer, src/message/Packer.cpp ---- *)
(* 58-73 *)
Definition wr_put (i : put_item) : bytes :=
  blob_pack true (pi_sub i) ++ le_enc 8 (pi_sub_addr i)
  ++ blob_pack true (pi_pred i) ++ le_enc 8 (pi_pred_addr i) ++ blob_pack true (pi_obj i).
(* 84-100 *)
Definition wr_get (i : get_item) : bytes :=
  blob_pack true (gi_sub i) ++ le_enc 8 (gi_sub_addr i)
  ++ blob_pack true (gi_pred i) ++ le_enc 8 (gi_pred_addr i) ++ le_enc 4 (gi_type i).
(* 111-132 *)
Definition wr_getop (i : getop_item) : bytes :=
  le_enc 4 (oi_op i)
  ++ (if op_has_key (oi_op i) then blob_pack true (oi_sub i) ++ blob_pack true (oi_pred i) else [])
  ++ le_enc 4 (oi_type i) ++ le_enc 8 (oi_num i).
(* 143-155 *)
Definition wr_del (i : del_item) : bytes :=
  blob_pack true (di_sub i) ++ le_enc 8 (di_sub_addr i)
  ++ blob_pack true (di_pred i) ++ le_enc 8 (di_pred_addr i).
(* 166-169 *)
Definition wr_name (b : blob) : bytes := blob_pack false b.
(* 213-222, 290-299 *)
Definition wr_st (i : st_item) : bytes := i32_enc (si_status i) ++ ref_pack (si_sub i) ++ ref_pack (si_pred i).
(* 234-248 *)
Definition wr_got (i : got_item) : bytes :=
  i32_enc (go_status i) ++ ref_pack (go_sub i) ++ ref_pack (go_pred i)
  ++ (if status_ok (go_status i) then blob_pack true (go_obj i) else []).
(* 267-278 *)
Definition wr_rec (ok : bool) (r : rec3) : bytes :=
  blob_pack true (rc_sub r) ++ blob_pack true (rc_pred r) ++ (if ok then blob_pack true (rc_obj r) else []).
(* 259-279 *)
Definition wr_gotop (i : gotop_item) : bytes :=
  i32_enc (gp_status i) ++ le_enc 8 (N.of_nat (length (gp_recs i)))
  ++ wr_list (wr_rec (status_ok (gp_status i))) (gp_recs i).

(* 310-319: the histograms are packed with the space that remains (avail); Histogram::pack refuses, writing
   nothing, when avail is too small (src/utils/Histogram.cpp:367), and its result is ignored.
   avail does not account for the statuses written in the loop (only Histogram::pack reduces it, line 436). *)
Fixpoint wr_hists (avail : N) (l : list hist_item) : outcome bytes :=
  match l with
  | [] => Ok []
  | i :: l' =>
      if status_ok (hi_status i) then
        match hi_hist i with
        | None => UB                                   (* histograms[i]-> on a null shared_ptr *)
        | Some h =>
            if avail <? hist_pack_size h
            then do r <- wr_hists avail l'; Ok (i32_enc (hi_status i) ++ r)
            else do b <- hist_pack h; do r <- wr_hists (avail - blen b) l';
                 Ok (i32_enc (hi_status i) ++ b ++ r)
        end
      else do r <- wr_hists avail l'; Ok (i32_enc (hi_status i) ++ r)
  end.

(* header, 324-358: direction, op, src, dst (4 bytes each), count (8 bytes) *)
Definition wr_header (m : msg) : bytes :=
  le_enc 4 (body_dir (m_body m)) ++ le_enc 4 (body_op (m_body m))
  ++ i32_enc (m_src m) ++ i32_enc (m_dst m) ++ le_enc 8 (body_count (m_body m)).

Definition header_size : N := 24.

(* ---- sizes: what the add functions accumulate into serialized_size ---- *)
Definition sumN (l : list N) : N := fold_right N.add 0 l.

(* SubjectPredicate::add, src/message/SubjectPredicate.cpp:22-31 *)
Definition sz_sp (s p : blob) : N := blob_pack_size true s + 8 + (blob_pack_size true p + 8).
(* Request::BPut::add, src/message/BPut.cpp:24-28 *)
Definition sz_put (i : put_item) : N := blob_pack_size true (pi_obj i) + sz_sp (pi_sub i) (pi_pred i).
(* Request::BGet::add, src/message/BGet.cpp:24-28 *)
Definition sz_get (i : get_item) : N := 4 + sz_sp (gi_sub i) (gi_pred i).
(* Request::BGetOp::add, src/message/BGetOp.cpp:28-53 *)
Definition sz_getop (i : getop_item) : N :=
  (if op_has_key (oi_op i) then blob_pack_size true (oi_sub i) + blob_pack_size true (oi_pred i) else 0)
  + (4 + 8 + 4).
(* Request::BDelete::add, src/message/BDelete.cpp:21-23 *)
Definition sz_del (i : del_item) : N := sz_sp (di_sub i) (di_pred i).
(* Request::BHistogram::add, src/message/BHistogram.cpp:23-26 *)
Definition sz_name (b : blob) : N := blob_pack_size false b.
(* Response::SubjectPredicate::add, src/message/SubjectPredicate.cpp:85-92 and Response::add, Response.cpp:19-22 *)
Definition sz_st (i : st_item) : N := 4 + (ref_pack_size + ref_pack_size).
(* Response::BGet::add, src/message/BGet.cpp:56-64 *)
Definition sz_got (i : got_item) : N :=
  (if status_ok (go_status i) then blob_pack_size true (go_obj i) else 0) + (4 + (ref_pack_size + ref_pack_size)).
Definition sz_rec (ok : bool) (r : rec3) : N :=
  blob_pack_size true (rc_sub r) + blob_pack_size true (rc_pred r)
  + (if ok then blob_pack_size true (rc_obj r) else 0).
(* Response::BGetOp::add with num_rec = 0 followed by update_size once the records are in,
   src/message/BGetOp.cpp:107-143 (how the datastores build it). sizeof(num_rec) is counted twice. *)
Definition sz_gotop (i : gotop_item) : N :=
  4 + (8 + 8) + sumN (map (sz_rec (status_ok (gp_status i))) (gp_recs i)).
(* Response::BGetOp::add called with the records themselves, 107-130 (objects always counted) *)
Definition sz_gotop_add (i : gotop_item) : N :=
  4 + (8 + (8 + sumN (map (sz_rec true) (gp_recs i)))).
(* Response::BHistogram::add, src/message/BHistogram.cpp:58-66 *)
Definition sz_hist (i : hist_item) : N :=
  4 + (if status_ok (hi_status i) then match hi_hist i with Some h => hist_pack_size h | None => 0 end else 0).

(* Message::size(), src/message/Message.cpp:3-14 and 27-29 *)
Definition msg_size (m : msg) : N :=
  header_size +
  match m_body m with
  | QPut l => sumN (map sz_put l) | QGet l => sumN (map sz_get l) | QGetOp l => sumN (map sz_getop l)
  | QDel l => sumN (map sz_del l) | QHist l => sumN (map sz_name l)
  | RPut l => sumN (map sz_st l) | RGet l => sumN (map sz_got l) | RGetOp l => sumN (map sz_gotop l)
  | RDel l => sumN (map sz_st l) | RHist l => sumN (map sz_hist l)
  end.

(* Packer::pack for every message type, src/message/Packer.cpp:19-322: the bytes written.
   The buffer has msg_size bytes (line 329-334); writing more is a heap overflow. *)
Definition msg_bytes (m : msg) : outcome bytes :=
  do b <- match m_body m with
          | QPut l => Ok (wr_list wr_put l) | QGet l => Ok (wr_list wr_get l)
          | QGetOp l => Ok (wr_list wr_getop l) | QDel l => Ok (wr_list wr_del l)
          | QHist l => Ok (wr_list wr_name l)
          | RPut l => Ok (wr_list wr_st l) | RGet l => Ok (wr_list wr_got l)
          | RGetOp l => Ok (wr_list wr_gotop l) | RDel l => Ok (wr_list wr_st l)
          | RHist l => wr_hists (msg_size m - header_size) l
          end;
  Ok (wr_header m ++ b).

Definition msg_pack (m : msg) : outcome bytes :=
  do b <- msg_bytes m;
  if blen b <=? msg_size m then Ok b else UB.

(* ---- Unpacker, src/message/Unpacker.cpp ---- *)
(* 100-115 *)
Definition rd_put : parser put_item :=
  rd s <- rd_blob true; rd sa <- rd_u 8; rd p <- rd_blob true; rd pa <- rd_u 8; rd o <- rd_blob true;
  pret (mkPut s sa p pa o).
(* 131-147 *)
Definition rd_get : parser get_item :=
  rd s <- rd_blob true; rd sa <- rd_u 8; rd p <- rd_blob true; rd pa <- rd_u 8; rd t <- rd_u 4;
  pret (mkGet s sa p pa t).
(* 163-184 *)
Definition rd_getop : parser getop_item :=
  rd op <- rd_u 4;
  rd (s, p) <- (if op_has_key op then rd s <- rd_blob true; rd p <- rd_blob true; pret (s, p)
                else pret (blob_none, blob_none));
  rd t <- rd_u 4; rd n <- rd_u 8; pret (mkGetOp op s p t n).
(* 200-212 *)
Definition rd_del : parser del_item :=
  rd s <- rd_blob true; rd sa <- rd_u 8; rd p <- rd_blob true; rd pa <- rd_u 8; pret (mkDel s sa p pa).
(* 228-231 *)
Definition rd_name : parser blob := rd_blob false.
(* 317-326, 413-422 *)
Definition rd_st : parser st_item := rd z <- rd_i32; rd s <- rd_ref; rd p <- rd_ref; pret (mkSt z s p).
(* 342-357 *)
Definition rd_got : parser got_item :=
  rd z <- rd_i32; rd s <- rd_ref; rd p <- rd_ref;
  rd o <- (if status_ok z then rd_blob true else pret blob_none); pret (mkGot z s p o).
(* 385-396 *)
Definition rd_rec (ok : bool) : parser rec3 :=
  rd s <- rd_blob true; rd p <- rd_blob true;
  rd o <- (if ok then rd_blob true else pret blob_none); pret (mkRec s p o).
(* 373-397 *)
Definition rd_gotop : parser gotop_item :=
  rd z <- rd_i32; rd n <- rd_u 8; rd l <- rd_list (N.to_nat n) (rd_rec (status_ok z)); pret (mkGotOp z l).
(* 438-449: the size given to Histogram::unpack is never decreased (line 437) *)
Definition rd_hist (remaining : N) : parser hist_item :=
  rd z <- rd_i32;
  if status_ok z
  then rd h <- hist_unpack (hist_new [] 0 None) remaining;
       (* a refused unpack leaves the freshly constructed empty histogram *)
       pret (mkHI z (Some (match h with Some h' => h' | None => hist_new [] 0 None end)))
  else pret (mkHI z None).

(* The two dispatchers, Unpacker.cpp:21-89 and 238-306, with the header reader 472-498.
   None = MESSAGE_ERROR. [bufsize] is only used for histograms. *)
Definition msg_unpack_dir (want : N) (buf : bytes) : outcome (option msg) :=
  do r <- (rd dir <- rd_u 4; rd op <- rd_u 4; rd src <- rd_i32; rd dst <- rd_i32; rd count <- rd_u 8;
           if negb (dir =? want) then pret None else
           let n := N.to_nat count in
           if want =? 1 then
             if op =? 0 then rd l <- rd_list n rd_put; pret (Some (mkMsg src dst (QPut l)))
             else if op =? 1 then rd l <- rd_list n rd_get; pret (Some (mkMsg src dst (QGet l)))
             else if op =? 2 then rd l <- rd_list n rd_getop; pret (Some (mkMsg src dst (QGetOp l)))
             else if op =? 3 then rd l <- rd_list n rd_del; pret (Some (mkMsg src dst (QDel l)))
             else if op =? 5 then rd l <- rd_list n rd_name; pret (Some (mkMsg src dst (QHist l)))
             else pret None
           else
             if op =? 0 then rd l <- rd_list n rd_st; pret (Some (mkMsg src dst (RPut l)))
             else if op =? 1 then rd l <- rd_list n rd_got; pret (Some (mkMsg src dst (RGet l)))
             else if op =? 2 then rd l <- rd_list n rd_gotop; pret (Some (mkMsg src dst (RGetOp l)))
             else if op =? 3 then rd l <- rd_list n rd_st; pret (Some (mkMsg src dst (RDel l)))
             else if op =? 5 then rd l <- rd_list n (rd_hist (blen buf - header_size));
                                  pret (Some (mkMsg src dst (RHist l)))
             else pret None) buf;
  Ok (fst r).

Definition unpack_request (buf : bytes) : outcome (option msg) := msg_unpack_dir 1 buf.
Definition unpack_response (buf : bytes) : outcome (option msg) := msg_unpack_dir 2 buf.
