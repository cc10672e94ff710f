(* The statistics of a datastore: class Datastore::Stats (include/datastore/datastore.hpp:130-146), what the operations of
   src/datastore/{datastore,InMemory,LevelDB}.cpp add to them, GetStats and the report of the destructor
   (datastore.cpp:30-85, 338-367). Sizes are size_t, times uint64_t or long double (the 80-bit format of x86). *)
From Verif Require Import ModelBytes ModelKey ModelHist ModelMsg ModelStore ModelGetOp ModelDs ModelElen ModelFloat ModelStats.
Local Open Scope N_scope.

(* struct Event, datastore.hpp:131-137; the lists puts, gets, deletes, 139-142 (getops is never used) *)
Record event := mkEvent { ev_time : stamp; ev_count : N; ev_size : N }.
Record dstats := mkDStats { st_puts : list event; st_gets : list event; st_dels : list event }.
Definition no_events : dstats := mkDStats [] [] [].
(* += on size_t and uint64_t *)
Definition add64 (a b : N) : N := (a + b) mod 2 ^ 64.
Definition total64 (l : list N) : N := fold_left add64 l 0.

(* ---- what an event is given as its size ---- *)
Definition row_size (r : bytes * bytes) : N := blen (fst r) + blen (snd r).
(* InMemory.cpp:75, LevelDB.cpp:104 *)
Fixpoint put_size (c : codec) (l : list put_item) (n : N) : outcome N :=
  match l with
  | [] => Ok n
  | i :: l' => do kv <- put_row c i; put_size c l' (match kv with Some r => add64 n (row_size r) | None => n end)
  end.
(* InMemory.cpp:145 and LevelDB.cpp:191 add the size of the object of the response before it is there, which is 0;
   InMemory.cpp:150 adds the key *)
Fixpoint get_size (k : backend) (c : codec) (l : list get_item) (n : N) : outcome N :=
  match l with
  | [] => Ok n
  | i :: l' =>
      do key <- key_of c (gi_sub i) (gi_pred i);
      get_size k c l' (match key, k with Some x, InMemory => add64 n (blen x) | _, _ => n end)
  end.
(* InMemory.cpp:393, LevelDB.cpp:430 *)
Fixpoint del_size (c : codec) (l : list del_item) (n : N) : outcome N :=
  match l with
  | [] => Ok n
  | i :: l' =>
      do key <- key_of c (di_sub i) (di_pred i);
      del_size c l' (match key with Some x => add64 n (blen x) | None => n end)
  end.
(* Histogram::pack_size, src/utils/Histogram.cpp:338-354: what pack writes (ModelHist.hist_pack) *)
Fixpoint hist_sizes (hs : list (bytes * hist)) (l : list blob) (n : N) : N :=
  match l with
  | [] => n
  | b :: l' => hist_sizes hs l' (match hist_find (b_data b) hs with Some h => add64 n (hist_pack_size h) | None => n end)
  end.

(* GETOP: BGetOp_copy_response adds the size of the row with the record, datastore.tpp:61-62 *)
Definition copy_sized (c : codec) (cap : N) (row : bytes * bytes) (j : N) (st : gst * N) : outcome (gst * N) :=
  do st' <- copy_response c cap row j (fst st);
  Ok (st', if (length (g_recs (fst st)) <? length (g_recs st'))%nat then add64 (snd st) (row_size row) else snd st).
(* ModelGetOp.walk with it *)
Fixpoint walk_sized (c : codec) (n : N) (cond : bytes -> outcome bool) (rs : rows) (j : N) (st : gst * N) : outcome (gst * N) :=
  match rs with
  | [] => Ok st
  | r :: rs' =>
      if j <? n then
        do b <- cond (fst r);
        if b then do st' <- copy_sized c n r j st; walk_sized c n cond rs' (j + 1) st' else Ok st
      else Ok st
  end.
(* The bodies of ModelGetOp (InMemory.cpp:199-327, LevelDB.cpp:242-372) once more: which rows the loop visits *)
Inductive visit := VFail | VUndefined | VOne (r : bytes * bytes) | VWalk (cond : bytes -> outcome bool) (rs : rows).
Definition im_visit (db : rows) (op : N) (prefix seek : bytes) : visit :=
  if op =? GETOP_EQ then match snd (lower prefix db) with r :: _ => VOne r | [] => VFail end
  else if op =? GETOP_NEXT then match snd (lower prefix db) with [] => VFail | hi => VWalk always hi end
  else if op =? GETOP_PREV then match lower prefix db with (_, []) => VFail | (lo, r :: _) => VWalk always (r :: rev lo) end
  else if op =? GETOP_FIRST then match db with [] => VFail | _ => VWalk always db end
  else if op =? GETOP_LAST then match db with [] => VUndefined | _ => VWalk always (rev db) end
  else if op =? GETOP_LOWEST then match snd (lower seek db) with [] => VFail | hi => VWalk (memcmp_eq prefix) hi end
  else if op =? GETOP_HIGHEST then
    match upper seek db with (_, []) => VFail | ([], _ :: _) => VUndefined | (lo, _ :: _) => VWalk (memcmp_eq prefix) (rev (tl lo)) end
  else VFail.
Definition ldb_visit (db : rows) (op : N) (prefix seek : bytes) : visit :=
  if op =? GETOP_EQ then match snd (lower prefix db) with r :: _ => VOne r | [] => VFail end
  else if op =? GETOP_NEXT then match snd (lower prefix db) with [] => VFail | hi => VWalk always hi end
  else if op =? GETOP_PREV then match lower prefix db with (_, []) => VFail | (lo, r :: _) => VWalk always (r :: rev lo) end
  else if op =? GETOP_FIRST then match db with [] => VFail | _ => VWalk always db end
  else if op =? GETOP_LAST then match db with [] => VFail | _ => VWalk always (rev db) end
  else if op =? GETOP_LOWEST then match snd (lower seek db) with [] => VFail | hi => VWalk (has_prefix prefix) hi end
  else if op =? GETOP_HIGHEST then match rev (fst (lower seek db)) with [] => VFail | back => VWalk (has_prefix prefix) back end
  else VFail.
Definition visits (k : backend) := match k with InMemory => im_visit | LevelDB => ldb_visit end.
Definition run_visit (c : codec) (n : N) (v : visit) : outcome (gst * N) :=
  match v with
  | VFail => Ok (fail start, 0)
  | VUndefined => UB
  | VOne r => copy_sized c n r 0 (start, 0)
  | VWalk cond rs => walk_sized c n cond rs 0 (start, 0)
  end.
Definition getop_sized (k : backend) (c : codec) (db : rows) (i : getop_item) : outcome (gst * N) :=
  if op_has_key (oi_op i) then
    do es <- enc_blob c (oi_sub i);
    do ep <- enc_blob c (oi_pred i);
    match es with
    | None => Ok (fail start, 0)
    | Some s =>
        let p := match ep with Some p => p | None => [] end in
        run_visit c (oi_num i) (visits k db (oi_op i) (s ++ p) (get_seek c (s ++ p) (blen p) (b_type (oi_pred i))))
    end
  else run_visit c (oi_num i) (visits k db (oi_op i) [] []).
(* InMemory.cpp:337-349, LevelDB.cpp:379-391: the count is res->num_recs[i], to which BGetOp_error_response
   (datastore.cpp:519-529) has added one; it adds the packed sizes of two blobs that have just been moved away,
   8 + 4 bytes each (src/utils/Blob.cpp:58-72, 97-102, 133-139) *)
Definition getop_event (k : backend) (c : codec) (db : rows) (t : stamp) (i : getop_item) : outcome event :=
  do (st, n) <- getop_sized k c db i;
  if g_unset st then Ok (mkEvent t (N.of_nat (length (g_recs st))) n)
  else do recs <- error_response (oi_num i) i (g_recs st); Ok (mkEvent t (N.of_nat (length recs)) (add64 n 24)).
Fixpoint getop_events (k : backend) (c : codec) (db : rows) (ts : nat -> stamp) (j : nat) (l : list getop_item) : outcome (list event) :=
  match l with
  | [] => Ok []
  | i :: l' => do e <- getop_event k c db (ts j) i; do r <- getop_events k c db ts (S j) l'; Ok (e :: r)
  end.

(* What a request adds: InMemory.cpp:49-51, 95-96, 109-111, 167-168, 184-185, 347-349, 363-365, 410-411, LevelDB.cpp:73-75,
   130-131, 147-149, 212-213, 231-232, 389-391, 407-409, 451-452, datastore.cpp:180-182, 204-205. The j-th event of the
   request takes the time ts j. *)
Definition lengthN {A} (l : list A) : N := N.of_nat (length l).
Definition count_events (d : ds) (req : body) (ts : nat -> stamp) (st : dstats) : outcome dstats :=
  let c := d_codec d in
  match req with
  | QPut l =>
      if negb (d_open d) then Ok st else
      do n <- put_size c l 0; Ok (mkDStats (st_puts st ++ [mkEvent (ts O) (lengthN l) n]) (st_gets st) (st_dels st))
  | QGet l =>
      if negb (d_open d) then Ok st else
      do n <- get_size (d_kind d) c l 0; Ok (mkDStats (st_puts st) (st_gets st ++ [mkEvent (ts O) (lengthN l) n]) (st_dels st))
  | QGetOp l =>
      if negb (d_open d) then Ok st else
      do es <- getop_events (d_kind d) c (d_rows d) ts O l; Ok (mkDStats (st_puts st) (st_gets st ++ es) (st_dels st))
  | QDel l =>
      if negb (d_open d) then Ok st else
      do n <- del_size c l 0; Ok (mkDStats (st_puts st) (st_gets st) (st_dels st ++ [mkEvent (ts O) (lengthN l) n]))
  | QHist l =>
      Ok (mkDStats (st_puts st) (st_gets st ++ [mkEvent (ts O) (lengthN l) (hist_sizes (d_hists d) l 0)]) (st_dels st))
  | _ => Ok st
  end.
(* a datastore at work: requests with their times, and the other calls of ModelDs (which are not counted) *)
Definition tstep (d : ds) (st : dstats) (x : ds_call * (nat -> stamp)) : outcome (ds * option body * dstats) :=
  do r <- ds_step d (fst x);
  do st' <- (match fst x with CallReq q => count_events d q (snd x) st | _ => Ok st end);
  Ok (r, st').
Fixpoint truns (d : ds) (st : dstats) (l : list (ds_call * (nat -> stamp))) : outcome (ds * list (option body) * dstats) :=
  match l with
  | [] => Ok (d, [], st)
  | x :: l' => do (r, st') <- tstep d st x; do (rs, st'') <- truns (fst r) st' l'; Ok (fst rs, snd r :: snd rs, st'')
  end.

(* ---- reading them ---- *)
(* Stats::nano, src/utils/Stats.cpp:21-23: the difference of two clock readings as uint64_t *)
Definition nano (t : stamp) : N := Z.to_N ((snd t - fst t) mod 2 ^ 64).
(* GetStats with four pointers, datastore.cpp:338-367 *)
Record totals := mkTotals { t_put_time : N; t_num_put : N; t_get_time : N; t_num_get : N }.
Definition get_stats (st : dstats) : totals :=
  mkTotals (total64 (map (fun e => nano (ev_time e)) (st_puts st))) (lengthN (st_puts st))
           (total64 (map (fun e => nano (ev_time e)) (st_gets st))) (lengthN (st_gets st)).

(* long double: 64 bits of precision *)
Definition LDBL := mkFmt 64 16384 16.
Definition ladd (x y : spec_float) : spec_float := SFadd 64 16384 x y.
Definition ldiv (x y : spec_float) : spec_float := SFdiv 64 16384 x y.
Definition ld_of (n : N) : spec_float := binary_normalize 64 16384 (Z.of_N n) 0 false.
(* Stats::sec, Stats.cpp:29-35 *)
Definition sec (t : stamp) : spec_float := ldiv (ld_of (nano t)) (ld_of 1000000000).

(* hr_size, datastore.cpp:30-44. The loop divides while (i < UNIT_COUNT) && ((rate / 1024) > 1); UNITS[i] may then be
   one past the end. NaN prints as nan or -nan, here nan *)
Definition UNITS : list bytes := map bstr ["B"; "KB"; "MB"; "GB"; "TB"; "PB"]%string.
Fixpoint scale_down (left : nat) (rate : spec_float) : spec_float * nat :=
  match left with
  | O => (rate, O)
  | S left' =>
      if SFltb (ld_of 1) (ldiv rate (ld_of 1024)) then let '(r, i) := scale_down left' (ldiv rate (ld_of 1024)) in (r, S i) else (rate, O)
  end.
Definition hr_size (size : N) (time : spec_float) : outcome bytes :=
  let '(r, i) := scale_down (length UNITS) (ldiv (ld_of size) time) in
  match nth_error UNITS i with Some u => Ok (print_fixed 3 r ++ u ++ bstr "/sec") | None => UB end.

(* One line of the report, datastore.cpp:52-59, 70-75 (61-68, 77-82): the numbers it shows. The rates are there if something
   was counted; hr_size is called if the message is logged (mlog2.h:427-430) *)
Record line := mkLine { ln_count : N; ln_size : N; ln_time : spec_float; ln_rates : option (spec_float * bytes) }.
Definition report (l : list event) : outcome line :=
  let time := fold_left (fun t e => ladd t (sec (ev_time e))) l (S754_zero false) in
  let count := total64 (map ev_count l) in
  let size := total64 (map ev_size l) in
  if count =? 0 then Ok (mkLine count size time None)
  else do s <- hr_size size time; Ok (mkLine count size time (Some (ldiv (ld_of count) time, s))).
(* the destructor *)
Definition shutdown (logged : bool) (st : dstats) : outcome (option (line * line)) :=
  if logged then do p <- report (st_puts st); do g <- report (st_gets st); Ok (Some (p, g)) else Ok None.
