(* GETOP: BGetOpImpl of src/datastore/{InMemory,LevelDB,RocksDB}.cpp with
   src/datastore/datastore.cpp:444-529 and include/datastore/datastore.tpp *)
From Verif Require Import ModelBytes ModelKey ModelHist ModelMsg ModelStore.
Local Open Scope N_scope.

(* The response being filled: DATASTORE_UNSET or not, and the records written so far
   (res->num_recs[i] is their number). *)
Record gst := mkGst { g_unset : bool; g_recs : list rec3 }.

(* BGetOp_copy_response, datastore.tpp:10-68, for record index j of an array of cap records
   (cap = req->num_recs[i], null array for 0, include/utils/memory.hpp:37-60) *)
Definition copy_response (c : codec) (cap : N) (row : bytes * bytes) (j : N) (st : gst) : outcome gst :=
  if negb (g_unset st) then Ok st else
  do (es, ep) <- key_to_sp (fst row);
  do (eo, t) <- remove_type (snd row);
  do r <- obind2 (c_dec c (f_type es) (f_data es)) (fun s =>
          obind2 (c_dec c (f_type ep) (f_data ep)) (fun p =>
          obind2 (c_dec c t eo) (fun o =>
          Ok (Some (mkRec (real_blob s (f_type es)) (real_blob p (f_type ep)) (real_blob o t))))));
  match r with
  | Some rc => if j <? cap then Ok (mkGst true (g_recs st ++ [rc])) else UB
  | None => Ok (mkGst false (g_recs st))
  end.

(* for (j = 0; j < num_recs && it is valid && cond(it); j++) copy, advance: the rows the iterator will
   visit are given as a list *)
Fixpoint walk (c : codec) (n : N) (cond : bytes -> outcome bool) (rs : rows) (j : N) (st : gst) : outcome gst :=
  match rs with
  | [] => Ok st
  | r :: rs' =>
      if j <? n then
        do b <- cond (fst r);
        if b then do st' <- copy_response c n r j st; walk c n cond rs' (j + 1) st' else Ok st
      else Ok st
  end.
Definition always : bytes -> outcome bool := fun _ => Ok true.

(* memcmp(key.data(), it->first.data(), prefix_len) == 0 where key starts with [prefix]. The stored string
   is followed by a NUL (std::string); reading beyond that is UB. *)
Fixpoint memcmp_eq (prefix k : bytes) : outcome bool :=
  match prefix, k with
  | [], _ => Ok true
  | x :: p', y :: k' => if Ascii.eqb x y then memcmp_eq p' k' else Ok false
  | x :: p', [] => if Ascii.eqb x zero then match p' with [] => Ok true | _ => UB end else Ok false
  end.
(* Slice::starts_with *)
Definition has_prefix (prefix k : bytes) : outcome bool := Ok (starts_with prefix k).

(* rows before and from the first row whose key is not below (lower_bound, Seek) / is above (upper_bound) k *)
Fixpoint span (below : bytes -> bool) (db : rows) : rows * rows :=
  match db with
  | [] => ([], [])
  | r :: db' => if below (fst r) then let '(lo, hi) := span below db' in (r :: lo, hi) else ([], db)
  end.
Definition lower (k : bytes) (db : rows) : rows * rows := span (fun x => bltb x k) db.
Definition upper (k : bytes) (db : rows) : rows * rows := span (fun x => bleb x k) db.

(* BGetOp_get_seek, datastore.cpp:493-517 *)
Definition numeric (t : N) : bool :=
  (t =? T_INT32) || (t =? T_INT64) || (t =? T_UINT32) || (t =? T_UINT64) || (t =? T_FLOAT) || (t =? T_DOUBLE).
Definition get_seek (c : codec) (prefix : bytes) (predicate_len pred_type : N) : bytes :=
  if (predicate_len =? 0) && numeric pred_type then prefix ++ [c_neg c; zero] else prefix ++ [zero].

Definition start : gst := mkGst true [].
Definition fail (st : gst) : gst := mkGst false (g_recs st).

(* InMemory.cpp:199-327. [prefix] = encoded subject ++ encoded predicate. *)
Definition im_body (c : codec) (db : rows) (op n : N) (prefix seek : bytes) : outcome gst :=
  if op =? GETOP_EQ then
    match snd (lower prefix db) with
    | r :: _ => copy_response c n r 0 start
    | [] => Ok (fail start)
    end
  else if op =? GETOP_NEXT then
    match snd (lower prefix db) with
    | [] => Ok (fail start)
    | hi => walk c n always hi 0 start
    end
  else if op =? GETOP_PREV then
    match lower prefix db with
    | (_, []) => Ok (fail start)
    | (lo, r :: _) => walk c n always (r :: rev lo) 0 start    (* stops after db.begin(), 234-236 *)
    end
  else if op =? GETOP_FIRST then
    match db with [] => Ok (fail start) | _ => walk c n always db 0 start end
  else if op =? GETOP_LAST then
    match db with
    | [] => UB                                                 (* it = end(); it--, 259-260 *)
    | _ => walk c n always (rev db) 0 start
    end
  else if op =? GETOP_LOWEST then
    match snd (lower seek db) with
    | [] => Ok (fail start)
    | hi => walk c n (memcmp_eq prefix) hi 0 start
    end
  else if op =? GETOP_HIGHEST then
    match upper seek db with
    | (_, []) => Ok (fail start)                               (* it = rbegin().base() = end(), 306-307 *)
    | ([], _ :: _) => UB                                       (* it = begin(); it--, 303-304 *)
    (* the loop stops at rend().base() = begin() without using it, 314 *)
    | (lo, _ :: _) => walk c n (memcmp_eq prefix) (rev (tl lo)) 0 start
    end
  else Ok (fail start).

(* LevelDB.cpp:242-372 *)
Definition ldb_body (c : codec) (db : rows) (op n : N) (prefix seek : bytes) : outcome gst :=
  if op =? GETOP_EQ then
    match snd (lower prefix db) with
    | r :: _ => copy_response c n r 0 start
    | [] => Ok (fail start)
    end
  else if op =? GETOP_NEXT then
    match snd (lower prefix db) with
    | [] => Ok (fail start)
    | hi => walk c n always hi 0 start
    end
  else if op =? GETOP_PREV then
    match lower prefix db with
    | (_, []) => Ok (fail start)
    | (lo, r :: _) => walk c n always (r :: rev lo) 0 start
    end
  else if op =? GETOP_FIRST then
    match db with [] => Ok (fail start) | _ => walk c n always db 0 start end
  else if op =? GETOP_LAST then
    match db with [] => Ok (fail start) | _ => walk c n always (rev db) 0 start end
  else if op =? GETOP_LOWEST then
    match snd (lower seek db) with
    | [] => Ok (fail start)
    | hi => walk c n (has_prefix prefix) hi 0 start
    end
  else if op =? GETOP_HIGHEST then
    (* Seek; Prev if valid, else SeekToLast: in both cases the rows below seek, backwards *)
    match rev (fst (lower seek db)) with
    | [] => Ok (fail start)
    | back => walk c n (has_prefix prefix) back 0 start
    end
  else Ok (fail start).

Definition getop_body (k : backend) := match k with InMemory => im_body | LevelDB => ldb_body end.

(* BGetOp_error_response, datastore.cpp:519-529: the request's subject and predicate become one more record *)
Definition error_response (cap : N) (i : getop_item) (recs : list rec3) : outcome (list rec3) :=
  if N.of_nat (length recs) <? cap then Ok (recs ++ [mkRec (oi_sub i) (oi_pred i) blob_none]) else UB.

(* one iteration of BGetOpImpl, with BGetOp_loop_init (datastore.cpp:444-491) *)
Definition getop_state (k : backend) (c : codec) (db : rows) (i : getop_item) : outcome gst :=
  if op_has_key (oi_op i) then
    do es <- enc_blob c (oi_sub i);
    do ep <- enc_blob c (oi_pred i);
    match es with
    | None => Ok (fail start)
    | Some s =>
        let p := match ep with Some p => p | None => [] end in
        getop_body k c db (oi_op i) (oi_num i) (s ++ p) (get_seek c (s ++ p) (blen p) (b_type (oi_pred i)))
    end
  else getop_body k c db (oi_op i) (oi_num i) [] [].
Definition getop1 (k : backend) (c : codec) (db : rows) (i : getop_item) : outcome gotop_item :=
  do st <- getop_state k c db i;
  if g_unset st then Ok (mkGotOp ST_OK (g_recs st))
  else do recs <- error_response (oi_num i) i (g_recs st); Ok (mkGotOp ST_ERR recs).

Definition bgetop (k : backend) (c : codec) (db : rows) (l : list getop_item) : outcome (list gotop_item) :=
  omap (getop1 k c db) l.
