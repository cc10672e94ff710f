(* Warnings of a datastore about types: src/hxhim/hxhim.cpp:33-35, src/datastore/InMemory.cpp:134-140, src/datastore/LevelDB.cpp:180-186,
   include/datastore/datastore.tpp:19-45; blobs as text: src/utils/Blob.cpp:256-272 *)
From Verif Require Import ModelBytes ModelElen ModelKey ModelHist ModelMsg ModelStore ModelGetOp ModelDs.
Local Open Scope N_scope.

(* HXHIM_DATA_STR, src/hxhim/hxhim.cpp:33-35 with include/hxhim/constants.h:130-140 *)
Definition data_str : list string :=
  ["HXHIM_DATA_INVALID"; "HXHIM_DATA_INT32"; "HXHIM_DATA_INT64"; "HXHIM_DATA_UINT32"; "HXHIM_DATA_UINT64"; "HXHIM_DATA_FLOAT";
   "HXHIM_DATA_DOUBLE"; "HXHIM_DATA_BYTE"; "HXHIM_DATA_POINTER"; "HXHIM_DATA_MAX_KNOWN"]%string.
(* HXHIM_DATA_STR[t] *)
Definition data_name (t : N) : outcome string := match nth_error data_str (N.to_nat t) with Some s => Ok s | None => UB end.
(* a warning: the name of the type that is stored, the name of the type that was asked for *)
Definition warning : Type := string * string.
(* mlog is a macro that looks at its arguments only if the level is logged (include/utils/mlog2.h:427-430) *)
Definition warn (logs : bool) (stored asked : N) : outcome (list warning) :=
  if (stored =? asked) || negb logs then Ok []
  else do a <- data_name stored; do b <- data_name asked; Ok [(a, b)].

(* GET: bget1 of ModelStore.v with the warning of InMemory.cpp:136-140 and LevelDB.cpp:182-186 *)
Definition log_get1 (logs : bool) (c : codec) (db : rows) (i : get_item) : outcome (got_item * list warning) :=
  do k <- key_of c (gi_sub i) (gi_pred i);
  do (o, ws) <- (match k with
                 | None => Ok (None, [])
                 | Some k =>
                     match db_get k db with
                     | None => Ok (None, [])
                     | Some v =>
                         do (e, t) <- remove_type v;
                         do ws <- warn logs t (gi_type i);
                         do d <- c_dec c t e;
                         Ok (option_map (fun d => real_blob d t) d, ws)
                     end
                 end);
  Ok (mkGot (match o with Some _ => ST_OK | None => ST_ERR end)
            (orig_ref (gi_sub_addr i) (gi_sub i)) (orig_ref (gi_pred_addr i) (gi_pred i))
            (match o with Some b => b | None => blob_none end), ws).
Fixpoint log_all {A B} (f : A -> outcome (B * list warning)) (l : list A) : outcome (list B * list warning) :=
  match l with
  | [] => Ok ([], [])
  | x :: l' => do (y, w) <- f x; do (r, ws) <- log_all f l'; Ok (y :: r, w ++ ws)
  end.

(* GETOP: copy_response of ModelGetOp.v with the warnings of datastore.tpp:26-45 for the request i *)
Record lst := mkLst { l_st : gst; l_ws : list warning }.
Definition log_copy (logs : bool) (c : codec) (i : getop_item) (row : bytes * bytes) (j : N) (st : lst) : outcome lst :=
  if negb (g_unset (l_st st)) then Ok st else
  do (es, ep) <- key_to_sp (fst row);
  do w1 <- warn logs (f_type es) (b_type (oi_sub i));
  do w2 <- warn logs (f_type ep) (b_type (oi_pred i));
  do (eo, t) <- remove_type (snd row);
  do w3 <- warn logs t (oi_type i);
  do r <- obind2 (c_dec c (f_type es) (f_data es)) (fun s =>
          obind2 (c_dec c (f_type ep) (f_data ep)) (fun p =>
          obind2 (c_dec c t eo) (fun o =>
          Ok (Some (mkRec (real_blob s (f_type es)) (real_blob p (f_type ep)) (real_blob o t))))));
  let ws := l_ws st ++ w1 ++ w2 ++ w3 in
  match r with
  | Some rc => if j <? oi_num i then Ok (mkLst (mkGst true (g_recs (l_st st) ++ [rc])) ws) else UB
  | None => Ok (mkLst (mkGst false (g_recs (l_st st))) ws)
  end.
(* walk, im_body and ldb_body of ModelGetOp.v for any way to copy a row *)
Section Walk.
Context {S : Type} (copy : bytes * bytes -> N -> S -> outcome S) (begin : S) (failed : S -> S).
Fixpoint walk_with (n : N) (cond : bytes -> outcome bool) (rs : rows) (j : N) (st : S) : outcome S :=
  match rs with
  | [] => Ok st
  | r :: rs' =>
      if j <? n then
        do b <- cond (fst r);
        if b then do st' <- copy r j st; walk_with n cond rs' (j + 1) st' else Ok st
      else Ok st
  end.
Definition im_with (db : rows) (op n : N) (prefix seek : bytes) : outcome S :=
  if op =? GETOP_EQ then
    match snd (lower prefix db) with r :: _ => copy r 0 begin | [] => Ok (failed begin) end
  else if op =? GETOP_NEXT then
    match snd (lower prefix db) with [] => Ok (failed begin) | hi => walk_with n always hi 0 begin end
  else if op =? GETOP_PREV then
    match lower prefix db with
    | (_, []) => Ok (failed begin)
    | (lo, r :: _) => walk_with n always (r :: rev lo) 0 begin
    end
  else if op =? GETOP_FIRST then
    match db with [] => Ok (failed begin) | _ => walk_with n always db 0 begin end
  else if op =? GETOP_LAST then
    match db with [] => UB | _ => walk_with n always (rev db) 0 begin end
  else if op =? GETOP_LOWEST then
    match snd (lower seek db) with [] => Ok (failed begin) | hi => walk_with n (memcmp_eq prefix) hi 0 begin end
  else if op =? GETOP_HIGHEST then
    match upper seek db with
    | (_, []) => Ok (failed begin)
    | ([], _ :: _) => UB
    | (lo, _ :: _) => walk_with n (memcmp_eq prefix) (rev (tl lo)) 0 begin
    end
  else Ok (failed begin).
Definition ldb_with (db : rows) (op n : N) (prefix seek : bytes) : outcome S :=
  if op =? GETOP_EQ then
    match snd (lower prefix db) with r :: _ => copy r 0 begin | [] => Ok (failed begin) end
  else if op =? GETOP_NEXT then
    match snd (lower prefix db) with [] => Ok (failed begin) | hi => walk_with n always hi 0 begin end
  else if op =? GETOP_PREV then
    match lower prefix db with
    | (_, []) => Ok (failed begin)
    | (lo, r :: _) => walk_with n always (r :: rev lo) 0 begin
    end
  else if op =? GETOP_FIRST then
    match db with [] => Ok (failed begin) | _ => walk_with n always db 0 begin end
  else if op =? GETOP_LAST then
    match db with [] => Ok (failed begin) | _ => walk_with n always (rev db) 0 begin end
  else if op =? GETOP_LOWEST then
    match snd (lower seek db) with [] => Ok (failed begin) | hi => walk_with n (has_prefix prefix) hi 0 begin end
  else if op =? GETOP_HIGHEST then
    match rev (fst (lower seek db)) with [] => Ok (failed begin) | back => walk_with n (has_prefix prefix) back 0 begin end
  else Ok (failed begin).
End Walk.
Definition log_body (logs : bool) (k : backend) (c : codec) (db : rows) (i : getop_item) (prefix seek : bytes) : outcome lst :=
  let begin := mkLst start [] in
  let failed st := mkLst (fail (l_st st)) (l_ws st) in
  match k with
  | InMemory => im_with (log_copy logs c i) begin failed db (oi_op i) (oi_num i) prefix seek
  | LevelDB => ldb_with (log_copy logs c i) begin failed db (oi_op i) (oi_num i) prefix seek
  end.
(* getop_state and getop1 of ModelGetOp.v *)
Definition log_getop1 (logs : bool) (k : backend) (c : codec) (db : rows) (i : getop_item) : outcome (gotop_item * list warning) :=
  do st <- (if op_has_key (oi_op i) then
              do es <- enc_blob c (oi_sub i);
              do ep <- enc_blob c (oi_pred i);
              match es with
              | None => Ok (mkLst (fail start) [])
              | Some s =>
                  let p := match ep with Some p => p | None => [] end in
                  log_body logs k c db i (s ++ p) (get_seek c (s ++ p) (blen p) (b_type (oi_pred i)))
              end
            else log_body logs k c db i [] []);
  if g_unset (l_st st) then Ok (mkGotOp ST_OK (g_recs (l_st st)), l_ws st)
  else do recs <- error_response (oi_num i) i (g_recs (l_st st)); Ok (mkGotOp ST_ERR recs, l_ws st).

(* operate of ModelDs.v with the warnings *)
Definition log_operate (logs : bool) (d : ds) (req : body) : outcome (ds * option body * list warning) :=
  match req with
  | QGet l => if negb (d_open d) then Ok (d, None, []) else
      do (r, ws) <- log_all (log_get1 logs (d_codec d) (d_rows d)) l; Ok (d, Some (RGet r), ws)
  | QGetOp l => if negb (d_open d) then Ok (d, None, []) else
      do (r, ws) <- log_all (log_getop1 logs (d_kind d) (d_codec d) (d_rows d)) l; Ok (d, Some (RGetOp r), ws)
  | _ => do (d', r) <- operate d req; Ok (d', r, [])
  end.
Fixpoint log_run (logs : bool) (d : ds) (h : list body) : outcome (ds * list (option body) * list warning) :=
  match h with
  | [] => Ok (d, [], [])
  | q :: h' =>
      do (a, w) <- log_operate logs d q; let '(d1, r) := a in
      do (b, ws) <- log_run logs d1 h'; let '(d2, rs) := b in
      Ok (d2, r :: rs, w ++ ws)
  end.

(* << for void *, libstdc++: hexadecimal with 0x, null is 0 *)
Definition hexdigit (d : N) : byte := ascii_of_N (if d <? 10 then 48 + d else 87 + d).
Fixpoint hex_fuel (f : nat) (n : N) : bytes :=
  match f with
  | O => [hexdigit (n mod 16)]
  | S f' => if n <? 16 then [hexdigit n] else hex_fuel f' (n / 16) ++ [hexdigit (n mod 16)]
  end.
Definition show_ptr (a : N) : bytes := if a =? 0 then bstr "0" else bstr "0x" ++ hex_fuel (N.size_nat a) a.
(* operator<< for Blob, Blob.cpp:256-272. gcc promotes hxhim_data_t to unsigned int *)
Definition show_blob (ptr len type : N) (clean : bool) : outcome bytes :=
  do t <- (if type <=? 9 then do s <- data_name type; Ok (bstr s) else Ok (bstr "Unknown Type (" ++ to_string type ++ bstr ")"));
  Ok (bstr "[" ++ show_ptr ptr ++ bstr ", " ++ to_string len ++ bstr ", " ++ t ++ bstr ", " ++ bstr (if clean then "true" else "false") ++ bstr "]").
