(* class Datastore::Datastore: src/datastore/datastore.cpp, and the histogram part of InMemory.cpp / LevelDB.cpp *)
From Verif Require Import ModelBytes ModelKey ModelWire ModelHist ModelMsg ModelStore ModelGetOp.
Local Open Scope N_scope.

(* A datastore: Usable() (InMemory.cpp:37-39, LevelDB.cpp:55-57), the stored rows and the histograms
   (std::map<std::string, shared_ptr>, here an association list). For LevelDB the rows of a closed
   datastore are what is on disk; opening under another name is not modelled. *)
Record ds := mkDs { d_kind : backend; d_codec : codec; d_open : bool; d_rows : rows; d_hists : list (bytes * hist) }.

Definition with_rows (d : ds) (r : rows) : ds := mkDs (d_kind d) (d_codec d) (d_open d) r (d_hists d).
Definition with_hists (d : ds) (h : list (bytes * hist)) : ds := mkDs (d_kind d) (d_codec d) (d_open d) (d_rows d) h.

Fixpoint hist_find (n : bytes) (l : list (bytes * hist)) : option hist :=
  match l with [] => None | (n', h) :: l' => if beqb n n' then Some h else hist_find n l' end.
Fixpoint hist_set (n : bytes) (h : hist) (l : list (bytes * hist)) : list (bytes * hist) :=
  match l with
  | [] => [(n, h)]
  | (n', h') :: l' => if beqb n n' then (n, h) :: l' else (n', h') :: hist_set n h l'
  end.

(* conversion of a float to a double, on bit patterns *)
Definition f2d (b : N) : N :=
  let s := (b / 2 ^ 31) mod 2 in
  let e := (b / 2 ^ 23) mod 2 ^ 8 in
  let m := b mod 2 ^ 23 in
  s * 2 ^ 63 +
  (if e =? 255 then 2047 * 2 ^ 52 + (if m =? 0 then 0 else N.lor (2 ^ 51) (m * 2 ^ 29))
   else if e =? 0 then
     if m =? 0 then 0 else let k := N.log2 m in (k + 874) * 2 ^ 52 + (m - 2 ^ k) * 2 ^ (52 - k)
   else (e + 896) * 2 ^ 52 + m * 2 ^ 29).

(* the object as a double, datastore.cpp:134-142: reads 4 or 8 bytes whatever the size *)
Definition hist_value (o : blob) : outcome (option N) :=
  let read n := if b_null o || (blen (b_data o) <? N.of_nat n) then UB else Ok (le_dec (firstn n (b_data o))) in
  if b_type o =? T_FLOAT then do v <- read 4%nat; Ok (Some (f2d v))
  else if b_type o =? T_DOUBLE then do v <- read 8%nat; Ok (Some v)
  else Ok None.

(* the loop of operate(BPut), datastore.cpp:121-155, over items and their statuses *)
Fixpoint track (hs : list (bytes * hist)) (l : list put_item) (sts : list Z) : outcome (list (bytes * hist)) :=
  match l, sts with
  | i :: l', st :: sts' =>
      do hs' <- (if (st =? ST_OK)%Z && (b_type (pi_pred i) =? T_BYTE) then
                   match hist_find (b_data (pi_pred i)) hs with
                   | None => Ok hs
                   | Some h =>
                       do v <- hist_value (pi_obj i);
                       match v with
                       | None => Ok hs
                       | Some x => do (h', _) <- hist_add h x; Ok (hist_set (b_data (pi_pred i)) h' hs)
                       end
                   end
                 else Ok hs);
      track hs' l' sts'
  | _, _ => Ok hs
  end.

(* operate for each request type, datastore.cpp:117-208. None = a null response.
   BHistogram does not ask Usable(). *)
Definition operate (d : ds) (req : body) : outcome (ds * option body) :=
  let c := d_codec d in
  match req with
  | QPut l =>
      if negb (d_open d) then Ok (d, None) else
      do (r, sts) <- bput (d_kind d) c (d_rows d) l;
      do hs <- (match d_hists d with [] => Ok [] | hs => track hs l (map si_status sts) end);
      Ok (with_hists (with_rows d r) hs, Some (RPut sts))
  | QGet l =>
      if negb (d_open d) then Ok (d, None) else
      do r <- bget c (d_rows d) l; Ok (d, Some (RGet r))
  | QGetOp l =>
      if negb (d_open d) then Ok (d, None) else
      do r <- bgetop (d_kind d) c (d_rows d) l; Ok (d, Some (RGetOp r))
  | QDel l =>
      if negb (d_open d) then Ok (d, None) else
      do (r, sts) <- bdel (d_kind d) c (d_rows d) l; Ok (with_rows d r, Some (RDel sts))
  | QHist l =>
      Ok (d, Some (RHist (map (fun b => match hist_find (b_data b) (d_hists d) with
                                        | Some h => mkHI ST_OK (Some h)
                                        | None => mkHI ST_ERR None
                                        end) l)))
  | _ => Ok (d, None)                                  (* responses are not requests *)
  end.

(* HISTOGRAM_SUBJECT, datastore.cpp:12; Blob(std::string) has type BYTE (include/utils/Blob.hpp:43-44) *)
Definition hist_key (name : bytes) : bytes := sp_to_key (mkField (bstr "HISTOGRAM") T_BYTE) (mkField name T_BYTE).

(* WriteHistogramsImpl, InMemory.cpp:422-442, LevelDB.cpp *)
Fixpoint write_hists (hs : list (bytes * hist)) (db : rows) : outcome rows :=
  match hs with
  | [] => Ok db
  | (n, h) :: hs' => do b <- hist_pack h; write_hists hs' (db_put (hist_key n) b db)
  end.
(* WriteHistograms, datastore.cpp:216-218 *)
Definition write_histograms (d : ds) : outcome ds :=
  if d_open d then do r <- write_hists (d_hists d) (d_rows d); Ok (with_rows d r) else Ok d.

(* ReadHistogramsImpl, InMemory.cpp:452-477: (histograms, number found) *)
Fixpoint read_hists (names : list bytes) (db : rows) (hs : list (bytes * hist)) : outcome (list (bytes * hist) * N) :=
  match names with
  | [] => Ok (hs, 0)
  | n :: names' =>
      match db_get (hist_key n) db with
      | None => read_hists names' db hs
      | Some v =>
          do (r, _) <- hist_unpack (hist_new [] 0 None) (blen v) v;
          match r with
          | Some h => do (hs', k) <- read_hists names' db (hist_set n h hs); Ok (hs', k + 1)
          | None => read_hists names' db hs
          end
      end
  end.
(* ReadHistograms, datastore.cpp:229-231 *)
Definition read_histograms (d : ds) (names : list bytes) : outcome (ds * N) :=
  if d_open d then do (hs, k) <- read_hists names (d_rows d) (d_hists d); Ok (with_hists d hs, k) else Ok (d, 0).

(* AddHistogram, datastore.cpp:242-262 *)
Definition add_histogram (d : ds) (name : bytes) (h : hist) : ds := with_hists d (hist_set name h (d_hists d)).

(* Sync, datastore.cpp:369-375 *)
Definition ds_sync (d : ds) (write : bool) : outcome (ds * Z) :=
  do d' <- (if write then write_histograms d else Ok d);
  Ok (d', if d_open d' then ST_OK else ST_ERR).

(* OpenImpl: InMemory.cpp:26-30 clears; LevelDB.cpp:29-48 reads what is there (assumed to succeed) *)
Definition open_impl (d : ds) : ds :=
  mkDs (d_kind d) (d_codec d) true (match d_kind d with InMemory => [] | LevelDB => d_rows d end) (d_hists d).
(* Open, datastore.cpp:87-94 *)
Definition ds_open (d : ds) (names : option (list bytes)) : outcome ds :=
  let d' := open_impl d in
  match names with None => Ok d' | Some ns => do (d'', _) <- read_histograms d' ns; Ok d'' end.
(* Close, datastore.cpp:96-100; CloseImpl InMemory.cpp:32-35, LevelDB.cpp:50-53 *)
Definition ds_close (d : ds) (write : bool) : outcome ds :=
  do (d', _) <- ds_sync d write;
  Ok (mkDs (d_kind d') (d_codec d') false (match d_kind d' with InMemory => [] | LevelDB => d_rows d' end) []).
(* Change, datastore.cpp:106-111 *)
Definition ds_change (d : ds) (write : bool) (names : option (list bytes)) : outcome ds :=
  do d' <- ds_close d write; ds_open d' names.

(* A new datastore, datastore.cpp:14-29, InMemory.cpp:10-16, LevelDB.cpp:13-23: not open *)
Definition ds_new (k : backend) (c : codec) : ds := mkDs k c false [] [].

Inductive ds_call :=
| CallOpen (names : option (list bytes)) | CallClose (write : bool) | CallReq (req : body)
| CallAddHist (name : bytes) (h : hist) | CallWriteHists | CallReadHists (names : list bytes) | CallSync (write : bool).

Definition ds_step (d : ds) (x : ds_call) : outcome (ds * option body) :=
  match x with
  | CallOpen ns => do d' <- ds_open d ns; Ok (d', None)
  | CallClose w => do d' <- ds_close d w; Ok (d', None)
  | CallReq r => operate d r
  | CallAddHist n h => Ok (add_histogram d n h, None)
  | CallWriteHists => do d' <- write_histograms d; Ok (d', None)
  | CallReadHists ns => do (d', _) <- read_histograms d ns; Ok (d', None)
  | CallSync w => do (d', _) <- ds_sync d w; Ok (d', None)
  end.
Fixpoint ds_run (d : ds) (l : list ds_call) : outcome (ds * list (option body)) :=
  match l with
  | [] => Ok (d, [])
  | x :: l' => do (d', r) <- ds_step d x; do (d'', rs) <- ds_run d' l'; Ok (d'', r :: rs)
  end.
