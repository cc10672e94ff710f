(* C03-C07, C20, C46, C47: datastores *)
From Verif Require Import ModelBytes ModelKey ModelElen SpecElen ModelWire ModelHist ModelMsg ModelStore ModelGetOp ModelDs
  SpecStore ProofStore ProofDs ProofDs2 ProofDs3 ProofDs4 ProofDs5 ExampleStore.
Local Open Scope N_scope.

(* The responses are those of the map from pairs to the last stored object (SpecStore.v), for every history
   of bulk PUT, GET and DELETE requests. Each value is one the callbacks handle without loss or refuse. *)
Theorem C03_in_memory_is_map : forall c can h, Forall (req_fits c can) h ->
  exists d0 d, ds_open (ds_new InMemory c) None = Ok d0 /\
    ds_run d0 (map CallReq h) = Ok (d, map Some (snd (spec_run can no_triples h))).
Proof. exact in_memory_is_map. Qed.
Print Assumptions C03_in_memory_is_map.

(* The default callbacks handle byte strings and pointers of any content, and every integer but the smallest signed ones. *)
Theorem C03_default_callbacks : forall neg pos fe fd d t, blen d < 2 ^ 64 ->
  (t = T_BYTE \/ t = T_POINTER -> lossless (default_codec neg pos fe fd) (mkField d t)) /\
  (forall T, int_of t = Some T -> sym_ok neg pos -> blen d = N.of_nat (it_bytes T) ->
     (it_signed T = true -> d <> store T (it_min T)) -> lossless (default_codec neg pos fe fd) (mkField d t)).
Proof. exact default_lossless. Qed.
Print Assumptions C03_default_callbacks.

(* PUT twice (an integer, then nothing) under one pair, a refused item, GETs and DELETEs *)
Example C03_example : Forall (req_fits ex_codec ex_can) ex_history /\
  nth_error (snd (spec_run ex_can no_triples ex_history)) 2 =
     Some (RGet [mkGot 1 (mkRef 9 2 7) (mkRef 10 1 7) (mkBlob true [] 7);
                 mkGot 1 (mkRef 11 1 7) (mkRef 12 2 7) (mkBlob false (bstr "second") 7);
                 mkGot 2 (mkRef 13 1 7) (mkRef 14 1 7) blob_none]).
Proof. split; [exact ex_fits|exact (proj1 ex_outcome)]. Qed.

(* d: reached from an empty datastore by any history; m: the map it stands for *)
Theorem C04_delete : forall c d m s sa p pa, reached InMemory c d m -> storable c s -> storable c p ->
  let refs st := answer st sa s pa p in
  exists d' st, operate d (QDel [mkDel s sa p pa]) = Ok (d', Some (RDel [refs st]))
    /\ (m (fld s) (fld p) <> None -> st = DATASTORE_SUCCESS)
    /\ (m (fld s) (fld p) = None -> st = DATASTORE_ERROR /\ d' = d)
    (* an error until the pair is PUT again, whatever else is done *)
    /\ (forall can h d2 rs ty, Forall (req_fits c can) h -> Forall (fun q => ~ names s p q) h ->
          ds_run d' (map CallReq h) = Ok (d2, rs) ->
          operate d2 (QGet [mkGet s sa p pa ty]) =
          Ok (d2, Some (RGet [mkGot (Z.of_N DATASTORE_ERROR) (si_sub (refs 0)) (si_pred (refs 0)) blob_none])))
    (* other pairs *)
    /\ (forall s' sa' p' pa' ty, storable c s' -> storable c p' -> (fld s', fld p') <> (fld s, fld p) ->
          exists r, operate d (QGet [mkGet s' sa' p' pa' ty]) = Ok (d, Some r)
                 /\ operate d' (QGet [mkGet s' sa' p' pa' ty]) = Ok (d', Some r)).
Proof. exact delete_spec. Qed.
Print Assumptions C04_delete.

Example C04_example : exists d m, reached InMemory ex_codec d m /\ storable ex_codec (xb "ab") /\ storable ex_codec (xb "c") /\
  m (fld (xb "ab")) (fld (xb "c")) = Some (mkField [] T_BYTE) /\ m (fld (xb "a")) (fld (xb "c")) = None.
Proof. exact ex_delete. Qed.

(* Any open datastore of either kind. One answer per item in order; a bulk request and its items one at a
   time have the same effect and the same statuses, in both directions. *)
Theorem C05_bulk : forall d, d_open d = true ->
  (forall l d' r, operate d (QPut l) = Ok (d', r) ->
     exists sts, r = Some (RPut sts) /\ Forall2 put_answers l sts /\
       ds_run d (map (fun i => CallReq (QPut [i])) l) = Ok (d', map (fun st => Some (RPut [st])) sts)) /\
  (forall l d' r, operate d (QGet l) = Ok (d', r) ->
     exists gs, r = Some (RGet gs) /\ Forall2 get_answers l gs /\ d' = d /\
       ds_run d (map (fun i => CallReq (QGet [i])) l) = Ok (d', map (fun g => Some (RGet [g])) gs)) /\
  (forall l d' r, operate d (QDel l) = Ok (d', r) ->
     exists sts, r = Some (RDel sts) /\ Forall2 del_answers l sts /\
       ds_run d (map (fun i => CallReq (QDel [i])) l) = Ok (d', map (fun st => Some (RDel [st])) sts)) /\
  (forall l d' sts, ds_run d (map (fun i => CallReq (QPut [i])) l) = Ok (d', map (fun st => Some (RPut [st])) sts) ->
     operate d (QPut l) = Ok (d', Some (RPut sts))) /\
  (forall l d' gs, ds_run d (map (fun i => CallReq (QGet [i])) l) = Ok (d', map (fun g => Some (RGet [g])) gs) ->
     operate d (QGet l) = Ok (d', Some (RGet gs))) /\
  (forall l d' sts, ds_run d (map (fun i => CallReq (QDel [i])) l) = Ok (d', map (fun st => Some (RDel [st])) sts) ->
     operate d (QDel l) = Ok (d', Some (RDel sts))).
Proof. exact bulk_requests. Qed.
Print Assumptions C05_bulk.

(* two items with the same pair and one refused item, with a histogram being filled *)
Example C05_example : d_open ex_ds = true /\
  exists r, match operate ex_ds (QPut [mkPut (xb "s") 1 (xb "t") 2 (mkBlob false d1_bits T_DOUBLE);
                                       mkPut (xb "s") 3 (xb "t") 4 (mkBlob false d1_bits T_DOUBLE); mkPut (xb "s") 5 xbad 6 (xb "o")]) with
            | Ok (_, Some (RPut sts)) => map si_status sts = r /\ r = [1; 1; 2]%Z
            | _ => False
            end.
Proof. split; [reflexivity|]. eexists. vm_compute. split; reflexivity. Qed.

(* A successful PUT not followed in the same request by another item with the same pair is what GET returns.
   Missing: LevelDB and RocksDB when the item could not be encoded, see C06_put_success_stored_refuted. *)
Theorem C06_put_success_stored_partial : forall c can d l d' sts n i st ty,
  d_open d = true -> d_codec d = c ->
  Forall (fun i => knows c can (pi_sub i) /\ knows c can (pi_pred i) /\ knows c can (pi_obj i)) l ->
  operate d (QPut l) = Ok (d', Some (RPut sts)) ->
  nth_error l n = Some i -> nth_error sts n = Some st -> si_status st = Z.of_N DATASTORE_SUCCESS ->
  (forall n' i', (n < n')%nat -> nth_error l n' = Some i' -> (fld (pi_sub i'), fld (pi_pred i')) <> (fld (pi_sub i), fld (pi_pred i))) ->
  d_kind d = InMemory \/ can (pi_sub i) && can (pi_pred i) && can (pi_obj i) = true ->
  operate d' (QGet [mkGet (pi_sub i) (pi_sub_addr i) (pi_pred i) (pi_pred_addr i) ty]) =
  Ok (d', Some (RGet [mkGot (Z.of_N DATASTORE_SUCCESS) (si_sub st) (si_pred st)
                            (mkBlob (blen (b_data (pi_obj i)) =? 0) (b_data (pi_obj i)) (b_type (pi_obj i)))])).
Proof. exact put_then_get. Qed.
Print Assumptions C06_put_success_stored_partial.

Example C06_example : exists d' sts,
  operate (opened LevelDB ex_codec) (QPut [mkPut (xb "s") 1 (xb "p") 2 (xint (-7)); mkPut (xb "s") 1 (xb "q") 2 xbad]) = Ok (d', Some (RPut sts))
  /\ map si_status sts = [1; 1]%Z /\ ex_can (xb "s") && ex_can (xb "p") && ex_can (xint (-7)) = true.
Proof. exact ex_put. Qed.

(* LevelDB: an object of a type that cannot be encoded; PUT says success, GET says error *)
Theorem C06_put_success_stored_refuted : exists d l d' sts i st g,
  operate d (QPut l) = Ok (d', Some (RPut sts)) /\ d_open d = true /\ d_kind d = LevelDB /\
  nth_error l 0 = Some i /\ length l = 1%nat /\ nth_error sts 0 = Some st /\ si_status st = Z.of_N DATASTORE_SUCCESS /\
  operate d' (QGet [mkGet (pi_sub i) (pi_sub_addr i) (pi_pred i) (pi_pred_addr i) (b_type (pi_obj i))]) = Ok (d', Some (RGet [g])) /\
  go_status g = Z.of_N DATASTORE_ERROR.
Proof. exact success_not_stored. Qed.
Print Assumptions C06_put_success_stored_refuted.

(* Histories without HIGHEST that the in-memory datastore handles: LevelDB then holds the same rows and gives
   the same responses, but may say success where the in-memory datastore says error for a PUT or DELETE.
   Missing: that status, and HIGHEST; see C07_backends_refuted and C07_backends_highest_refuted. *)
Theorem C07_backends_partial : forall c h d1 rs1 i1 i2,
  ds_open (ds_new InMemory c) None = Ok i1 -> ds_open (ds_new LevelDB c) None = Ok i2 ->
  Forall no_highest h -> ds_run i1 (map CallReq h) = Ok (d1, rs1) ->
  exists d2 rs2, ds_run i2 (map CallReq h) = Ok (d2, rs2) /\ d_rows d1 = d_rows d2 /\ Forall2 similar rs1 rs2.
Proof. exact backends_similar. Qed.
Print Assumptions C07_backends_partial.

Example C07_example : exists i1 d1 rs1, ds_open (ds_new InMemory ex_codec) None = Ok i1 /\
  ds_run i1 (map CallReq (ex_history ++ [QGetOp [mkGetOp GETOP_LOWEST (xb "ab") (xb "") T_BYTE 3]])) = Ok (d1, rs1).
Proof. exists (opened InMemory ex_codec). destruct ex_similar as (d1 & rs1 & H). exists d1, rs1. split; [reflexivity|exact H]. Qed.

Theorem C07_backends_refuted : exists c h d1 rs1 d2 rs2,
  ds_run (opened InMemory c) (map CallReq h) = Ok (d1, rs1) /\ ds_run (opened LevelDB c) (map CallReq h) = Ok (d2, rs2) /\ rs1 <> rs2 /\
  exists l, h = [QDel l].
Proof. exact backends_differ. Qed.
Print Assumptions C07_backends_refuted.

(* one stored triple, HIGHEST: undefined behaviour in memory, an error on LevelDB *)
Theorem C07_backends_highest_refuted : exists c h g d rs,
  ds_run (opened InMemory c) (map CallReq h) = UB /\
  ds_run (opened LevelDB c) (map CallReq h) = Ok (d, [rs; Some (RGetOp [g])]) /\ gp_status g = Z.of_N DATASTORE_ERROR /\
  exists p i, h = [QPut p; QGetOp [i]] /\ oi_op i = GETOP_HIGHEST /\ oi_num i = 1.
Proof. exact backends_differ_highest. Qed.
Print Assumptions C07_backends_highest_refuted.

(* After any sequence of calls the datastore is open iff the last open/close was an open. While it is not,
   the four requests get no response and change nothing. Opening an in-memory datastore gives an empty one. *)
Theorem C20_closed_datastore : forall k c l d rs, ds_run (ds_new k c) l = Ok (d, rs) ->
  d_open d = open_after false l /\
  (open_after false l = false -> forall q, data_request q -> operate d q = Ok (d, None)) /\
  (k = InMemory -> forall names, exists d', ds_open d names = Ok d' /\ d_open d' = true /\ d_rows d' = []).
Proof. exact closed_datastore. Qed.
Print Assumptions C20_closed_datastore.

Example C20_example : exists d,
  ds_run (ds_new InMemory ex_codec)
    [CallReq (QPut [mkPut (xb "s") 1 (xb "p") 2 (xb "o")]); CallOpen None; CallReq (QPut [mkPut (xb "s") 1 (xb "p") 2 (xb "o")]);
     CallClose true; CallReq (QGet [mkGet (xb "s") 1 (xb "p") 2 7])]
  = Ok (d, [None; None; Some (RPut [mkSt 1 (mkRef 1 1 7) (mkRef 2 1 7)]); None; None]).
Proof. exact ex_lifecycle. Qed.

(* C55. d: any open LevelDB datastore after any calls. Closed and opened again it answers every GET and GETOP as
   before; with the histograms written it still answers GETs, and the histograms are read back. *)
Theorem C55_reopen : forall c l d rs, copies_bytes c -> ds_run (ds_new LevelDB c) l = Ok (d, rs) -> d_open d = true ->
  Forall (fun x => blen (fst x) < 2 ^ 64) (d_hists d) ->
  (exists d1 d2, ds_close d false = Ok d1 /\ ds_open d1 None = Ok d2 /\ (d_hists d = [] -> d2 = d) /\
     forall q r, reads q -> operate d q = Ok (d, r) -> operate d2 q = Ok (d2, r)) /\
  (forall d1 ns d2, ds_close d true = Ok d1 -> ds_open d1 (Some ns) = Ok d2 ->
     (forall s sa p pa ty r, storable c s -> storable c p -> (forall n, ~ reserved n s p) ->
        operate d (QGet [mkGet s sa p pa ty]) = Ok (d, r) -> operate d2 (QGet [mkGet s sa p pa ty]) = Ok (d2, r)) /\
     (forall n h0 b h', In n ns -> hist_find n (d_hists d) = Some h0 ->
        hist_pack h0 = Ok b -> hist_unpack (hist_new [] 0 None) (blen b) b = Ok (Some h', []) ->
        hist_find n (d_hists d2) = Some h')).
Proof. exact reopen. Qed.
Print Assumptions C55_reopen.

Example C55_example : copies_bytes ex_codec /\ exists d rs d1 d2,
  ds_run (ds_new LevelDB ex_codec) [CallOpen None; CallAddHist (bstr "t") ex_hist; CallReq (QPut [mkPut (xb "s") 1 (xb "p") 2 (xb "o")])] = Ok (d, rs) /\
  d_open d = true /\ Forall (fun x => blen (fst x) < 2 ^ 64) (d_hists d) /\ length (d_hists d) = 1%nat /\
  ds_close d true = Ok d1 /\ length (d_rows d1) = 2%nat /\ ds_open d1 (Some [bstr "t"]) = Ok d2 /\ length (d_hists d2) = 1%nat.
Proof. split; [apply default_copies|exact ex_reopen]. Qed.

(* d: any open datastore after any calls; d1: after writing its histograms. User data is unchanged, and a
   histogram is read back whatever user requests come in between.
   Missing: user triples (HISTOGRAM, name of a histogram), see the three refutations. *)
Theorem C46_histograms_apart_partial : forall k c l d rs d1, copies_bytes c -> ds_run (ds_new k c) l = Ok (d, rs) -> d_open d = true ->
  Forall (fun x => blen (fst x) < 2 ^ 64) (d_hists d) -> write_histograms d = Ok d1 ->
  (forall s sa p pa ty r, storable c s -> storable c p -> (forall n, ~ reserved n s p) ->
     operate d (QGet [mkGet s sa p pa ty]) = Ok (d, r) -> operate d1 (QGet [mkGet s sa p pa ty]) = Ok (d1, r)) /\
  (forall can h d2 rs2 ns d3 cnt n h0 b h',
     Forall (req_fits c can) h -> Forall (avoids n) h -> ds_run d1 (map CallReq h) = Ok (d2, rs2) ->
     read_histograms d2 ns = Ok (d3, cnt) -> In n ns -> hist_find n (d_hists d) = Some h0 ->
     hist_pack h0 = Ok b -> hist_unpack (hist_new [] 0 None) (blen b) b = Ok (Some h', []) ->
     hist_find n (d_hists d3) = Some h').
Proof. exact histograms_apart. Qed.
Print Assumptions C46_histograms_apart_partial.

Example C46_example : copies_bytes ex_codec /\ exists d rs d1,
  ds_run (ds_new InMemory ex_codec) [CallOpen None; CallAddHist (bstr "t") ex_hist; CallReq (QPut [mkPut (xb "HISTOGRAM") 1 (xb "u") 2 (xb "o")])] = Ok (d, rs) /\
  d_open d = true /\ length (d_hists d) = 1%nat /\ write_histograms d = Ok d1 /\ length (d_rows d1) = 2%nat.
Proof. exact ex_apart. Qed.

(* the user's triple is overwritten *)
Theorem C46_histograms_apart_refuted : exists c d d1 o g g1,
  ds_run (ds_new InMemory c) [CallOpen None; CallAddHist (bstr "t") ex_hist;
     CallReq (QPut [mkPut (xb "HISTOGRAM") 1 (xb "t") 2 o])] = Ok (d, [None; None; Some (RPut [mkSt 1 (mkRef 1 9 7) (mkRef 2 1 7)])]) /\
  write_histograms d = Ok d1 /\
  operate d (QGet [mkGet (xb "HISTOGRAM") 1 (xb "t") 2 T_BYTE]) = Ok (d, Some (RGet [g])) /\ go_obj g = o /\
  operate d1 (QGet [mkGet (xb "HISTOGRAM") 1 (xb "t") 2 T_BYTE]) = Ok (d1, Some (RGet [g1])) /\ go_status g1 = Z.of_N DATASTORE_ERROR.
Proof. exists ex_codec. exact hist_clash. Qed.
Print Assumptions C46_histograms_apart_refuted.

(* user data is taken for a histogram *)
Theorem C46_user_data_refuted : exists c d o r,
  ds_run (ds_new InMemory c) [CallOpen None; CallReq (QPut [mkPut (xb "HISTOGRAM") 1 (xb "t") 2 o]); CallReadHists [bstr "t"];
     CallReq (QHist [xb "t"])] = Ok (d, [None; r; None; Some (RHist [mkHI 1 (Some (hist_new [] 0 None))])]) /\ b_type o = T_BYTE.
Proof. exists ex_codec. exact hist_confused. Qed.
Print Assumptions C46_user_data_refuted.

(* writing a histogram makes FIRST fail *)
Theorem C46_getop_refuted : exists c d d1 g,
  ds_run (ds_new InMemory c) [CallOpen None; CallAddHist (bstr "t") ex_hist;
     CallReq (QPut [mkPut (xb "s") 1 (xb "p") 2 (xb "o")]); CallReq (QGetOp [mkGetOp GETOP_FIRST (xb "") (xb "") T_BYTE 2])]
     = Ok (d, [None; None; Some (RPut [mkSt 1 (mkRef 1 1 7) (mkRef 2 1 7)]); Some (RGetOp [mkGotOp 1 [mkRec (xb "s") (xb "p") (xb "o")]])]) /\
  write_histograms d = Ok d1 /\
  operate d1 (QGetOp [mkGetOp GETOP_FIRST (xb "") (xb "") T_BYTE 2]) = Ok (d1, Some (RGetOp [g])) /\ gp_status g = Z.of_N DATASTORE_ERROR.
Proof. exists ex_codec. exact hist_hides. Qed.
Print Assumptions C46_getop_refuted.

(* For every history of requests to any datastore: the histogram afterwards is the one before with the
   tracked values (SpecStore.v) added one by one; no histogram appears. *)
Theorem C47_histograms_track : forall name h d d' rs, ds_run d (map CallReq h) = Ok (d', rs) ->
  match hist_find name (d_hists d) with
  | Some h0 => exists h1, hist_find name (d_hists d') = Some h1 /\ hist_adds h0 (tracked_run name h rs) = Ok h1
  | None => hist_find name (d_hists d') = None
  end.
Proof. exact histograms_track. Qed.
Print Assumptions C47_histograms_track.

Example C47_example : exists d h,
  ds_run ex_ds (map CallReq
    [QPut [mkPut (xb "s") 1 (xb "t") 2 (mkBlob false d1_bits T_DOUBLE); mkPut (xb "s") 1 (xb "u") 2 (mkBlob false d1_bits T_DOUBLE)];
     QPut [mkPut (xb "r") 1 (xb "t") 2 (mkBlob false (le_enc 4 0x40000000) T_FLOAT)]])
  = Ok (d, [Some (RPut [mkSt 1 (mkRef 1 1 7) (mkRef 2 1 7); mkSt 1 (mkRef 1 1 7) (mkRef 2 1 7)]); Some (RPut [mkSt 1 (mkRef 1 1 7) (mkRef 2 1 7)])])
  /\ hist_find (bstr "t") (d_hists d) = Some h /\ h_cache h = [0x3ff0000000000000; 0x4000000000000000].
Proof. exact ex_track. Qed.
