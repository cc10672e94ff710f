(* C73: what the statistics of a datastore say *)
From Verif Require Import ModelBytes ProofBytes ModelKey ModelWire ModelHist ModelMsg ModelStore ModelGetOp ModelDs ModelElen ModelFloat ModelRoute
  SpecRoute SpecClient ModelClient ModelStats SpecStats SpecFp ModelDsStats SpecDsStats SpecDsStats2
  ProofDsStats2 ProofDsStats3 ProofDsStats4 ProofLd2 ProofLd3 ProofDsStats5 ExampleStore ExampleDsStats.
From Coq Require Import Reals.
Local Open Scope N_scope.

(* Every PUT request that is answered is counted once by GetStats; the report shows the number of triples in them and the
   bytes of those that could be encoded *)
Theorem C73_puts : forall k c l d rs st, truns (ds_new k c) no_events l = Ok (d, rs, st) ->
  let log := answered l rs in
  t_num_put (get_stats st) = lenN (filter is_put log) /\
  (forall x, report (st_puts st) = Ok x -> ln_count x = lenN (flat_map put_items log) mod 2 ^ 64 /\ ln_size x = bytes_put c log mod 2 ^ 64).
Proof. exact run_puts. Qed.
Print Assumptions C73_puts.
Example C73_puts_example : counts (run_seen InMemory dacts) = Ok ([(2, 54)], [(2, 42); (2, 54); (1, 24); (1, 0)]) /\
  (do (_, st) <- run_seen InMemory dacts; line_of (st_puts st)) = Ok (2, 54, bstr "25.749MB/sec") /\
  bytes_put ex_codec (answered dacts (match run_seen InMemory dacts with Ok (_, rs, _) => rs | _ => [] end)) = 54.
Proof. split; [|split]; vm_compute; reflexivity. Qed.

(* What a datastore holds is not more than the bytes that were PUT. Missing: histograms that are stored *)
Theorem C73_stored_partial : forall k c l d rs st, truns (ds_new k c) no_events l = Ok (d, rs, st) ->
  Forall (fun x => no_hist_write (fst x)) l -> bytes_stored (d_rows d) <= bytes_put c (answered l rs).
Proof. intros k c l d rs st H F. exact (run_bytes _ _ _ _ _ _ H F). Qed.
Print Assumptions C73_stored_partial.
Example C73_stored_example : (do (d, _) <- truns (ds_new LevelDB ex_codec) no_events dacts; Ok (bytes_stored (d_rows (fst d)))) = Ok 26 /\
  Forall (fun x => no_hist_write (fst x)) dacts.
Proof. split; [vm_compute; reflexivity|]. unfold dacts. repeat (constructor; [exact Logic.I|]). constructor. Qed.

(* GetStats counts every GET request, every GETOP and every request for histograms; the report shows the number of their items,
   where a GETOP counts as many times as it has records. The bytes of GETs are those of their keys in an InMemory datastore and
   none in a LevelDB one *)
Theorem C73_gets : forall k c l d rs st, truns (ds_new k c) no_events l = Ok (d, rs, st) ->
  let log := answered l rs in
  t_num_get (get_stats st) = sumN (map got_events log) /\
  (forall x, report (st_gets st) = Ok x -> ln_count x = sumN (map got_count log) mod 2 ^ 64 /\
    (Forall no_getop log -> ln_size x = get_bytes k c log mod 2 ^ 64)).
Proof. exact run_gets. Qed.
Print Assumptions C73_gets.
Example C73_gets_example : (do (_, st) <- run_seen InMemory dacts; Ok (t_num_get (get_stats st))) = Ok 4 /\
  (do (_, st) <- run_seen InMemory dacts; line_of (st_gets st)) = Ok (6, 120, bstr "31.789MB/sec") /\
  (do (_, st) <- run_seen InMemory (firstn 3 dacts); Ok (map ev_size (st_gets st))) = Ok [42] /\
  (do (_, st) <- run_seen LevelDB (firstn 3 dacts); Ok (map ev_size (st_gets st))) = Ok [0].
Proof. split; [|split; [|split]]; vm_compute; reflexivity. Qed.

(* A GETOP is counted with the bytes of the rows its records come from, and with 24 more for the record of an error *)
Theorem C73_getop_bytes : forall d ts st st' d' i g,
  operate d (QGetOp [i]) = Ok (d', Some (RGetOp [g])) -> count_events d (QGetOp [i]) ts st = Ok st' ->
  exists e rs, st_gets st' = st_gets st ++ [e] /\ st_puts st' = st_puts st /\ ev_time e = ts O /\ ev_count e = lenN (gp_recs g) /\
    Forall (fun r => In r (d_rows d)) rs /\
    ((gp_status g = ST_OK /\ Forall2 (shows (d_codec d)) rs (gp_recs g) /\ ev_size e = bytes_stored rs mod 2 ^ 64) \/
     (gp_status g = ST_ERR /\ exists recs, gp_recs g = recs ++ [mkRec (oi_sub i) (oi_pred i) blob_none] /\
       Forall2 (shows (d_codec d)) rs recs /\ ev_size e = (bytes_stored rs + 24) mod 2 ^ 64)).
Proof. intros d ts st st' d' i g. apply getop_bytes. Qed.
Print Assumptions C73_getop_bytes.
Example C73_getop_example : (do (_, st) <- run_seen LevelDB dacts; Ok (map (fun e => (ev_count e, ev_size e)) (st_gets st))) =
  Ok [(2, 0); (2, 54); (1, 24); (1, 0)].
Proof. vm_compute. reflexivity. Qed.

(* The times of GetStats are the time spent on PUTs and the time spent on the rest but DELETEs, and not more than has passed *)
Theorem C73_time : forall k c l d rs st t0 t1, truns (ds_new k c) no_events l = Ok (d, rs, st) ->
  in_order t0 (flat_map stamps (answered l rs)) t1 -> (t1 - t0 < 2 ^ 64)%Z ->
  let log := answered l rs in
  Z.of_N (t_put_time (get_stats st)) = time_of (filter is_put log) /\
  Z.of_N (t_get_time (get_stats st)) = time_of (filter (fun x => negb (is_put x)) log) /\
  (Z.of_N (t_put_time (get_stats st)) + Z.of_N (t_get_time (get_stats st)) <= t1 - t0)%Z.
Proof. exact run_time. Qed.
Print Assumptions C73_time.
Example C73_time_example : (do (_, st) <- run_seen InMemory dacts; Ok (get_stats st)) = Ok (mkTotals 2000 1 3600 4) /\
  in_order 0 (flat_map stamps (answered dacts (match run_seen InMemory dacts with Ok (_, rs, _) => rs | _ => [] end))) 10000.
Proof. split; [vm_compute; reflexivity|]. vm_compute. repeat (split; [split; discriminate|]). discriminate. Qed.

(* The seconds of the report: n additions of durations, each a long double *)
Theorem C73_seconds : forall l x, report l = Ok x -> Forall (fun e => forward (ev_time e)) l -> (Z.of_nat (length l) <= 2 ^ 64)%Z ->
  finite_fp (ln_time x) /\
  (Rabs (val (ln_time x) - total_ns l / 10 ^ 9) <= total_ns l / 10 ^ 9 * ((1 + / 2 ^ 64) ^ (length l + 1) - 1))%R.
Proof.
  intros l x H F L. destruct (time_spec l F L) as (A & _ & B & _). unfold report in H. fold (report_time l) in H.
  destruct (_ =? 0).
  - apply Ok_inj in H as <-. split; assumption.
  - destruct (hr_size _ _) as [s| |]; try discriminate H. apply Ok_inj in H as <-. split; assumption.
Qed.
Print Assumptions C73_seconds.
Example C73_seconds_example : let l := [mkEvent (10, 1500000010)%Z 1 1; mkEvent (2000000000, 2500000000)%Z 1 1] in
  (do x <- report l; Ok (val (ln_time x))) = Ok 2%R /\ total_ns l = 2000000000%R.
Proof.
  cbv zeta. split.
  - set (l := [_; _]). assert (E : (do x <- report l; Ok (ln_time x)) = Ok (S754_finite false (2 ^ 63) (-62))) by (vm_compute; reflexivity).
    destruct (report l) as [x| |]; try discriminate E. cbn [obind] in *. apply Ok_inj in E. rewrite E. f_equal. cbn [val].
    change (powerRZ 2 (-62)) with (/ 2 ^ 62)%R. rewrite (pow_IZR 2 62). change (IZR (2 ^ Z.of_nat 62)) with (IZR (2 ^ 62)).
    replace (IZR (Z.pos (2 ^ 63))) with (2 * IZR (2 ^ 62))%R by (rewrite <- mult_IZR; reflexivity).
    field. apply not_0_IZR. discriminate.
  - cbn [total_ns ns ev_time fst snd]. unfold ns. cbn [fst snd]. rewrite <- !plus_IZR. reflexivity.
Qed.

(* The bytes per second, if there are not more than 2^59: a decimal number with three digits after the point that is less than
   half a thousandth of its unit from the rate. Missing: more bytes per second, and events that take no time *)
Theorem C73_rate_partial : forall l, Forall (fun e => forward (ev_time e)) l -> (Z.of_nat (length l) <= 2 ^ 61)%Z -> (0 < total_ns l)%R ->
  (IZR (Z.of_N (sumN (map ev_size l))) / (total_ns l / 10 ^ 9) <= 2 ^ 59)%R -> sumN (map ev_size l) < 2 ^ 64 ->
  exists x, report l = Ok x /\
    match ln_rates x with
    | None => ln_count x = 0
    | Some (_, text) => shown_rate (IZR (Z.of_N (ln_size x)) / val (ln_time x)) text
    end.
Proof. intros l F L P R B. destruct (report_shows l F L P R B) as (x & H1 & _ & H2). exists x. split; assumption. Qed.
Print Assumptions C73_rate_partial.
Example C73_rate_example : line_of [mkEvent (10, 1500000010)%Z 3 5000000; mkEvent (2000000000, 2500000000)%Z 4 1] = Ok (7, 5000001, bstr "2.384MB/sec") /\
  line_of [mkEvent (10, 20)%Z 3 0] = Ok (3, 0, bstr "0.000B/sec") /\ line_of [mkEvent (10, 20)%Z 0 0] = Ok (0, 0, []).
Proof. split; [|split]; vm_compute; reflexivity. Qed.

(* hr_size by itself: from 2^60 + 1 bytes per second on, it reads past its table of units *)
Theorem C73_unit : forall size time, size < 2 ^ 64 -> valid LDBL time -> finite_fp time -> (/ 2 ^ 1000 <= val time <= 2 ^ 1000)%R ->
  ((IZR (Z.of_N size) / val time <= 2 ^ 60)%R -> exists text, hr_size size time = Ok text /\ shown_rate (IZR (Z.of_N size) / val time) text) /\
  ((2 ^ 60 + 1 <= IZR (Z.of_N size) / val time)%R -> hr_size size time = UB).
Proof.
  intros size time B V F [L U].
  assert (Q : (Raux.bpow Zaux.radix2 (-1000) <= val time <= Raux.bpow Zaux.radix2 1000)%R) by exact (bpow_bounds _ L U).
  split; [apply hr_ok; assumption|apply hr_ub; assumption].
Qed.
Print Assumptions C73_unit.
Example C73_unit_example : hr_size 27000000 (ld_of 1) = Ok (bstr "25.749MB/sec") /\ hr_size (2 ^ 60) (ld_of 1) = Ok (bstr "1024.000PB/sec") /\
  hr_size (2 ^ 60 + 1) (ld_of 1) = UB.
Proof. split; [|split]; vm_compute; reflexivity. Qed.

(* if the clock reads the same at the beginning and the end of the PUTs, the destructor reads past its table of units
   (datastore.cpp:34-43) *)
Theorem C73_rate_refuted : ~ (forall k c l d rs st, truns (ds_new k c) no_events l = Ok (d, rs, st) ->
  Forall (fun e => forward (ev_time e)) (st_puts st) -> exists r, shutdown true st = Ok r).
Proof.
  intros H. set (l := [(CallOpen None, from 0 0); (CallReq (QPut [mkPut (xb "s") 1 (xb "p") 2 (xb "o")]), from 5 5)] : list timed).
  assert (E : run_seen InMemory l = Ok (1, [None; Some (RPut [mkSt 1 (mkRef 1 1 7) (mkRef 2 1 7)])], mkDStats [mkEvent (5, 5)%Z 1 26] [] []))
    by (vm_compute; reflexivity).
  apply seen_inv in E as (d & E & _). specialize (H _ _ _ _ _ _ E). cbn [st_puts] in H.
  destruct H as [r H]; [constructor; [unfold forward; cbn; lia|constructor]|].
  assert (U : report [mkEvent (5, 5)%Z 1 26] = UB).
  { apply report_ub; [vm_compute; discriminate|vm_compute; discriminate|]. constructor; [reflexivity|constructor]. }
  unfold shutdown in H. cbn [st_puts] in H. rewrite U in H. discriminate H.
Qed.
Print Assumptions C73_rate_refuted.

(* GetStats: "number of puts" are PUT requests, not triples (datastore.cpp:351-353) *)
Theorem C73_num_put_refuted : ~ (forall k c l d rs st, truns (ds_new k c) no_events l = Ok (d, rs, st) ->
  t_num_put (get_stats st) = lenN (flat_map put_items (answered l rs))).
Proof.
  intros H. destruct (run_seen InMemory (firstn 2 dacts)) as [[[n rs] st]| |] eqn:E.
  - pose proof E as E'. apply seen_inv in E' as (d & E' & _). specialize (H _ _ _ _ _ _ E').
    revert E H. clear. intros E H. vm_compute in E. injection E as _ <- <-. vm_compute in H. discriminate H.
  - vm_compute in E. discriminate E.
  - vm_compute in E. discriminate E.
Qed.
Print Assumptions C73_num_put_refuted.

(* the GETs of the report are not the GETs (InMemory.cpp:337-349, datastore.cpp:204-205) *)
Theorem C73_gets_refuted : ~ (forall k c l d rs st x, truns (ds_new k c) no_events l = Ok (d, rs, st) -> report (st_gets st) = Ok x ->
  ln_count x = sumN (map gets_done (answered l rs)) mod 2 ^ 64).
Proof.
  intros H. destruct (run_seen InMemory dacts) as [[[n rs] st]| |] eqn:E.
  - pose proof E as E'. apply seen_inv in E' as (d & E' & _).
    assert (X : exists x, report (st_gets st) = Ok x /\ ln_count x = 6).
    { revert E. clear. intros E. vm_compute in E. injection E as _ _ <-. eexists. split; vm_compute; reflexivity. }
    destruct X as (x & X1 & X2). specialize (H _ _ _ _ _ _ _ E' X1). rewrite X2 in H.
    revert E H. clear. intros E H. vm_compute in E. injection E as _ <- _. vm_compute in H. discriminate H.
  - vm_compute in E. discriminate E.
  - vm_compute in E. discriminate E.
Qed.
Print Assumptions C73_gets_refuted.

(* the bytes of GETs are not those of the objects that were read (InMemory.cpp:145, 150, LevelDB.cpp:191) *)
Theorem C73_get_bytes_refuted : forall k, ~ (forall c l d rs st x, truns (ds_new k c) no_events l = Ok (d, rs, st) ->
  Forall no_getop (answered l rs) -> report (st_gets st) = Ok x -> ln_size x = sumN (map bytes_got (answered l rs)) mod 2 ^ 64).
Proof.
  intros k H. destruct (run_seen k (firstn 3 dacts)) as [[[n rs] st]| |] eqn:E.
  - pose proof E as E'. apply seen_inv in E' as (d & E' & _).
    assert (X : exists x, report (st_gets st) = Ok x /\ ln_size x = match k with InMemory => 42 | LevelDB => 0 end).
    { revert E. clear. intros E. destruct k; vm_compute in E; injection E as _ _ <-; eexists; split; vm_compute; reflexivity. }
    destruct X as (x & X1 & X2). specialize (H _ _ _ _ _ x E').
    assert (P : sumN (map bytes_got (answered (firstn 3 dacts) rs)) mod 2 ^ 64 = 3 /\ Forall no_getop (answered (firstn 3 dacts) rs)).
    { revert E. clear. intros E. destruct k; vm_compute in E; injection E as _ <- _; (split; [vm_compute; reflexivity|]); cbn; repeat (constructor; [exact Logic.I|]); constructor. }
    destruct P as [P1 P2]. specialize (H P2 X1). rewrite X2, P1 in H. destruct k; discriminate H.
  - destruct k; vm_compute in E; discriminate E.
  - destruct k; vm_compute in E; discriminate E.
Qed.
Print Assumptions C73_get_bytes_refuted.
