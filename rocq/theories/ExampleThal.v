(* The Thallium transport: examples and witnesses *)
From Verif Require Import ModelBytes ProofBytes ModelKey ModelWire ModelHist ModelMsg SpecMsg ModelStore ModelGetOp ModelDs ModelElen ModelRoute
  SpecStore SpecRoute ModelClient SpecClient SpecCluster ModelPar SpecPar ModelThal SpecThal ModelThalServe SpecThal2 ExampleStore ExampleClient.
From Verif Require ProofCluster2.
From Verif Require Import ProofPar3.
Local Open Scope nat_scope.

(* the requests to other ranks of the Flush after some calls *)
Definition far_bytes (e : env) (cs : list call) : list (Z * bytes) :=
  match do_calls e (opened_session e) (xcl InMemory) cs with
  | Ok (s1, _, _) => flat_map (fun t => flat_map (fun '(d, m) => match msg_pack m with Ok b => [(d, b)] | _ => [] end) (t_far t)) (flush_tasks e s1)
  | _ => []
  end.
Lemma far_asked e cs : Forall (data_call ex_codec) cs -> spread e cs -> Forall (asked e InMemory ex_codec) (far_bytes e cs).
Proof.
  intros D S. apply Forall_forall. intros [d b] J. unfold far_bytes in J. destruct (do_calls e _ _ cs) as [[[s1 cl1] oks]| |] eqn:DC; [|destruct J|destruct J].
  apply in_flat_map in J as (t & T & J). apply in_flat_map in J as ([d' m] & M & J). destruct (msg_pack m) as [b'| |] eqn:P; [|destruct J|destruct J].
  destruct J as [J|[]]. injection J as -> ->.
  exists (opened_session e), (xcl InMemory), cs, s1, cl1, oks, t, m. split; [split; reflexivity|]. destruct (data_scans e InMemory ex_codec cs D) as [D1 D2].
  split; [exact D1|]. split; [exact D2|]. split; [exact S|]. split; [exact DC|].
  split; [exact T|]. split; [exact M|exact P].
Qed.

(* ---- two ranks with a range server each ---- *)
Definition xeps (r : Z) : list (Z * Z) := tl_endpoints xl r [].
Definition xthreads (background : bool) : list (Z * bool * list (Z * bytes)) :=
  [(0%Z, negb background, far_bytes (xe 0) xcalls0); (1%Z, true, far_bytes (xe 1) xcalls1)].
Lemma two_threads {A} (me : Z) (m b : bool) (q q0 q1 : A) : In (me, m, q) [(0%Z, b, q0); (1%Z, true, q1)] -> (me = 0%Z /\ q = q0) \/ (me = 1%Z /\ q = q1).
Proof. intros [J|[J|[]]]; injection J as <- <- <-; [left|right]; split; reflexivity. Qed.
Lemma xthreads_clients background : clients xe (xe 0) InMemory ex_codec xeps (xthreads background).
Proof.
  destruct xcalls_data as (D0 & D1 & _). intros me m q J.
  apply two_threads in J. destruct J as [[-> ->]|[-> ->]].
  - split; [apply xe_client; lia|]. split; [apply xe_same|]. split; [reflexivity|]. apply far_asked; [exact D0|apply xe_spread; lia].
  - split; [apply xe_client; lia|]. split; [apply xe_same|]. split; [reflexivity|]. apply far_asked; [exact D1|apply xe_spread; lia].
Qed.
Notation xrun background debug := (run (thal_handle (xe 0)) thal_accept xeps debug (started [0%Z; 1%Z] (xthreads background) (xcl InMemory))).
(* what can be computed of a state *)
Definition digest (o : option (@net cluster)) : option (list (nat * phase * list (option bool)) * nat * list key * list (Z * rstate) * option fault) :=
  option_map (fun st => (map (fun t => (length (h_todo t), h_at t, map (fun x => match snd x with Nowhere => None | Unread _ _ => Some false | Got _ _ => Some true end) (h_log t)))
                             (n_thr st), length (n_heap st), n_clean st, n_ranks st, n_fault st)) o.
Lemma xthreads_requests : map (fun x => length (snd x)) (xthreads false) = [2; 2].
Proof. vm_compute. reflexivity. Qed.
(* steps of a thread, with addresses from x on *)
Definition go (i x n : nat) : list label := map (Thr i) (seq x n).
Fixpoint both (x n : nat) : list label := match n with O => [] | S n' => Thr 0 x :: Thr 1 x :: both (S x) n' end.
Definition close_all : list label := [Close 0; Close 1; Close 0; Close 1; Close 0; Close 1].
Lemma digest_some o a n c r f : digest o = Some (a, n, c, r, f) -> exists st, o = Some st /\ n_fault st = f /\ length (n_heap st) = n /\ n_clean st = c /\ n_ranks st = r /\
  map (fun t => (length (h_todo t), h_at t, map (fun x => match snd x with Nowhere => None | Unread _ _ => Some false | Got _ _ => Some true end) (h_log t))) (n_thr st) = a.
Proof.
  destruct o as [st|]; [|discriminate]. unfold digest, option_map. intros E. exists st. split; [reflexivity|].
  pose proof (f_equal (option_map (fun x => snd x)) E) as E1. pose proof (f_equal (option_map (fun x => snd (fst x))) E) as E2.
  pose proof (f_equal (option_map (fun x => snd (fst (fst x)))) E) as E3. pose proof (f_equal (option_map (fun x => snd (fst (fst (fst x))))) E) as E4.
  pose proof (f_equal (option_map (fun x => fst (fst (fst (fst x))))) E) as E5.
  cbn [option_map fst snd] in *. injection E1 as E1. injection E2 as E2. injection E3 as E3. injection E4 as E4. injection E5 as E5. auto 6.
Qed.
(* both at once, then the cleanups, then Close *)
Lemma x_whole : digest (xrun false true (both 0 26 ++ repeat (Clean 0) 4 ++ close_all)) =
  Some ([(0, TIdle, [Some true; Some true]); (0, TIdle, [Some true; Some true])], 0, [], [(0%Z, RDown); (1%Z, RDown)], None).
Proof. vm_compute. reflexivity. Qed.
(* in the middle *)
Lemma x_middle : digest (xrun false true (both 0 18)) =
  Some ([(1, HGot 1 13 16, [Some true]); (1, HGot 0 13 16, [Some true])], 6, [(1%Z, 6); (0%Z, 6)], [(0%Z, RUp); (1%Z, RUp)], None).
Proof. vm_compute. reflexivity. Qed.
(* a cleanup arrives late *)
Lemma x_late : digest (xrun false true (both 0 26 ++ close_all ++ [Clean 0])) =
  Some ([(0, TIdle, [Some true; Some true]); (0, TIdle, [Some true; Some true])], 4, [(1%Z, 6); (0%Z, 6); (1%Z, 19); (0%Z, 19)], [(0%Z, RDown); (1%Z, RDown)], Some Late).
Proof. vm_compute. reflexivity. Qed.
(* the background thread of rank 0 sends while rank 1 has closed *)
Lemma x_gone : digest (xrun true true (go 1 0 26 ++ repeat (Clean 0) 2 ++ [Close 0; Close 1; Close 0; Close 1; Close 1] ++ go 0 40 3)) =
  Some ([(2, TSent 1 40 134, []); (0, TIdle, [Some true; Some true])], 1, [], [(0%Z, RPast); (1%Z, RDown)], Some Gone).
Proof. vm_compute. reflexivity. Qed.

(* ---- six ranks, every second one has a range server: datastore 2 is on rank 4 ---- *)
Definition wl : layout := mkLayout 6 2 1 1.
Definition we (r : Z) : env := mkEnv wl 3 r h_jen 2 0 100 false (Some (tl_route wl r [])) (@rev _).
Lemma we_setting : setting (we 0).
Proof.
  constructor; [repeat split; vm_compute; congruence|reflexivity|cbn; lia|reflexivity|]. intros l. apply Permutation.Permutation_sym, Permutation.Permutation_rev.
Qed.
Definition wcalls : list call := [CPut (xa 1 "v") (xa 2 "p") (xa 3 "o") 1].
Lemma wcalls_data : Forall (data_call ex_codec) wcalls.
Proof. constructor; [cbn [data_call]; xargs|constructor]. Qed.
Definition weps (r : Z) : list (Z * Z) := tl_endpoints wl r [].
Definition wthreads : list (Z * bool * list (Z * bytes)) := [(0%Z, true, far_bytes (we 0) wcalls)].
Lemma wthreads_asked : Forall (asked (we 0) InMemory ex_codec) (far_bytes (we 0) wcalls) /\ map fst (far_bytes (we 0) wcalls) = [4%Z].
Proof. split; [apply far_asked; [exact wcalls_data|]; apply ProofCluster2.one_each; [exact we_setting|reflexivity]|vm_compute; reflexivity]. Qed.
Notation wrun debug := (run (thal_handle (we 0)) thal_accept weps debug (started (upto 6) wthreads (xcl InMemory))).
Lemma w_null : digest (wrun true [Thr 0 0]) = Some ([(1, TIdle, [])], 0, [], map (fun r => (r, RUp)) (upto 6), Some Null).
Proof. vm_compute. reflexivity. Qed.
Lemma w_nowhere : digest (wrun false [Thr 0 0]) = Some ([(0, TIdle, [None])], 0, [], map (fun r => (r, RUp)) (upto 6), None).
Proof. vm_compute. reflexivity. Qed.
