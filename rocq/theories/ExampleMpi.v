(* The MPI transport: runs that go wrong, and one that does not *)
From Verif Require Import ModelBytes ModelRoute ModelMpi SpecMpi ProofMpi6 ProofMpi7.
From Verif Require ProofRoute2.
Local Open Scope N_scope.

(* a server that keeps the requests and answers with the request and a mark, to the rank that the first character names *)
Definition echo (me : Z) (s : list bytes) (b : bytes) : outcome (list bytes * (Z * bytes)) :=
  Ok (s ++ [b], ((match b with c :: _ => Z.of_N (N_of_ascii c) - 48 | [] => 0 end)%Z, b ++ bstr "!")).
(* every rank is a range server *)
Definition eps_all (n : Z) (me : Z) : list (Z * Z) := mpi_endpoints (mkLayout n 1 1 1) me (upto n).
Definition always (_ : payload) : bool := true.
Definition sizes_only (p : payload) : bool := match p with PSize _ => true | PData _ => false end.
Definition rep (n : nat) (l : label) : list label := repeat l n.

(* two threads of one rank *)
Definition long_short : list (Z * list call) := [(0%Z, [[(1%Z, bstr "0aaa")]]); (0%Z, [[(1%Z, bstr "0")]])].
Definition cut : list label := rep 1 (Cli 0 0) ++ rep 2 (Cli 1 0) ++ rep 2 (Cli 0 0) ++ rep 2 (Lis 0 0).
Lemma cut_run : option_map n_fault (run echo always MESSAGE_SUCCESS (eps_all 2) (started [1%Z] long_short []) cut) = Some (Some Truncated).
Proof. vm_compute. reflexivity. Qed.
Definition same_length : list (Z * list call) := [(0%Z, [[(1%Z, bstr "0a")]]); (0%Z, [[(1%Z, bstr "0b")]])].
Definition swap : list label := rep 2 (Cli 0 0) ++ rep 3 (Cli 1 0) ++ rep 1 (Cli 0 0) ++ rep 16 (Lis 0 0) ++ rep 6 (Cli 0 0) ++ rep 6 (Cli 1 0).
Lemma swap_run : option_map (fun st => (n_fault st, map (fun x => h_log (snd x)) (n_cli st)))
    (run echo always MESSAGE_SUCCESS (eps_all 2) (started [1%Z] same_length []) swap) =
  Some (None, [[([(1%Z, bstr "0a")], [(0%nat, 1%Z, bstr "0b!")])]; [([(1%Z, bstr "0b")], [(0%nat, 1%Z, bstr "0a!")])]]).
Proof. vm_compute. reflexivity. Qed.
Definition two_threads : list label := rep 4 (Cli 0 0) ++ rep 8 (Lis 0 0) ++ rep 5 (Cli 0 0) ++ rep 4 (Cli 1 0) ++ rep 8 (Lis 0 0) ++ rep 5 (Cli 1 0).
Lemma two_threads_run : option_map (fun st => (n_fault st, map (fun x => h_log (snd x)) (n_cli st)))
    (run echo always MESSAGE_SUCCESS (eps_all 2) (started [1%Z] same_length []) two_threads) =
  Some (None, [[([(1%Z, bstr "0a")], [(0%nat, 1%Z, bstr "0a!")])]; [([(1%Z, bstr "0b")], [(0%nat, 1%Z, bstr "0b!")])]]).
Proof. vm_compute. reflexivity. Qed.

(* range servers on ranks 0, 1, 3, 4 and 6: rank 2 asks number 2, on rank 3, and waits for number 3, on rank 4 *)
Definition L7 : layout := mkLayout 7 3 2 1.
Definition eps7 (me : Z) : list (Z * Z) := mpi_endpoints L7 me (upto 7).
Definition ask : list (Z * list call) := [(2%Z, [[(2%Z, bstr "2?")]])].
Definition lost : list label := rep 5 (Cli 0 0) ++ rep 8 (Lis 2 2).
Definition lost_in : net := match run echo always MESSAGE_SUCCESS eps7 (started [0; 1; 3; 4; 6]%Z ask []) lost with Some st => st | None => started [] [] [] end.
Lemma lost_run : run echo always MESSAGE_SUCCESS eps7 (started [0; 1; 3; 4; 6]%Z ask []) lost = Some lost_in /\
  (n_fault lost_in, n_hist lost_in, map (fun x => h_at (snd x)) (n_cli lost_in)) =
  (None, [(2%Z, 3%Z, bstr "2?", bstr "2?!")], [CSizes [(0%nat, 4%Z)] [] [(3%Z, bstr "2?")]]).
Proof. vm_compute. split; reflexivity. Qed.
Lemma lost_stuck l : step echo always MESSAGE_SUCCESS eps7 lost_in l = None.
Proof. apply no_move_spec. vm_compute. reflexivity. Qed.

(* data is sent only when it is received: three ranks ask each other, one listener each *)
Definition round : list (Z * list call) :=
  [(0%Z, [[(1%Z, bstr "0x"); (2%Z, bstr "0y")]]); (1%Z, [[(0%Z, bstr "1x"); (2%Z, bstr "1y")]]); (2%Z, [[(0%Z, bstr "2x"); (1%Z, bstr "2y")]])].
Definition circle : list label :=
  rep 6 (Cli 0 0) ++ rep 6 (Cli 1 0) ++ rep 6 (Cli 2 0) ++ rep 6 (Lis 0 2) ++ rep 6 (Lis 1 0) ++ rep 6 (Lis 2 1).
Definition circle_in : net := match run echo sizes_only MESSAGE_SUCCESS (eps_all 3) (started [0; 1; 2]%Z round []) circle with Some st => st | None => started [] [] [] end.
Lemma circle_run : run echo sizes_only MESSAGE_SUCCESS (eps_all 3) (started [0; 1; 2]%Z round []) circle = Some circle_in /\
  n_fault circle_in = None /\ map (fun x => h_log (snd x)) (n_cli circle_in) = [[]; []; []].
Proof. vm_compute. split; [reflexivity|]. split; reflexivity. Qed.
Lemma circle_stuck l : step echo sizes_only MESSAGE_SUCCESS (eps_all 3) circle_in l = None.
Proof. apply no_move_spec. vm_compute. reflexivity. Qed.
Lemma good3 : SpecRoute.good (mkLayout 3 1 1 1).
Proof. vm_compute. repeat split; congruence. Qed.
Lemma ids3 : ids_are_ranks (eps_all 3).
Proof. apply (mpi_ids _ (fun _ => upto 3)); [exact good3|left; cbn; lia]. Qed.
Lemma echo_ok me c : NoDup (map fst c) -> Forall (fun x => match snd x with a :: _ => (Z.of_N (N_of_ascii a) - 48)%Z = me | [] => False end) c -> call_ok echo me c.
Proof.
  intros ND F. split; [exact ND|]. eapply Forall_impl; [|exact F]. intros [d [|a b]] E r s s' d' x Q; [destruct E|]. apply ProofBytes.Ok_inj in Q. cbn [snd] in *. congruence.
Qed.
Lemma round_ok me cs c : In (me, cs) round -> In c cs -> call_ok echo me c.
Proof.
  intros I J. cbn [round In] in I.
  assert (D : forall a b : Z, a <> b -> NoDup [a; b]) by (intros a b N; constructor; [intros [E|[]]; congruence|]; constructor; [intros []|constructor]).
  destruct I as [I|[I|[I|[]]]]; injection I as <- <-; destruct J as [<-|[]]; (apply echo_ok; [apply D; discriminate|]);
    (constructor; [vm_compute; reflexivity|constructor; [vm_compute; reflexivity|constructor]]).
Qed.
Definition three_each : list Z := [0; 0; 0; 1; 1; 1; 2; 2; 2]%Z.
Lemma three_listen : listening (eps_all 3) 3 three_each.
Proof. apply (mpi_listening _ (fun _ => upto 3)). cbn [l_size]. intros r H. assert (r = 0 \/ r = 1 \/ r = 2)%Z as [-> | [-> | ->]] by lia; vm_compute; lia. Qed.
Lemma long_short_ok me cs k : In (me, cs) long_short -> In k cs -> call_ok echo me k.
Proof.
  intros I J. destruct I as [I|[I|[]]]; injection I as <- <-; destruct J as [<-|[]]; (apply echo_ok; [constructor; [intros []|constructor]|]);
    (constructor; [vm_compute; reflexivity|constructor]).
Qed.
Lemma same_length_ok me cs k : In (me, cs) same_length -> In k cs -> call_ok echo me k.
Proof.
  intros I J. destruct I as [I|[I|[]]]; injection I as <- <-; destruct J as [<-|[]]; (apply echo_ok; [constructor; [intros []|constructor]|]);
    (constructor; [vm_compute; reflexivity|constructor]).
Qed.
Lemma ask_ok me cs k : In (me, cs) ask -> In k cs -> call_ok echo me k.
Proof.
  intros I J. destruct I as [I|[]]; injection I as <- <-; destruct J as [<-|[]]; (apply echo_ok; [constructor; [intros []|constructor]|]);
    (constructor; [vm_compute; reflexivity|constructor]).
Qed.
Lemma one_listens : listening (eps_all 3) 1 [0; 1; 2]%Z.
Proof. apply (mpi_listening _ (fun _ => upto 3)). cbn [l_size]. intros r H. assert (r = 0 \/ r = 1 \/ r = 2)%Z as [-> | [-> | ->]] by lia; vm_compute; lia. Qed.
Lemma circle_waits : ~ finished circle_in.
Proof. unfold finished. intros F. vm_compute in F. inversion F as [|? ? [_ E] _]. discriminate E. Qed.
Lemma lost_waits : ~ finished lost_in.
Proof. unfold finished. intros F. vm_compute in F. inversion F as [|? ? [_ E] _]. discriminate E. Qed.
Lemma L7_good : SpecRoute.good L7.
Proof. vm_compute. repeat split; congruence. Qed.
Lemma listens7 : listening (fun me => mpi_endpoints L7 me (upto (l_size L7))) 1 [0; 1; 3; 4; 6]%Z.
Proof.
  intros me id r E. unfold mpi_endpoints in E. destruct (ProofRoute2.add_ids_lookup _ _ id (upto (l_size L7)) 0 (ProofRoute2.upto_NoDup _) r E) as (pre & post & U & S & _).
  destruct (ProofRoute2.upto_pre _ _ _ _ U) as [_ Hv]. cbn [l_size L7] in Hv. assert (r = 0 \/ r = 1 \/ r = 2 \/ r = 3 \/ r = 4 \/ r = 5 \/ r = 6)%Z as Q by lia.
  destruct Q as [-> | [-> | [-> | [-> | [-> | [-> | ->]]]]]]; try (vm_compute; lia); vm_compute in S; discriminate S.
Qed.
