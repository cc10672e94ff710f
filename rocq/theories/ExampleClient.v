(* Concrete clients: witnesses and examples *)
From Verif Require Import ModelBytes ProofBytes ModelKey ModelWire ModelHist ModelMsg SpecMsg ModelStore ModelGetOp ModelDs
  SpecStore ProofStore ProofDs ProofDs2 ModelElen ModelRoute SpecRoute ProofRoute ProofRoute2 ExampleStore ModelClient SpecClient SpecCluster
  ProofClient ProofClient2 ProofClient3 ProofClient4 ProofClient5 ProofClient6 ProofClient7 ProofClient8 ProofCluster ProofCluster2 ProofCluster3.
Local Open Scope N_scope.

(* ---- two ranks with one datastore each; Thallium; two operations in a packet ---- *)
Definition xl : layout := mkLayout 2 1 1 1.
Definition xe (r : Z) : env := mkEnv xl 2 r h_jen 2 0 100 false (Some (tl_route xl r [])) (@rev _).
Lemma xl_good : good xl.
Proof. repeat split; vm_compute; congruence. Qed.
Lemma xe_setting r : (0 <= r < 2)%Z -> setting (xe r).
Proof. intros H. constructor; [exact xl_good|reflexivity|exact H|reflexivity|]. intros l. apply Permutation_sym, Permutation_rev. Qed.
Lemma xe_total r : total_hash (xe r).
Proof.
  intros s p Hs Hp. destruct (content_hash h_jen 2 s p) as (id & Hid & H); [cbn [content_hashes In]; tauto|vm_compute; split; congruence|exact Hs|exact Hp|].
  exists id. split; [apply H|exact Hid].
Qed.
Lemma xe_connected r : (0 <= r < 2)%Z -> connected (xe r).
Proof.
  intros Hr id Hid Hf. unfold an_id in Hid. cbn [e_total xe] in Hid. exists (tl_route xl r []). split; [reflexivity|].
  assert (Hr' : r = 0%Z \/ r = 1%Z) by lia. assert (Hi : id = 0%Z \/ id = 1%Z) by lia.
  destruct Hr' as [->| ->], Hi as [->| ->]; try discriminate Hf; reflexivity.
Qed.
Lemma xe_client r : (0 <= r < 2)%Z -> good_client (xe r).
Proof. intros H. split; [apply xe_setting, H|]. split; [apply xe_total|]. split; [apply xe_connected, H|reflexivity]. Qed.
Lemma xe_same r r' : same_cluster (xe r) (xe r').
Proof. split; [reflexivity|]. split; [reflexivity|]. intros s p. cbn [e_hash xe e_rank e_total]. reflexivity. Qed.
Lemma xe_spread r cs : (0 <= r < 2)%Z -> spread (xe r) cs.
Proof. intros H. apply one_each; [apply xe_setting, H|reflexivity]. Qed.
Definition xcl (k : backend) : cluster := fun r off => if (off =? 0)%Z then Some (opened k ex_codec) else None.
Lemma xcl_holds k r : holds (xe r) (xcl k) (fun _ => opened k ex_codec).
Proof. intros id Hid. unfold xcl. cbn [e_layout xe l_per xl]. rewrite Z.mod_1_r. reflexivity. Qed.

Definition xa (n : N) (s : string) : arg := mkArg n (bstr s) T_BYTE.
Lemma xa_good n s : n <> 0 -> n < 2 ^ 64 -> bstr s <> [] -> blen (bstr s) < 2 ^ 32 -> good_arg ex_codec (xa n s).
Proof.
  intros Hn Hu Hs Hl. split; [|split; [|split; [exact Hu|exact Hl]]].
  - unfold given, xa. cbn [a_addr a_data]. destruct (N.eqb_spec n 0); [contradiction|]. cbn [negb andb].
    destruct (bstr s); [congruence|]. reflexivity.
  - apply default_bytes; [left; reflexivity|]. cbn [xa a_data]. assert (2 ^ 32 < 2 ^ 64) by reflexivity. lia.
Qed.
Ltac xargs := repeat (split; [apply xa_good; [discriminate|reflexivity|discriminate|reflexivity]|]);
  try (apply xa_good; [discriminate|reflexivity|discriminate|reflexivity]).

(* client 0 stores three triples, one of them in all six orders, and overwrites one; client 1 reads and deletes; client 0 reads *)
Definition xcalls0 : list call :=
  [ CPut (xa 1 "s") (xa 2 "p") (xa 3 "old") 1; CPut (xa 1 "s") (xa 2 "p") (xa 4 "new") 1;
    CBPut (Some [(xa 5 "a", xa 6 "b", xa 7 "c", 63); (xa 8 "x", xa 9 "y", xa 10 "z", 1)]) ].
Definition xcalls1 : list call :=
  [ CGet (xa 11 "s") (xa 12 "p") T_BYTE; CBGet (Some [(xa 13 "c", xa 14 "b", T_BYTE); (xa 15 "no", xa 16 "no", T_BYTE)]);
    CDelete (xa 17 "x") (xa 18 "y"); CBDelete (Some [(xa 19 "no", xa 20 "no")]) ].
Definition xcalls2 : list call := [ CBGetOne true T_BYTE (Some [(xa 8 "x", xa 9 "y"); (xa 1 "s", xa 2 "p")]) ].
Definition xplay : list (Z * list call) := [(0%Z, xcalls0); (1%Z, xcalls1); (0%Z, xcalls2)].
Lemma xcalls_data : Forall (data_call ex_codec) xcalls0 /\ Forall (data_call ex_codec) xcalls1 /\ Forall (data_call ex_codec) xcalls2.
Proof.
  split; [|split].
  - constructor; [cbn [data_call]; xargs|]. constructor; [cbn [data_call]; xargs|]. constructor; [|constructor].
    cbn [data_call]. constructor; [xargs|]. constructor; [xargs|constructor].
  - constructor; [cbn [data_call]; xargs; reflexivity|]. constructor; [cbn [data_call]; constructor; [xargs; reflexivity|]; constructor; [xargs; reflexivity|constructor]|].
    constructor; [cbn [data_call]; xargs|]. constructor; [|constructor]. cbn [data_call]. constructor; [xargs|constructor].
  - constructor; [|constructor]. cbn [data_call]. split; [reflexivity|]. constructor; [xargs|]. constructor; [xargs|constructor].
Qed.
Lemma xplay_ok : (forall i, In i (map fst xplay) -> good_client (xe i) /\ same_cluster (xe 0) (xe i) /\ fresh (xe i) (opened_session (xe i))) /\
  Forall (fun ic => Forall (data_call ex_codec) (snd ic) /\ spread (xe (fst ic)) (snd ic)) xplay.
Proof.
  destruct xcalls_data as (D0 & D1 & D2). split.
  - intros i Hi. assert (0 <= i < 2)%Z by (cbn [xplay map fst In] in Hi; lia). split; [apply xe_client; assumption|]. split; [apply xe_same|]. split; reflexivity.
  - unfold xplay. constructor; [split; [exact D0|apply xe_spread; cbn; lia]|]. constructor; [split; [exact D1|apply xe_spread; cbn; lia]|].
    constructor; [split; [exact D2|apply xe_spread; cbn; lia]|constructor].
Qed.
(* what is to be expected, written out *)
Definition xb_of (s : string) : blob := mkBlob false (bstr s) T_BYTE.
Lemma xplay_expected : map (map (fun x => match x with XGet _ ok _ _ o => (1, ok, o) | XPut _ ok _ _ => (0, ok, blob_none) | XDel _ ok _ _ => (3, ok, blob_none) | _ => (9, false, blob_none) end))
    (expected xe InMemory no_triples xplay) =
  [ repeat (0, true, blob_none) 9;
    [(1, true, xb_of "new"); (1, true, xb_of "a"); (1, false, blob_none); (3, true, blob_none); (3, false, blob_none)];
    [(1, false, blob_none); (1, true, xb_of "new")] ].
Proof. vm_compute. reflexivity. Qed.
(* the pairs are spread over both datastores *)
Lemma xplay_both : map (fun '(s, p) => at_ (xe 0) s p) [(xa 1 "s", xa 2 "p"); (xa 5 "a", xa 6 "b"); (xa 5 "a", xa 7 "c"); (xa 6 "b", xa 5 "a"); (xa 6 "b", xa 7 "c"); (xa 7 "c", xa 5 "a"); (xa 7 "c", xa 6 "b"); (xa 8 "x", xa 9 "y")]
  = [0; 1; 0; 0; 0; 1; 1; 0]%Z.
Proof. vm_compute. reflexivity. Qed.

(* ---- the hypotheses of C31 and C32, met by calls that store, read and delete ---- *)
Lemma data_hypotheses e k c s cl M cs : good_client e -> fresh e s -> stores e k c cl M -> Forall (data_call c) cs -> spread e cs ->
  exists s1 oks D D' X, holds e cl D /\ Forall plain cs /\ do_calls e s cl cs = Ok (s1, cl, oks) /\ reachable e D cs /\
    (forall id, an_id e id -> d_open (D id) = true) /\
    (forall id, an_id e id -> serve_all (far e id) id (D id) (requests_to e id cs) = Ok (D' id, X id)).
Proof.
  intros G F St Hc Sp. destruct (batch_step e k c s cl M cs G F St Hc Sp) as (s1 & oks & _ & _ & _ & Ec & _).
  destruct G as (S & T & Co & Ops).
  assert (Hd : exists D : Z -> ds, forall id, an_id e id -> cl (rank_of e id) (id mod l_per (e_layout e))%Z = Some (D id) /\ exists m, at_ds k c (D id) m /\ part e id M m).
  { apply (choose e (fun id d => cl (rank_of e id) (id mod l_per (e_layout e))%Z = Some d /\ exists m, at_ds k c d m /\ part e id M m) (opened k c)).
    intros id Hid. destruct (St id Hid) as (d & m & A & B). exists d. split; [exact A|]. exists m. exact B. }
  destruct Hd as [D HD].
  assert (Hd' : exists D' : Z -> ds, forall id, an_id e id -> serve_all (far e id) id (D id) (requests_to e id cs) = Ok (D' id, filter (of_id id) (snd (batch e k M cs))) /\
     (far e id = true -> fits_wire (D id) (requests_to e id cs))).
  { apply (choose e (fun id d' => serve_all (far e id) id (D id) (requests_to e id cs) = Ok (d', filter (of_id id) (snd (batch e k M cs))) /\
     (far e id = true -> fits_wire (D id) (requests_to e id cs))) (opened k c)).
    intros id Hid. destruct (HD id Hid) as (_ & m & A & B).
    destruct (batch_served e k c T (far e id) id (D id) m M cs Hc A B) as (d' & m' & E & A' & B' & W). exists d'. split; [exact E|exact W]. }
  destruct Hd' as [D' HD'].
  exists s1, oks, D, D', (fun id => filter (of_id id) (snd (batch e k M cs))). split; [intros id Hid; apply HD, Hid|].
  split; [revert Hc; apply Forall_impl; apply data_plain|]. split; [exact Ec|]. split; [|split].
  - intros id Hid Hf _. split; [apply Co; assumption|apply HD'; assumption].
  - intros id Hid. destruct (HD id Hid) as (_ & m & (rws & -> & _) & _). reflexivity.
  - intros id Hid. apply HD', Hid.
Qed.
Lemma xstores r : stores (xe r) InMemory ex_codec (xcl InMemory) no_triples.
Proof.
  intros id Hid. exists (opened InMemory ex_codec), no_triples. split; [apply (xcl_holds InMemory r), Hid|]. split; [|intros s p; destruct (goesf _ id s p); reflexivity].
  exists []. split; [reflexivity|]. split; [apply agrees_empty|]. intros s p o Ho. discriminate.
Qed.
(* PUTs, GETs and DELETEs together: 14 requests, ten for one datastore and four for the other *)
Definition xcalls : list call := xcalls0 ++ xcalls1.
Lemma x_hypotheses : exists s1 oks D D' X, setting (xe 0) /\ fresh (xe 0) (opened_session (xe 0)) /\ holds (xe 0) (xcl InMemory) D /\ Forall plain xcalls /\
  do_calls (xe 0) (opened_session (xe 0)) (xcl InMemory) xcalls = Ok (s1, xcl InMemory, oks) /\ spread (xe 0) xcalls /\ reachable (xe 0) D xcalls /\
  (forall id, an_id (xe 0) id -> d_open (D id) = true) /\
  (forall id, an_id (xe 0) id -> serve_all (far (xe 0) id) id (D id) (requests_to (xe 0) id xcalls) = Ok (D' id, X id)).
Proof.
  destruct xcalls_data as (D0 & D1 & _).
  destruct (data_hypotheses (xe 0) InMemory ex_codec (opened_session (xe 0)) (xcl InMemory) no_triples xcalls) as (s1 & oks & D & D' & X & A & B & C & E & F & G).
  - apply xe_client. lia.
  - split; reflexivity.
  - apply xstores.
  - apply Forall_app. split; assumption.
  - apply xe_spread. lia.
  - exists s1, oks, D, D', X. split; [apply xe_setting; lia|]. split; [split; reflexivity|]. split; [exact A|]. split; [exact B|]. split; [exact C|].
    split; [apply xe_spread; lia|]. auto.
Qed.
Lemma x_requests : map (fun id => length (requests_to (xe 0) id xcalls)) [0; 1]%Z = [10; 4]%nat.
Proof. vm_compute. reflexivity. Qed.

(* ---- looking at runs ---- *)
Definition probe (e : env) (s : session) (cl : cluster) (cs : list call) (r off : Z) : outcome (list bool * list result * option rows) :=
  do (a, oks) <- do_calls e s cl cs; do (b, xs) <- flush e (fst a) (snd a); Ok (oks, xs, option_map d_rows (snd b r off)).
Lemma probe_run e s cl cs r off oks xs rws : probe e s cl cs r off = Ok (oks, xs, rws) ->
  exists s1 cl1 s2 cl2, do_calls e s cl cs = Ok (s1, cl1, oks) /\ flush e s1 cl1 = Ok (s2, cl2, xs) /\ option_map d_rows (cl2 r off) = rws.
Proof.
  unfold probe. intros H. apply obind_ok in H as ([[s1 cl1] o] & E1 & H). apply obind_ok in H as ([[s2 cl2] x] & E2 & H). cbn [fst snd] in *.
  exists s1, cl1, s2, cl2. assert (o = oks) by congruence. assert (x = xs) by congruence. assert (option_map d_rows (cl2 r off) = rws) by congruence. subst. auto.
Qed.
Definition cprobe (e : env) (s : session) (cl : cluster) (cs : list call) (r off : Z) : outcome (list bool * option rows) :=
  do (a, oks) <- do_calls e s cl cs; do b <- close e (fst a) (snd a); Ok (oks, option_map d_rows (snd b r off)).
Lemma cprobe_run e s cl cs r off oks rws : cprobe e s cl cs r off = Ok (oks, rws) ->
  exists s1 cl1 s2 cl2, do_calls e s cl cs = Ok (s1, cl1, oks) /\ close e s1 cl1 = Ok (s2, cl2) /\ option_map d_rows (cl2 r off) = rws.
Proof.
  unfold cprobe. intros H. apply obind_ok in H as ([[s1 cl1] o] & E1 & H). apply obind_ok in H as ([s2 cl2] & E2 & H). cbn [fst snd] in *.
  exists s1, cl1, s2, cl2. assert (o = oks) by congruence. assert (option_map d_rows (cl2 r off) = rws) by congruence. subst. auto.
Qed.
