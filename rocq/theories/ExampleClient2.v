(* Clients of which the properties do not hold *)
From Verif Require Import ModelBytes ProofBytes ModelKey ModelWire ModelHist ModelMsg SpecMsg ModelStore ModelGetOp ModelDs
  SpecStore ProofStore ProofDs ProofDs2 ModelElen ModelRoute SpecRoute ProofRoute ProofRoute2 ExampleStore ModelClient SpecClient SpecCluster
  ProofClient ProofClient2 ProofClient3 ProofClient4 ProofClient5 ProofClient6 ProofClient7 ProofClient8 ProofCluster ProofCluster2 ProofCluster3
  ExampleClient.
Local Open Scope N_scope.

(* ---- C32, C33: two ranks with two datastores each; two PUTs to the two datastores of the other rank ---- *)
Definition yl : layout := mkLayout 2 1 1 2.
Definition ye (r : Z) : env := mkEnv yl 4 r h_jen 2 0 100 false (Some (tl_route yl r [])) (@rev _).
Definition ycl (k : backend) : cluster := fun r off => if (0 <=? off)%Z && (off <? 2)%Z then Some (opened k ex_codec) else None.
Lemma ye_client : good_client (ye 0).
Proof.
  split; [|split; [|split; [|reflexivity]]].
  - constructor; [repeat split; vm_compute; congruence|reflexivity|vm_compute; split; congruence|reflexivity|].
    intros l. apply Permutation_sym, Permutation_rev.
  - intros s p Hs Hp. destruct (content_hash h_jen 4 s p) as (id & Hid & H); [cbn [content_hashes In]; tauto|vm_compute; split; congruence|exact Hs|exact Hp|].
    exists id. split; [apply H|exact Hid].
  - intros id Hid Hf. unfold an_id in Hid. cbn [e_total ye] in Hid. exists (tl_route yl 0 []). split; [reflexivity|].
    assert (Hi : id = 0%Z \/ id = 1%Z \/ id = 2%Z \/ id = 3%Z) by lia.
    destruct Hi as [->|[->|[->| ->]]]; try discriminate Hf; reflexivity.
Qed.
Lemma ycl_holds k : holds (ye 0) (ycl k) (fun _ => opened k ex_codec).
Proof.
  intros id Hid. unfold ycl. cbn [e_layout ye l_per yl].
  assert (0 <= id mod 2 < 2)%Z by (apply Z.mod_pos_bound; lia). destruct (Z.leb_spec 0 (id mod 2)), (Z.ltb_spec (id mod 2) 2); try lia. reflexivity.
Qed.
Definition yputs : list call := [CPut (xa 1 "b") (xa 2 "p") (xa 3 "one") 1; CPut (xa 4 "o") (xa 5 "p") (xa 6 "two") 1].
Lemma yputs_data : Forall (data_call ex_codec) yputs.
Proof. constructor; [cbn [data_call]; xargs|]. constructor; [cbn [data_call]; xargs|constructor]. Qed.
Lemma y_run : exists x, probe (ye 0) (opened_session (ye 0)) (ycl InMemory) yputs 1 0 = Ok ([true; true], [x], Some []) /\ from x = 3%Z.
Proof. eexists. split; [vm_compute; reflexivity|reflexivity]. Qed.
Lemma y_target : at_ (ye 0) (xa 1 "b") (xa 2 "p") = 2%Z /\ rank_of (ye 0) 2 = 1%Z.
Proof. vm_compute. split; reflexivity. Qed.
(* the GET of the first pair afterwards *)
Definition yplay : list (Z * list call) := [(0%Z, yputs); (0%Z, [CGet (xa 1 "b") (xa 2 "p") T_BYTE])].
Definition results_only (x : outcome (cluster * list (list result))) : outcome (list (list result)) := do r <- x; Ok (snd r).
Lemma results_only_ok x l : results_only x = Ok l -> exists c, x = Ok (c, l).
Proof. unfold results_only. intros H. apply obind_ok in H as ([c l'] & -> & H). cbn [snd] in H. exists c. congruence. Qed.
Lemma yplay_run : exists cl xs o, play (fun _ => ye 0) (fun _ => opened_session (ye 0)) (ycl InMemory) yplay =
  Ok (cl, [xs; [XGet 2 false (rf (xa 1 "b")) (rf (xa 2 "p")) o]]).
Proof.
  enough (exists xs o, results_only (play (fun _ => ye 0) (fun _ => opened_session (ye 0)) (ycl InMemory) yplay) = Ok [xs; [XGet 2 false (rf (xa 1 "b")) (rf (xa 2 "p")) o]])
    as (xs & o & H) by (apply results_only_ok in H as [c H]; eauto).
  eexists. eexists. vm_compute. reflexivity.
Qed.

(* ---- C32: a datastore that is not open ---- *)
Definition zcl : cluster := fun r off => Some (mkDs InMemory ex_codec false [] []).
Lemma z_run : exists rws, probe (xe 0) (opened_session (xe 0)) zcl xcalls0 0 0 = Ok ([true; true; true], [], rws).
Proof. eexists. vm_compute. reflexivity. Qed.

(* ---- C34: a PUT that was accepted ---- *)
Definition cput : list call := [CPut (xa 1 "s") (xa 2 "p") (xa 3 "o") 1].
Lemma c_run : cprobe (xe 0) (opened_session (xe 0)) (xcl LevelDB) cput 0 0 = Ok ([true], Some []) /\
  cprobe (xe 0) (opened_session (xe 0)) (xcl LevelDB) cput 1 0 = Ok ([true], Some []).
Proof. split; vm_compute; reflexivity. Qed.
Lemma c_flushed : exists xs r, probe (xe 0) (opened_session (xe 0)) (xcl LevelDB) cput 0 0 = Ok ([true], xs, Some [r]).
Proof. eexists. eexists. vm_compute. reflexivity. Qed.

(* ---- C35: a hash function that fails for some pairs ---- *)
Definition picky : hash_fn := fun _ _ s _ => Ok (if beqb s (bstr "s") then 0%Z else (-1)%Z).
Definition he : env := mkEnv xl 2 0 picky 2 0 100 false (Some (tl_route xl 0 [])) (@rev _).
Lemma he_setting : setting he.
Proof. constructor; [exact xl_good|reflexivity|vm_compute; split; congruence|reflexivity|]. intros l. apply Permutation_sym, Permutation_rev. Qed.
Definition sessions_only (x : outcome (session * cluster * bool)) : outcome (session * bool) := do (a, b) <- x; Ok (fst a, b).
Lemma sessions_only_ok x s b : sessions_only x = Ok (s, b) -> exists c, x = Ok (s, c, b).
Proof. unfold sessions_only. intros H. apply obind_ok in H as ([[s' c] b'] & -> & H). cbn [fst] in H. exists c. congruence. Qed.
(* an error, with one of the two permutations queued *)
Lemma h_put : exists s, sessions_only (do_call he (opened_session he) zcl (CPut (xa 1 "s") (xa 2 "p") (xa 3 "o") 5)) = Ok (s, false) /\
  queued (q_puts (s_qs s)) 0 = [put_req (xa 1 "s", xa 2 "p", xa 3 "o")].
Proof. eexists. split; [vm_compute; reflexivity|vm_compute; reflexivity]. Qed.
(* success, with nothing queued *)
Lemma h_bget : sessions_only (do_call he (opened_session he) zcl (CBGet (Some [(xa 1 "no", xa 2 "p", T_BYTE)]))) = Ok (opened_session he, true).
Proof. vm_compute. reflexivity. Qed.

(* ---- C30: two DELETEs in a packet that is larger than the limit ---- *)
Definition ge (size : N) : env := mkEnv xl 2 0 h_zero 2 size 100 false (Some (tl_route xl 0 [])) (@rev _).
Definition gdels : list call := [CDelete (xa 1 "s") (xa 2 "p"); CDelete (xa 3 "t") (xa 4 "q")].
Definition gitem : N := blob_pack_size true (ref_blob (xa 1 "s")) + blob_pack_size true (ref_blob (xa 2 "p")).
Definition glimit : N := header_size + gitem + 16 + gitem.
Definition packets_of (x : outcome (session * cluster * list bool)) : outcome (list body) := do (a, _) <- x; Ok (packets (fst a)).
Lemma g_run : exists q, packets_of (do_calls (ge glimit) (opened_session (ge glimit)) zcl gdels) = Ok [q] /\
  body_count q = 2 /\ msg_size (mkMsg 0 0 q) = glimit + 16.
Proof. eexists. split; [vm_compute; reflexivity|]. split; vm_compute; reflexivity. Qed.
Lemma ge_setting size : setting (ge size).
Proof. constructor; [exact xl_good|reflexivity|vm_compute; split; congruence|reflexivity|]. intros l. apply Permutation_sym, Permutation_rev. Qed.

(* ---- C39: OpenOne ---- *)
Lemma one_put_ub e cl s p o mask : given s = true -> given p = true -> given o = true -> N.testbit mask 0 = true ->
  do_call (one_env e) (opened_session (one_env e)) cl (CPut s p o mask) = UB.
Proof.
  intros Hs Hp Ho Hm. unfold do_call. cbn [opened_session s_up negb]. rewrite Hs, Hp, Ho. cbn [andb]. unfold put_impl, PERMUTATIONS. cbn [put_loop].
  assert (E : N.land mask 1 = 1) by (change 1 with (N.ones 1) at 1; rewrite N.land_ones; change (2 ^ 1) with 2; rewrite <- N.bit0_mod, Hm; reflexivity).
  rewrite E. cbn [N.eqb permuted Pos.eqb].
  unfold hash_of. unfold given in Hs, Hp. destruct (a_addr s =? 0), (a_addr p =? 0); try discriminate. cbn [andb orb].
  cbn [one_env e_hash h_zero obind]. destruct (0 <? 0)%Z eqn:E0; [discriminate|]. reflexivity.
Qed.
Lemma one_get_ub e cl s p ty : given s = true -> given p = true -> do_call (one_env e) (opened_session (one_env e)) cl (CGet s p ty) = UB.
Proof.
  intros Hs Hp. unfold do_call. cbn [opened_session s_up negb]. rewrite Hs, Hp. cbn [andb]. unfold get_impl, key_impl.
  unfold hash_of. unfold given in Hs, Hp. destruct (a_addr s =? 0), (a_addr p =? 0); try discriminate. cbn [andb orb]. reflexivity.
Qed.

(* ---- C54: results of PUTs that were executed early ---- *)
Definition be : env := mkEnv xl 2 0 h_jen 2 0 1 false (Some (tl_route xl 0 [])) (@rev _).
Definition bputs : list (arg * arg * arg * N) := [(xa 1 "s", xa 2 "p", xa 3 "o", 1)].
Lemma b_one : exists rws, probe be (opened_session be) (xcl InMemory) [CBPutOne true T_BYTE (Some bputs)] 0 0 = Ok ([true], [], rws).
Proof. eexists. vm_compute. reflexivity. Qed.
Lemma b_many : exists x rws, probe be (opened_session be) (xcl InMemory) [CBPut (Some bputs)] 0 0 = Ok ([true], [x], rws).
Proof. eexists. eexists. vm_compute. reflexivity. Qed.
Lemma be_setting : setting be.
Proof. constructor; [exact xl_good|reflexivity|vm_compute; split; congruence|reflexivity|]. intros l. apply Permutation_sym, Permutation_rev. Qed.

(* ---- C32: a GETOP for no records ---- *)
Lemma getop_none_ub : probe (xe 0) (opened_session (xe 0)) (xcl InMemory) [CGetOp (xa 1 "s") (xa 2 "p") T_BYTE 0 GETOP_EQ] 0 0 = UB.
Proof. vm_compute. reflexivity. Qed.
Lemma probe_calls e s cl cs r off : probe e s cl cs r off = UB -> (exists a, do_calls e s cl cs = Ok a) -> exists s1 cl1 oks, do_calls e s cl cs = Ok (s1, cl1, oks) /\ flush e s1 cl1 = UB.
Proof.
  unfold probe. intros H [[[s1 cl1] o] E]. rewrite E in *. cbn [obind fst snd] in H. exists s1, cl1, o. split; [reflexivity|].
  destruct (flush e s1 cl1) as [[[s2 cl2] xs]| |]; [discriminate|discriminate|reflexivity].
Qed.

(* ---- C39: calls after any history ---- *)
Lemma acts_then_call e cl l s cl' c : setting e -> defined_hash e -> 0 < e_max_ops e ->
  acts e (opened_session e) cl l = Ok (s, cl') -> sane_call c -> plain c -> queues_ok e s /\ exists r, do_call e s cl' c = Ok r.
Proof.
  intros S H M Ha Hc Hp. destruct (opened_acts _ _ _ _ _ Ha) as [K _]. split; [exact K|]. apply call_ok; assumption.
Qed.
Definition xacts : list action := [ACall (CPut (xa 1 "s") (xa 2 "p") (xa 3 "o") 63); AFlush; ACall (CGet (xa 1 "s") (xa 2 "p") T_BYTE); ASync].
Definition acts_sessions (x : outcome (session * cluster)) : outcome session := do a <- x; Ok (fst a).
Lemma acts_sessions_ok x s : acts_sessions x = Ok s -> exists c, x = Ok (s, c).
Proof. unfold acts_sessions. intros H. apply obind_ok in H as ([s' c] & -> & H). cbn [fst] in H. exists c. congruence. Qed.
Lemma xacts_run : exists s cl', acts (xe 0) (opened_session (xe 0)) (xcl InMemory) xacts = Ok (s, cl').
Proof.
  enough (exists s, acts_sessions (acts (xe 0) (opened_session (xe 0)) (xcl InMemory) xacts) = Ok s) as [s H] by (apply acts_sessions_ok in H as [c H]; eauto).
  eexists. vm_compute. reflexivity.
Qed.
Lemma xe_defined : defined_hash (xe 0).
Proof. intros s p Hs Hp. destruct (xe_total 0 s p Hs Hp) as (id & H & Hid). exists id. split; [exact H|apply Hid]. Qed.
Definition gacts : list action := [ACall (CDelete (xa 1 "s") (xa 2 "p")); ACall (CDelete (xa 3 "t") (xa 4 "q"))].
Lemma g_acts : exists s cl q, acts (ge glimit) (opened_session (ge glimit)) zcl gacts = Ok (s, cl) /\ packets s = [q] /\ body_count q = 2 /\ msg_size (mkMsg 0 0 q) = glimit + 16.
Proof.
  enough (exists s q, acts_sessions (acts (ge glimit) (opened_session (ge glimit)) zcl gacts) = Ok s /\ packets s = [q] /\ body_count q = 2 /\ msg_size (mkMsg 0 0 q) = glimit + 16)
    as (s & q & H & R) by (apply acts_sessions_ok in H as [c H]; exists s, c, q; split; [exact H|exact R]).
  eexists. eexists. split; [vm_compute; reflexivity|]. split; [reflexivity|]. split; vm_compute; reflexivity.
Qed.
Lemma g_refutes : exists e cl l s cl', setting e /\ acts e (opened_session e) cl l = Ok (s, cl') /\ ~ Forall (size_ok e 0) (packets s).
Proof.
  destruct g_acts as (s & cl & q & H & P & C & M). exists (ge glimit), zcl, gacts, s, cl. split; [apply ge_setting|]. split; [exact H|].
  rewrite P. intros F. apply Forall_inv in F. unfold size_ok in F. rewrite C, M in F. cbn [ge e_max_size] in F.
  assert (glimit <> 0) by discriminate. assert (1 < 2) by reflexivity. specialize (F ltac:(assumption) ltac:(assumption)). lia.
Qed.
Lemma g_example : setting (ge 200) /\ exists s cl', acts (ge 200) (opened_session (ge 200)) zcl gacts = Ok (s, cl') /\ length (packets s) = 1%nat.
Proof.
  split; [apply ge_setting|].
  enough (exists s, acts_sessions (acts (ge 200) (opened_session (ge 200)) zcl gacts) = Ok s /\ length (packets s) = 1%nat)
    as (s & H & R) by (apply acts_sessions_ok in H as [c H]; eauto).
  eexists. split; [vm_compute; reflexivity|reflexivity].
Qed.

(* the statements that fail *)
Lemma lost_result : exists e cl cs s1 cl1 s2 cl2 x,
  good_client e /\ holds e cl (fun _ => opened InMemory ex_codec) /\ Forall (data_call ex_codec) cs /\ length cs = 2%nat /\
  do_calls e (opened_session e) cl cs = Ok (s1, cl1, [true; true]) /\ flush e s1 cl1 = Ok (s2, cl2, [x]) /\ option_map d_rows (cl2 1%Z 0%Z) = Some [].
Proof.
  destruct y_run as (x & R & _). destruct (probe_run _ _ _ _ _ _ _ _ _ R) as (s1 & cl1 & s2 & cl2 & A & B & C).
  exists (ye 0), (ycl InMemory), yputs, s1, cl1, s2, cl2, x. split; [exact ye_client|]. split; [apply ycl_holds|]. split; [exact yputs_data|]. split; [reflexivity|]. auto.
Qed.
Lemma closed_none : exists e cl cs s1 cl1 s2 cl2,
  good_client e /\ (forall cs', spread e cs') /\ cs <> [] /\ do_calls e (opened_session e) cl cs = Ok (s1, cl1, map (fun _ => true) cs) /\ flush e s1 cl1 = Ok (s2, cl2, []).
Proof.
  destruct z_run as (x & R). destruct (probe_run _ _ _ _ _ _ _ _ _ R) as (s1 & cl1 & s2 & cl2 & A & B & C).
  exists (xe 0), zcl, xcalls0, s1, cl1, s2, cl2. split; [apply xe_client; lia|]. split; [intros; apply xe_spread; lia|]. split; [discriminate|]. auto.
Qed.
Lemma getop_none : exists e cl s p ty s1 cl1 oks, good_client e /\ holds e cl (fun _ => opened InMemory ex_codec) /\
  do_calls e (opened_session e) cl [CGetOp s p ty 0 GETOP_EQ] = Ok (s1, cl1, oks) /\ flush e s1 cl1 = UB.
Proof.
  destruct (probe_calls _ _ _ _ _ _ getop_none_ub) as (s1 & cl1 & oks & A & B).
  - apply (calls_ok (xe 0)); [apply xe_setting; lia|apply xe_defined|reflexivity|reflexivity|apply fresh_sized; split; reflexivity| |repeat constructor].
    constructor; [|constructor]. cbn [sane_call]. split; (split; [discriminate|reflexivity]).
  - exists (xe 0), (xcl InMemory), (xa 1 "s"), (xa 2 "p"), T_BYTE, s1, cl1, oks. split; [apply xe_client; lia|]. split; [apply xcl_holds|]. auto.
Qed.
Lemma unread : exists e k c cl s p o ty cl' xs b,
  good_client e /\ holds e cl (fun _ => opened k c) /\ good_arg c s /\ good_arg c p /\ good_arg c o /\
  (exists s2 p2 o2, play (fun _ => e) (fun _ => opened_session e) cl [(0%Z, [CPut s p o 1; CPut s2 p2 o2 1]); (0%Z, [CGet s p ty])]
    = Ok (cl', [xs; [XGet (at_ e s p) false (rf s) (rf p) b]]) /\ fa s <> fa s2).
Proof.
  destruct yplay_run as (cl & xs & o & H).
  exists (ye 0), InMemory, ex_codec, (ycl InMemory), (xa 1 "b"), (xa 2 "p"), (xa 3 "one"), T_BYTE, cl, xs, o.
  split; [exact ye_client|]. split; [apply ycl_holds|]. split; [xargs|]. split; [xargs|]. split; [xargs|].
  exists (xa 4 "o"), (xa 5 "p"), (xa 6 "two"). split; [|discriminate]. rewrite (proj1 y_target). exact H.
Qed.
Lemma close_loses : exists e k c cl s p o s1 cl1 s2 cl2, good_client e /\ holds e cl (fun _ => opened k c) /\ (forall cs', spread e cs') /\ data_call c (CPut s p o 1) /\
  do_calls e (opened_session e) cl [CPut s p o 1] = Ok (s1, cl1, [true]) /\ close e s1 cl1 = Ok (s2, cl2) /\ option_map d_rows (cl2 (rank_of e (at_ e s p)) 0%Z) = Some [].
Proof.
  destruct c_run as [R _]. destruct (cprobe_run _ _ _ _ _ _ _ _ R) as (s1 & cl1 & s2 & cl2 & A & B & C).
  exists (xe 0), LevelDB, ex_codec, (xcl LevelDB), (xa 1 "s"), (xa 2 "p"), (xa 3 "o"), s1, cl1, s2, cl2. split; [apply xe_client; lia|]. split; [apply xcl_holds|].
  split; [intros; apply xe_spread; lia|]. split; [cbn [data_call]; xargs|]. auto.
Qed.
Lemma half_queued : exists e s p o mask s' cl cl', setting e /\ do_call e (opened_session e) cl (CPut s p o mask) = Ok (s', cl', false) /\ s' <> opened_session e.
Proof.
  destruct h_put as (s' & H & Q). apply sessions_only_ok in H as [c H]. exists he, (xa 1 "s"), (xa 2 "p"), (xa 3 "o"), 5, s', zcl, c. split; [exact he_setting|]. split; [exact H|].
  intros ->. vm_compute in Q. discriminate.
Qed.
Lemma nothing_queued : exists e s p ty cl cl', setting e /\ do_call e (opened_session e) cl (CBGet (Some [(s, p, ty)])) = Ok (opened_session e, cl', true).
Proof.
  pose proof h_bget as H. apply sessions_only_ok in H as [c H]. exists he, (xa 1 "no"), (xa 2 "p"), T_BYTE, zcl, c. split; [exact he_setting|exact H].
Qed.
Lemma kept_results : exists e cl ty l s1 cl1 oks s2 cl2 s1' cl1' s2' cl2' x, setting e /\
  do_calls e (opened_session e) cl [CBPutOne true ty (Some l)] = Ok (s1, cl1, oks) /\ flush e s1 cl1 = Ok (s2, cl2, []) /\
  do_calls e (opened_session e) cl [CBPut (Some (map (retype ty) l))] = Ok (s1', cl1', oks) /\ flush e s1' cl1' = Ok (s2', cl2', [x]).
Proof.
  destruct b_one as (r1 & R1), b_many as (x & r2 & R2).
  destruct (probe_run _ _ _ _ _ _ _ _ _ R1) as (s1 & cl1 & s2 & cl2 & A & B & _). destruct (probe_run _ _ _ _ _ _ _ _ _ R2) as (s1' & cl1' & s2' & cl2' & A' & B' & _).
  exists be, (xcl InMemory), T_BYTE, bputs, s1, cl1, [true], s2, cl2, s1', cl1', s2', cl2', x. split; [exact be_setting|]. auto.
Qed.
