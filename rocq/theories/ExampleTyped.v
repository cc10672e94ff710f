(* Numbers in a cluster of two ranks with the default callbacks *)
From Verif Require Import ModelBytes ProofBytes ModelKey ModelWire ModelHist ModelMsg SpecMsg ModelStore ModelGetOp ModelDs
  SpecStore ProofDs ModelElen ModelTransform ModelFloat ModelRoute SpecRoute ModelClient SpecClient SpecCluster ExampleClient
  ModelTyped SpecTyped ProofTyped ProofTyped2 SpecElen SpecFp ProofFpLibm ProofFloat ExampleFloat ProofTyped3.
From Coq Require Import Reals Lra.
Local Open Scope N_scope.

Definition ncodec : codec := session exact_libm u_d.
Lemma na_good n s : n <> 0 -> n < 2 ^ 64 -> bstr s <> [] -> blen (bstr s) < 2 ^ 32 -> good_arg ncodec (xa n s).
Proof.
  intros Hn Hu Hs Hl. split; [|split; [|split; [exact Hu|exact Hl]]].
  - unfold given, xa. cbn [a_addr a_data]. destruct (N.eqb_spec n 0); [contradiction|]. cbn [negb andb].
    destruct (bstr s); [congruence|]. reflexivity.
  - exists (bstr s). cbn [xa fa a_data a_type f_data f_type]. split; [|split; [|split; [|reflexivity]]].
    + intros null Hnull. destruct null; [rewrite (Hnull eq_refl); reflexivity|reflexivity].
    + reflexivity.
    + assert (2 ^ 32 < 2 ^ 64) by reflexivity. lia.
Qed.
Ltac nargs := repeat (split; [apply na_good; [discriminate|reflexivity|discriminate|reflexivity]|]);
  try (apply na_good; [discriminate|reflexivity|discriminate|reflexivity]).
Definition ncl (k : backend) : cluster := fun r off => if (off =? 0)%Z then Some (opened k ncodec) else None.
Lemma ncl_holds k r : holds (xe r) (ncl k) (fun _ => opened k ncodec).
Proof. intros id Hid. unfold ncl. cbn [e_layout xe l_per xl]. rewrite Z.mod_1_r. reflexivity. Qed.

Definition at_num (n : N) (x : spec_float) : fp_ptr := mkPtr n (store_fp DBL x ++ bstr "what follows").
Definition n_before : list (Z * list call) := [(1%Z, [put_fp T_DOUBLE (xa 1 "here") (xa 2 "celsius") (at_num 3 m1e8) 1; CPut (xa 1 "s") (xa 2 "p") (xa 3 "o") 63])].
Definition n_between : list (Z * list call) := [(1%Z, [CDelete (xa 4 "s") (xa 5 "p"); CGet (xa 1 "here") (xa 2 "celsius") T_FLOAT]);
  (0%Z, [put_fp T_DOUBLE (xa 6 "there") (xa 2 "celsius") (at_num 3 third) 1])].
Lemma num_fits x r : comes_back exact_libm u_d T_DOUBLE DBL x r -> good_obj ncodec (fp_arg T_DOUBLE (at_num 3 x)).
Proof.
  intros C. apply (fp_arg_good exact_libm u_d T_DOUBLE DBL x r (at_num 3 x)); [right; split; reflexivity|exact C|discriminate|reflexivity|].
  unfold at_num. cbn [fp_mem fp_size]. change (fp_size T_DOUBLE) with (length (store_fp DBL x)). apply firstn_app_exact.
Qed.
Lemma third_back : comes_back exact_libm u_d T_DOUBLE DBL third third'.
Proof. apply third_ok. Qed.
Lemma m1e8_back : comes_back exact_libm u_d T_DOUBLE DBL m1e8 m01.
Proof. apply m1e8_ok. Qed.
Lemma here_left : Forall (fun ic => Forall (leaves (xe (fst ic)) (fa (xa 1 "here")) (fa (xa 2 "celsius"))) (snd ic)) n_between.
Proof.
  constructor; [|constructor; [|constructor]]; cbn [fst snd].
  - constructor; [|constructor; [|constructor]]; (split; [constructor|]).
    + cbn [call_dels]. change (given (xa 4 "s") && given (xa 5 "p")) with true. constructor; [discriminate|constructor].
    + constructor.
  - constructor; [|constructor]. split; [|constructor]. cbn [put_fp call_puts]. destruct (given _ && given _ && given _); [|constructor].
    unfold one_put. change (put_triples ?a ?b ?c 1) with [(a, b, c)]. cbn [while]. destruct (placed _ _ _); [|constructor]. constructor; [discriminate|constructor].
Qed.
Lemma n_story_ok k x ty : u32 ty ->
  story_ok ncodec xe (fun i => opened_session (xe i)) (xe 0) k (ncl k) n_before 0 T_DOUBLE (xa 1 "here") (xa 2 "celsius") (at_num 3 x) n_between 1 ty.
Proof.
  intros Hty. constructor.
  - intros a Ha. assert (0 <= a < 2)%Z by (cbn [story n_before n_between app map fst In] in Ha; lia).
    split; [apply xe_client; assumption|]. split; [apply xe_same|]. split; reflexivity.
  - apply ncl_holds.
  - unfold story. cbn [n_before n_between app]. repeat (constructor; [cbn [fst]; apply xe_spread; lia|]). constructor.
  - cbn [n_before n_between app]. constructor; [|constructor; [|constructor; [|constructor]]]; cbn [snd].
    + constructor; [|constructor; [|constructor]].
      * cbn [put_fp obj_call]. split; [nargs|]. split; [nargs|]. split; [exact (num_fits _ _ m1e8_back)|left; reflexivity].
      * cbn [obj_call]. split; [nargs|]. split; [nargs|]. split; [apply good_arg_obj; nargs|right; nargs].
    + constructor; [cbn [obj_call]; nargs|]. constructor; [cbn [obj_call]; nargs; reflexivity|constructor].
    + constructor; [|constructor]. cbn [put_fp obj_call]. split; [nargs|]. split; [nargs|]. split; [exact (num_fits _ _ third_back)|left; reflexivity].
  - exact here_left.
  - nargs.
  - exact Hty.
  - split; [discriminate|reflexivity].
Qed.
Lemma num_there x : firstn 8 (fp_mem (at_num 3 x)) = store_fp DBL x.
Proof. unfold at_num. cbn [fp_mem]. change 8%nat with (length (store_fp DBL x)). apply firstn_app_exact. Qed.

Lemma n_one_map : let l := story n_before 0 T_DOUBLE (xa 1 "here") (xa 2 "celsius") (at_num 3 third) n_between 1 T_DOUBLE in
  (forall i, In i (map fst l) -> good_client (xe i) /\ same_cluster (xe 0) (xe i) /\ fresh (xe i) (opened_session (xe i))) /\
  holds (xe 0) (ncl InMemory) (fun _ => opened InMemory ncodec) /\
  Forall (fun ic => Forall (obj_call ncodec) (snd ic) /\ spread (xe (fst ic)) (snd ic)) l.
Proof.
  pose proof (n_story_ok InMemory third T_DOUBLE eq_refl) as H. split; [exact (st_clients _ _ _ _ _ _ _ _ _ _ _ _ _ _ _ H)|]. split; [apply ncl_holds|].
  refine (story_calls exact_libm u_d xe InMemory (xe 0) _ (ncl InMemory) _ _ _ _ _ _ _ _ _ DBL third third' _ third_back (num_there third) H). right; split; reflexivity.
Qed.

(* what is read for a third *)
Lemma n_third : exists cl' rs, play xe (fun i => opened_session (xe i)) (ncl InMemory) (story n_before 0 T_DOUBLE (xa 1 "here") (xa 2 "celsius") (at_num 3 third) n_between 1 T_DOUBLE) =
  Ok (cl', rs ++ [[XGet (at_ (xe 1) (xa 1 "here") (xa 2 "celsius")) true (rf (xa 1 "here")) (rf (xa 2 "celsius")) (mkBlob false (store_fp DBL third') T_DOUBLE)]]).
Proof.
  apply (number_read exact_libm u_d xe InMemory (xe 0) (fun i => opened_session (xe i)) (ncl InMemory) n_before 0 T_DOUBLE (xa 1 "here") (xa 2 "celsius")
    (at_num 3 third) n_between 1 T_DOUBLE DBL third third'); [right; split; reflexivity|exact third_back|apply num_there|apply n_story_ok; reflexivity].
Qed.

(* minus one hundred million is read as about minus one tenth, and as a double although a float was asked for *)
Lemma n_lost : exists L u E S e0 k cl l1 i s p q l2 j ty x r, good_libm L /\ sym_ok (ne_neg (cb_num u)) (ne_pos (cb_num u)) /\ ne_double (cb_num u) = DOUBLE_PRECISION /\
  valid DBL x /\ finite_fp x /\ (val x = -100000000 /\ Rabs (val r) <= 1)%R /\ ty = T_FLOAT /\
  firstn 8 (fp_mem q) = store_fp DBL x /\ story_ok (session L u) E S e0 k cl l1 i T_DOUBLE s p q l2 j ty /\
  exists cl' rs, play E S cl (story l1 i T_DOUBLE s p q l2 j ty) =
    Ok (cl', rs ++ [[XGet (at_ (E j) s p) true (rf s) (rf p) (mkBlob false (store_fp DBL r) T_DOUBLE)]]).
Proof.
  exists exact_libm, u_d, xe, (fun i => opened_session (xe i)), (xe 0), LevelDB, (ncl LevelDB), n_before, 0%Z, (xa 1 "here"), (xa 2 "celsius"), (at_num 3 m1e8), n_between, 1%Z, T_FLOAT, m1e8, m01.
  split; [exact exact_good|]. split; [split; [reflexivity|]; split; [reflexivity|discriminate]|]. split; [reflexivity|]. split; [reflexivity|]. split; [exact Logic.I|].
  split; [split; [exact m1e8_val|]|].
  { unfold val, m01. rewrite Rabs_left1; cbn [powerRZ]; [|].
    - change (Pos.to_nat 56) with 56%nat. cbn [pow]. lra.
    - change (Pos.to_nat 56) with 56%nat. cbn [pow]. lra. }
  split; [reflexivity|]. split; [apply num_there|]. split; [apply n_story_ok; reflexivity|].
  apply (number_read exact_libm u_d xe LevelDB (xe 0) (fun i => opened_session (xe i)) (ncl LevelDB) n_before 0 T_DOUBLE (xa 1 "here") (xa 2 "celsius")
    (at_num 3 m1e8) n_between 1 T_FLOAT DBL m1e8 m01); [right; split; reflexivity|exact m1e8_back|apply num_there|apply n_story_ok; reflexivity].
Qed.

(* three floats by BPutFloat *)
Definition at_flt (n : N) (x : spec_float) : fp_ptr := mkPtr n (store_fp FLT x).
Definition nbulk : list (arg * arg * fp_ptr * N) :=
  [(xa 1 "a", xa 2 "c", at_flt 3 third_f, 1); (xa 1 "b", xa 2 "c", at_flt 3 (S754_zero true), 1); (xa 1 "a", xa 2 "c", at_flt 3 third_f, 1)].
Lemma nbulk_ok : exists s', (match do_call (xe 0) (opened_session (xe 0)) (ncl InMemory) (CBPut (Some (given_objects T_FLOAT nbulk))) with Ok (s', _, ok) => Some (s', ok) | _ => None end) = Some (s', true) /\
  s_count s' = 3 /\ e_max_queued (xe 0) = 100.
Proof. eexists. split; [vm_compute; reflexivity|]. split; vm_compute; reflexivity. Qed.
