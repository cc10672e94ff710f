(* C75: objects that do not come back as they were stored, and the functions for floats and doubles *)
From Verif Require Import ModelBytes ModelKey ModelWire ModelHist ModelMsg SpecMsg ModelStore ModelGetOp ModelDs
  SpecStore ProofDs ModelElen ModelTransform ModelFloat ModelRoute SpecRoute ModelClient SpecClient SpecCluster ExampleClient
  ModelTyped SpecTyped ProofTyped ProofTyped2 SpecElen SpecFp ProofFpLibm ProofFloat ExampleFloat ProofTyped3 ExampleTyped.
From Coq Require Import Reals.
Local Open Scope N_scope.

(* Any number of clients taking turns see one map that holds what the callbacks make of the objects.
   Missing: turns that use two datastores of the same other rank (spread), objects in keys that do not come back as they were *)
Theorem C75_one_map_partial : forall E k c e0 S cl l,
  (forall i, In i (map fst l) -> good_client (E i) /\ same_cluster e0 (E i) /\ fresh (E i) (S i)) ->
  holds e0 cl (fun _ => opened k c) ->
  Forall (fun ic => Forall (obj_call c) (snd ic) /\ spread (E (fst ic)) (snd ic)) l ->
  exists cl' rs, play E S cl l = Ok (cl', rs) /\ Forall2 (@Permutation result) rs (expected E k no_triples (map (kept_turn c) l)).
Proof. exact cluster_is_map2. Qed.
Print Assumptions C75_one_map_partial.
Example C75_one_map_example : let l := story n_before 0 T_DOUBLE (xa 1 "here") (xa 2 "celsius") (at_num 3 third) n_between 1 T_DOUBLE in
  (forall i, In i (map fst l) -> good_client (xe i) /\ same_cluster (xe 0) (xe i) /\ fresh (xe i) (opened_session (xe i))) /\
  holds (xe 0) (ncl InMemory) (fun _ => opened InMemory ncodec) /\
  Forall (fun ic => Forall (obj_call ncodec) (snd ic) /\ spread (xe (fst ic)) (snd ic)) l.
Proof. exact n_one_map. Qed.

(* A number stored by one client is read by any client as what C10 says comes back, whatever type the reader asks for *)
Theorem C75_number_partial : forall L u E k e0 S cl l1 i t s p q l2 j ty F x r,
  fp_type t F -> comes_back L u t F x r -> firstn (fp_size t) (fp_mem q) = store_fp F x ->
  story_ok (session L u) E S e0 k cl l1 i t s p q l2 j ty ->
  exists cl' rs, play E S cl (story l1 i t s p q l2 j ty) =
    Ok (cl', rs ++ [[XGet (at_ (E j) s p) true (rf s) (rf p) (mkBlob false (store_fp F r) t)]]).
Proof. exact number_read. Qed.
Print Assumptions C75_number_partial.
Theorem C75_double_partial : forall L u E k e0 S cl l1 i s p q l2 j ty x,
  good_libm L -> sym_ok (ne_neg (cb_num u)) (ne_pos (cb_num u)) -> ne_double (cb_num u) = DOUBLE_PRECISION ->
  valid DBL x -> finite_fp x -> (ten (-300) <= Rabs (val x) <= ten 300)%R ->
  (~ (-4 * ten 8 <= val x <= -25 * ten 6) -> ~ (25 * ten (-12) <= val x <= 4 * ten (-10)) ->
  firstn 8 (fp_mem q) = store_fp DBL x -> story_ok (session L u) E S e0 k cl l1 i T_DOUBLE s p q l2 j ty ->
  exists cl' rs r, play E S cl (story l1 i T_DOUBLE s p q l2 j ty) =
      Ok (cl', (rs ++ [[XGet (at_ (E j) s p) true (rf s) (rf p) (mkBlob false (store_fp DBL r) T_DOUBLE)]])%list) /\
    finite_fp r /\ Rabs (val r - val x) <= Rabs (val x) * ten (-14))%R.
Proof. exact double_read. Qed.
Print Assumptions C75_double_partial.
Theorem C75_float_partial : forall L u E k e0 S cl l1 i s p q l2 j ty x,
  good_libm L -> sym_ok (ne_neg (cb_num u)) (ne_pos (cb_num u)) -> ne_float (cb_num u) = FLOAT_PRECISION ->
  valid FLT x -> finite_fp x -> (ten (-37) <= Rabs (val x) <= ten 38 * 3 * (1 - ten (-5)))%R ->
  (~ (-4 * ten 8 <= val x <= -25 * ten 6) -> ~ (25 * ten (-12) <= val x <= 4 * ten (-10)) ->
  firstn 4 (fp_mem q) = store_fp FLT x -> story_ok (session L u) E S e0 k cl l1 i T_FLOAT s p q l2 j ty ->
  exists cl' rs r, play E S cl (story l1 i T_FLOAT s p q l2 j ty) =
      Ok (cl', (rs ++ [[XGet (at_ (E j) s p) true (rf s) (rf p) (mkBlob false (store_fp FLT r) T_FLOAT)]])%list) /\
    finite_fp r /\ Rabs (val r - val x) <= Rabs (val x) * ten (-5))%R.
Proof. exact float_read. Qed.
Print Assumptions C75_float_partial.
(* the hypotheses hold of a cluster of two ranks, with other turns before and in between *)
Example C75_number_example : story_ok (session exact_libm u_d) xe (fun i => opened_session (xe i)) (xe 0) InMemory (ncl InMemory)
    n_before 0 T_DOUBLE (xa 1 "here") (xa 2 "celsius") (at_num 3 third) n_between 1 T_DOUBLE /\
  firstn 8 (fp_mem (at_num 3 third)) = store_fp DBL third /\ comes_back exact_libm u_d T_DOUBLE DBL third third'.
Proof. split; [apply n_story_ok; reflexivity|]. split; [apply num_there|exact third_back]. Qed.
Example C75_third_example : exists cl' rs, play xe (fun i => opened_session (xe i)) (ncl InMemory)
    (story n_before 0 T_DOUBLE (xa 1 "here") (xa 2 "celsius") (at_num 3 third) n_between 1 T_DOUBLE) =
  Ok (cl', rs ++ [[XGet (at_ (xe 1) (xa 1 "here") (xa 2 "celsius")) true (rf (xa 1 "here")) (rf (xa 2 "celsius")) (mkBlob false (store_fp DBL third') T_DOUBLE)]]).
Proof. exact n_third. Qed.

(* not all numbers: minus one hundred million is read as something between -1 and 1; and GetFloat returns a double *)
Theorem C75_lost_refuted : exists L u E S e0 k cl l1 i s p q l2 j ty x r, good_libm L /\ sym_ok (ne_neg (cb_num u)) (ne_pos (cb_num u)) /\ ne_double (cb_num u) = DOUBLE_PRECISION /\
  valid DBL x /\ finite_fp x /\ (val x = -100000000 /\ Rabs (val r) <= 1)%R /\ ty = T_FLOAT /\
  firstn 8 (fp_mem q) = store_fp DBL x /\ story_ok (session L u) E S e0 k cl l1 i T_DOUBLE s p q l2 j ty /\
  exists cl' rs, play E S cl (story l1 i T_DOUBLE s p q l2 j ty) =
    Ok (cl', rs ++ [[XGet (at_ (E j) s p) true (rf s) (rf p) (mkBlob false (store_fp DBL r) T_DOUBLE)]]).
Proof. exact n_lost. Qed.
Print Assumptions C75_lost_refuted.

(* BPutFloat and BPutDouble queue what BPut queues, as long as fewer than max_queued PUTs are queued *)
Theorem C75_bput_partial : forall e s cl t l s' cl' ok, l <> [] ->
  do_call e s cl (CBPut (Some (map (fun '(a, b, x, m) => (a, b, fp_arg t x, m)) l))) = Ok (s', cl', ok) -> s_count s' < e_max_queued e ->
  do_call e s cl (bput_fp true t (Some l)) = Ok (s', cl', ok).
Proof. exact bput_fp_is_bput. Qed.
Print Assumptions C75_bput_partial.
Example C75_bput_example : nbulk <> [] /\ exists s',
  (match do_call (xe 0) (opened_session (xe 0)) (ncl InMemory) (CBPut (Some (map (fun '(a, b, x, m) => (a, b, fp_arg T_FLOAT x, m)) nbulk))) with
   | Ok (s', _, ok) => Some (s', ok) | _ => None end) = Some (s', true) /\ s_count s' = 3 /\ e_max_queued (xe 0) = 100.
Proof. split; [discriminate|exact nbulk_ok]. Qed.
(* BPutFloat and BPutDouble of nothing are errors, BPut of nothing is not *)
Theorem C75_bput_nothing_refuted : forall e s cl t types, s_up s = true ->
  do_call e s cl (bput_fp types t (Some [])) = Ok (s, cl, false) /\ exists s', do_call e s cl (CBPut (Some [])) = Ok (s', cl, true).
Proof. exact bput_fp_none. Qed.
Print Assumptions C75_bput_nothing_refuted.
(* BGetFloat and BGetDouble are BGet; BGetOpFloat and BGetOpDouble always fail *)
Theorem C75_bget : forall e s cl t l,
  do_call e s cl (bget_fp true t (Some l)) = do_call e s cl (CBGet (Some (map (fun '(x, y) => (x, y, t)) l))).
Proof. exact bget_fp_is_bget. Qed.
Print Assumptions C75_bget.
Theorem C75_bgetop_refuted : forall e s cl t types l, s_up s = true -> do_call e s cl (bgetop_fp types true t (Some l)) = Ok (s, cl, false).
Proof. exact bgetop_fp_fails. Qed.
Print Assumptions C75_bgetop_refuted.
Example C75_bulk_example : s_up (opened_session (xe 0)) = true.
Proof. reflexivity. Qed.
