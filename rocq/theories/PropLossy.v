(* C84: datastores whose callbacks do not give back exactly what was stored; LOWEST and HIGHEST of numbers *)
From Verif Require Import ModelBytes ModelKey ModelElen ModelHist ModelMsg ModelStore ModelGetOp ModelDs ModelTransform ModelFloat SpecElen SpecStore ProofDs
  SpecGetOp SpecFp ProofFpLibm ExampleFloat SpecLossy ProofLossy2 SpecLowest ProofLossy3 ExampleLossy.
From Coq Require Import Reals.
Local Open Scope N_scope.

(* Any history of requests that ran, with any callbacks: of each pair of encoded subject and predicate the last PUT is left, unless it was deleted. *)
Theorem C84_left : forall k c h d rs, Forall (small_change c) (flat_map changes h) -> ds_run (opened k c) (map CallReq h) = Ok (d, rs) ->
  exists ts, left_by c (flat_map changes h) ts.
Proof. exact lossy_left. Qed.
Print Assumptions C84_left.

(* GET finds what is left of the pair, as the callbacks give it back, or reports an error. *)
Theorem C84_get : forall k c h d rs i sp, Forall (small_change c) (flat_map changes h) -> ds_run (opened k c) (map CallReq h) = Ok (d, rs) ->
  small c (gi_sub i) -> small c (gi_pred i) -> codes c (gi_sub i) (gi_pred i) = Some sp ->
  (exists j, kept c (flat_map changes h) j /\ pair_of c (Put j) = Some sp /\ forall o, back c (pi_obj j) o ->
     operate d (QGet [i]) = Ok (d, Some (RGet [mkGot ST_OK (orig_ref (gi_sub_addr i) (gi_sub i)) (orig_ref (gi_pred_addr i) (gi_pred i)) o]))) \/
  ((forall j, kept c (flat_map changes h) j -> pair_of c (Put j) <> Some sp) /\
     operate d (QGet [i]) = Ok (d, Some (RGet [mkGot ST_ERR (orig_ref (gi_sub_addr i) (gi_sub i)) (orig_ref (gi_pred_addr i) (gi_pred i)) blob_none]))).
Proof. exact lossy_get. Qed.
Print Assumptions C84_get.

(* GETOP answers from what is left, in the order of the encoded values.
   Missing: what is left and cannot be read back, and the requests excluded by answerable. *)
Theorem C84_getop_partial : forall k c h d rs ts q, Forall (small_change c) (flat_map changes h) -> ds_run (opened k c) (map CallReq h) = Ok (d, rs) ->
  left_by c (flat_map changes h) ts -> Forall (fun i => exists r, back3 c i r) ts -> answerable k c ts q ->
  exists g, asks d q g /\ replies c ts q g.
Proof. exact lossy_getop. Qed.
Print Assumptions C84_getop_partial.
(* four cells and their temperatures; two of them have the same *)
Example C84_example : forall k,
  Forall (small_change cc) (flat_map changes cells) /\ (exists d rs, ds_run (opened k cc) (map CallReq cells) = Ok (d, rs)) /\
  left_by cc (flat_map changes cells) cells_left /\ Forall (fun i => exists r, back3 cc i r) cells_left /\
  small cc (txt "Temp") /\ small cc (temp third) /\ codes cc (txt "Temp") (temp third) <> None.
Proof.
  intros k. split; [exact cells_small|]. split; [exact (cells_run k)|]. split; [exact cells_kept|]. split; [exact cells_readable|].
  split; [apply smallb_true; vm_compute; reflexivity|]. split; [apply smallb_true; vm_compute; reflexivity|vm_compute; congruence].
Qed.

(* What a GETOP for the n lowest numbers of a subject returns: the n lowest, in ascending order, and rows whose predicate is no number only after all of them.
   Missing: subjects with rows between the numbers, which is what happens when another subject starts with this one; see the refutation. *)
Theorem C84_lowest_partial : forall L u k h d rs ts s t ot n,
  good_libm L -> sym_ord (ne_neg (cb_num u)) (ne_pos (cb_num u)) -> Forall (small_change (session L u)) (flat_map changes h) ->
  ds_run (opened k (session L u)) (map CallReq h) = Ok (d, rs) -> left_by (session L u) (flat_map changes h) ts ->
  Forall (fun i => exists r, back3 (session L u) i r) ts ->
  code (session L u) s <> None -> small (session L u) s -> ModelGetOp.numeric t = true -> 1 <= n ->
  (forall i, In i ts -> starts_with (coded_data (session L u) s) (item_key (session L u) i) = true ->
     (exists v, reading (session L u) s t i v) \/ above (session L u) s (ne_pos (cb_num u)) i) ->
  (exists i v, In i ts /\ reading (session L u) s t i v) ->
  exists g us rest, asks d (ask_lowest s t ot n) g /\ gp_status g = Z.of_N DATASTORE_SUCCESS /\
    Forall2 (back3 (session L u)) (us ++ rest) (gp_recs g) /\ lowest (session L u) s t n ts us /\
    Forall (fun i => In i ts /\ above (session L u) s (ne_pos (cb_num u)) i) rest /\
    (N.of_nat (List.length us) = n -> rest = []).
Proof. exact lowest_found. Qed.
Print Assumptions C84_lowest_partial.
Example C84_lowest_example :
  good_libm exact_libm /\ sym_ord (ne_neg (cb_num u_d)) (ne_pos (cb_num u_d)) /\ code cc (txt "Temp") <> None /\ small cc (txt "Temp") /\
  (forall i, In i cells_left -> starts_with (coded_data cc (txt "Temp")) (item_key cc i) = true ->
     (exists v, reading cc (txt "Temp") T_DOUBLE i v) \/ above cc (txt "Temp") (ne_pos (cb_num u_d)) i) /\
  (exists i v, In i cells_left /\ reading cc (txt "Temp") T_DOUBLE i v).
Proof.
  split; [exact exact_good|]. split; [exact sym_default|]. split; [vm_compute; congruence|]. split; [apply smallb_true; vm_compute; reflexivity|]. split; [exact cells_rows|].
  exists (by_temp third "Cell-(0, 1, 1)"), (val third). split; [cbn [cells_left In]; tauto|]. apply temp_reading; [vm_compute; reflexivity|exact Logic.I].
Qed.

(* The numbers in the records: integers are the ones stored, floating point values what C10 says of them. *)
Theorem C84_integers : forall L u t T z r, sym_ord (ne_neg (cb_num u)) (ne_pos (cb_num u)) -> int_of t = Some T -> encodable T z ->
  (back (session L u) (mkBlob false (store T z) t) r <-> r = mkBlob false (store T z) t).
Proof. exact back_int. Qed.
Print Assumptions C84_integers.
Example C84_integers_example : int_of T_INT32 = Some int32_t /\ encodable int32_t (-5)%Z.
Proof. split; [reflexivity|]. split; [split; vm_compute; congruence|intros _; vm_compute; congruence]. Qed.
Theorem C84_floats : forall L u t F x y r, comes_back L u t F x y -> fp_type t F ->
  (back (session L u) (mkBlob false (store_fp F x) t) r <-> r = mkBlob false (store_fp F y) t).
Proof. exact back_fp. Qed.
Print Assumptions C84_floats.
Example C84_floats_example : comes_back exact_libm u_d T_DOUBLE DBL third third' /\ fp_type T_DOUBLE DBL.
Proof. split; [apply third_ok|right; split; reflexivity]. Qed.

(* HIGHEST finds none of the numbers, whatever is stored: it starts just above the negative symbol and goes down. *)
Theorem C84_highest_refuted : forall L u h d rs ts s t ot n,
  good_libm L -> sym_ord (ne_neg (cb_num u)) (ne_pos (cb_num u)) -> Forall (small_change (session L u)) (flat_map changes h) ->
  ds_run (opened LevelDB (session L u)) (map CallReq h) = Ok (d, rs) -> left_by (session L u) (flat_map changes h) ts ->
  Forall (fun i => exists r, back3 (session L u) i r) ts ->
  code (session L u) s <> None -> small (session L u) s -> ModelGetOp.numeric t = true -> 1 <= n ->
  exists g, asks d (ask_highest s t ot n) g /\
    (g = nothing (ask_highest s t ot n) \/
     exists us, gp_status g = Z.of_N DATASTORE_SUCCESS /\ Forall2 (back3 (session L u)) us (gp_recs g) /\
       Forall (fun i => forall v, ~ reading (session L u) s t i v) us).
Proof. exact highest_misses. Qed.
Print Assumptions C84_highest_refuted.
Example C84_highest_example : exists d rs, ds_run (opened LevelDB cc) (map CallReq cells) = Ok (d, rs) /\
  asks d (ask_highest (txt "Temp") T_DOUBLE T_BYTE 2) (mkGotOp ST_OK []).
Proof. exact (answer_asks _ _ _ _ highest_answer). Qed.

(* The type given with LOWEST does not select: asked for four DOUBLEs when there are three, it adds a row whose predicate is the name of a cell.
   Of two cells with the same temperature only the last one stored is there. And -100000000 comes back as -0.1 (C10). *)
Theorem C84_type_refuted : forall k, exists d rs, ds_run (opened k cc) (map CallReq cells) = Ok (d, rs) /\
  asks d (ask_lowest (txt "Temp") T_DOUBLE T_BYTE 4)
    (mkGotOp ST_OK [mkRec (txt "Temp") (temp m01) (txt "Cell-(0, 0, 1)"); mkRec (txt "Temp") (temp third') (txt "Cell-(0, 1, 1)");
                    mkRec (txt "Temp") (temp five) (txt "Cell-(0, 1, 0)"); mkRec (txt "Temp") (txt "Cell-(0, 0, 0)") (temp third')]).
Proof. intros k. exact (answer_asks _ _ _ _ (cells_answer k 4 eq_refl)). Qed.
Print Assumptions C84_type_refuted.

(* Subjects that start with the one asked for are taken for it: Temp2 comes between the negative and the positive numbers of Temp,
   and the second lowest number of Temp is not returned. *)
Theorem C84_between_refuted : forall k, exists d rs, ds_run (opened k cc) (map CallReq two_subjects) = Ok (d, rs) /\
  two_subjects = [QPut [by_temp third "Cell-(0, 0, 0)"; put3 (txt "Temp2") (txt "x") (txt "y"); by_temp m1e8 "Cell-(0, 0, 1)"]] /\
  asks d (ask_lowest (txt "Temp") T_DOUBLE T_BYTE 2)
    (mkGotOp ST_OK [mkRec (txt "Temp") (temp m01) (txt "Cell-(0, 0, 1)"); mkRec (txt "Temp2") (txt "x") (txt "y")]).
Proof. intros k. destruct (answer_asks _ _ _ _ (between_answer k)) as (d & rs & A & B). exists d, rs. split; [exact A|]. split; [reflexivity|exact B]. Qed.
Print Assumptions C84_between_refuted.
