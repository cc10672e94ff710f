(* C12-C19: GETOP; C22: the part that fails *)
From Verif Require Import ModelBytes ModelKey ModelElen SpecElen ModelWire ModelHist ModelMsg ModelStore ModelGetOp ModelDs
  SpecStore SpecGetOp ProofStore ProofDs ProofDs2 ProofDs3 ProofGetOp ProofGetOp2 ProofGetOp3 ExampleStore ExampleGetOp.
Local Open Scope N_scope.

(* Throughout: d is a datastore of kind k after any history, m the map it stands for and ts the triples of m in
   key order (SpecStore.v); [asks d i g]: request item i gets answer g and d is unchanged. Such ts always exist: *)
Theorem C12_contents_exist : forall k c d m, reached k c d m -> exists ts, contents c m ts.
Proof. exact contents_exist. Qed.
Print Assumptions C12_contents_exist.

Theorem C12_first : forall k c d m ts i, reached k c d m -> contents c m ts -> oi_op i = GETOP_FIRST -> 1 <= oi_num i ->
  asks d i (match ts with [] => nothing i | _ => found (first (oi_num i) ts) end).
Proof. exact first_spec. Qed.
Print Assumptions C12_first.

(* Missing: LAST of an empty in-memory datastore, see C12_last_refuted. *)
Theorem C12_last_partial : forall k c d m ts i, reached k c d m -> contents c m ts -> oi_op i = GETOP_LAST -> 1 <= oi_num i ->
  (k = InMemory -> ts <> []) ->
  asks d i (match ts with [] => nothing i | _ => found (first (oi_num i) (rev ts)) end).
Proof. exact last_spec. Qed.
Print Assumptions C12_last_partial.

(* four triples; the last has an integer object *)
Example C12_example : forall k, exists d, reached k ex_codec d g_m /\ contents ex_codec g_m g_ts /\ length g_ts = 4%nat.
Proof. intros k. destruct (g_reached k) as (d & H1 & H2 & _). exists d. auto. Qed.

Theorem C12_last_refuted : operate (opened InMemory ex_codec) (QGetOp [ask_sp GETOP_LAST "" "" 1]) = UB.
Proof. exact last_empty. Qed.
Print Assumptions C12_last_refuted.

(* The stored triples that do not sort before subject ++ predicate, in order; an error iff there is none. *)
Theorem C13_next : forall k c can d m ts i, reached k c d m -> contents c m ts -> fits c can i ->
  oi_op i = GETOP_NEXT -> 1 <= oi_num i ->
  let up := filter (over c (prefix_of c can i)) ts in
  asks d i (match up with [] => nothing i | _ => found (first (oi_num i) up) end).
Proof. exact next_spec. Qed.
Print Assumptions C13_next.

(* It starts with the pair itself if that is stored.
   Missing: stores in which another key starts with the same bytes, see C13_next_start_refuted. *)
Theorem C13_next_start_partial : forall k c d m ts i o, reached k c d m -> contents c m ts ->
  storable c (oi_sub i) -> storable c (oi_pred i) ->
  let s := fld (oi_sub i) in let p := fld (oi_pred i) in
  m s p = Some o -> alone c ts s p -> oi_op i = GETOP_NEXT -> 1 <= oi_num i ->
  exists us, asks d i (found (mkTriple s p o :: us)).
Proof. exact next_stored. Qed.
Print Assumptions C13_next_start_partial.

(* With the default callbacks no other key starts with the same bytes if all subjects are integers of one type
   and all predicates are. *)
Theorem C13_integers_alone : forall neg pos fe fd k d m ts s p,
  let c := default_codec neg pos fe fd in
  sym_ord neg pos -> reached k c d m -> contents c m ts -> lossless c s -> lossless c p ->
  int_of (f_type s) <> None -> int_of (f_type p) <> None ->
  (forall t, In t ts -> f_type (t_sub t) = f_type s /\ f_type (t_pred t) = f_type p) ->
  alone c ts s p.
Proof. exact ints_alone. Qed.
Print Assumptions C13_integers_alone.

Example C13_example : forall k, exists d, reached k ex_codec d g_m /\ contents ex_codec g_m g_ts /\
  fits ex_codec all_can (ask_sp GETOP_NEXT "s" "p" 2) /\ storable ex_codec (xb "s") /\ storable ex_codec (xb "p") /\
  g_m (fld (xb "s")) (fld (xb "p")) = Some (bf "1") /\ alone ex_codec g_ts (fld (xb "s")) (fld (xb "p")) /\
  length (filter (over ex_codec (prefix_of ex_codec all_can (ask_sp GETOP_NEXT "s" "p" 2))) g_ts) = 3%nat.
Proof.
  intros k. destruct (g_reached k) as (d & H1 & H2 & _). exists d. split; [exact H1|]. split; [exact H2|].
  split; [apply g_fits_ask; reflexivity|]. split; [apply xb_storable; reflexivity|]. split; [apply xb_storable; reflexivity|].
  split; [exact g_has|]. split; [exact g_alone|reflexivity].
Qed.

(* ("a", "b") is stored; NEXT from it returns ("a", "bc") *)
Theorem C13_next_start_refuted : forall k, exists r, run_answers k
  [puts [("a", "b"); ("a", "bc")]%string; QGet [mkGet (xb "a") 1 (xb "b") 2 T_BYTE]; QGetOp [ask_sp GETOP_NEXT "a" "b" 1]]
  [r; Some (RGet [mkGot 1 (mkRef 1 1 7) (mkRef 2 1 7) (xb "o")]); Some (RGetOp [mkGotOp 1 [mkRec (xb "a") (xb "bc") (xb "o")]])].
Proof. exact next_wrong. Qed.
Print Assumptions C13_next_start_refuted.

(* From a stored pair PREV walks back over the triples that do not sort after it, starting with it.
   Missing: starting points that are not stored, and other keys that start with the same bytes; see C14_prev_refuted. *)
Theorem C14_prev_partial : forall k c d m ts i o, reached k c d m -> contents c m ts ->
  storable c (oi_sub i) -> storable c (oi_pred i) ->
  let s := fld (oi_sub i) in let p := fld (oi_pred i) in
  m s p = Some o -> alone c ts s p -> oi_op i = GETOP_PREV -> 1 <= oi_num i ->
  let le := filter (fun t => bleb (tkey c t) (key c s p)) ts in
  asks d i (found (first (oi_num i) (rev le))) /\ hd_error (rev le) = Some (mkTriple s p o).
Proof. exact prev_stored. Qed.
Print Assumptions C14_prev_partial.

(* What it does from any starting point: the first triple not below it, then those below it downwards. *)
Theorem C14_prev_behaviour : forall k c can d m ts i, reached k c d m -> contents c m ts -> fits c can i ->
  oi_op i = GETOP_PREV -> 1 <= oi_num i ->
  let P := prefix_of c can i in
  asks d i (match filter (over c P) ts with [] => nothing i
            | t :: _ => found (first (oi_num i) (t :: rev (filter (under c P) ts))) end).
Proof. exact prev_spec. Qed.
Print Assumptions C14_prev_behaviour.

Example C14_example : forall k, exists d, reached k ex_codec d g_m /\ contents ex_codec g_m g_ts /\
  g_m (fld (xb "s")) (fld (xb "p")) = Some (bf "1") /\ alone ex_codec g_ts (fld (xb "s")) (fld (xb "p")) /\
  length (filter (fun t => bleb (tkey ex_codec t) (key ex_codec (fld (xb "s")) (fld (xb "p")))) g_ts) = 2%nat.
Proof.
  intros k. destruct (g_reached k) as (d & H1 & H2 & _). exists d. split; [exact H1|]. split; [exact H2|].
  split; [exact g_has|]. split; [exact g_alone|reflexivity].
Qed.

(* from ("b", "x") it returns ("c", "x"); from ("d", "x") an error, although two triples sort before *)
Theorem C14_prev_refuted : forall k, exists r, run_answers k
  [puts [("a", "x"); ("c", "x")]%string; QGetOp [ask_sp GETOP_PREV "b" "x" 1; ask_sp GETOP_PREV "d" "x" 1]]
  [r; Some (RGetOp [mkGotOp 1 [mkRec (xb "c") (xb "x") (xb "o")]; mkGotOp 2 [mkRec (xb "d") (xb "x") blob_none]])].
Proof. exact prev_wrong. Qed.
Print Assumptions C14_prev_refuted.

(* Missing: pairs that are not stored, and other keys that start with the same bytes; see C15_eq_refuted. *)
Theorem C15_eq_partial : forall k c d m ts i o, reached k c d m -> contents c m ts ->
  storable c (oi_sub i) -> storable c (oi_pred i) ->
  let s := fld (oi_sub i) in let p := fld (oi_pred i) in
  m s p = Some o -> alone c ts s p -> oi_op i = GETOP_EQ -> 1 <= oi_num i ->
  asks d i (found [mkTriple s p o]).
Proof. exact eq_stored. Qed.
Print Assumptions C15_eq_partial.

(* what it does for any pair: the first triple not below it *)
Theorem C15_eq_behaviour : forall k c can d m ts i, reached k c d m -> contents c m ts -> fits c can i ->
  oi_op i = GETOP_EQ -> 1 <= oi_num i ->
  asks d i (match filter (over c (prefix_of c can i)) ts with [] => nothing i | t :: _ => found [t] end).
Proof. exact eq_spec. Qed.
Print Assumptions C15_eq_behaviour.

Example C15_example : forall k, exists d, reached k ex_codec d g_m /\ contents ex_codec g_m g_ts /\
  storable ex_codec (xb "s") /\ storable ex_codec (xb "p") /\
  g_m (fld (xb "s")) (fld (xb "p")) = Some (bf "1") /\ alone ex_codec g_ts (fld (xb "s")) (fld (xb "p")).
Proof.
  intros k. destruct (g_reached k) as (d & H1 & H2 & _). exists d. split; [exact H1|]. split; [exact H2|].
  split; [apply xb_storable; reflexivity|]. split; [apply xb_storable; reflexivity|]. split; [exact g_has|exact g_alone].
Qed.

(* GET of ("a", "x") is an error; EQ returns ("b", "x") *)
Theorem C15_eq_refuted : forall k, exists r, run_answers k
  [puts [("b", "x")]%string; QGet [mkGet (xb "a") 1 (xb "x") 2 T_BYTE]; QGetOp [ask_sp GETOP_EQ "a" "x" 1]]
  [r; Some (RGet [mkGot 2 (mkRef 1 1 7) (mkRef 2 1 7) blob_none]); Some (RGetOp [mkGotOp 1 [mkRec (xb "b") (xb "x") (xb "o")]])].
Proof. exact eq_wrong. Qed.
Print Assumptions C15_eq_refuted.

(* Missing: stored keys that start with the prefix but sort before the place where the search starts (SpecGetOp.v:
   the prefix followed by a zero byte, or by the negative symbol and a zero byte); see C16_lowest_refuted. *)
Theorem C16_lowest_partial : forall k c can d m ts i, reached k c d m -> contents c m ts -> fits c can i ->
  oi_op i = GETOP_LOWEST -> 1 <= oi_num i ->
  let with_prefix := filter (fun t => starts_with (prefix_of c can i) (tkey c t)) ts in
  Forall (fun t => bleb (least c can i) (tkey c t) = true) with_prefix ->
  (with_prefix <> [] -> asks d i (found (first (oi_num i) with_prefix))) /\
  (with_prefix = [] -> asks d i (found []) \/ asks d i (nothing i)).
Proof. exact lowest_all. Qed.
Print Assumptions C16_lowest_partial.

Example C16_example : forall k, exists d, reached k ex_codec d g_m /\ contents ex_codec g_m g_ts /\
  let i := ask_sp GETOP_LOWEST "s" "" 1 in
  fits ex_codec all_can i /\
  let w := filter (fun t => starts_with (prefix_of ex_codec all_can i) (tkey ex_codec t)) g_ts in
  length w = 2%nat /\ Forall (fun t => bleb (least ex_codec all_can i) (tkey ex_codec t) = true) w.
Proof.
  intros k. destruct (g_reached k) as (d & H1 & H2 & _). exists d. split; [exact H1|]. split; [exact H2|].
  split; [apply g_fits_ask; reflexivity|]. split; [reflexivity|]. repeat constructor.
Qed.

(* with a null INT32 predicate ("s", "!") is not found; without the type hint it is *)
Theorem C16_lowest_refuted : forall k, exists r, run_answers k
  [puts [("s", "!")]%string; QGetOp [mkGetOp GETOP_LOWEST (xb "s") (mkBlob true [] T_INT32) T_BYTE 1; ask_sp GETOP_LOWEST "s" "" 1]]
  [r; Some (RGetOp [mkGotOp 2 [mkRec (xb "s") (mkBlob true [] T_INT32) blob_none]; mkGotOp 1 [mkRec (xb "s") (xb "!") (xb "o")]])].
Proof. exact lowest_wrong. Qed.
Print Assumptions C16_lowest_refuted.

(* LevelDB: what is returned has the prefix and is in descending order, but only keys below [least] are looked at.
   Missing: all others, and the in-memory datastore; see the next two theorems. *)
Theorem C17_highest_partial : forall c can d m ts i, reached LevelDB c d m -> contents c m ts -> fits c can i ->
  oi_op i = GETOP_HIGHEST -> 1 <= oi_num i ->
  let lo := filter (under c (least c can i)) ts in
  asks d i (match lo with [] => nothing i
            | _ => found (first (oi_num i) (rev (filter (fun t => starts_with (prefix_of c can i) (tkey c t)) lo))) end).
Proof. exact highest_ldb. Qed.
Print Assumptions C17_highest_partial.

(* Neither backend ever finds anything, unless a stored key is itself (the beginning of) the prefix and a zero byte. *)
Theorem C17_highest_finds_nothing_refuted : forall k c can d m ts i g, reached k c d m -> contents c m ts -> fits c can i ->
  oi_op i = GETOP_HIGHEST -> 1 <= oi_num i -> least c can i = prefix_of c can i ++ [zero] ->
  (forall t, In t ts -> starts_with (tkey c t) (prefix_of c can i ++ [zero]) = false) ->
  asks d i g -> g = nothing i \/ g = found [].
Proof. exact highest_nothing. Qed.
Print Assumptions C17_highest_finds_nothing_refuted.

Example C17_example : forall k, exists d, reached k ex_codec d g_m /\ contents ex_codec g_m g_ts /\
  let i := ask_sp GETOP_HIGHEST "s" "" 1 in
  fits ex_codec all_can i /\ least ex_codec all_can i = prefix_of ex_codec all_can i ++ [zero] /\
  (forall t, In t g_ts -> starts_with (tkey ex_codec t) (prefix_of ex_codec all_can i ++ [zero]) = false) /\
  length (filter (fun t => starts_with (prefix_of ex_codec all_can i) (tkey ex_codec t)) g_ts) = 2%nat.
Proof.
  intros k. destruct (g_reached k) as (d & H1 & H2 & _). exists d. split; [exact H1|]. split; [exact H2|].
  split; [apply g_fits_ask; reflexivity|]. split; [reflexivity|]. split; [|reflexivity].
  intros t [<-|[<-|[<-|[<-|[]]]]]; reflexivity.
Qed.

(* subject "s" has two triples: HIGHEST succeeds with none, LOWEST returns both *)
Theorem C17_highest_refuted : forall k, exists r, run_answers k
  [puts [("a", "x"); ("s", "p"); ("s", "q"); ("t", "x")]%string; QGetOp [ask_sp GETOP_HIGHEST "s" "" 2; ask_sp GETOP_LOWEST "s" "" 2]]
  [r; Some (RGetOp [mkGotOp 1 []; mkGotOp 1 [mkRec (xb "s") (xb "p") (xb "o"); mkRec (xb "s") (xb "q") (xb "o")]])].
Proof. exact highest_wrong. Qed.
Print Assumptions C17_highest_refuted.

(* every request, whatever its operator and contents *)
Theorem C18_getop_sound : forall k c d m ts l d' r, reached k c d m -> contents c m ts ->
  operate d (QGetOp l) = Ok (d', r) ->
  d' = d /\ exists gs, r = Some (RGetOp gs) /\ Forall2 (fun i g => gp_status g = Z.of_N DATASTORE_SUCCESS ->
    incl (gp_recs g) (map seen3 ts) /\ NoDup (gp_recs g) /\ N.of_nat (length (gp_recs g)) <= oi_num i) l gs.
Proof. exact getop_sound. Qed.
Print Assumptions C18_getop_sound.

(* a bulk GETOP answers each item as if it were alone *)
Theorem C18_getop_bulk : forall d l gs, d_open d = true ->
  (operate d (QGetOp l) = Ok (d, Some (RGetOp gs)) <-> Forall2 (asks d) l gs).
Proof. exact getop_bulk. Qed.
Print Assumptions C18_getop_bulk.

Example C18_example : forall k, exists d gs, reached k ex_codec d g_m /\ contents ex_codec g_m g_ts /\
  operate d (QGetOp [ask_sp GETOP_LOWEST "s" "" 5; ask_sp GETOP_LAST "" "" 3]) = Ok (d, Some (RGetOp gs)).
Proof.
  intros k. destruct (g_reached k) as (d & H1 & H2 & ->). eexists. eexists. split; [exact H1|]. split; [exact H2|].
  destruct k; (apply op_parts; [reflexivity|reflexivity|vm_compute; reflexivity]).
Qed.

(* Missing: 0 records, LAST of an empty in-memory datastore, HIGHEST in memory; see the refutations. *)
Theorem C19_getop_safe_partial : forall k c can d m ts l, reached k c d m -> contents c m ts ->
  Forall (fits c can) l -> Forall (safe k ts) l ->
  exists gs, operate d (QGetOp l) = Ok (d, Some (RGetOp gs)).
Proof. exact getop_safe. Qed.
Print Assumptions C19_getop_safe_partial.

Example C19_example : forall k, exists d, reached k ex_codec d g_m /\ contents ex_codec g_m g_ts /\
  Forall (fits ex_codec all_can) [ask_sp GETOP_PREV "zz" "" 4; ask_sp GETOP_LAST "" "" 3] /\
  Forall (safe k g_ts) [ask_sp GETOP_PREV "zz" "" 4; ask_sp GETOP_LAST "" "" 3].
Proof.
  intros k. destruct (g_reached k) as (d & H1 & H2 & _). exists d. split; [exact H1|]. split; [exact H2|]. split.
  - constructor; [apply g_fits_ask; reflexivity|]. constructor; [apply g_fits_ask; reflexivity|constructor].
  - constructor; [split; [discriminate|intros _; split; discriminate]|].
    constructor; [split; [discriminate|intros _; split; discriminate]|constructor].
Qed.

Theorem C19_zero_records_refuted : forall k,
  ds_run (opened k ex_codec) (map CallReq [puts [("a", "x")]%string; QGetOp [ask_sp GETOP_EQ "a" "x" 0]]) = UB
  /\ operate (opened k ex_codec) (QGetOp [ask_sp GETOP_FIRST "" "" 0]) = UB.
Proof. exact zero_records. Qed.
Print Assumptions C19_zero_records_refuted.

Theorem C19_highest_refuted :
  ds_run (opened InMemory ex_codec) (map CallReq [puts [("s", "p")]%string; QGetOp [ask_sp GETOP_HIGHEST "s" "" 1]]) = UB.
Proof. exact highest_begin. Qed.
Print Assumptions C19_highest_refuted.

(* An empty object that was PUT: the datastore's answer to GET cannot be received. *)
Theorem C22_response_round_trip_refuted : forall k, exists q r b,
  ds_run (opened k ex_codec) (map CallReq [QPut [mkPut (xb "s") 1 (xb "p") 2 (xb "")]; QGet [q]]) = Ok (mkDs k ex_codec true [(sp_to_key (bf "s") (bf "p"), le_enc 4 T_BYTE)] [], [r; Some (RGet [mkGot 1 (mkRef 1 1 7) (mkRef 2 1 7) (mkBlob true [] T_BYTE)])]) /\
  msg_pack (mkMsg 0 3 (RGet [mkGot 1 (mkRef 1 1 7) (mkRef 2 1 7) (mkBlob true [] T_BYTE)])) = Ok b /\ unpack_response b = UB.
Proof. exact empty_object_ub. Qed.
Print Assumptions C22_response_round_trip_refuted.
