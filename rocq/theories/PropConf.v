(* C48 and C49: configurations *)
From Verif Require Import ModelBytes ModelElen ModelConf ModelOptions SpecConf SpecOptions ProofConf ProofOptions ProofOptions2 ProofOptions3 ProofOptions4 ExampleConf.
Local Open Scope N_scope.

(* C48: the last source that mentions a key decides. Missing: files with bytes outside ASCII, see below *)
Theorem C48_last_partial : forall w rs c, process_sequence w rs = Ok c ->
  (forall k v, c k = Some v <-> sources_say w rs k v) /\ (forall k, c k = None <-> forall r v, In r rs -> ~ source_says w r k v).
Proof. intros w rs c H. exact (conj (sequence_last w rs c H) (sequence_absent w rs c H)). Qed.
Print Assumptions C48_last_partial.
Example C48_last_example : exists c, process_sequence cw crs = Ok c /\ c K_DS = Some (bstr "IN_MEMORY") /\ c K_CLIENT = Some (bstr "5") /\ c K_HASH = Some (bstr "DATASTORE_0") /\ c K_OPS = None.
Proof. exact cw_reads. Qed.
Theorem C48_ascii_partial : forall w rs, ascii_world w -> exists c, process_sequence w rs = Ok c.
Proof. exact sequence_total. Qed.
Print Assumptions C48_ascii_partial.
Example C48_ascii_example : ascii_world cw.
Proof. exact cw_ascii. Qed.
(* isspace gets a negative char *)
Theorem C48_encoding_refuted : exists w r k v, source_says w r k v /\ process_sequence w [r] = UB.
Proof. exists bw, (RFile (bstr "hxhim.conf")), K_PREFIX, [ascii_of_N 195; ascii_of_N 169]. exact (conj bw_says bw_ub). Qed.
Print Assumptions C48_encoding_refuted.

(* C49: valid settings in a complete configuration take effect. Missing: incomplete configurations, lists of endpoints *)
Theorem C49_fill_partial : forall b size c s o, config_says c s -> valid b s -> fill_options b size c o = Parsed (effect size s o) true.
Proof. exact fill_says. Qed.
Print Assumptions C49_fill_partial.
Example C49_fill_example : config_says full full_settings /\ (forall b, valid b full_settings) /\ o_hash (effect 1 full_settings opts0) = bstr "UTHASH_SAX" /\ o_ops (effect 1 full_settings opts0) = 64.
Proof. exact (conj full_says (conj full_valid (conj eq_refl eq_refl))). Qed.
(* the same from the files and the environment to the options *)
Theorem C49_reader_partial : forall b size w keys c s o, ascii_world w -> reads w (sources keys) c -> config_says c s -> valid b s ->
  default_reader b size w keys o = Ok (Parsed (effect size s (effect size (default_settings b) o)) true).
Proof. exact reader_complete. Qed.
Print Assumptions C49_reader_partial.
Example C49_reader_example : ascii_world fw /\ reads fw (sources []) full /\ config_says full full_settings /\ valid nobuild full_settings.
Proof. exact (conj fw_ascii (conj fw_reads (conj full_says (full_valid nobuild)))). Qed.
(* nothing else is accepted, except that numbers are read generously *)
Theorem C49_accepted_partial : forall b size c o o', fill_options b size c o = Parsed o' true ->
  (match c (bstr "DEBUG_LEVEL") with Some t => In (t, o_debug o') levels | None => o_debug o' = o_debug o end) /\
  taken c (bstr "CLIENT_RATIO") (o_client o) (o_client o') /\ (c (bstr "CLIENT_RATIO") <> None -> 0 < o_client o') /\
  taken c (bstr "SERVER_RATIO") (o_server o) (o_server o') /\ (c (bstr "SERVER_RATIO") <> None -> 0 < o_server o') /\
  taken c (bstr "DATASTORES_PER_SERVER") (o_per o) (o_per o') /\ (c (bstr "DATASTORES_PER_SERVER") <> None -> 0 < o_per o') /\
  c (bstr "ENDPOINT_GROUP") = Some (bstr "ALL") /\ o_group o' = map Z.of_nat (seq 0 (N.to_nat size)) /\
  taken c (bstr "START_ASYNC_PUTS_AT") (o_async o) (o_async o') /\ taken c (bstr "MAXIMUM_OPS_PER_REQUEST") (o_ops o) (o_ops o') /\
  taken c (bstr "MAXIMUM_SIZE_PER_REQUEST") (o_size o) (o_size o') /\
  (char_value (o_neg o') < char_value (o_pos o'))%Z /\ taken c (bstr "HISTOGRAM_FIRST_N") (o_first o) (o_first o') /\ o_ds o' <> None /\ o_tr o' <> None.
Proof. exact accepted. Qed.
Print Assumptions C49_accepted_partial.
Example C49_accepted_example : fill_options nobuild 1 full opts0 = Parsed (effect 1 full_settings opts0) true.
Proof. exact (fill_says nobuild 1 full full_settings opts0 full_says (full_valid nobuild)). Qed.
(* without a datastore in the configuration everything after the ratios is ignored, and nothing is reported *)
Theorem C49_incomplete_refuted :
  (forall b size w keys o, ascii_world w -> (forall r v, In r (sources keys) -> ~ source_says w r (bstr "DATASTORE") v) ->
    exists o', default_reader b size w keys o = Ok (Parsed o' true) /\ same_rest (real_defaults b size o) o') /\
  exists b size w keys o o', ascii_world w /\ sources_say w (sources keys) (bstr "MAXIMUM_OPS_PER_REQUEST") (bstr "5") /\
    default_reader b size w keys o = Ok (Parsed o' true) /\ o_ops o' = 128.
Proof.
  split; [exact reader_dropped|]. destruct (reader_dropped nobuild 1 ew [K_OPS; K_SIZE] opts0 ew_ascii ew_no_ds) as [o' [E S]].
  exists nobuild, 1, ew, [K_OPS; K_SIZE], opts0, o'. exact (conj ew_ascii (conj ew_says (conj E (proj1 (proj2 (proj2 (proj2 (proj2 (proj2 (proj2 (proj2 (proj2 S)))))))))))).
Qed.
Print Assumptions C49_incomplete_refuted.
(* a list of endpoints never takes effect; one that starts with a rank is read for ever *)
Theorem C49_endpoints_refuted :
  (forall b size c v o o', c (bstr "ENDPOINT_GROUP") = Some v -> v <> bstr "ALL" -> fill_options b size c o <> Parsed o' true) /\
  (forall b size c s v n o, config_says c s -> valid b s -> read_int v = Some n -> (0 <= n)%Z -> fill_options b size (cfg_set c (bstr "ENDPOINT_GROUP") v) o = Forever).
Proof. exact (conj group_list group_forever). Qed.
Print Assumptions C49_endpoints_refuted.
Example C49_endpoints_example : config_says full full_settings /\ valid nobuild full_settings /\ read_int (bstr "0 1 2") = Some 0%Z.
Proof. exact (conj full_says (conj (full_valid nobuild) eq_refl)). Qed.
(* the hash is ignored with the null transport *)
Theorem C49_hash_refuted :
  (forall b size c o o', c (bstr "TRANSPORT") = Some (bstr "NULL") -> fill_options b size c o = Parsed o' true -> o_hash o' = bstr "RANK_MOD_DATASTORES") /\
  exists o', fill_options nobuild 1 (cfg_set (DEFAULT_CONFIG nobuild) (bstr "HASH") (bstr "DATASTORE_0")) opts0 = Parsed o' true.
Proof. split; [exact null_hash|]. eexists. vm_compute. reflexivity. Qed.
Print Assumptions C49_hash_refuted.
(* the default for the negative symbol is not the one that is meant *)
Theorem C49_symbol_refuted : forall b size o, exists o', fill_options b size (DEFAULT_CONFIG b) o = Parsed o' true /\ o_neg o' = ascii_of_N 1 /\ o_neg (effect size (default_settings b) o) = "/"%char.
Proof. intros b size o. exact (ex_intro _ _ (conj (fill_defaults b size o) (conj eq_refl eq_refl))). Qed.
Print Assumptions C49_symbol_refuted.
(* only some settings can be given by environment variables *)
Theorem C49_environment_refuted :
  (forall w keys k v, ~ In k keys -> k <> bstr "CONFIG" -> process_sequence (with_env w (bstr "HXHIM_" ++ k) v) (sources keys) = process_sequence w (sources keys)) /\
  forall b, ~ In (bstr "ELEN_POS_SYMBOL") (map fst (default_list b)) /\ ~ In (bstr "NUM_LISTENERS") (map fst (default_list b)) /\ ~ In (bstr "HISTOGRAM_TRACK_PREDICATES") (map fst (default_list b)).
Proof. exact (conj env_ignored not_keys). Qed.
Print Assumptions C49_environment_refuted.
(* a number of threads that cannot be read is not reported: some other number of threads is used *)
Theorem C49_threads_refuted :
  (forall b size c s m n h o v t, config_says c s -> valid b s -> s_how s = ByThallium m n h -> no_count v t ->
    exists k, count_of k = t /\ fill_options b size (cfg_set c (bstr "THALLIUM_THREAD_COUNT") v) o = Parsed (effect size (with_threads s k) o) true) /\
  (exists o', fill_options tbuild 1 (cfg_set tfull (bstr "THALLIUM_THREAD_COUNT") (bstr "four")) opts0 = Parsed o' true /\ o_tr o' = Some (TrThallium (bstr "na+sm") 0%Z)) /\
  exists o', fill_options tbuild 1 (cfg_set tfull (bstr "THALLIUM_THREAD_COUNT") (bstr "4294967296")) opts0 = Parsed o' true /\ o_tr o' = Some (TrThallium (bstr "na+sm") 2147483647%Z).
Proof. split; [exact threads_any|]. split; eexists; split; vm_compute; reflexivity. Qed.
Print Assumptions C49_threads_refuted.
Example C49_threads_example : config_says tfull tfull_settings /\ valid tbuild tfull_settings /\ no_count (bstr "4294967296") 2147483647.
Proof. exact (conj tfull_says (conj tfull_valid no_count_many)). Qed.
