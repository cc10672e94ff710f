(* Configurations for the examples beside the theorems on C48 and C49. *)
From Verif Require Import ModelBytes ModelElen ModelConf ModelOptions SpecConf SpecOptions ProofBytes ProofStore ProofElen ProofConf ProofOptions ProofOptions2 ProofOptions3.
Local Open Scope N_scope.

Definition nlb : bytes := [nl].
(* two files and one environment variable; KEY is in all of them *)
Definition cw : world := mkWorld
  (fun f => if beqb f (bstr "hxhim.conf") then Some (bstr "# comment" ++ nlb ++ bstr "DATASTORE IN_MEMORY" ++ nlb ++ bstr "  CLIENT_RATIO   3  " ++ nlb ++ bstr "HASH UTHASH_SAX")
            else if beqb f (bstr "mine") then Some (bstr "CLIENT_RATIO 4" ++ nlb ++ bstr "CLIENT_RATIO 5" ++ nlb) else None)
  (fun e => if beqb e (bstr "HXHIM_CONFIG") then Some (bstr "mine") else if beqb e (bstr "HXHIM_HASH") then Some (bstr "DATASTORE_0") else None).
Definition crs : list reader := sources [K_HASH; K_CLIENT].
Lemma ascii_check s : forallb (fun c => N_of_ascii c <? 128) s = true -> ascii_text s.
Proof. intro H. rewrite forallb_forall in H. apply Forall_forall. intros c I. apply N.ltb_lt. exact (H c I). Qed.
Lemma cw_ascii : ascii_world cw.
Proof.
  intros f s H. cbn [w_files cw] in H. destruct (beqb f (bstr "hxhim.conf")); [injection H as <-; apply ascii_check; reflexivity|].
  destruct (beqb f (bstr "mine")); [injection H as <-; apply ascii_check; reflexivity|discriminate].
Qed.
Lemma cw_reads : exists c, process_sequence cw crs = Ok c /\ c K_DS = Some (bstr "IN_MEMORY") /\ c K_CLIENT = Some (bstr "5") /\ c K_HASH = Some (bstr "DATASTORE_0") /\ c K_OPS = None.
Proof.
  destruct (sequence_total cw crs cw_ascii) as [c E]. exists c. split; [exact E|].
  assert (forall k, (match process_sequence cw crs with Ok c' => c' k | _ => None end) = c k) as K by (intro k; rewrite E; reflexivity).
  rewrite <- !K. vm_compute. auto.
Qed.
Lemma word_check t : t <> [] -> forallb (fun c => negb (is_space c)) t = true -> word t.
Proof. intros N H. split; [exact N|]. rewrite forallb_forall in H. apply Forall_forall. intros c I. apply is_space_no. specialize (H c I). destruct (is_space c); [discriminate|reflexivity]. Qed.
(* a value that starts with a letter outside ASCII *)
Definition bad_text : bytes := bstr "DATASTORE_PREFIX " ++ [ascii_of_N 195; ascii_of_N 169].
Definition bw : world := mkWorld (fun f => if beqb f (bstr "hxhim.conf") then Some bad_text else None) (fun _ => None).
Lemma bw_ub : process_sequence bw [RFile (bstr "hxhim.conf")] = UB.
Proof. reflexivity. Qed.
Lemma bw_says : source_says bw (RFile (bstr "hxhim.conf")) K_PREFIX [ascii_of_N 195; ascii_of_N 169].
Proof.
  exists bad_text. split; [reflexivity|]. exists [], bad_text, []. split; [|split; [|intros l v []]].
  - split; [|right; exists [], bad_text; repeat split; discriminate]. constructor; [|constructor]. cbn. intro H.
    repeat (destruct H as [H|H]; [discriminate|]). exact H.
  - exists [], (bstr " "), []. split; [reflexivity|]. split; [constructor|]. split; [constructor; [cbn; auto 10|constructor]|]. split; [constructor|].
    split; [discriminate|]. split.
    + exact (proj2 (word_check K_PREFIX ltac:(discriminate) eq_refl)).
    + split; [discriminate|]. split; [|right; discriminate]. intros c t [H|H].
      * injection H as <- _. apply is_space_no. reflexivity.
      * change [ascii_of_N 195; ascii_of_N 169] with ([ascii_of_N 195] ++ [ascii_of_N 169]) in H. apply app_inj_tail in H. destruct H as [_ <-]. apply is_space_no. reflexivity.
Qed.

(* a complete configuration *)
Definition nobuild : build := mkBuild false false false.
Definition full : config := cfg_init
  [(K_DS, bstr "IN_MEMORY"); (K_PREFIX, bstr "/tmp"); (K_BASE, bstr "db"); (K_TRANSPORT, bstr "MPI"); (K_LISTENERS, bstr "2"); (K_HASH, bstr "UTHASH_SAX");
   (K_GROUP, bstr "ALL"); (K_OPS, bstr "64"); (K_NEG, bstr "-"); (K_POS, bstr "p"); (K_READ, bstr "false"); (K_TRACK, bstr "a,bc")].
Definition full_settings : settings := {|
  s_debug := None; s_client := None; s_server := None; s_per := None; s_where := InMemory; s_prefix := bstr "/tmp"; s_base := bstr "db"; s_post := None;
  s_how := ByMpi 2 (Some (bstr "UTHASH_SAX")); s_async := None; s_ops := Some 64; s_size := None; s_neg := Some "-"%char; s_pos := Some "p"%char; s_float := None; s_double := None;
  s_first := None; s_gen := None; s_read := Some false; s_write := None; s_track := Some [bstr "a"; bstr "bc"] |}.
Lemma num1 d : d < 10 -> number [ascii_of_N (48 + d)] d.
Proof. intro H. exists [d]. split; [discriminate|]. split; [constructor; [exact H|constructor]|]. split; [reflexivity|]. cbn [fold_left]. lia. Qed.
Lemma full_says : config_says full full_settings.
Proof.
  unfold config_says, full_settings. cbn [s_debug s_client s_server s_per s_where s_prefix s_base s_post s_how s_async s_ops s_size s_neg s_pos s_float s_double s_first s_gen s_read s_write s_track says says_where says_how].
  do 8 (split; [reflexivity|]).
  split. { split; [reflexivity|]. split; [exists (bstr "2"); split; [reflexivity|exact (num1 2 eq_refl)]|exists (bstr "UTHASH_SAX"); split; reflexivity]. }
  split; [reflexivity|]. split; [reflexivity|].
  split. { exists (bstr "64"). split; [reflexivity|]. exists [6; 4]. split; [discriminate|]. split; [constructor; [reflexivity|constructor; [reflexivity|constructor]]|]. split; reflexivity. }
  split; [reflexivity|]. split; [exists (bstr "-"); split; reflexivity|]. split; [exists (bstr "p"); split; reflexivity|].
  do 4 (split; [reflexivity|]). split; [exists (bstr "false"); split; reflexivity|]. split; [reflexivity|].
  exists (bstr "a,bc"). split; [reflexivity|]. split; [discriminate|]. split.
  - constructor; [split; [discriminate|intros [H|[]]; discriminate]|]. constructor; [split; [discriminate|intros [H|[H|[]]]; discriminate]|constructor].
  - exists (bstr "a"), [bstr "bc"]. split; reflexivity.
Qed.
Lemma full_valid b : valid b full_settings.
Proof.
  unfold valid, full_settings. cbn [s_debug s_client s_server s_per s_where s_prefix s_base s_post s_how s_async s_ops s_size s_neg s_pos s_float s_double s_first s_gen s_read s_write s_track each orelse].
  do 5 (split; [exact I|]). split; [apply word_check; [discriminate|reflexivity]|]. split; [apply word_check; [discriminate|reflexivity]|]. split; [exact I|].
  split; [split; [reflexivity|cbn; auto 10]|]. split; [exact I|]. split; [reflexivity|]. split; [exact I|].
  split; [apply is_space_no; reflexivity|]. split; [apply is_space_no; reflexivity|]. split; [exact I|]. split; [exact I|].
  split; [reflexivity|]. split; [reflexivity|]. split; exact I.
Qed.
(* the same, as a file *)
Definition full_text : bytes :=
  bstr "DATASTORE IN_MEMORY" ++ nlb ++ bstr "DATASTORE_PREFIX /tmp" ++ nlb ++ bstr "DATASTORE_BASENAME db" ++ nlb ++ bstr "TRANSPORT MPI" ++ nlb ++ bstr "NUM_LISTENERS 2" ++ nlb
  ++ bstr "HASH UTHASH_SAX" ++ nlb ++ bstr "ENDPOINT_GROUP ALL" ++ nlb ++ bstr "MAXIMUM_OPS_PER_REQUEST 64" ++ nlb ++ bstr "ELEN_NEG_SYMBOL -" ++ nlb ++ bstr "ELEN_POS_SYMBOL p" ++ nlb
  ++ bstr "HISTOGRAM_READ_EXISTING false" ++ nlb ++ bstr "HISTOGRAM_TRACK_PREDICATES a,bc" ++ nlb.
Definition fw : world := mkWorld (fun f => if beqb f (bstr "hxhim.conf") then Some full_text else None) (fun _ => None).
Lemma fw_ascii : ascii_world fw.
Proof. intros f s H. cbn [w_files fw] in H. destruct (beqb f (bstr "hxhim.conf")); [injection H as <-; apply ascii_check; reflexivity|discriminate]. Qed.
Definition fw_config : config := match process_sequence fw (sources []) with Ok c => c | _ => cfg_empty end.
Lemma fw_config_full : exists l, fw_config = fold_left (fun c kv => cfg_set c (fst kv) (snd kv)) l cfg_empty /\
  l = [(K_DS, bstr "IN_MEMORY"); (K_PREFIX, bstr "/tmp"); (K_BASE, bstr "db"); (K_TRANSPORT, bstr "MPI"); (K_LISTENERS, bstr "2"); (K_HASH, bstr "UTHASH_SAX");
   (K_GROUP, bstr "ALL"); (K_OPS, bstr "64"); (K_NEG, bstr "-"); (K_POS, bstr "p"); (K_READ, bstr "false"); (K_TRACK, bstr "a,bc")].
Proof. eexists. split; [|reflexivity]. reflexivity. Qed.
Lemma fw_full k : fw_config k = full k.
Proof.
  destruct fw_config_full as [l [E ->]]. rewrite E. unfold full. cbn [fold_left cfg_init fst snd]. unfold cfg_set.
  repeat match goal with |- context [beqb k ?x] => let B := fresh in destruct (beqb k x) eqn:B; [apply beqb_true in B; subst k; reflexivity|] end. reflexivity.
Qed.
Lemma fw_reads : reads fw (sources []) full.
Proof.
  destruct (sequence_total fw (sources []) fw_ascii) as [c E]. intros k v. rewrite <- fw_full. unfold fw_config. rewrite E. exact (sequence_last _ _ _ E k v).
Qed.

(* only one environment variable, of those that are looked at *)
Definition ew : world := mkWorld (fun _ => None) (fun e => if beqb e (bstr "HXHIM_MAXIMUM_OPS_PER_REQUEST") then Some (bstr "5") else None).
Lemma ew_ascii : ascii_world ew.
Proof. intros f s H. discriminate. Qed.
Lemma ew_says : sources_say ew (sources [K_OPS; K_SIZE]) K_OPS (bstr "5").
Proof.
  exists [RFile (bstr "hxhim.conf"); REnvFile (bstr "HXHIM_CONFIG")], (REnvVar (bstr "HXHIM_" ++ K_OPS) K_OPS), [REnvVar (bstr "HXHIM_" ++ K_SIZE) K_SIZE].
  split; [reflexivity|]. split; [split; reflexivity|]. intros r v [<-|[]] [H _]. discriminate.
Qed.
Lemma ew_no_ds : forall r v, In r (sources [K_OPS; K_SIZE]) -> ~ source_says ew r K_DS v.
Proof.
  intros r v [<-|[<-|[<-|[<-|[]]]]] H; cbn [source_says] in H.
  - destruct H as [s [X _]]. discriminate.
  - destruct H as [f [s [X _]]]. discriminate.
  - destruct H as [X _]. discriminate.
  - destruct H as [X _]. discriminate.
Qed.
(* the variables that are looked at do not include some keys *)
Lemma not_keys b : ~ In K_POS (map fst (default_list b)) /\ ~ In K_LISTENERS (map fst (default_list b)) /\ ~ In K_TRACK (map fst (default_list b)).
Proof.
  assert (forall k, existsb (beqb k) (map fst (default_list b)) = false -> ~ In k (map fst (default_list b))) as K.
  { intros k H I. assert (existsb (beqb k) (map fst (default_list b)) = true) as X by (apply existsb_exists; exists k; split; [exact I|apply beqb_refl]). congruence. }
  destruct b as [[] [] []]; repeat split; apply K; vm_compute; reflexivity.
Qed.
(* the same with Thallium *)
Definition tbuild : build := mkBuild false false true.
Definition tfull : config := cfg_set (cfg_set full K_TRANSPORT (bstr "THALLIUM")) K_MODULE (bstr "na+sm").
Definition tfull_settings : settings := {|
  s_debug := None; s_client := None; s_server := None; s_per := None; s_where := InMemory; s_prefix := bstr "/tmp"; s_base := bstr "db"; s_post := None;
  s_how := ByThallium (bstr "na+sm") None (Some (bstr "UTHASH_SAX")); s_async := None; s_ops := Some 64; s_size := None; s_neg := Some "-"%char; s_pos := Some "p"%char; s_float := None; s_double := None;
  s_first := None; s_gen := None; s_read := Some false; s_write := None; s_track := Some [bstr "a"; bstr "bc"] |}.
Lemma tfull_says : config_says tfull tfull_settings.
Proof.
  destruct full_says as [S1 [S2 [S3 [S4 [S5 [S6 [S7 [S8 [[_ [_ A]] S]]]]]]]]].
  exact (conj S1 (conj S2 (conj S3 (conj S4 (conj S5 (conj S6 (conj S7 (conj S8 (conj (conj eq_refl (conj eq_refl (conj eq_refl A))) S))))))))).
Qed.
Lemma tfull_valid : valid tbuild tfull_settings.
Proof.
  destruct (full_valid tbuild) as [S1 [S2 [S3 [S4 [S5 [S6 [S7 [S8 [[_ A] S]]]]]]]]].
  exact (conj S1 (conj S2 (conj S3 (conj S4 (conj S5 (conj S6 (conj S7 (conj S8 (conj (conj eq_refl (conj Logic.I A)) S))))))))).
Qed.
Lemma no_count_many : no_count (bstr "4294967296") 2147483647.
Proof.
  right. right. left. exists [], [], (bstr "4294967296"), 4294967296, []. split; [reflexivity|]. split; [constructor|]. split; [left; reflexivity|].
  split. { exists [4; 2; 9; 4; 9; 6; 7; 2; 9; 6]. split; [discriminate|]. split; [do 10 (constructor; [reflexivity|]); constructor|]. split; reflexivity. }
  split; [discriminate|]. split; [discriminate|reflexivity].
Qed.
