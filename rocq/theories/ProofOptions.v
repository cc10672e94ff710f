From Verif Require Import ModelBytes ModelElen ModelConf ModelOptions SpecConf SpecOptions ProofBytes ProofStore ProofElen ProofConf.
Local Open Scope N_scope.

(* ---- reading single values ---- *)
Lemma digit_code d : d < 10 -> N_of_ascii (ascii_of_N (48 + d)) = 48 + d.
Proof. intro H. apply N_ascii_embedding. lia. Qed.
Lemma digit_not_white d : d < 10 -> ~ white (ascii_of_N (48 + d)).
Proof. intros H W. unfold white, code in W. rewrite digit_code in W by exact H. cbn [In] in W. lia. Qed.
Lemma digit_is_digit d : d < 10 -> is_digit (ascii_of_N (48 + d)) = true.
Proof. intro H. apply is_digit_range. rewrite digit_code by exact H. lia. Qed.
Definition text_of (ds : list N) : bytes := map (fun d => ascii_of_N (48 + d)) ds.
Lemma take_digits_text ds : Forall (fun d => d < 10) ds -> take_digits (text_of ds) = text_of ds.
Proof. induction 1 as [|d ds H _ IH]; [reflexivity|]. cbn [text_of map take_digits]. rewrite digit_is_digit by exact H. unfold text_of in IH. rewrite IH. reflexivity. Qed.
Lemma num_prefix_text ds : Forall (fun d => d < 10) ds -> forall a, num_prefix a (text_of ds) = fold_left (fun a d => 10 * a + d) ds a.
Proof.
  induction 1 as [|d ds H _ IH]; intro a; [reflexivity|]. cbn [text_of map num_prefix fold_left]. rewrite digit_is_digit by exact H.
  rewrite digit_code by exact H. unfold text_of in IH. rewrite <- IH. f_equal. lia.
Qed.
Lemma sign_text ds : ds <> [] -> Forall (fun d => d < 10) ds -> take_sign (skip_space (text_of ds)) = (false, text_of ds).
Proof.
  intros N F. destruct ds as [|d ds]; [congruence|]. inversion F as [|? ? H _]; subst. cbn [text_of map].
  rewrite skip_space_stop by (apply digit_not_white; exact H). cbn [take_sign].
  assert (forall x, code x < 48 -> Ascii.eqb (ascii_of_N (48 + d)) x = false) as K.
  { intros x X. apply Ascii.eqb_neq. intro E. apply (f_equal N_of_ascii) in E. rewrite digit_code in E by exact H. unfold code in X. lia. }
  rewrite !K by (unfold code; cbn; lia). reflexivity.
Qed.
Lemma read_size_number t n : number t n -> n < 2 ^ 64 -> read_size t = Some n.
Proof.
  intros [ds [N [F [-> ->]]]] L. fold (text_of ds). unfold read_size. rewrite sign_text, take_digits_text by assumption.
  destruct (text_of ds) eqn:E; [destruct ds; [congruence|discriminate]|]. rewrite <- E.
  cbv zeta. rewrite num_prefix_text by exact F. assert ((2 ^ 64 <=? fold_left (fun a d => 10 * a + d) ds 0) = false) as X by (apply N.leb_gt; exact L).
  rewrite X. reflexivity.
Qed.
Lemma read_int_number t n : number t n -> n < 2 ^ 31 -> read_int t = Some (Z.of_N n).
Proof.
  intros [ds [N [F [-> ->]]]] L. fold (text_of ds). unfold read_int. rewrite sign_text, take_digits_text by assumption.
  destruct (text_of ds) eqn:E; [destruct ds; [congruence|discriminate]|]. rewrite <- E.
  cbv zeta. rewrite num_prefix_text by exact F. set (n := fold_left (fun a d => 10 * a + d) ds 0) in *.
  assert (((Z.of_N n <? - 2 ^ 31)%Z || (2 ^ 31 - 1 <? Z.of_N n)%Z) = false) as X.
  { apply orb_false_iff. split; [apply Z.ltb_ge|apply Z.ltb_ge]; lia. }
  rewrite X. reflexivity.
Qed.
Lemma number_not_empty t n : number t n -> skip_space t <> [].
Proof. intros [ds [N [F [-> _]]]]. destruct ds as [|d ds]; [congruence|]. inversion F; subst. cbn [map]. rewrite skip_space_stop by (apply digit_not_white; assumption). discriminate. Qed.
Lemma read_string_word t : word t -> read_string t = Some t.
Proof.
  intros [N F]. destruct t as [|c t]; [congruence|]. inversion F; subst. unfold read_string, read_word.
  rewrite skip_space_stop by assumption. pose proof (take_word_word (c :: t) [] F (or_introl eq_refl)) as X. rewrite app_nil_r in X. rewrite X. reflexivity.
Qed.
Lemma read_char_one x : ~ white x -> read_char [x] = Some x.
Proof. intro H. unfold read_char. rewrite skip_space_stop by exact H. reflexivity. Qed.
Lemma read_bool_truth t x : truth t x -> read_bool t = Some x.
Proof. intros ->. destruct x; reflexivity. Qed.

(* ---- names ---- *)
Lemma hash_named t : In t hashes -> read_string t = Some t /\ forall o, named HASHES set_hash o t = Some (set_hash o t).
Proof.
  intro H. unfold hashes in H. cbn [In] in H.
  repeat (destruct H as [<-|H]; [split; [vm_compute; reflexivity|intro o; reflexivity]|]). destruct H.
Qed.
Lemma gen_named t : In t generators -> read_string t = Some t /\ forall o, named GENERATORS set_gen o t = Some (set_gen o t).
Proof.
  intro H. unfold generators in H. cbn [In] in H.
  repeat (destruct H as [<-|H]; [split; [vm_compute; reflexivity|intro o; reflexivity]|]). destruct H.
Qed.
Lemma level_named t d : In t (map fst levels) -> assoc DEBUG_LEVELS t = Some (lookup levels t d).
Proof.
  intro H. unfold levels in H. cbn [In map fst] in H.
  repeat (destruct H as [<-|H]; [vm_compute; reflexivity|]). destruct H.
Qed.

(* ---- steps ---- *)
Lemma step_number c k x (set : opts -> N -> opts) get o :
  says c k number x -> each x fits64 -> (forall o, set o (get o) = o) -> parse_value read_size c k (always set) o = Parsed (set o (orelse x (get o))) true.
Proof.
  intros S E G. unfold parse_value, get_value, always. destruct x as [n|]; cbn [says each orelse] in *.
  - destruct S as [t [-> T]]. rewrite (read_size_number _ _ T E). reflexivity.
  - rewrite S. cbn [parse_got]. rewrite G. reflexivity.
Qed.
Lemma step_ratio c k x (set : opts -> N -> opts) get o :
  says c k number x -> each x ratio -> (forall o, set o (get o) = o) -> parse_value read_size c k (positive set) o = Parsed (set o (orelse x (get o))) true.
Proof.
  intros S E G. unfold parse_value, get_value, positive. destruct x as [n|]; cbn [says each orelse] in *.
  - destruct S as [t [-> T]]. destruct E as [E1 E2]. rewrite (read_size_number _ _ T E2). cbn [parse_got].
    assert ((n <? 1) = false) as X by (apply N.ltb_ge; lia). rewrite X. reflexivity.
  - rewrite S. cbn [parse_got]. rewrite G. reflexivity.
Qed.
Lemma step_debug c x o : says c K_DEBUG same x -> each x (fun t => In t (map fst levels)) ->
  parse_got (get_from_map DEBUG_LEVELS c K_DEBUG) (always set_debug) o = Parsed (set_debug o (match x with Some t => lookup levels t (o_debug o) | None => o_debug o end)) true.
Proof.
  intros S E. unfold get_from_map, get_value, always. destruct x as [t|]; cbn [says each] in *.
  - destruct S as [t' [-> ->]]. rewrite (level_named t (o_debug o)) by exact E. reflexivity.
  - rewrite S. destruct o; reflexivity.
Qed.
Lemma step_hash c x o : says c K_HASH same x -> each x (fun t => In t hashes) -> parse_hash c o = Parsed (set_hash o (orelse x (o_hash o))) true.
Proof.
  intros S E. unfold parse_hash, parse_value, get_value. destruct x as [t|]; cbn [says each orelse] in *.
  - destruct S as [t' [-> ->]]. destruct (hash_named t E) as [R N]. rewrite R. cbn [parse_got]. rewrite N. reflexivity.
  - rewrite S. destruct o; reflexivity.
Qed.
Lemma step_gen c x o : says c K_GEN same x -> each x (fun t => In t generators) -> parse_value read_string c K_GEN (named GENERATORS set_gen) o = Parsed (set_gen o (orelse x (o_gen o))) true.
Proof.
  intros S E. unfold parse_value, get_value. destruct x as [t|]; cbn [says each orelse] in *.
  - destruct S as [t' [-> ->]]. destruct (gen_named t E) as [R N]. rewrite R. cbn [parse_got]. rewrite N. reflexivity.
  - rewrite S. destruct o; reflexivity.
Qed.
Lemma get_bool c k x : says c k truth x -> get_value read_bool c k = match x with Some a => Found a | None => NotFound end.
Proof.
  intro S. unfold get_value. destruct x as [a|]; cbn [says] in S.
  - destruct S as [t [-> T]]. rewrite (read_bool_truth _ _ T). reflexivity.
  - rewrite S. reflexivity.
Qed.
Lemma get_char c k x : says c k one_char x -> each x (fun a => ~ white a) -> get_value read_char c k = match x with Some a => Found a | None => NotFound end.
Proof.
  intros S E. unfold get_value. destruct x as [a|]; cbn [says each] in *.
  - destruct S as [t [-> ->]]. rewrite read_char_one by exact E. reflexivity.
  - rewrite S. reflexivity.
Qed.
Lemma get_int c k x : says c k number x -> each x fits31 -> get_value read_int c k = match x with Some n => Found (Z.of_N n) | None => NotFound end.
Proof.
  intros S E. unfold get_value. destruct x as [a|]; cbn [says each] in *.
  - destruct S as [t [-> T]]. rewrite (read_int_number _ _ T E). reflexivity.
  - rewrite S. reflexivity.
Qed.

Lemma step_datastore b c s o : says_where c (s_where s) -> c K_PREFIX = Some (s_prefix s) -> c K_BASE = Some (s_base s) -> says c K_POST same (s_post s) ->
  match s_where s with InMemory => True | InLevel _ => b_leveldb b = true | InRocks _ => b_rocksdb b = true end ->
  word (s_prefix s) -> word (s_base s) -> each (s_post s) word ->
  parse_datastore b c o = Parsed (set_ds (set_names3 o (s_prefix s) (s_base s) (orelse (s_post s) (o_post o)))
    (match s_where s with InMemory => DsMemory | InLevel x => DsLevel (orelse x true) | InRocks x => DsRocks (orelse x true) end)) true.
Proof.
  intros W P B T BB WP WB WT. unfold parse_datastore.
  assert (get_value read_string c K_PREFIX = Found (s_prefix s)) as G1 by (unfold get_value; rewrite P, read_string_word by exact WP; reflexivity).
  assert (get_value read_string c K_BASE = Found (s_base s)) as G2 by (unfold get_value; rewrite B, read_string_word by exact WB; reflexivity).
  assert (get_value read_string c K_POST = match s_post s with Some t => Found t | None => NotFound end) as G3.
  { unfold get_value. destruct (s_post s) as [t|]; cbn [says each] in *; [|rewrite T; reflexivity]. destruct T as [t' [-> ->]]. rewrite read_string_word by exact WT. reflexivity. }
  assert (get_from_map (DATASTORES b) c K_DS = Found (match s_where s with InMemory => TMemory | InLevel _ => TLevel | InRocks _ => TRocks end)) as G4.
  { unfold get_from_map, get_value, K_DS. destruct (s_where s) as [|x|x]; cbn [says_where] in W.
    - rewrite W. reflexivity.
    - destruct W as [W _]. rewrite W. unfold DATASTORES. rewrite BB. reflexivity.
    - destruct W as [W _]. rewrite W. unfold DATASTORES. rewrite BB. destruct (b_leveldb b); reflexivity. }
  rewrite G4, G1, G2, G3. cbv zeta.
  destruct (s_where s) as [|x|x]; cbn [says_where] in W.
  - destruct (s_post s); reflexivity.
  - destruct W as [_ W]. change (bstr "LEVELDB_CREATE_IF_MISSING") with K_LEVELDB in W. rewrite (get_bool _ _ _ W). destruct x, (s_post s); reflexivity.
  - destruct W as [_ W]. change (bstr "ROCKSDB_CREATE_IF_MISSING") with K_ROCKSDB in W. rewrite (get_bool _ _ _ W). destruct x, (s_post s); reflexivity.
Qed.
Lemma step_transport b c h o : says_how c h ->
  match h with
  | ByNull => True
  | ByMpi n x => fits64 n /\ each x (fun t => In t hashes)
  | ByThallium _ n x => b_thallium b = true /\ each n fits31 /\ each x (fun t => In t hashes)
  end ->
  parse_transport b c o = Parsed (set_hash (set_tr o (match h with ByNull => TrNull | ByMpi n _ => TrMpi n | ByThallium m n _ => TrThallium m (match n with Some n => Z.of_N n | None => -1 end)%Z end))
    (match h with ByNull => bstr "RANK_MOD_DATASTORES" | ByMpi _ x => orelse x (o_hash o) | ByThallium _ _ x => orelse x (o_hash o) end)) true.
Proof.
  intros S V. unfold parse_transport. destruct h as [|n x|m n x]; cbn [says_how] in S.
  - unfold get_from_map, get_value, K_TRANSPORT. rewrite S. reflexivity.
  - destruct S as [S1 [S2 S3]]. destruct V as [V1 V2]. unfold get_from_map, get_value, K_TRANSPORT. rewrite S1. cbn [assoc TRANSPORTS].
    change (bstr "NUM_LISTENERS") with K_LISTENERS in S2. cbn [says] in S2. destruct S2 as [t [E T]].
    change (beqb (bstr "MPI") (bstr "NULL")) with false. change (beqb (bstr "MPI") (bstr "MPI")) with true. cbv iota.
    rewrite E, (read_size_number _ _ T V1). rewrite (step_hash c x) by assumption. reflexivity.
  - destruct S as [S1 [S2 [S3 S4]]]. destruct V as [V1 [V2 V3]]. unfold get_from_map, get_value, K_TRANSPORT. rewrite S1. unfold TRANSPORTS. rewrite V1.
    change (assoc ((bstr "NULL", TNull) :: (bstr "MPI", TMpi) :: [(bstr "THALLIUM", TThallium)]) (bstr "THALLIUM")) with (Some TThallium). cbv iota.
    change (bstr "THALLIUM_MODULE") with K_MODULE in S2. rewrite S2. cbv zeta.
    change (bstr "THALLIUM_THREAD_COUNT") with K_THREADS in S3.
    assert ((match c K_THREADS with Some v => read_threads v | None => (-1)%Z end) = (match n with Some n => Z.of_N n | None => (-1)%Z end)) as X.
    { destruct n as [n|]; cbn [says each] in *; [|rewrite S3; reflexivity]. destruct S3 as [t [-> T]]. unfold read_threads.
      rewrite (read_int_number _ _ T V2). destruct (skip_space t) eqn:Q; [exfalso; exact (number_not_empty _ _ T Q)|reflexivity]. }
    rewrite X.
    assert (((match n with Some n => Z.of_N n | None => (-1)%Z end) <? -1)%Z = false) as Y by (apply Z.ltb_ge; destruct n; lia).
    rewrite Y. rewrite (step_hash c x) by assumption. reflexivity.
Qed.
Lemma step_group size c o : c K_GROUP = Some (bstr "ALL") -> parse_endpointgroup size c o = Parsed (set_group o (map Z.of_nat (seq 0 (N.to_nat size)))) true.
Proof. intro E. unfold parse_endpointgroup. rewrite E. reflexivity. Qed.
Lemma schar_value x : schar x = char_value x.
Proof. unfold schar, char_value, code. cbv zeta. destruct (N.ltb_spec (N_of_ascii x) 128); destruct (Z.leb_spec 128 (Z.of_N (N_of_ascii x))); lia. Qed.
Lemma to_size_small n : n < 2 ^ 31 -> to_size (Z.of_N n) = n.
Proof. intro H. unfold to_size. rewrite Z.mod_small by lia. apply N2Z.id. Qed.
Lemma step_elen c s o : says c K_NEG one_char (s_neg s) -> says c K_POS one_char (s_pos s) -> says c K_FLOAT number (s_float s) -> says c K_DOUBLE number (s_double s) ->
  each (s_neg s) (fun x => ~ white x) -> each (s_pos s) (fun x => ~ white x) -> each (s_float s) fits31 -> each (s_double s) fits31 ->
  (char_value (orelse (s_neg s) "/"%char) < char_value (orelse (s_pos s) ":"%char))%Z -> orelse (s_float s) 8 < orelse (s_double s) 16 ->
  parse_elen c o = Parsed (set_elen o (orelse (s_neg s) "/"%char) (orelse (s_pos s) ":"%char) (orelse (s_float s) 8) (orelse (s_double s) 16)) true.
Proof.
  intros S1 S2 S3 S4 V1 V2 V3 V4 L1 L2. unfold parse_elen.
  assert (forall k x d f, says c k one_char x -> each x (fun x => ~ white x) -> with_default c o read_char k d f = f (orelse x d)) as K1.
  { intros k x d f S V. unfold with_default. rewrite (get_char _ _ _ S V). destruct x; reflexivity. }
  assert (forall k x d f, says c k number x -> each x fits31 -> with_default c o read_int k (Z.of_N d) f = f (Z.of_N (orelse x d))) as K2.
  { intros k x d f S V. unfold with_default. rewrite (get_int _ _ _ S V). destruct x; reflexivity. }
  rewrite (K1 _ _ _ _ S1 V1), (K1 _ _ _ _ S2 V2). change 8%Z with (Z.of_N 8). change 16%Z with (Z.of_N 16).
  rewrite (K2 _ _ _ _ S3 V3), (K2 _ _ _ _ S4 V4).
  change NEG_SYMBOL with "/"%char. change POS_SYMBOL with ":"%char.
  rewrite !schar_value.
  assert ((char_value (orelse (s_pos s) ":"%char) <=? char_value (orelse (s_neg s) "/"%char))%Z = false) as X by (apply Z.leb_gt; exact L1).
  assert ((Z.of_N (orelse (s_double s) 16%N) <=? Z.of_N (orelse (s_float s) 8%N))%Z = false) as Y by (apply Z.leb_gt; lia).
  rewrite X, Y.
  assert (fits31 (orelse (s_float s) 8)) as F1 by (destruct (s_float s); cbn [orelse each] in *; [assumption|unfold fits31; lia]).
  assert (fits31 (orelse (s_double s) 16)) as F2 by (destruct (s_double s); cbn [orelse each] in *; [assumption|unfold fits31; lia]).
  unfold fits31 in *. rewrite !to_size_small by assumption. reflexivity.
Qed.

(* names separated by commas *)
Lemma getlines_part x : forall cur s, ~ In ","%char x -> getlines ","%char cur (x ++ s) = getlines ","%char (cur ++ x) s.
Proof.
  induction x as [|c x IH]; intros cur s H; cbn [app getlines]; [rewrite app_nil_r; reflexivity|].
  assert (Ascii.eqb c ","%char = false) as E by (apply Ascii.eqb_neq; intro X; apply H; left; exact X).
  rewrite E, IH, <- app_assoc; [reflexivity|]. intro X. apply H. right. exact X.
Qed.
Lemma getlines_commas l : forall cur, Forall (fun x => x <> [] /\ ~ In ","%char x) l -> cur <> [] ->
  getlines ","%char cur (flat_map (fun y => ","%char :: y) l) = cur :: l.
Proof.
  induction l as [|y l IH]; intros cur F N; cbn [flat_map getlines].
  - destruct cur; [congruence|reflexivity].
  - inversion F as [|? ? [Y1 Y2] F']; subst. cbn [app getlines]. rewrite Ascii.eqb_refl, getlines_part by exact Y2. cbn [app]. rewrite IH by assumption. reflexivity.
Qed.
Lemma getlines_names t l : commas t l -> getlines ","%char [] t = l.
Proof.
  intros [_ [F [x [l' [E ->]]]]]. subst l. inversion F as [|? ? [X1 X2] F']; subst.
  rewrite getlines_part by exact X2. exact (getlines_commas l' x F' X1).
Qed.
Lemma step_histogram c s o : says c K_FIRST number (s_first s) -> says c K_GEN same (s_gen s) -> says c K_READ truth (s_read s) -> says c K_WRITE truth (s_write s) -> says c K_TRACK commas (s_track s) ->
  each (s_first s) fits64 -> each (s_gen s) (fun t => In t generators) ->
  parse_histogram c o = Parsed (set_names (set_rw (set_gen (set_first o (orelse (s_first s) (o_first o))) (orelse (s_gen s) (o_gen o))) (orelse (s_read s) true) (orelse (s_write s) true))
    (match s_track s with None => o_names o | Some l => fold_left (fun a n => if existsb (beqb n) a then a else a ++ [n]) l (o_names o) end)) true.
Proof.
  intros S1 S2 S3 S4 S5 V1 V2. unfold parse_histogram.
  rewrite (step_number c K_FIRST (s_first s) set_first o_first) by (try assumption; intros []; reflexivity). cbn [and_then].
  rewrite (step_gen c (s_gen s)) by assumption. cbn [and_then].
  rewrite (get_bool _ _ _ S3), (get_bool _ _ _ S4).
  assert (match c K_TRACK with None => o_names o | Some v => fold_left add_name (getlines ","%char [] v) (o_names o) end =
          match s_track s with None => o_names o | Some l => fold_left (fun a n => if existsb (beqb n) a then a else a ++ [n]) l (o_names o) end) as T.
  { destruct (s_track s) as [l|]; cbn [says] in S5; [|rewrite S5; reflexivity]. destruct S5 as [t [E T]]. rewrite E, (getlines_names _ _ T). reflexivity. }
  rewrite <- T. destruct (s_read s) as [r|], (s_write s) as [w|]; cbv zeta; destruct (c K_TRACK); reflexivity.
Qed.

Lemma fill_says b size c s o : config_says c s -> valid b s -> fill_options b size c o = Parsed (effect size s o) true.
Proof.
  intros S V. unfold config_says in S. destruct S as [S1 [S2 [S3 [S4 [S5 [S6 [S7 [S8 [S9 [S10 [S11 [S12 [S13 [S14 [S15 [S16 [S17 [S18 [S19 [S20 [S21 S22]]]]]]]]]]]]]]]]]]]]].
  unfold valid in V. destruct V as [V1 [V2 [V3 [V4 [V5 [V6 [V7 [V8 [V9 [V10 [V11 [V12 [V13 [V14 [V15 [V16 [V17 [V18 [V19 V20]]]]]]]]]]]]]]]]]]].
  unfold fill_options.
  rewrite (step_debug c (s_debug s)) by assumption. cbn [and_then].
  rewrite (step_ratio c K_CLIENT (s_client s) set_client o_client) by (try assumption; intros []; reflexivity). cbn [and_then].
  rewrite (step_ratio c K_SERVER (s_server s) set_server o_server) by (try assumption; intros []; reflexivity). cbn [and_then].
  rewrite (step_ratio c K_PER (s_per s) set_per o_per) by (try assumption; intros []; reflexivity). cbn [and_then].
  rewrite (step_datastore b c s) by assumption. cbn [and_then].
  rewrite (step_transport b c (s_how s)) by assumption. cbn [and_then].
  rewrite step_group by assumption. cbn [and_then].
  rewrite (step_number c K_ASYNC (s_async s) set_async o_async) by (try assumption; intros []; reflexivity). cbn [and_then].
  rewrite (step_number c K_OPS (s_ops s) set_ops o_ops) by (try assumption; intros []; reflexivity). cbn [and_then].
  rewrite (step_number c K_SIZE (s_size s) set_size o_size) by (try assumption; intros []; reflexivity). cbn [and_then].
  rewrite (step_elen c s) by assumption. cbn [and_then].
  rewrite (step_histogram c s) by assumption.
  destruct o; reflexivity.
Qed.
