(* Settings, how a configuration writes them down, and what they mean. *)
From Verif Require Import ModelBytes ModelElen ModelConf ModelOptions SpecConf.
Local Open Scope N_scope.

(* decimal numbers *)
Definition number (text : bytes) (n : N) : Prop :=
  exists ds, ds <> [] /\ Forall (fun d => d < 10) ds /\ text = map (fun d => ascii_of_N (48 + d)) ds /\ n = fold_left (fun a d => 10 * a + d) ds 0.
(* one word *)
Definition word (text : bytes) : Prop := text <> [] /\ Forall (fun c => ~ white c) text.
Definition truth (text : bytes) (x : bool) : Prop := text = (if x then bstr "true" else bstr "false").

Inductive where_to := InMemory | InLevel (create : option bool) | InRocks (create : option bool).
Inductive how := ByNull | ByMpi (listeners : N) (hash : option bytes) | ByThallium (module : bytes) (threads : option N) (hash : option bytes).
(* the settings of a configuration; everything optional may be missing *)
Record settings := mkSettings {
  s_debug : option bytes; s_client : option N; s_server : option N; s_per : option N;
  s_where : where_to; s_prefix : bytes; s_base : bytes; s_post : option bytes;
  s_how : how; s_async : option N; s_ops : option N; s_size : option N;
  s_neg : option byte; s_pos : option byte; s_float : option N; s_double : option N;
  s_first : option N; s_gen : option bytes; s_read : option bool; s_write : option bool; s_track : option (list bytes)
}.

(* the levels and the names that are known *)
Definition levels : list (bytes * N) :=
  [(bstr "EMERGENCY", 7 * 2 ^ 20); (bstr "ALERT", 6 * 2 ^ 20); (bstr "CRITICAL", 5 * 2 ^ 20); (bstr "ERROR", 4 * 2 ^ 20); (bstr "WARNING", 3 * 2 ^ 20);
   (bstr "NOTICE", 2 * 2 ^ 20); (bstr "INFO", 2 ^ 20); (bstr "DEBUG", 15 * 2 ^ 16); (bstr "DEBUG0", 2 ^ 19); (bstr "DEBUG1", 2 ^ 18); (bstr "DEBUG2", 2 ^ 17); (bstr "DEBUG3", 2 ^ 16)].
Definition hashes : list bytes :=
  [bstr "DATASTORE_0"; bstr "RANK_MOD_DATASTORES"; bstr "SUM_MOD_DATASTORES"; bstr "UTHASH_BER"; bstr "UTHASH_SAX"; bstr "UTHASH_FNV"; bstr "UTHASH_OAT"; bstr "UTHASH_JEN"; bstr "UTHASH_SFH"].
Definition generators : list bytes :=
  [bstr "10_BUCKETS"; bstr "SQUARE_ROOT_CHOICE"; bstr "STURGES_FORMULA"; bstr "RICE_RULE"; bstr "SCOTTS_NORMAL_REFERENCE_RULE"; bstr "UNIFORM_LOG2"; bstr "UNIFORM_LOG10"].

(* a text that says a, or no text *)
Definition says {A : Type} (c : config) (k : bytes) (R : bytes -> A -> Prop) (x : option A) : Prop :=
  match x with None => c k = None | Some a => exists t, c k = Some t /\ R t a end.
Definition same (t a : bytes) : Prop := t = a.
Definition one_char (t : bytes) (c : byte) : Prop := t = [c].
Definition commas (t : bytes) (l : list bytes) : Prop :=
  l <> [] /\ Forall (fun x => x <> [] /\ ~ In ","%char x) l /\ exists x l', l = x :: l' /\ t = x ++ flat_map (fun y => ","%char :: y) l'.
Definition says_where (c : config) (w : where_to) : Prop :=
  match w with
  | InMemory => c (bstr "DATASTORE") = Some (bstr "IN_MEMORY")
  | InLevel x => c (bstr "DATASTORE") = Some (bstr "LEVELDB") /\ says c (bstr "LEVELDB_CREATE_IF_MISSING") truth x
  | InRocks x => c (bstr "DATASTORE") = Some (bstr "ROCKSDB") /\ says c (bstr "ROCKSDB_CREATE_IF_MISSING") truth x
  end.
Definition says_how (c : config) (h : how) : Prop :=
  match h with
  | ByNull => c (bstr "TRANSPORT") = Some (bstr "NULL")
  | ByMpi n x => c (bstr "TRANSPORT") = Some (bstr "MPI") /\ says c (bstr "NUM_LISTENERS") number (Some n) /\ says c (bstr "HASH") same x
  | ByThallium m n x =>
      c (bstr "TRANSPORT") = Some (bstr "THALLIUM") /\ c (bstr "THALLIUM_MODULE") = Some m /\
      says c (bstr "THALLIUM_THREAD_COUNT") number n /\ says c (bstr "HASH") same x
  end.
(* the configuration says exactly these settings, and all ranks are endpoints *)
Definition config_says (c : config) (s : settings) : Prop :=
  says c (bstr "DEBUG_LEVEL") same (s_debug s) /\ says c (bstr "CLIENT_RATIO") number (s_client s) /\
  says c (bstr "SERVER_RATIO") number (s_server s) /\ says c (bstr "DATASTORES_PER_SERVER") number (s_per s) /\
  says_where c (s_where s) /\ c (bstr "DATASTORE_PREFIX") = Some (s_prefix s) /\ c (bstr "DATASTORE_BASENAME") = Some (s_base s) /\
  says c (bstr "DATASTORE_POSTFIX") same (s_post s) /\ says_how c (s_how s) /\ c (bstr "ENDPOINT_GROUP") = Some (bstr "ALL") /\
  says c (bstr "START_ASYNC_PUTS_AT") number (s_async s) /\ says c (bstr "MAXIMUM_OPS_PER_REQUEST") number (s_ops s) /\
  says c (bstr "MAXIMUM_SIZE_PER_REQUEST") number (s_size s) /\
  says c (bstr "ELEN_NEG_SYMBOL") one_char (s_neg s) /\ says c (bstr "ELEN_POS_SYMBOL") one_char (s_pos s) /\
  says c (bstr "ELEN_ENCODE_FLOAT_PRECISION") number (s_float s) /\ says c (bstr "ELEN_ENCODE_DOUBLE_PRECISION") number (s_double s) /\
  says c (bstr "HISTOGRAM_FIRST_N") number (s_first s) /\ says c (bstr "HISTOGRAM_BUCKET_GEN_NAME") same (s_gen s) /\
  says c (bstr "HISTOGRAM_READ_EXISTING") truth (s_read s) /\ says c (bstr "HISTOGRAM_WRITE_AT_EXIT") truth (s_write s) /\
  says c (bstr "HISTOGRAM_TRACK_PREDICATES") commas (s_track s).

Definition each {A : Type} (x : option A) (P : A -> Prop) : Prop := match x with Some a => P a | None => True end.
Definition orelse {A : Type} (x : option A) (d : A) : A := match x with Some a => a | None => d end.
Definition fits64 (n : N) : Prop := n < 2 ^ 64.
Definition ratio (n : N) : Prop := 0 < n < 2 ^ 64.
Definition fits31 (n : N) : Prop := n < 2 ^ 31.
(* the value of a char, which is signed *)
Definition char_value (c : byte) : Z := if code c <? 128 then Z.of_N (code c) else (Z.of_N (code c) - 256)%Z.
(* which settings are valid, given what the library was built with *)
Definition valid (b : build) (s : settings) : Prop :=
  each (s_debug s) (fun t => In t (map fst levels)) /\ each (s_client s) ratio /\ each (s_server s) ratio /\ each (s_per s) ratio /\
  (match s_where s with InMemory => True | InLevel _ => b_leveldb b = true | InRocks _ => b_rocksdb b = true end) /\
  word (s_prefix s) /\ word (s_base s) /\ each (s_post s) word /\
  (match s_how s with
   | ByNull => True
   | ByMpi n h => fits64 n /\ each h (fun t => In t hashes)
   | ByThallium _ n h => b_thallium b = true /\ each n fits31 /\ each h (fun t => In t hashes)
   end) /\
  each (s_async s) fits64 /\ each (s_ops s) fits64 /\ each (s_size s) fits64 /\
  each (s_neg s) (fun x => ~ white x) /\ each (s_pos s) (fun x => ~ white x) /\ each (s_float s) fits31 /\ each (s_double s) fits31 /\
  (char_value (orelse (s_neg s) "/"%char) < char_value (orelse (s_pos s) ":"%char))%Z /\ orelse (s_float s) 8 < orelse (s_double s) 16 /\
  each (s_first s) fits64 /\ each (s_gen s) (fun t => In t generators).

Fixpoint lookup (l : list (bytes * N)) (t : bytes) (d : N) : N :=
  match l with [] => d | (k, n) :: l' => if beqb t k then n else lookup l' t d end.
(* what the options are when the settings take effect; some settings have a meaning when they are missing *)
Definition effect (size : N) (s : settings) (o : opts) : opts := {|
  o_debug := match s_debug s with Some t => lookup levels t (o_debug o) | None => o_debug o end;
  o_client := orelse (s_client s) (o_client o); o_server := orelse (s_server s) (o_server o); o_per := orelse (s_per s) (o_per o);
  o_prefix := s_prefix s; o_base := s_base s; o_post := orelse (s_post s) (o_post o);
  o_ds := Some (match s_where s with InMemory => DsMemory | InLevel x => DsLevel (orelse x true) | InRocks x => DsRocks (orelse x true) end);
  o_tr := Some (match s_how s with ByNull => TrNull | ByMpi n _ => TrMpi n | ByThallium m n _ => TrThallium m (match n with Some n => Z.of_N n | None => -1 end)%Z end);
  o_hash := match s_how s with ByNull => bstr "RANK_MOD_DATASTORES" | ByMpi _ h => orelse h (o_hash o) | ByThallium _ _ h => orelse h (o_hash o) end;
  o_group := map Z.of_nat (seq 0 (N.to_nat size));
  o_async := orelse (s_async s) (o_async o); o_ops := orelse (s_ops s) (o_ops o); o_size := orelse (s_size s) (o_size o);
  o_neg := orelse (s_neg s) "/"%char; o_pos := orelse (s_pos s) ":"%char; o_float := orelse (s_float s) 8; o_double := orelse (s_double s) 16;
  o_first := orelse (s_first s) (o_first o); o_gen := orelse (s_gen s) (o_gen o); o_read := orelse (s_read s) true; o_write := orelse (s_write s) true;
  o_names := match s_track s with
             | None => o_names o
             | Some l => fold_left (fun a n => if existsb (beqb n) a then a else a ++ [n]) l (o_names o)
             end
|}.

(* the configuration that the sources add up to *)
Definition reads (w : world) (rs : list reader) (c : config) : Prop := forall k v, c k = Some v <-> sources_say w rs k v.
(* the defaults that are meant *)
Definition default_settings (b : build) : settings := {|
  s_debug := Some (bstr "CRITICAL"); s_client := Some 2; s_server := Some 1; s_per := Some 1;
  s_where := if b_leveldb b then InLevel (Some true) else if b_rocksdb b then InRocks (Some true) else InMemory;
  s_prefix := bstr "."; s_base := bstr "hxhim"; s_post := None; s_how := ByNull;
  s_async := Some 0; s_ops := Some 128; s_size := Some (2 ^ 20); s_neg := None; s_pos := None; s_float := None; s_double := None;
  s_first := Some 10; s_gen := Some (bstr "10_BUCKETS"); s_read := None; s_write := None; s_track := None |}.
(* the options that are set after the datastore *)
Definition same_rest (o o' : opts) : Prop :=
  o_prefix o' = o_prefix o /\ o_base o' = o_base o /\ o_post o' = o_post o /\ o_ds o' = o_ds o /\ o_tr o' = o_tr o /\ o_hash o' = o_hash o /\ o_group o' = o_group o /\
  o_async o' = o_async o /\ o_ops o' = o_ops o /\ o_size o' = o_size o /\ o_neg o' = o_neg o /\ o_pos o' = o_pos o /\ o_float o' = o_float o /\ o_double o' = o_double o /\
  o_first o' = o_first o /\ o_gen o' = o_gen o /\ o_read o' = o_read o /\ o_write o' = o_write o /\ o_names o' = o_names o.
(* the same files, another value of one environment variable *)
Definition with_env (w : world) (e v : bytes) : world := mkWorld (w_files w) (fun x => if beqb x e then Some v else w_env w x).

(* how generously numbers are read: blanks and a sign in front, anything behind the digits; a minus sign wraps around *)
Definition digit_char (c : byte) : Prop := 48 <= code c <= 57.
Definition loose_number (v : bytes) (n : N) : Prop :=
  exists ws sign digits rest m, v = ws ++ sign ++ digits ++ rest /\ Forall white ws /\ number digits m /\ m < 2 ^ 64 /\
    (forall c t, rest = c :: t -> ~ digit_char c) /\
    ((sign = [] \/ sign = ["+"%char]) /\ n = m \/ sign = ["-"%char] /\ n = (2 ^ 64 - m) mod 2 ^ 64).
(* the option is what the configuration says, or what it was *)
Definition taken (c : config) (k : bytes) (old new : N) : Prop :=
  match c k with Some v => loose_number v new | None => new = old end.

(* a text that does not say how many threads to use, and the number that is used: blanks; no digits; too many; a negative number *)
Definition no_count (v : bytes) (t : Z) : Prop :=
  (Forall white v /\ t = (-1)%Z) \/
  (exists ws sign rest, v = ws ++ sign ++ rest /\ Forall white ws /\ sign ++ rest <> [] /\
     ((sign = ["+"%char] \/ sign = ["-"%char]) /\ (forall c r, rest = c :: r -> ~ digit_char c) \/
      sign = [] /\ (forall c r, rest = c :: r -> ~ digit_char c /\ ~ white c /\ c <> "+"%char /\ c <> "-"%char)) /\ t = 0%Z) \/
  (exists ws sign digits n rest, v = ws ++ sign ++ digits ++ rest /\ Forall white ws /\ (sign = [] \/ sign = ["+"%char]) /\ number digits n /\
     (forall c r, rest = c :: r -> ~ digit_char c) /\ 2 ^ 31 <= n /\ t = 2147483647%Z) \/
  (exists ws digits n rest, v = ws ++ "-"%char :: digits ++ rest /\ Forall white ws /\ number digits n /\
     (forall c r, rest = c :: r -> ~ digit_char c) /\ 1 <= n /\ t = (-1)%Z).
(* the settings with this many threads *)
Definition with_threads (s : settings) (t : option N) : settings := {|
  s_debug := s_debug s; s_client := s_client s; s_server := s_server s; s_per := s_per s; s_where := s_where s; s_prefix := s_prefix s; s_base := s_base s;
  s_post := s_post s; s_how := match s_how s with ByThallium m _ h => ByThallium m t h | h => h end; s_async := s_async s; s_ops := s_ops s; s_size := s_size s;
  s_neg := s_neg s; s_pos := s_pos s; s_float := s_float s; s_double := s_double s; s_first := s_first s; s_gen := s_gen s; s_read := s_read s; s_write := s_write s;
  s_track := s_track s |}.
(* -1 for a missing number *)
Definition count_of (t : option N) : Z := match t with Some n => Z.of_N n | None => (-1)%Z end.
