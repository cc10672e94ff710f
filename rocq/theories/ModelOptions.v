(* Configurations become options of a session: src/hxhim/config.cpp, include/hxhim/config.hpp, src/hxhim/options.cpp.
   The session exists and is not running, and its communicator is valid, so that the first test of every hxhim_set function passes. *)
From Verif Require Import ModelBytes ModelElen ModelConf.
Local Open Scope N_scope.

(* what the library was built with: HXHIM_HAVE_LEVELDB, HXHIM_HAVE_ROCKSDB, HXHIM_HAVE_THALLIUM *)
Record build := mkBuild { b_leveldb : bool; b_rocksdb : bool; b_thallium : bool }.

(* the keys: config.hpp:36-89 *)
Definition K_DEBUG := bstr "DEBUG_LEVEL".
Definition K_CLIENT := bstr "CLIENT_RATIO".
Definition K_SERVER := bstr "SERVER_RATIO".
Definition K_PER := bstr "DATASTORES_PER_SERVER".
Definition K_DS := bstr "DATASTORE".
Definition K_PREFIX := bstr "DATASTORE_PREFIX".
Definition K_BASE := bstr "DATASTORE_BASENAME".
Definition K_POST := bstr "DATASTORE_POSTFIX".
Definition K_LEVELDB := bstr "LEVELDB_CREATE_IF_MISSING".
Definition K_ROCKSDB := bstr "ROCKSDB_CREATE_IF_MISSING".
Definition K_HASH := bstr "HASH".
Definition K_TRANSPORT := bstr "TRANSPORT".
Definition K_LISTENERS := bstr "NUM_LISTENERS".
Definition K_MODULE := bstr "THALLIUM_MODULE".
Definition K_THREADS := bstr "THALLIUM_THREAD_COUNT".
Definition K_GROUP := bstr "ENDPOINT_GROUP".
Definition K_ASYNC := bstr "START_ASYNC_PUTS_AT".
Definition K_OPS := bstr "MAXIMUM_OPS_PER_REQUEST".
Definition K_SIZE := bstr "MAXIMUM_SIZE_PER_REQUEST".
Definition K_FIRST := bstr "HISTOGRAM_FIRST_N".
Definition K_GEN := bstr "HISTOGRAM_BUCKET_GEN_NAME".
Definition K_TRACK := bstr "HISTOGRAM_TRACK_PREDICATES".
Definition K_READ := bstr "HISTOGRAM_READ_EXISTING".
Definition K_WRITE := bstr "HISTOGRAM_WRITE_AT_EXIT".
Definition K_NEG := bstr "ELEN_NEG_SYMBOL".
Definition K_POS := bstr "ELEN_POS_SYMBOL".
Definition K_FLOAT := bstr "ELEN_ENCODE_FLOAT_PRECISION".
Definition K_DOUBLE := bstr "ELEN_ENCODE_DOUBLE_PRECISION".

(* config.hpp:94-107, mlog2.h:50-65 *)
Definition DEBUG_LEVELS : list (bytes * N) :=
  [(bstr "EMERGENCY", 0x700000); (bstr "ALERT", 0x600000); (bstr "CRITICAL", 0x500000); (bstr "ERROR", 0x400000); (bstr "WARNING", 0x300000);
   (bstr "NOTICE", 0x200000); (bstr "INFO", 0x100000); (bstr "DEBUG", 0xf0000); (bstr "DEBUG0", 0x80000); (bstr "DEBUG1", 0x40000);
   (bstr "DEBUG2", 0x20000); (bstr "DEBUG3", 0x10000)].
Inductive ds_type := TMemory | TLevel | TRocks.
(* config.hpp:112-120 *)
Definition DATASTORES (b : build) : list (bytes * ds_type) :=
  (bstr "IN_MEMORY", TMemory) :: (if b_leveldb b then [(bstr "LEVELDB", TLevel)] else []) ++ (if b_rocksdb b then [(bstr "ROCKSDB", TRocks)] else []).
(* config.hpp:125-135; a hash function stands for itself by its name *)
Definition HASHES : list (bytes * unit) :=
  map (fun s => (bstr s, tt)) ["DATASTORE_0"; "RANK_MOD_DATASTORES"; "SUM_MOD_DATASTORES"; "UTHASH_BER"; "UTHASH_SAX"; "UTHASH_FNV"; "UTHASH_OAT"; "UTHASH_JEN"; "UTHASH_SFH"]%string.
Inductive tr_type := TNull | TMpi | TThallium.
(* config.hpp:140-146 *)
Definition TRANSPORTS (b : build) : list (bytes * tr_type) :=
  (bstr "NULL", TNull) :: (bstr "MPI", TMpi) :: (if b_thallium b then [(bstr "THALLIUM", TThallium)] else []).
(* config.hpp:151-172: generators with their arguments, by name *)
Definition GENERATORS : list (bytes * unit) :=
  map (fun s => (bstr s, tt)) ["10_BUCKETS"; "SQUARE_ROOT_CHOICE"; "STURGES_FORMULA"; "RICE_RULE"; "SCOTTS_NORMAL_REFERENCE_RULE"; "UNIFORM_LOG2"; "UNIFORM_LOG10"]%string.

(* Datastore::Config and Transport::Options *)
Inductive ds_config := DsMemory | DsLevel (create : bool) | DsRocks (create : bool).
Inductive tr_config := TrNull | TrMpi (listeners : N) | TrThallium (module : bytes) (threads : Z).
(* the part of hxhim_private_t that the configuration fills; the set endpointgroup as a list *)
Record opts := mkOpts {
  o_debug : N; o_client : N; o_server : N; o_per : N;
  o_prefix : bytes; o_base : bytes; o_post : bytes; o_ds : option ds_config;
  o_tr : option tr_config; o_hash : bytes; o_group : list Z;
  o_async : N; o_ops : N; o_size : N;
  o_neg : byte; o_pos : byte; o_float : N; o_double : N;
  o_first : N; o_gen : bytes; o_read : bool; o_write : bool; o_names : list bytes
}.
Definition set_debug o x := mkOpts x (o_client o) (o_server o) (o_per o) (o_prefix o) (o_base o) (o_post o) (o_ds o) (o_tr o) (o_hash o) (o_group o) (o_async o) (o_ops o) (o_size o) (o_neg o) (o_pos o) (o_float o) (o_double o) (o_first o) (o_gen o) (o_read o) (o_write o) (o_names o).
Definition set_client o x := mkOpts (o_debug o) x (o_server o) (o_per o) (o_prefix o) (o_base o) (o_post o) (o_ds o) (o_tr o) (o_hash o) (o_group o) (o_async o) (o_ops o) (o_size o) (o_neg o) (o_pos o) (o_float o) (o_double o) (o_first o) (o_gen o) (o_read o) (o_write o) (o_names o).
Definition set_server o x := mkOpts (o_debug o) (o_client o) x (o_per o) (o_prefix o) (o_base o) (o_post o) (o_ds o) (o_tr o) (o_hash o) (o_group o) (o_async o) (o_ops o) (o_size o) (o_neg o) (o_pos o) (o_float o) (o_double o) (o_first o) (o_gen o) (o_read o) (o_write o) (o_names o).
Definition set_per o x := mkOpts (o_debug o) (o_client o) (o_server o) x (o_prefix o) (o_base o) (o_post o) (o_ds o) (o_tr o) (o_hash o) (o_group o) (o_async o) (o_ops o) (o_size o) (o_neg o) (o_pos o) (o_float o) (o_double o) (o_first o) (o_gen o) (o_read o) (o_write o) (o_names o).
Definition set_names3 o x y z := mkOpts (o_debug o) (o_client o) (o_server o) (o_per o) x y z (o_ds o) (o_tr o) (o_hash o) (o_group o) (o_async o) (o_ops o) (o_size o) (o_neg o) (o_pos o) (o_float o) (o_double o) (o_first o) (o_gen o) (o_read o) (o_write o) (o_names o).
Definition set_ds o x := mkOpts (o_debug o) (o_client o) (o_server o) (o_per o) (o_prefix o) (o_base o) (o_post o) (Some x) (o_tr o) (o_hash o) (o_group o) (o_async o) (o_ops o) (o_size o) (o_neg o) (o_pos o) (o_float o) (o_double o) (o_first o) (o_gen o) (o_read o) (o_write o) (o_names o).
Definition set_tr o x := mkOpts (o_debug o) (o_client o) (o_server o) (o_per o) (o_prefix o) (o_base o) (o_post o) (o_ds o) (Some x) (o_hash o) (o_group o) (o_async o) (o_ops o) (o_size o) (o_neg o) (o_pos o) (o_float o) (o_double o) (o_first o) (o_gen o) (o_read o) (o_write o) (o_names o).
Definition set_hash o x := mkOpts (o_debug o) (o_client o) (o_server o) (o_per o) (o_prefix o) (o_base o) (o_post o) (o_ds o) (o_tr o) x (o_group o) (o_async o) (o_ops o) (o_size o) (o_neg o) (o_pos o) (o_float o) (o_double o) (o_first o) (o_gen o) (o_read o) (o_write o) (o_names o).
Definition set_group o x := mkOpts (o_debug o) (o_client o) (o_server o) (o_per o) (o_prefix o) (o_base o) (o_post o) (o_ds o) (o_tr o) (o_hash o) x (o_async o) (o_ops o) (o_size o) (o_neg o) (o_pos o) (o_float o) (o_double o) (o_first o) (o_gen o) (o_read o) (o_write o) (o_names o).
Definition set_async o x := mkOpts (o_debug o) (o_client o) (o_server o) (o_per o) (o_prefix o) (o_base o) (o_post o) (o_ds o) (o_tr o) (o_hash o) (o_group o) x (o_ops o) (o_size o) (o_neg o) (o_pos o) (o_float o) (o_double o) (o_first o) (o_gen o) (o_read o) (o_write o) (o_names o).
Definition set_ops o x := mkOpts (o_debug o) (o_client o) (o_server o) (o_per o) (o_prefix o) (o_base o) (o_post o) (o_ds o) (o_tr o) (o_hash o) (o_group o) (o_async o) x (o_size o) (o_neg o) (o_pos o) (o_float o) (o_double o) (o_first o) (o_gen o) (o_read o) (o_write o) (o_names o).
Definition set_size o x := mkOpts (o_debug o) (o_client o) (o_server o) (o_per o) (o_prefix o) (o_base o) (o_post o) (o_ds o) (o_tr o) (o_hash o) (o_group o) (o_async o) (o_ops o) x (o_neg o) (o_pos o) (o_float o) (o_double o) (o_first o) (o_gen o) (o_read o) (o_write o) (o_names o).
Definition set_elen o x y z w := mkOpts (o_debug o) (o_client o) (o_server o) (o_per o) (o_prefix o) (o_base o) (o_post o) (o_ds o) (o_tr o) (o_hash o) (o_group o) (o_async o) (o_ops o) (o_size o) x y z w (o_first o) (o_gen o) (o_read o) (o_write o) (o_names o).
Definition set_first o x := mkOpts (o_debug o) (o_client o) (o_server o) (o_per o) (o_prefix o) (o_base o) (o_post o) (o_ds o) (o_tr o) (o_hash o) (o_group o) (o_async o) (o_ops o) (o_size o) (o_neg o) (o_pos o) (o_float o) (o_double o) x (o_gen o) (o_read o) (o_write o) (o_names o).
Definition set_gen o x := mkOpts (o_debug o) (o_client o) (o_server o) (o_per o) (o_prefix o) (o_base o) (o_post o) (o_ds o) (o_tr o) (o_hash o) (o_group o) (o_async o) (o_ops o) (o_size o) (o_neg o) (o_pos o) (o_float o) (o_double o) (o_first o) x (o_read o) (o_write o) (o_names o).
Definition set_rw o x y := mkOpts (o_debug o) (o_client o) (o_server o) (o_per o) (o_prefix o) (o_base o) (o_post o) (o_ds o) (o_tr o) (o_hash o) (o_group o) (o_async o) (o_ops o) (o_size o) (o_neg o) (o_pos o) (o_float o) (o_double o) (o_first o) (o_gen o) x y (o_names o).
Definition set_names o x := mkOpts (o_debug o) (o_client o) (o_server o) (o_per o) (o_prefix o) (o_base o) (o_post o) (o_ds o) (o_tr o) (o_hash o) (o_group o) (o_async o) (o_ops o) (o_size o) (o_neg o) (o_pos o) (o_float o) (o_double o) (o_first o) (o_gen o) (o_read o) (o_write o) x.

(* hxhim_private_t before anything is read: hxhim_private::hxhim_private, private.cpp:7-20, NumericExtra::NumericExtra; debug_level is MLOG_DBG3 *)
Definition opts0 : opts := mkOpts 0x10000 0 0 0 [] [] [] None None [] [] 0 0 0 NEG_SYMBOL POS_SYMBOL 8 16 0 [] false false [].

(* what a parse function does: it returns true or false, the session changed so far; or it never returns *)
Inductive parsed := Parsed (o : opts) (ok : bool) | Forever.
Definition and_then (x : parsed) (f : opts -> parsed) : parsed :=
  match x with Parsed o true => f o | _ => x end.

(* parse_value, config.cpp:25-56, and parse_map_value, 70-80; set: a hxhim_set function, None for HXHIM_ERROR *)
Definition parse_got {A : Type} (g : got A) (set : opts -> A -> option opts) (o : opts) : parsed :=
  match g with
  | Error => Parsed o false
  | NotFound => Parsed o true
  | Found a => match set o a with Some o' => Parsed o' true | None => Parsed o false end
  end.
Definition parse_value {A : Type} (read : bytes -> option A) (c : config) (k : bytes) (set : opts -> A -> option opts) (o : opts) : parsed :=
  parse_got (get_value read c k) set o.

(* hxhim_set_client_ratio, hxhim_set_server_ratio, hxhim_set_datastores_per_server, options.cpp:52-108; the others always succeed *)
Definition positive (set : opts -> N -> opts) (o : opts) (n : N) : option opts := if n <? 1 then None else Some (set o n).
Definition always {A : Type} (set : opts -> A -> opts) (o : opts) (a : A) : option opts := Some (set o a).
(* hxhim_set_hash_name, options.cpp:258-273; hxhim_set_histogram_bucket_gen_name, 539-558; the name as a C string *)
(* what c_str() shows of a string *)
Fixpoint cstr (v : bytes) : bytes := match v with c :: v' => if N_of_ascii c =? 0 then [] else c :: cstr v' | [] => [] end.
Definition named (l : list (bytes * unit)) (set : opts -> bytes -> opts) (o : opts) (n : bytes) : option opts :=
  let m := cstr n in match assoc l m with Some _ => Some (set o m) | None => None end.

(* parse_datastore, config.cpp:94-155 *)
Definition parse_datastore (b : build) (c : config) (o : opts) : parsed :=
  match get_from_map (DATASTORES b) c K_DS with
  | Found t =>
      match get_value read_string c K_PREFIX with
      | Found p =>
          let o1 := set_names3 o p (o_base o) (o_post o) in
          match get_value read_string c K_BASE with
          | Found n =>
              let o2 := set_names3 o1 p n (o_post o1) in
              (* the result is not looked at; an empty value leaves the string alone *)
              let o3 := match get_value read_string c K_POST with Found s => set_names3 o2 p n s | _ => o2 end in
              match t with
              | TMemory => Parsed (set_ds o3 DsMemory) true
              | TLevel =>
                  match get_value read_bool c K_LEVELDB with
                  | Error => Parsed o3 false
                  | NotFound => Parsed (set_ds o3 (DsLevel true)) true
                  | Found x => Parsed (set_ds o3 (DsLevel x)) true
                  end
              | TRocks =>
                  match get_value read_bool c K_ROCKSDB with
                  | Error => Parsed o3 false
                  | NotFound => Parsed (set_ds o3 (DsRocks true)) true
                  | Found x => Parsed (set_ds o3 (DsRocks x)) true
                  end
              end
          | _ => Parsed o1 false
          end
      | _ => Parsed o false
      end
  | _ => Parsed o false
  end.

(* parse_hash, config.cpp:157-159 *)
Definition parse_hash (c : config) (o : opts) : parsed := parse_value read_string c K_HASH (named HASHES set_hash) o.
(* >> of an int whose failure is ignored, config.cpp:194-200: nothing to read leaves -1, something else gives 0, or the nearest int *)
Definition read_threads (v : bytes) : Z :=
  match skip_space v with
  | [] => (-1)%Z
  | _ => match read_int v with
         | Some z => z
         | None => let '(minus, s) := take_sign (skip_space v) in
                   match take_digits s with [] => 0%Z | _ => if minus then (- 2 ^ 31)%Z else (2 ^ 31 - 1)%Z end
         end
  end.
(* parse_transport, config.cpp:161-220 *)
Definition parse_transport (b : build) (c : config) (o : opts) : parsed :=
  match get_from_map (TRANSPORTS b) c K_TRANSPORT with
  | Found TNull => Parsed (set_hash (set_tr o TrNull) (bstr "RANK_MOD_DATASTORES")) true
  | Found TMpi =>
      match get_value read_size c K_LISTENERS with
      | Found n => parse_hash c (set_tr o (TrMpi n))
      | _ => Parsed o false
      end
  | Found TThallium =>
      match c K_MODULE with
      | None => Parsed o false
      | Some m =>
          let n := match c K_THREADS with Some v => read_threads v | None => (-1)%Z end in
          parse_hash c (set_tr o (TrThallium m (if (n <? -1)%Z then (-1)%Z else n)))
      end
  | _ => Parsed o false
  end.

(* parse_endpointgroup, config.cpp:222-248; size: the size of the communicator.
   Line 239 reads the first number again and again; every way out of that loop, and no setting at all, end at line 247 *)
Definition parse_endpointgroup (size : N) (c : config) (o : opts) : parsed :=
  match c K_GROUP with
  | None => Parsed o false
  | Some v =>
      if beqb v (bstr "ALL") then Parsed (set_group o (map Z.of_nat (seq 0 (N.to_nat size)))) true
      else match read_int v with
           | Some id => if (id <? 0)%Z then Parsed (set_group o []) false else Forever
           | None => Parsed (set_group o []) false
           end
  end.

(* an int becomes a size_t *)
Definition to_size (z : Z) : N := Z.to_N (z mod 2 ^ 64).
(* lines 256-283 of parse_elen: a variable with a default *)
Definition with_default {A : Type} (c : config) (o : opts) (read : bytes -> option A) (k : bytes) (d : A) (f : A -> parsed) : parsed :=
  match get_value read c k with Found a => f a | NotFound => f d | Error => Parsed o false end.
(* parse_elen, config.cpp:250-293 *)
Definition parse_elen (c : config) (o : opts) : parsed :=
  with_default c o read_char K_NEG NEG_SYMBOL (fun neg =>
  with_default c o read_char K_POS POS_SYMBOL (fun pos =>
  with_default c o read_int K_FLOAT 8%Z (fun fp =>
  with_default c o read_int K_DOUBLE 16%Z (fun dp =>
    if (schar pos <=? schar neg)%Z then Parsed o false
    else if (dp <=? fp)%Z then Parsed o false
    else Parsed (set_elen o neg pos (to_size fp) (to_size dp)) true)))).

(* names.emplace *)
Definition add_name (l : list bytes) (n : bytes) : list bytes := if existsb (beqb n) l then l else l ++ [n].
(* parse_histogram, config.cpp:295-325 *)
Definition parse_histogram (c : config) (o : opts) : parsed :=
  and_then (parse_value read_size c K_FIRST (always set_first) o) (fun o =>
  and_then (parse_value read_string c K_GEN (named GENERATORS set_gen) o) (fun o =>
  match get_value read_bool c K_READ with
  | Error => Parsed o false
  | r => let rd' := match r with Found x => x | _ => true end in
    match get_value read_bool c K_WRITE with
    | Error => Parsed o false
    | w => let wr := match w with Found x => x | _ => true end in
      let o1 := set_rw o rd' wr in
      match c K_TRACK with
      | None => Parsed o1 true
      | Some v => Parsed (set_names o1 (fold_left add_name (getlines ","%char [] v) (o_names o1))) true
      end
    end
  end)).

(* fill_options, config.cpp:338-360 *)
Definition fill_options (b : build) (size : N) (c : config) (o : opts) : parsed :=
  and_then (parse_got (get_from_map DEBUG_LEVELS c K_DEBUG) (always set_debug) o) (fun o =>
  and_then (parse_value read_size c K_CLIENT (positive set_client) o) (fun o =>
  and_then (parse_value read_size c K_SERVER (positive set_server) o) (fun o =>
  and_then (parse_value read_size c K_PER (positive set_per) o) (fun o =>
  and_then (parse_datastore b c o) (fun o =>
  and_then (parse_transport b c o) (fun o =>
  and_then (parse_endpointgroup size c o) (fun o =>
  and_then (parse_value read_size c K_ASYNC (always set_async) o) (fun o =>
  and_then (parse_value read_size c K_OPS (always set_ops) o) (fun o =>
  and_then (parse_value read_size c K_SIZE (always set_size) o) (fun o =>
  and_then (parse_elen c o) (fun o =>
  parse_histogram c o))))))))))).

(* DEFAULT_CONFIG, config.hpp:177-208. std::string(elen::NEG_SYMBOL, 1) is '\x01' as often as the code of the symbol says;
   the second pair for ELEN_NEG_SYMBOL is not kept *)
Definition default_list (b : build) : list (bytes * bytes) :=
  [(K_DEBUG, bstr "CRITICAL"); (K_CLIENT, bstr "2"); (K_SERVER, bstr "1"); (K_PER, bstr "1");
   (K_PREFIX, bstr "."); (K_BASE, bstr "hxhim"); (K_POST, [])]
  ++ (if b_leveldb b then [(K_DS, bstr "LEVELDB"); (K_LEVELDB, bstr "true")]
      else if b_rocksdb b then [(K_DS, bstr "ROCKSDB"); (K_ROCKSDB, bstr "true")]
      else [(K_DS, bstr "IN_MEMORY")])
  ++ [(K_TRANSPORT, bstr "NULL"); (K_HASH, bstr "RANK_MOD_DATASTORES"); (K_GROUP, bstr "ALL"); (K_ASYNC, bstr "0");
      (K_OPS, bstr "128"); (K_SIZE, bstr "1048576"); (K_FIRST, bstr "10"); (K_GEN, bstr "10_BUCKETS"); (K_READ, bstr "true"); (K_WRITE, bstr "true");
      (K_NEG, repeat (ascii_of_N 1) (N.to_nat (N_of_ascii NEG_SYMBOL))); (K_NEG, repeat (ascii_of_N 1) (N.to_nat (N_of_ascii POS_SYMBOL)));
      (K_FLOAT, bstr "8"); (K_DOUBLE, bstr "16")].
Definition DEFAULT_CONFIG (b : build) : config := cfg_init (default_list b).
(* the sources of default_reader, config.cpp:417-433; the environment variables in some order *)
Definition sources (keys : list bytes) : list reader :=
  RFile (bstr "hxhim.conf") :: REnvFile (bstr "HXHIM_CONFIG") :: map (fun k => REnvVar (bstr "HXHIM_" ++ k) k) keys.
(* default_reader, config.cpp:405-443; the result of process_config_and_fill_options is not looked at *)
Definition default_reader (b : build) (size : N) (w : world) (keys : list bytes) (o : opts) : outcome parsed :=
  match fill_options b size (DEFAULT_CONFIG b) o with
  | Parsed o1 true =>
      do c <- process_sequence w (sources keys);
      Ok (match fill_options b size c o1 with Parsed o2 _ => Parsed o2 true | Forever => Forever end)
  | x => Ok x
  end.
