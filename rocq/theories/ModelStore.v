(* Datastores: src/datastore/{datastore,InMemory,LevelDB,RocksDB}.cpp. RocksDB.cpp is LevelDB.cpp with
   the library's name changed; both libraries are modelled as a sorted map with batches applied in order
   and writes that do not fail. *)
From Verif Require Import ModelBytes ModelKey ModelElen ModelHist ModelMsg.
Local Open Scope N_scope.

(* ---- transformation callbacks ----
   Transform::Callbacks (include/datastore/transform.hpp) seen through Datastore::encode/decode
   (src/datastore/datastore.cpp:377-413): the data type, whether the source pointer is null, the bytes;
   None = DATASTORE_ERROR. A result of length 0 is a null pointer (alloc(0), src/utils/memory.cpp:3-9).
   c_neg is callbacks->numeric_extra.neg. *)
Record codec := mkCodec {
  c_enc : N -> bool -> bytes -> outcome (option bytes);
  c_dec : N -> bytes -> outcome (option bytes);
  c_neg : byte }.

(* null callback: a plain copy, datastore.cpp:386-391 and 405-410; copying from null is UB unless empty *)
Definition copy_enc (null : bool) (d : bytes) : outcome (option bytes) :=
  if null && negb (blen d =? 0) then UB else Ok (Some d).

(* default_callbacks, src/datastore/transform.cpp:15-61, with the floating point callbacks as parameters
   (by number of bytes). Types without an entry are DATASTORE_ERROR (datastore.cpp:380-383). *)
Definition default_codec (neg pos : byte) (fenc fdec : N -> bytes -> outcome (option bytes)) : codec :=
  let ints T (null : bool) d := if null then Ok None else tr_enc_int T neg pos d in
  mkCodec
    (fun t null d =>
       if t =? T_INT32 then ints int32_t null d else if t =? T_INT64 then ints int64_t null d
       else if t =? T_UINT32 then ints uint32_t null d else if t =? T_UINT64 then ints uint64_t null d
       else if t =? T_FLOAT then (if null then Ok None else fenc 4 d)
       else if t =? T_DOUBLE then (if null then Ok None else fenc 8 d)
       else if (t =? T_BYTE) || (t =? T_POINTER) then copy_enc null d else Ok None)
    (fun t d =>
       if t =? T_INT32 then tr_dec_int int32_t neg pos d else if t =? T_INT64 then tr_dec_int int64_t neg pos d
       else if t =? T_UINT32 then tr_dec_int uint32_t neg pos d else if t =? T_UINT64 then tr_dec_int uint64_t neg pos d
       else if t =? T_FLOAT then fdec 4 d else if t =? T_DOUBLE then fdec 8 d
       else if (t =? T_BYTE) || (t =? T_POINTER) then Ok (Some d) else Ok None)
    neg.

Definition enc_blob (c : codec) (b : blob) : outcome (option bytes) := c_enc c (b_type b) (b_null b) (b_data b).

(* a decoded field as a Blob *)
Definition real_blob (d : bytes) (t : N) : blob := mkBlob (blen d =? 0) d t.

(* ---- the sorted map ---- *)
Definition rows := list (bytes * bytes).

(* db[k] = v, WriteBatch::Put *)
Fixpoint db_put (k v : bytes) (db : rows) : rows :=
  match db with
  | [] => [(k, v)]
  | (k', v') :: r =>
      match bcmp k k' with
      | Lt => (k, v) :: db
      | Eq => (k, v) :: r
      | Gt => (k', v') :: db_put k v r
      end
  end.
(* find, DB::Get *)
Fixpoint db_get (k : bytes) (db : rows) : option bytes :=
  match db with [] => None | (k', v') :: r => if beqb k k' then Some v' else db_get k r end.
(* erase, WriteBatch::Delete *)
Fixpoint db_del (k : bytes) (db : rows) : rows :=
  match db with [] => [] | (k', v') :: r => if beqb k k' then r else (k', v') :: db_del k r end.

(* append_type, datastore.cpp:421-432 *)
Definition append_type (d : bytes) (t : N) : bytes := d ++ le_enc 4 t.
(* remove_type, datastore.cpp:434-442: (data, type); size -= 4 wraps below 4 *)
Definition remove_type (v : bytes) : outcome (bytes * N) :=
  if blen v <? 4 then UB
  else let n := N.to_nat (blen v - 4) in Ok (firstn n v, le_dec (skipn n v)).

(* encode x, and y unless x failed, ... : the && chains of encodes *)
Definition obind2 {A B} (x : outcome (option A)) (f : A -> outcome (option B)) : outcome (option B) :=
  do a <- x; match a with None => Ok None | Some a' => f a' end.

(* the key of a subject and a predicate, None if either cannot be encoded;
   InMemory.cpp:64-72, 124-130, 377-384 and the same lines of LevelDB.cpp *)
Definition key_of (c : codec) (s p : blob) : outcome (option bytes) :=
  obind2 (enc_blob c s) (fun es => obind2 (enc_blob c p) (fun ep =>
    Ok (Some (sp_to_key (mkField es (b_type s)) (mkField ep (b_type p)))))).

Definition ST_OK : Z := Z.of_N DATASTORE_SUCCESS.
Definition ST_ERR : Z := Z.of_N DATASTORE_ERROR.

(* ReferenceBlob(req->orig.x[i], req->x[i].size(), req->x[i].data_type()) *)
Definition orig_ref (addr : N) (b : blob) : ref := mkRef addr (blen (b_data b)) (b_type b).

(* ---- PUT ---- *)
(* what one item writes: encode subject, predicate, object (InMemory.cpp:64-73, LevelDB.cpp:91-103) *)
Definition put_row (c : codec) (i : put_item) : outcome (option (bytes * bytes)) :=
  obind2 (enc_blob c (pi_sub i)) (fun es => obind2 (enc_blob c (pi_pred i)) (fun ep =>
  obind2 (enc_blob c (pi_obj i)) (fun eo =>
    Ok (Some (sp_to_key (mkField es (b_type (pi_sub i))) (mkField ep (b_type (pi_pred i))),
              append_type eo (b_type (pi_obj i))))))).

Definition st_of_put (i : put_item) (st : Z) : st_item :=
  mkSt st (orig_ref (pi_sub_addr i) (pi_sub i)) (orig_ref (pi_pred_addr i) (pi_pred i)).

(* InMemory::BPutImpl, InMemory.cpp:48-99 *)
Fixpoint im_bput (c : codec) (db : rows) (l : list put_item) : outcome (rows * list st_item) :=
  match l with
  | [] => Ok (db, [])
  | i :: l' =>
      do kv <- put_row c i;
      let '(db1, st) := match kv with Some (k, v) => (db_put k v db, ST_OK) | None => (db, ST_ERR) end in
      do (db2, r) <- im_bput c db1 l'; Ok (db2, st_of_put i st :: r)
  end.

(* LevelDB::BPutImpl, LevelDB.cpp:70-135: the batch of the encodable items is written; every status is
   the status of the write (121-129) *)
Fixpoint ldb_batch (c : codec) (l : list put_item) : outcome (list (bytes * bytes)) :=
  match l with
  | [] => Ok []
  | i :: l' => do kv <- put_row c i; do r <- ldb_batch c l'; Ok (match kv with Some x => x :: r | None => r end)
  end.
Definition apply_puts (b : list (bytes * bytes)) (db : rows) : rows :=
  fold_left (fun d kv => db_put (fst kv) (snd kv) d) b db.
Definition ldb_bput (c : codec) (db : rows) (l : list put_item) : outcome (rows * list st_item) :=
  do b <- ldb_batch c l; Ok (apply_puts b db, map (fun i => st_of_put i ST_OK) l).

(* ---- GET ---- (both backends: InMemory.cpp:108-171, LevelDB.cpp:144-217).
   Response::BGet::add (src/message/BGet.cpp:56-64) keeps the object only on success. *)
Definition get_obj (c : codec) (db : rows) (i : get_item) : outcome (option blob) :=
  obind2 (key_of c (gi_sub i) (gi_pred i)) (fun k =>
    match db_get k db with
    | None => Ok None
    | Some v =>
        do (e, t) <- remove_type v;
        obind2 (c_dec c t e) (fun d => Ok (Some (real_blob d t)))
    end).
Definition bget1 (c : codec) (db : rows) (i : get_item) : outcome got_item :=
  do o <- get_obj c db i;
  Ok (mkGot (match o with Some _ => ST_OK | None => ST_ERR end)
            (orig_ref (gi_sub_addr i) (gi_sub i)) (orig_ref (gi_pred_addr i) (gi_pred i))
            (match o with Some b => b | None => blob_none end)).
Fixpoint omap {A B} (f : A -> outcome B) (l : list A) : outcome (list B) :=
  match l with [] => Ok [] | x :: l' => do y <- f x; do r <- omap f l'; Ok (y :: r) end.
Definition bget (c : codec) (db : rows) (l : list get_item) : outcome (list got_item) := omap (bget1 c db) l.

(* ---- DELETE ---- *)
Definition st_of_del (i : del_item) (st : Z) : st_item :=
  mkSt st (orig_ref (di_sub_addr i) (di_sub i)) (orig_ref (di_pred_addr i) (di_pred i)).
(* InMemory::BDeleteImpl, InMemory.cpp:362-414 *)
Fixpoint im_bdel (c : codec) (db : rows) (l : list del_item) : outcome (rows * list st_item) :=
  match l with
  | [] => Ok (db, [])
  | i :: l' =>
      do ok <- key_of c (di_sub i) (di_pred i);
      let '(db1, st) :=
        match ok with
        | Some k => match db_get k db with Some _ => (db_del k db, ST_OK) | None => (db, ST_ERR) end
        | None => (db, ST_ERR)
        end in
      do (db2, r) <- im_bdel c db1 l'; Ok (db2, st_of_del i st :: r)
  end.
(* LevelDB::BDeleteImpl, LevelDB.cpp:406-455 *)
Fixpoint ldb_dels (c : codec) (l : list del_item) : outcome (list bytes) :=
  match l with
  | [] => Ok []
  | i :: l' => do ok <- key_of c (di_sub i) (di_pred i); do r <- ldb_dels c l';
               Ok (match ok with Some k => k :: r | None => r end)
  end.
Definition ldb_bdel (c : codec) (db : rows) (l : list del_item) : outcome (rows * list st_item) :=
  do b <- ldb_dels c l; Ok (fold_left (fun d k => db_del k d) b db, map (fun i => st_of_del i ST_OK) l).

Inductive backend := InMemory | LevelDB.
Definition bput (k : backend) := match k with InMemory => im_bput | LevelDB => ldb_bput end.
Definition bdel (k : backend) := match k with InMemory => im_bdel | LevelDB => ldb_bdel end.
