(* Where datastores are, which datastore a key goes to, where remote requests are sent,
   and what datastores are called.
   ints and size_ts are Z; a rank or id that is not negative converts to size_t unchanged. *)
From Verif Require Import ModelBytes ModelElen.
Local Open Scope Z_scope.

(* conversion of a size_t to int, and size_t arithmetic *)
Definition to_int (z : Z) : Z := let m := z mod 2 ^ 32 in if m <? 2 ^ 31 then m else m - 2 ^ 32.
Definition sz (z : Z) : Z := z mod 2 ^ 64.
(* 0, 1, ..., n-1 *)
Definition upto (n : Z) : list Z := map Z.of_nat (seq 0 (Z.to_nat n)).

(* ---- src/hxhim/RangeServer.cpp ---- *)
(* is_range_server, lines 15-25; with a world size, lines 37-46 *)
Definition rs_is (rank cr sr : Z) : Z :=
  if (rank <? 0) || (cr =? 0) || (sr =? 0) then -1 else if rank mod cr <? sr then 1 else 0.
Definition rs_is_in (rank size cr sr : Z) : Z := if size <=? rank then -1 else rs_is rank cr sr.
(* get_rank, lines 57-75; with a world size, lines 86-97 *)
Definition rs_get_rank (id cr sr : Z) : Z :=
  if (id <? 0) || (cr =? 0) || (sr =? 0) then -1
  else if cr <=? sr then id
  else to_int (sz (sz (id / sr * cr) + id mod sr)).
Definition rs_get_rank_in (id size cr sr : Z) : Z :=
  let rank := rs_get_rank id cr sr in if size <=? rank then -1 else rank.
(* get_id, lines 107-128; with a world size, lines 140-149 *)
Definition rs_get_id (rank cr sr : Z) : Z :=
  if (rank <? 0) || (cr =? 0) || (sr =? 0) then -1
  else if cr <=? sr then rank
  else if sr <=? rank mod cr then -1
  else to_int (sz (sz (rank / cr * sr) + rank mod cr)).
Definition rs_get_id_in (rank size cr sr : Z) : Z :=
  if size <=? rank then -1 else rs_get_id rank cr sr.

(* ---- src/hxhim/Datastore.cpp ---- *)
(* get_rank, lines 14-34; with a world size, lines 45-56 *)
Definition ds_get_rank (id cr sr per : Z) : Z :=
  if (id <? 0) || (cr =? 0) || (sr =? 0) || (per =? 0) then -1
  else let rs := id / per in
       if cr <=? sr then to_int rs
       else to_int (sz (sz (rs / sr * cr) + rs mod sr)).
Definition ds_get_rank_in (id size cr sr per : Z) : Z :=
  let rank := ds_get_rank id cr sr per in if size <=? rank then -1 else rank.
(* get_id, lines 67-93; with a world size, lines 105-116 *)
Definition ds_get_id (rank offset cr sr per : Z) : Z :=
  if (rank <? 0) || (cr =? 0) || (sr =? 0) || (per =? 0) || (per <=? offset) then -1
  else if cr <=? sr then to_int (sz (sz (rank * per) + offset))
  else if sr <=? rank mod cr then -1
  else to_int (sz (sz (sz (sz (rank / cr * sr) + rank mod cr) * per) + offset)).
Definition ds_get_id_in (rank offset size cr sr per : Z) : Z :=
  if size <=? rank then -1 else ds_get_id rank offset cr sr per.

(* world size, client:server ratio, datastores per server: the same on every rank *)
Record layout := mkLayout { l_size : Z; l_cr : Z; l_sr : Z; l_per : Z }.

(* init::datastore, src/hxhim/init.cpp lines 119-138 *)
Definition total_range_servers (L : layout) : Z :=
  if l_cr L <=? l_sr L then l_size L
  else sz (sz (l_sr L * (l_size L / l_cr L)) + Z.min (l_size L mod l_cr L) (l_sr L)).
Definition total_datastores (L : layout) : Z := sz (total_range_servers L * l_per L).
(* init::datastore, lines 110-174: the ids given to the datastores of a rank, by offset.
   None: HXHIM_ERROR. Datastore::Init (src/datastore/datastores.cpp 30-32) rejects negative ids.
   Not modelled: failure to open. *)
Definition init_datastore (L : layout) (rank : Z) : option (list Z) :=
  if (l_cr L =? 0) || (l_sr L =? 0) || (l_per L =? 0) then None
  else if rs_get_id_in rank (l_size L) (l_cr L) (l_sr L) <? 0 then Some []
  else let id0 := ds_get_id_in rank 0 (l_size L) (l_cr L) (l_sr L) (l_per L) in
       let ids := map (fun i => id0 + i) (upto (l_per L)) in
       if forallb (fun id => 0 <=? id) ids then Some ids else None.
(* init::queues, src/hxhim/init.cpp lines 53-80: queues.ds_to_rank[id] *)
Definition ds_to_rank (L : layout) (id : Z) : Z :=
  ds_get_rank_in id (l_size L) (l_cr L) (l_sr L) (l_per L).

(* GetDatastoreLocation, src/hxhim/accessors.cpp lines 284-305, with both output pointers given.
   The call is RangeServer::get_rank with four arguments, which is the overload with a world size. *)
Definition datastore_location (L : layout) (id : Z) : option (Z * Z) :=
  if (id <? 0) || (total_datastores L <=? id) then None
  else let rank := rs_get_rank_in id (to_int (l_cr L)) (l_sr L) (l_per L) in
       if rank <? 0 then None else Some (rank, to_int (id mod l_per L)).

(* Histogram and BHistogram accept this id, src/hxhim/ops/HISTOGRAM.cpp lines 14-18, BHISTOGRAM.cpp 23-27 *)
Definition histogram_accepts (L : layout) (id : Z) : bool :=
  (0 <=? id) && (id <? to_int (total_range_servers L)).

(* ---- hash functions, src/hxhim/hash.cpp; include/utils/uthash.h ---- *)
(* rank, number of datastores, subject, predicate. A user-supplied function is also of this type;
   args are part of the function. *)
Definition hash_fn := Z -> Z -> bytes -> bytes -> outcome Z.
(* x % count, where count is a size_t; count 0 is undefined; the result is returned as int *)
Definition modc (x count : Z) : outcome Z := if count =? 0 then UB else Ok (to_int (x mod count)).
(* hash.cpp 37-39 *)
Definition h_zero : hash_fn := fun _ _ _ _ => Ok 0.
(* hash.cpp 48-56: rank is converted to size_t *)
Definition h_rank : hash_fn := fun rank count _ _ => modc (sz rank) count.
(* hash.cpp 70-84: the sum is an int; overflow is undefined *)
Definition int_max : Z := 2 ^ 31 - 1.
Fixpoint sum_bytes (dst : Z) (s : bytes) : outcome Z :=
  match s with
  | [] => Ok dst
  | b :: s' => let d := dst + Z.of_N (N_of_ascii b) in if int_max <? d then UB else sum_bytes d s'
  end.
Definition h_sum : hash_fn := fun _ count s p =>
  do a <- sum_bytes 0 s; do d <- sum_bytes a p; modc d count.

(* unsigned arithmetic *)
Local Open Scope N_scope.
Definition w32 (x : N) : N := x mod 2 ^ 32.
Definition shl (x k : N) : N := w32 (N.shiftl x k).
Definition shr (x k : N) : N := N.shiftr x k.
Definition sub32 (a b : N) : N := w32 (a + 2 ^ 32 - b).
Definition nb (b : byte) : N := N_of_ascii b.
(* HASH_BER, uthash.h 30-38 *)
Definition ber (h : N) (s : bytes) : N := fold_left (fun h b => w32 (w32 (shl h 5 + h) + nb b)) s h.
(* HASH_SAX, uthash.h 42-50 *)
Definition sax (h : N) (s : bytes) : N :=
  fold_left (fun h b => N.lxor h (w32 (w32 (shl h 5 + shr h 2) + nb b))) s h.
(* HASH_FNV, uthash.h 52-61 *)
Definition fnv (h : N) (s : bytes) : N := fold_left (fun h b => w32 (N.lxor h (nb b) * 16777619)) s h.
(* HASH_OAT, uthash.h 63-76 *)
Definition oat_step (h : N) (b : byte) : N :=
  let h := w32 (h + nb b) in let h := w32 (h + shl h 10) in N.lxor h (shr h 6).
Definition oat (h : N) (s : bytes) : N :=
  let h := fold_left oat_step s h in
  let h := w32 (h + shl h 3) in let h := N.lxor h (shr h 11) in w32 (h + shl h 15).
(* HASH_JEN_MIX, uthash.h 78-89 *)
Definition jen_mix (a b c : N) : N * N * N :=
  let a := N.lxor (sub32 (sub32 a b) c) (shr c 13) in
  let b := N.lxor (sub32 (sub32 b c) a) (shl a 8) in
  let c := N.lxor (sub32 (sub32 c a) b) (shr b 13) in
  let a := N.lxor (sub32 (sub32 a b) c) (shr c 12) in
  let b := N.lxor (sub32 (sub32 b c) a) (shl a 16) in
  let c := N.lxor (sub32 (sub32 c a) b) (shr b 5) in
  let a := N.lxor (sub32 (sub32 a b) c) (shr c 3) in
  let b := N.lxor (sub32 (sub32 b c) a) (shl a 10) in
  let c := N.lxor (sub32 (sub32 c a) b) (shr b 15) in
  (a, b, c).
(* HASH_JEN, uthash.h 91-130. The loop takes 12 bytes at a time; f bounds the number of rounds.
   A block read as little-endian words is the sum of its shifted bytes. *)
Fixpoint jen_loop (f : nat) (a b h : N) (s : bytes) : N * N * N * bytes :=
  match f with
  | O => (a, b, h, s)
  | S f' =>
      if blen s <? 12 then (a, b, h, s)
      else let '(a, b, h) := jen_mix (w32 (a + le_dec (firstn 4 s))) (w32 (b + le_dec (firstn 4 (skipn 4 s))))
                                     (w32 (h + le_dec (firstn 4 (skipn 8 s)))) in
           jen_loop f' a b h (skipn 12 s)
  end.
(* the rest: bytes 8, 9, 10 go to the upper three bytes of h *)
Definition jen (h : N) (s : bytes) : N :=
  let '(a, b, h, r) := jen_loop (length s) 2654435769 2654435769 h s in
  let h := w32 (w32 (h + blen s) + shl (le_dec (firstn 3 (skipn 8 r))) 8) in
  let b := w32 (b + le_dec (firstn 4 (skipn 4 r))) in
  let a := w32 (a + le_dec (firstn 4 r)) in
  snd (jen_mix a b h).
(* HASH_SFH, uthash.h 143-183; get16bits is two little-endian bytes *)
Definition get16 (s : bytes) : N := le_dec (firstn 2 s).
Fixpoint sfh_loop (f : nat) (h : N) (s : bytes) : N * bytes :=
  match f with
  | O => (h, s)
  | S f' =>
      if blen s <? 4 then (h, s)
      else let h := w32 (h + get16 s) in
           let tmp := N.lxor (shl (get16 (skipn 2 s)) 11) h in
           let h := N.lxor (shl h 16) tmp in
           sfh_loop f' (w32 (h + shr h 11)) (skipn 4 s)
  end.
Definition sfh_rest (h : N) (r : bytes) : N :=
  if blen r =? 3 then
    let h := w32 (h + get16 r) in let h := N.lxor h (shl h 16) in
    let h := N.lxor h (shl (le_dec (skipn 2 r)) 18) in w32 (h + shr h 11)
  else if blen r =? 2 then
    let h := w32 (h + get16 r) in let h := N.lxor h (shl h 11) in w32 (h + shr h 17)
  else if blen r =? 1 then
    let h := w32 (h + le_dec r) in let h := N.lxor h (shl h 10) in w32 (h + shr h 1)
  else h.
Definition sfh (h : N) (s : bytes) : N :=
  let '(h, r) := sfh_loop (length s) h s in
  let h := sfh_rest h r in
  let h := N.lxor h (shl h 3) in let h := w32 (h + shr h 5) in
  let h := N.lxor h (shl h 4) in let h := w32 (h + shr h 17) in
  let h := N.lxor h (shl h 25) in w32 (h + shr h 6).
(* The macros count with 32-bit indices: a subject or predicate of 2^32 bytes or more is only partly
   hashed (BER, JEN, SFH) or loops for ever (SAX, FNV, OAT). Not modelled; counted as undefined. *)
Definition ut (f : N -> bytes -> N) (h0 : N) : hash_fn := fun _ count s p =>
  if (2 ^ 32 <=? blen s) || (2 ^ 32 <=? blen p) then UB else modc (Z.of_N (f (f h0 s) p)) count.
(* hash.cpp 96-208 *)
Definition h_ber := ut ber 0.
Definition h_sax := ut sax 0.
Definition h_fnv := ut fnv 2166136261.
Definition h_oat := ut oat 0.
Definition h_jen := ut jen 4276993775. (* 0xfeedbeef *)
Definition h_sfh := ut sfh 3405691582. (* 0xcafebabe *)
Local Open Scope Z_scope.

(* ---- transports ---- *)
(* the loop that numbers range servers and maps numbers to ranks:
   src/transport/backend/Thallium/Init.cpp 77-94, src/transport/backend/MPI/Init.cpp 38-54.
   Thallium: an empty endpoint group stands for all ranks. MPI: it does not. *)
Definition in_group (all : bool) (group : list Z) (r : Z) : bool :=
  (all && match group with [] => true | _ => false end) || existsb (Z.eqb r) group.
Fixpoint add_ids (is_rs : Z -> bool) (allowed : Z -> bool) (rs_id : Z) (ranks : list Z) : list (Z * Z) :=
  match ranks with
  | [] => []
  | r :: ranks' =>
      if is_rs r
      then (if allowed r then [(rs_id, r)] else []) ++ add_ids is_rs allowed (rs_id + 1) ranks'
      else add_ids is_rs allowed rs_id ranks'
  end.
(* std::unordered_map::find *)
Definition lookup (k : Z) (m : list (Z * Z)) : option Z := option_map snd (find (fun kv => fst kv =? k) m).
(* is_range_server is used as a truth value: -1 would count as true *)
Definition tl_endpoints (L : layout) (me : Z) (group : list Z) : list (Z * Z) :=
  add_ids (fun r => negb (rs_is r (l_cr L) (l_sr L) =? 0))
          (fun r => negb (me =? r) && in_group true group r) 0 (upto (l_size L)).
Definition mpi_endpoints (L : layout) (me : Z) (group : list Z) : list (Z * Z) :=
  add_ids (fun r => negb (rs_is_in r (l_size L) (l_cr L) (l_sr L) =? 0))
          (fun r => negb (me =? r) && in_group false group r) 0 (upto (l_size L)).
(* Thallium process_request, src/transport/backend/Thallium/EndpointGroup.cpp 107-112: the rank a
   request with this dst_rank is sent to; None: no endpoint, nullptr is returned *)
Definition tl_route (L : layout) (me : Z) (group : list Z) (dst_rank : Z) : option Z :=
  lookup dst_rank (tl_endpoints L me group).
(* MPI parallel_send, include/transport/backend/MPI/EndpointGroup.tpp 21-83: the ranks that messages
   with these destinations (message dst: datastore ids) are sent to. The result of Packer::pack
   (src/message/Packer.cpp; MESSAGE_SUCCESS or MESSAGE_ERROR) is compared to TRANSPORT_SUCCESS.
   Not modelled: MPI calls that fail. *)
Definition MESSAGE_SUCCESS : Z := 8.
Definition MESSAGE_ERROR : Z := 9.
Definition TRANSPORT_SUCCESS : Z := 5.
Definition mpi_sent_to (eps : list (Z * Z)) (packed : list (Z * Z)) : list Z :=
  flat_map (fun '(rc, dst) =>
    if rc =? TRANSPORT_SUCCESS then match lookup dst eps with Some r => [r] | None => [] end else []) packed.

(* ---- names ---- *)
(* std::ostream << int *)
Definition dec (z : Z) : bytes := if z <? 0 then "-"%char :: to_string (Z.to_N (- z)) else to_string (Z.to_N z).
(* Datastore::generate_name, src/datastore/datastores.cpp 10-18; path_sep is '/'
   (include/datastore/datastores.hpp 20-24); id is converted to size_t *)
Definition generate_name (prefix basename : bytes) (id : Z) (postfix : bytes) : bytes :=
  prefix ++ "/"%char :: basename ++ "-"%char :: to_string (Z.to_N (sz id)) ++ postfix.
(* ChangeHash, src/hxhim/hxhim.cpp 318-327: the name that datastore i of a rank is opened with.
   The call of get_id has five arguments: rank, offset := size, client ratio, server ratio, per_server := i. *)
Definition change_hash_name (L : layout) (rank i : Z) (name : bytes) : bytes :=
  name ++ "-"%char :: dec (ds_get_id rank (sz (l_size L)) (l_cr L) (l_sr L) i).
