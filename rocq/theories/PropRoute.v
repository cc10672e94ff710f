(* C27, C28, C29, C40, C41, C52: where operations go *)
From Verif Require Import ModelBytes ModelElen ModelRoute SpecRoute ProofRoute ProofRoute2.
Local Open Scope Z_scope.

(* 7 ranks, 2 of every 3 are range servers, 4 datastores on each: ranks 0 1 3 4 6 *)
Definition L7 : layout := mkLayout 7 3 2 4.
Example L7_good : good L7.
Proof. repeat split; vm_compute; congruence. Qed.
Example L7_hosted : map (hosted L7) (upto 7) =
  [[0; 1; 2; 3]; [4; 5; 6; 7]; []; [8; 9; 10; 11]; [12; 13; 14; 15]; []; [16; 17; 18; 19]].
Proof. vm_compute. reflexivity. Qed.

(* C28: ids are given out without gaps or repetition; every id is on one rank at one offset, and the
   conversions in both directions agree with that. Ranks that are no range servers get nothing. *)
Theorem C28_ids_and_ranks : forall L, good L ->
  total_range_servers L = servers L (l_size L) /\ total_datastores L = datastores L /\
  flat_map (hosted L) (upto (l_size L)) = upto (datastores L) /\
  (forall r, 0 <= r < l_size L ->
     (server L r = true -> init_datastore L r = Some (hosted L r) /\ length (hosted L r) = Z.to_nat (l_per L) /\
        rs_get_id_in r (l_size L) (l_cr L) (l_sr L) = servers L r /\
        rs_get_rank_in (servers L r) (l_size L) (l_cr L) (l_sr L) = r) /\
     (server L r = false -> init_datastore L r = Some [] /\ rs_get_id_in r (l_size L) (l_cr L) (l_sr L) = -1)) /\
  forall id, 0 <= id < datastores L -> exists r off,
    hosts L r off id /\ server L r = true /\ (forall r' off', hosts L r' off' id -> r' = r /\ off' = off) /\
    ds_to_rank L id = r /\ id mod l_per L = off /\
    ds_get_id_in r off (l_size L) (l_cr L) (l_sr L) (l_per L) = id.
Proof. exact layout_bijection. Qed.
Print Assumptions C28_ids_and_ranks.
Example C28_example : good L7 /\ hosts L7 3 2 10 /\ server L7 5 = false.
Proof. split; [exact L7_good|]. split; [|reflexivity]. split; [vm_compute; split; congruence|]. split; [vm_compute; split; congruence|reflexivity]. Qed.

(* C27 for the hash functions of the key: an existing datastore, the same from every rank *)
Theorem C27_content_hashes : forall f count s p, In f content_hashes -> 1 <= count <= int_max ->
  (blen s < 2 ^ 32)%N -> (blen p < 2 ^ 32)%N ->
  exists id, 0 <= id < count /\ forall rank, f rank count s p = Ok id.
Proof. exact content_hash. Qed.
Print Assumptions C27_content_hashes.
(* test vectors, computed from uthash.h with 5 datastores *)
Example C27_example : map (fun f : hash_fn => f 0 5 (bstr "hello world, this is") (bstr "abc")) content_hashes =
  map Ok [0; 0; 0; 2; 3; 0; 1] /\ In h_jen content_hashes.
Proof. split; [vm_compute; reflexivity|cbn [content_hashes In]; tauto]. Qed.

(* SumModDatastores: as long as the sum of the bytes fits into int (always below 8 MiB of key) *)
Theorem C27_sum_partial : forall count s p rank, 1 <= count <= int_max -> byte_sum s + byte_sum p <= int_max ->
  h_sum rank count s p = Ok ((byte_sum s + byte_sum p) mod count) /\ 0 <= (byte_sum s + byte_sum p) mod count < count.
Proof. exact sum_hash. Qed.
Print Assumptions C27_sum_partial.
Example C27_sum_example : byte_sum (bstr "ab") + byte_sum (bstr "c") <= int_max /\ h_sum 1 5 (bstr "ab") (bstr "c") = Ok 4.
Proof. split; [vm_compute; congruence|reflexivity]. Qed.
(* beyond that the sum overflows *)
Theorem C27_sum_refuted : exists s p, (blen s < 2 ^ 24)%N /\ (blen p < 2 ^ 24)%N /\
  forall rank count, h_sum rank count s p = UB.
Proof. exact sum_hash_refuted. Qed.
Print Assumptions C27_sum_refuted.

(* RankModDatastores: an existing datastore, but another one from another rank *)
Theorem C27_rank_partial : forall count s p rank, 1 <= count <= int_max -> 0 <= rank <= int_max ->
  h_rank rank count s p = Ok (rank mod count) /\ 0 <= rank mod count < count.
Proof. exact rank_hash. Qed.
Print Assumptions C27_rank_partial.
Theorem C27_rank_refuted : forall count, 2 <= count <= int_max -> forall s p, h_rank 0 count s p <> h_rank 1 count s p.
Proof. exact rank_hash_refuted. Qed.
Print Assumptions C27_rank_refuted.
Example C27_rank_example : h_rank 7 5 [] [] = Ok 2 /\ h_rank 0 5 [] [] = Ok 0 /\ h_rank 1 5 [] [] = Ok 1.
Proof. repeat split; reflexivity. Qed.

(* C29: what is reported is only right in the offset; ids that do not exist are rejected *)
Theorem C29_location_partial : forall L, good L ->
  (forall id, ~ 0 <= id < datastores L -> datastore_location L id = None) /\
  (forall id r off, datastore_location L id = Some (r, off) -> 0 <= id < datastores L /\ exists r', hosts L r' off id) /\
  (0 < to_int (l_cr L) -> datastore_location L 0 = Some (0, 0) /\ hosts L 0 0 0).
Proof. exact (fun L G => conj (fun id => location_none L id G) (conj (fun id r off => location_offset L id r off G) (location_zero L G))). Qed.
Print Assumptions C29_location_partial.
Example C29_example : good L7 /\ datastore_location L7 1 = Some (1, 1) /\ hosts L7 0 1 1.
Proof. split; [exact L7_good|]. split; [reflexivity|]. split; [vm_compute; split; congruence|]. split; [vm_compute; split; congruence|reflexivity]. Qed.
(* the reported rank: get_rank is called with the arguments of another overload *)
Theorem C29_location_refuted : exists L id r r' off, good L /\
  datastore_location L id = Some (r, off) /\ hosts L r' off id /\ r <> r'.
Proof.
  exact (ex_intro _ L7 (ex_intro _ 1 (ex_intro _ 1 (ex_intro _ 0 (ex_intro _ 1
    (conj L7_good (conj (proj1 (proj2 C29_example)) (conj (proj2 (proj2 C29_example)) (fun E : 1 = 0 => ltac:(discriminate E)))))))))).
Qed.
Print Assumptions C29_location_refuted.
(* and with the default ratios (1:1, one datastore each) every datastore but the first is reported missing *)
Theorem C29_default_refuted : forall L, good L -> l_cr L = 1 -> l_sr L = 1 -> l_per L = 1 ->
  forall id, 1 <= id < datastores L -> datastore_location L id = None /\ hosts L id 0 id.
Proof. exact location_one. Qed.
Print Assumptions C29_default_refuted.
Example C29_default_example : good (mkLayout 3 1 1 1) /\ datastores (mkLayout 3 1 1 1) = 3.
Proof. repeat split; vm_compute; congruence. Qed.

(* C52: histogram requests are accepted for the first ids, as many as there are range servers *)
Theorem C52_histogram_ids_partial : forall L id, good L ->
  (histogram_accepts L id = true <-> 0 <= id < servers L (l_size L)) /\
  (histogram_accepts L id = true -> 0 <= id < datastores L).
Proof. exact histogram_ids. Qed.
Print Assumptions C52_histogram_ids_partial.
Theorem C52_histogram_ids_refuted : forall L id, good L -> 1 < l_per L -> servers L (l_size L) <= id < datastores L ->
  histogram_accepts L id = false /\ exists r off, hosts L r off id.
Proof. exact histogram_missing. Qed.
Print Assumptions C52_histogram_ids_refuted.
Example C52_example : good L7 /\ servers L7 (l_size L7) = 5 /\ datastores L7 = 20 /\ histogram_accepts L7 4 = true.
Proof. split; [exact L7_good|]. repeat split; reflexivity. Qed.

(* C40, Thallium: endpoints are numbered by range server, and looked up by rank. The request goes to the
   right rank exactly when all ranks are range servers or it is in the first block. *)
Theorem C40_thallium_partial : forall L me group r off id, good L -> hosts L r off id -> r <> me ->
  in_group true group r = true ->
  (tl_route L me group (ds_to_rank L id) = Some r <-> l_cr L <= l_sr L \/ r < l_sr L).
Proof. exact thallium_route. Qed.
Print Assumptions C40_thallium_partial.
(* all endpoints that are looked up: k is found as the k-th range server *)
Theorem C40_thallium_behaviour : forall L me group k v, good L ->
  (tl_route L me group k = Some v <->
   0 <= v < l_size L /\ server L v = true /\ me <> v /\ in_group true group v = true /\ servers L v = k).
Proof. exact tl_route_spec. Qed.
Print Assumptions C40_thallium_behaviour.
(* a request for datastore 8 on rank 3 goes to rank 4, for datastore 12 on rank 4 to rank 6 *)
Example C40_example : good L7 /\ hosts L7 3 0 8 /\ tl_route L7 0 [] (ds_to_rank L7 8) = Some 4 /\
  hosts L7 4 0 12 /\ tl_route L7 0 [] (ds_to_rank L7 12) = Some 6 /\
  tl_route L7 0 [] (ds_to_rank L7 4) = Some 1.
Proof.
  split; [exact L7_good|]. split; [split; [vm_compute; split; congruence|]; split; [vm_compute; split; congruence|reflexivity]|].
  split; [reflexivity|]. split; [split; [vm_compute; split; congruence|]; split; [vm_compute; split; congruence|reflexivity]|].
  split; reflexivity.
Qed.
Theorem C40_thallium_refuted : exists L me r off id r', good L /\ hosts L r off id /\ r <> me /\
  tl_route L me [] (ds_to_rank L id) = Some r' /\ r' <> r.
Proof.
  exact (ex_intro _ L7 (ex_intro _ 0 (ex_intro _ 3 (ex_intro _ 0 (ex_intro _ 8 (ex_intro _ 4
    (conj L7_good (conj (proj1 (proj2 C40_example)) (conj (fun E : 3 = 0 => ltac:(discriminate E))
      (conj (proj1 (proj2 (proj2 C40_example))) (fun E : 4 = 3 => ltac:(discriminate E)))))))))))).
Qed.
Print Assumptions C40_thallium_refuted.
(* MPI: the result of packing is compared with the wrong constant, so that nothing is sent *)
Theorem C40_mpi_refuted : forall eps packed,
  Forall (fun x => fst x = MESSAGE_SUCCESS \/ fst x = MESSAGE_ERROR) packed -> mpi_sent_to eps packed = [].
Proof. exact mpi_sends_nothing. Qed.
Print Assumptions C40_mpi_refuted.
Example C40_mpi_example : mpi_sent_to (mpi_endpoints L7 0 (upto 7)) [(MESSAGE_SUCCESS, 1)] = [] /\
  lookup 1 (mpi_endpoints L7 0 (upto 7)) = Some 1 /\
  mpi_sent_to (mpi_endpoints L7 0 (upto 7)) [(TRANSPORT_SUCCESS, 1)] = [1].
Proof. repeat split; reflexivity. Qed.

(* C41: names given on opening and by ChangeDatastoreName; every rank may have its own prefix and basename *)
Theorem C41_names_partial : forall L r off id r' off' id' p b p' b' post, good L ->
  hosts L r off id -> hosts L r' off' id' -> (r, off) <> (r', off') ->
  generate_name p b id post <> generate_name p' b' id' post.
Proof. exact names_distinct. Qed.
Print Assumptions C41_names_partial.
Example C41_example : good L7 /\ hosts L7 3 2 10 /\
  generate_name (bstr "/tmp") (bstr "db") 10 (bstr ".ldb") = bstr "/tmp/db-10.ldb".
Proof. split; [exact L7_good|]. split; [|reflexivity]. split; [vm_compute; split; congruence|]. split; [vm_compute; split; congruence|reflexivity]. Qed.
(* ChangeHash: get_id is called with the arguments of another overload; the datastores all get one name *)
Theorem C41_change_hash_refuted : forall L r off id r' off' id' name, good L ->
  hosts L r off id -> hosts L r' off' id' -> off <= l_size L -> off' <= l_size L ->
  change_hash_name L r off name = change_hash_name L r' off' name.
Proof. exact change_hash_same. Qed.
Print Assumptions C41_change_hash_refuted.
Example C41_change_hash_example : good L7 /\ hosts L7 3 2 10 /\ hosts L7 4 0 12 /\
  change_hash_name L7 3 2 (bstr "h") = bstr "h--1" /\ change_hash_name L7 4 0 (bstr "h") = bstr "h--1".
Proof.
  split; [exact L7_good|]. split; [split; [vm_compute; split; congruence|]; split; [vm_compute; split; congruence|reflexivity]|].
  split; [split; [vm_compute; split; congruence|]; split; [vm_compute; split; congruence|reflexivity]|]. split; reflexivity.
Qed.
