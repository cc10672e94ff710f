(* Where things should be: range servers are numbered in rank order, datastores in range server order *)
From Verif Require Import ModelBytes ModelElen ModelRoute.
Local Open Scope Z_scope.

(* of every l_cr consecutive ranks the first l_sr are range servers *)
Definition server (L : layout) (r : Z) : bool := r mod l_cr L <? l_sr L.
(* number of range servers among the ranks below n *)
Definition servers (L : layout) (n : Z) : Z := Z.of_nat (length (filter (server L) (upto n))).
Definition datastores (L : layout) : Z := servers L (l_size L) * l_per L.
(* a layout that can be configured: no zero, and datastore ids fit into int *)
Definition good (L : layout) : Prop :=
  0 < l_size L <= int_max /\ 0 < l_cr L < 2 ^ 64 /\ 0 < l_sr L < 2 ^ 64 /\ 0 < l_per L /\ datastores L <= int_max.
(* the ids of the datastores that rank r sets up *)
Definition hosted (L : layout) (r : Z) : list Z :=
  match init_datastore L r with Some l => l | None => [] end.
(* datastore id is number off on rank r *)
Definition hosts (L : layout) (r off id : Z) : Prop :=
  0 <= r < l_size L /\ 0 <= off < l_per L /\ nth_error (hosted L r) (Z.to_nat off) = Some id.

(* the hash functions that only look at the key *)
Definition content_hashes : list hash_fn := [h_zero; h_ber; h_sax; h_fnv; h_oat; h_jen; h_sfh].
