From Verif Require Import ModelBytes ProofBytes ModelElen SpecElen ProofElen ModelRoute SpecRoute ProofRoute.
From Coq Require FinFun.
Local Open Scope Z_scope.

(* ---- C27 ---- *)
Lemma modc_ok x count : 1 <= count <= int_max -> 0 <= x -> modc x count = Ok (x mod count) /\ 0 <= x mod count < count.
Proof.
  intros Hc Hx. unfold modc, int_max in *. destruct (Z.eqb_spec count 0); [lia|].
  pose proof (Z.mod_pos_bound x count ltac:(lia)). rewrite to_int_id by lia. split; [reflexivity|lia].
Qed.
Lemma ut_ok f h0 count s p : 1 <= count <= int_max -> (blen s < 2 ^ 32)%N -> (blen p < 2 ^ 32)%N ->
  exists id, 0 <= id < count /\ forall rank, ut f h0 rank count s p = Ok id.
Proof.
  intros Hc Hs Hp. unfold ut. destruct (modc_ok (Z.of_N (f (f h0 s) p)) count Hc ltac:(lia)) as [E B].
  eexists. split; [exact B|]. intros _. destruct (N.leb_spec (2 ^ 32) (blen s)); [lia|].
  destruct (N.leb_spec (2 ^ 32) (blen p)); [lia|]. exact E.
Qed.
Lemma content_hash f count s p : In f content_hashes -> 1 <= count <= int_max ->
  (blen s < 2 ^ 32)%N -> (blen p < 2 ^ 32)%N ->
  exists id, 0 <= id < count /\ forall rank, f rank count s p = Ok id.
Proof.
  intros Hf Hc Hs Hp. cbn [content_hashes In] in Hf.
  destruct Hf as [<-|Hf]; [exists 0; split; [lia|reflexivity]|].
  repeat (destruct Hf as [<-|Hf]; [apply ut_ok; assumption|]). destruct Hf.
Qed.
(* the sum of the bytes *)
Definition byte_sum (s : bytes) : Z := fold_right (fun b n => Z.of_N (N_of_ascii b) + n) 0 s.
Lemma nbyte b : (N_of_ascii b < 256)%N.
Proof. destruct b as [[][][][][][][][]]; vm_compute; reflexivity. Qed.
Lemma byte_sum_bound s : 0 <= byte_sum s <= 255 * Z.of_N (blen s).
Proof.
  induction s as [|b s IH]; unfold byte_sum in *; cbn [fold_right]; [cbn; lia|].
  pose proof (nbyte b). unfold blen in *. cbn [length]. lia.
Qed.
Lemma sum_bytes_spec s : forall d, 0 <= d ->
  sum_bytes d s = if d + byte_sum s <=? int_max then Ok (d + byte_sum s) else if d <=? int_max then UB else sum_bytes d s.
Proof.
  induction s as [|b s IH]; intros d Hd; unfold byte_sum in *; cbn [fold_right sum_bytes].
  - rewrite Z.add_0_r. destruct (d <=? int_max); reflexivity.
  - pose proof (byte_sum_bound s) as B. unfold byte_sum in B.
    destruct (Z.ltb_spec int_max (d + Z.of_N (N_of_ascii b))) as [Q|Q].
    + destruct (Z.leb_spec (d + (Z.of_N (N_of_ascii b) + fold_right (fun b n => Z.of_N (N_of_ascii b) + n) 0 s)) int_max); [lia|].
      destruct (d <=? int_max); reflexivity.
    + rewrite IH by lia. rewrite <- Z.add_assoc.
      destruct (Z.leb_spec (d + (Z.of_N (N_of_ascii b) + fold_right (fun b n => Z.of_N (N_of_ascii b) + n) 0 s)) int_max); [reflexivity|].
      destruct (Z.leb_spec (d + Z.of_N (N_of_ascii b)) int_max); [|lia].
      destruct (Z.leb_spec d int_max); [reflexivity|lia].
Qed.
Lemma sum_hash count s p rank : 1 <= count <= int_max -> byte_sum s + byte_sum p <= int_max ->
  h_sum rank count s p = Ok ((byte_sum s + byte_sum p) mod count) /\ 0 <= (byte_sum s + byte_sum p) mod count < count.
Proof.
  intros Hc Hb. pose proof (byte_sum_bound s). pose proof (byte_sum_bound p). unfold h_sum.
  rewrite sum_bytes_spec, Z.add_0_l by lia. destruct (Z.leb_spec (byte_sum s) int_max); [|lia].
  cbn [obind]. rewrite sum_bytes_spec by lia. destruct (Z.leb_spec (byte_sum s + byte_sum p) int_max); [|lia].
  cbn [obind]. apply modc_ok; lia.
Qed.
Lemma sum_hash_overflow count s p rank : int_max < byte_sum s + byte_sum p -> h_sum rank count s p = UB.
Proof.
  intros Hb. pose proof (byte_sum_bound s). pose proof (byte_sum_bound p). unfold h_sum.
  rewrite sum_bytes_spec, Z.add_0_l by lia. destruct (Z.leb_spec (byte_sum s) int_max).
  - cbn [obind]. rewrite sum_bytes_spec by lia. destruct (Z.leb_spec (byte_sum s + byte_sum p) int_max); [lia|].
    destruct (Z.leb_spec (byte_sum s) int_max); [reflexivity|lia].
  - destruct (Z.leb_spec 0 int_max); [reflexivity|unfold int_max in *; lia].
Qed.
Lemma byte_sum_repeat b n : byte_sum (repeat b n) = Z.of_N (N_of_ascii b) * Z.of_nat n.
Proof. induction n as [|n IH]; unfold byte_sum in *; cbn [repeat fold_right]; lia. Qed.
Definition xff : byte := ascii_of_N 255.
Lemma sum_hash_refuted : exists s p, (blen s < 2 ^ 24)%N /\ (blen p < 2 ^ 24)%N /\ forall rank count, h_sum rank count s p = UB.
Proof.
  exists (repeat xff (N.to_nat 8421505)), (repeat xff (N.to_nat 8421505)).
  assert (E : (blen (repeat xff (N.to_nat 8421505)) = 8421505)%N)
    by (unfold blen; rewrite repeat_length; apply N2Nat.id).
  rewrite E. split; [reflexivity|]. split; [reflexivity|]. intros rank count. apply sum_hash_overflow.
  rewrite byte_sum_repeat. change (N_of_ascii xff) with 255%N. unfold int_max. rewrite N_nat_Z. lia.
Qed.
Lemma rank_hash count s p rank : 1 <= count <= int_max -> 0 <= rank <= int_max ->
  h_rank rank count s p = Ok (rank mod count) /\ 0 <= rank mod count < count.
Proof. intros Hc Hr. unfold h_rank. rewrite sz_id by (unfold int_max in *; lia). apply modc_ok; lia. Qed.
Lemma rank_hash_refuted count : 2 <= count <= int_max -> forall s p, h_rank 0 count s p <> h_rank 1 count s p.
Proof.
  intros Hc s p. destruct (rank_hash count s p 0 ltac:(lia) ltac:(unfold int_max; lia)) as [-> _].
  destruct (rank_hash count s p 1 ltac:(lia) ltac:(unfold int_max; lia)) as [-> _].
  rewrite Z.mod_0_l, Z.mod_1_l by lia. discriminate.
Qed.

(* ---- C29 ---- *)
Lemma location_offset L id r off : good L -> datastore_location L id = Some (r, off) ->
  0 <= id < datastores L /\ exists r', hosts L r' off id.
Proof.
  intros G H. unfold datastore_location in H. destruct (totals L G) as [_ T]. rewrite T in H.
  destruct (Z.ltb_spec id 0); [discriminate|]. destruct (Z.leb_spec (datastores L) id); [discriminate|]. cbn [orb] in H.
  destruct (_ <? 0); [discriminate|]. injection H as _ <-. split; [lia|].
  destruct (hosts_exists L id G ltac:(lia)) as (r' & off & Hh). destruct (hosts_offset L r' off id G Hh) as [E _].
  pose proof Hh as (_ & Ho & _). destruct G as (Hs & Hc & Hr & Hp & Hd). unfold int_max in *.
  pose proof (Z.mod_le id (l_per L) ltac:(lia) Hp). rewrite to_int_id by lia. rewrite E. exists r'. exact Hh.
Qed.
Lemma location_none L id : good L -> ~ 0 <= id < datastores L -> datastore_location L id = None.
Proof.
  intros G H. unfold datastore_location. destruct (totals L G) as [_ ->].
  destruct (Z.ltb_spec id 0); [reflexivity|]. destruct (Z.leb_spec (datastores L) id); [reflexivity|lia].
Qed.
Lemma location_zero L : good L -> 0 < to_int (l_cr L) -> datastore_location L 0 = Some (0, 0) /\ hosts L 0 0 0.
Proof.
  intros G Hcr. assert (Hs0 : server L 0 = true).
  { destruct G as (? & ? & ? & ?). unfold server. rewrite Z.mod_0_l by lia. lia. }
  pose proof G as (Hs & Hc & Hr & Hp & Hd).
  assert (Hh : hosts L 0 0 0) by (apply hosts_spec; [exact G|]; rewrite servers_0; repeat split; try lia; exact Hs0).
  split; [|exact Hh]. destruct (hosts_offset L 0 0 0 G Hh) as [_ B]. unfold datastore_location.
  destruct (totals L G) as [_ ->]. destruct (Z.ltb_spec 0 0); [lia|]. destruct (Z.leb_spec (datastores L) 0); [lia|]. cbn [orb].
  unfold rs_get_rank_in, rs_get_rank. destruct (Z.eqb_spec (l_sr L) 0); [lia|]. destruct (Z.eqb_spec (l_per L) 0); [lia|].
  cbn [Z.ltb Z.compare orb]. rewrite !Z.div_0_l, !Z.mod_0_l, Z.mul_0_l by lia.
  change (to_int (sz (sz 0 + 0))) with 0.
  destruct (l_sr L <=? l_per L); (destruct (Z.leb_spec (to_int (l_cr L)) 0); [lia|]); reflexivity.
Qed.
(* with one client per server and one datastore per server only datastore 0 is located *)
Lemma location_one L : good L -> l_cr L = 1 -> l_sr L = 1 -> l_per L = 1 ->
  forall id, 1 <= id < datastores L -> datastore_location L id = None /\ hosts L id 0 id.
Proof.
  intros G E1 E2 E3 id Hid. pose proof (totals L G) as [_ T]. pose proof G as (Hs & _ & _ & _ & _).
  assert (D : datastores L = l_size L).
  { unfold datastores. rewrite servers_all by lia. lia. }
  split.
  - unfold datastore_location. rewrite T. destruct (Z.ltb_spec id 0); [lia|]. destruct (Z.leb_spec (datastores L) id); [lia|].
    cbn [orb]. rewrite E1, E2, E3. unfold rs_get_rank_in, rs_get_rank. destruct (Z.ltb_spec id 0); [lia|].
    change (to_int 1) with 1. change ((1 =? 0) || (1 =? 0))%bool with false. cbn [Z.eqb orb]. change (1 <=? 1) with true. cbn iota.
    destruct (Z.leb_spec 1 id); [reflexivity|lia].
  - apply hosts_spec; [exact G|]. rewrite server_all, servers_all by lia. repeat split; try lia.
Qed.

(* ---- C52 ---- *)
Lemma histogram_ids L id : good L ->
  (histogram_accepts L id = true <-> 0 <= id < servers L (l_size L)) /\
  (histogram_accepts L id = true -> 0 <= id < datastores L).
Proof.
  intros G. destruct (totals L G) as [T _]. pose proof G as (Hs & Hc & Hr & Hp & Hd).
  pose proof (servers_nonneg L (l_size L)). pose proof (servers_le L (l_size L) ltac:(lia)). unfold int_max in *.
  assert (A : histogram_accepts L id = true <-> 0 <= id < servers L (l_size L)).
  { unfold histogram_accepts. rewrite T, to_int_id by lia. lia. }
  split; [exact A|]. intros E. apply A in E. unfold datastores. nia.
Qed.
Lemma histogram_missing L id : good L -> 1 < l_per L -> servers L (l_size L) <= id < datastores L ->
  histogram_accepts L id = false /\ exists r off, hosts L r off id.
Proof.
  intros G Hp Hid. split.
  - destruct (histogram_ids L id G) as [A _]. destruct (histogram_accepts L id); [|reflexivity]. pose proof (proj1 A eq_refl). lia.
  - apply hosts_exists; [exact G|]. pose proof (servers_nonneg L (l_size L)). lia.
Qed.

(* ---- C40 ---- *)
Lemma add_ids_lookup is_rs allowed k : forall ranks start, NoDup ranks ->
  forall v, lookup k (add_ids is_rs allowed start ranks) = Some v ->
  exists pre post, ranks = pre ++ v :: post /\ is_rs v = true /\ allowed v = true /\
    start + Z.of_nat (length (filter is_rs pre)) = k.
Proof.
  induction ranks as [|r ranks IH]; intros start ND v H; [discriminate H|].
  inversion ND as [|? ? Hn ND']; subst. cbn [add_ids] in H. destruct (is_rs r) eqn:E.
  - destruct (allowed r) eqn:Ea.
    + unfold lookup in H. cbn [app find fst option_map] in H. destruct (Z.eqb_spec start k) as [Q|Q].
      * cbn in H. injection H as <-. exists [], ranks. cbn. repeat split; try assumption. lia.
      * destruct (IH (start + 1) ND' v H) as (pre & post & -> & H1 & H2 & H3).
        exists (r :: pre), post. cbn [filter app]. rewrite E. cbn [length]. repeat split; try assumption. lia.
    + cbn [app] in H. destruct (IH (start + 1) ND' v H) as (pre & post & -> & H1 & H2 & H3).
      exists (r :: pre), post. cbn [filter app]. rewrite E. cbn [length]. repeat split; try assumption. lia.
  - destruct (IH start ND' v H) as (pre & post & -> & H1 & H2 & H3).
    exists (r :: pre), post. cbn [filter app]. rewrite E. repeat split; try assumption.
Qed.
Lemma add_ids_found is_rs allowed : forall pre start v post, is_rs v = true -> allowed v = true ->
  lookup (start + Z.of_nat (length (filter is_rs pre))) (add_ids is_rs allowed start (pre ++ v :: post)) = Some v.
Proof.
  induction pre as [|r pre IH]; intros start v post Hv Ha; cbn [app add_ids filter].
  - rewrite Hv, Ha. unfold lookup. cbn [length app find fst]. rewrite Z.add_0_r, Z.eqb_refl. reflexivity.
  - destruct (is_rs r).
    + cbn [length]. specialize (IH (start + 1) v post Hv Ha).
      replace (start + Z.of_nat (S (length (filter is_rs pre)))) with (start + 1 + Z.of_nat (length (filter is_rs pre))) by lia.
      destruct (allowed r); [|exact IH]. unfold lookup in *. cbn [app find fst].
      destruct (Z.eqb_spec start (start + 1 + Z.of_nat (length (filter is_rs pre)))); [lia|]. exact IH.
    + apply IH; assumption.
Qed.
Lemma upto_split n v : 0 <= v < n -> exists post, upto n = upto v ++ v :: post.
Proof.
  intros H. replace n with (v + 1 + (n - v - 1)) by lia. rewrite upto_shift, upto_succ by lia.
  rewrite <- app_assoc. eexists. reflexivity.
Qed.
Lemma upto_NoDup n : NoDup (upto n).
Proof. unfold upto. apply FinFun.Injective_map_NoDup; [intros a b; lia|]. apply seq_NoDup. Qed.
Lemma upto_pre n pre v post : upto n = pre ++ v :: post -> pre = upto v /\ 0 <= v < n.
Proof.
  intros H. assert (Hin : 0 <= v < n) by (apply upto_In; rewrite H; apply in_elt).
  split; [|exact Hin]. destruct (upto_split n v Hin) as [post' E]. rewrite E in H.
  pose proof (upto_NoDup n) as ND. rewrite E in ND. clear E Hin.
  revert pre H ND. generalize (upto v) as l. induction l as [|a l IH]; intros pre H ND; destruct pre as [|b pre]; cbn [app] in *.
  - reflexivity.
  - exfalso. assert (E1 : b = v) by congruence. assert (E2 : post' = pre ++ v :: post) by congruence.
    inversion ND as [|? ? Hn _]; subst. apply Hn. apply in_elt.
  - exfalso. assert (E1 : a = v) by congruence. inversion ND as [|? ? Hn _]; subst. apply Hn. apply in_elt.
  - assert (E1 : a = b) by congruence. assert (E2 : l ++ v :: post' = pre ++ v :: post) by congruence.
    rewrite E1. f_equal. apply IH; [exact E2|]. inversion ND; assumption.
Qed.
Lemma is_server_spec L r : good L -> 0 <= r -> negb (rs_is r (l_cr L) (l_sr L) =? 0) = server L r.
Proof.
  intros (Hs & Hc & Hr & _) H. unfold rs_is, server. destruct (Z.ltb_spec r 0); [lia|].
  destruct (Z.eqb_spec (l_cr L) 0); [lia|]. destruct (Z.eqb_spec (l_sr L) 0); [lia|]. cbn [orb].
  destruct (r mod l_cr L <? l_sr L); reflexivity.
Qed.
Lemma filter_ext_in' {A} (f g : A -> bool) l : (forall a, In a l -> f a = g a) -> filter f l = filter g l.
Proof. apply filter_ext_in. Qed.
Lemma tl_route_spec L me group k v : good L ->
  (tl_route L me group k = Some v <->
   0 <= v < l_size L /\ server L v = true /\ me <> v /\ in_group true group v = true /\ servers L v = k).
Proof.
  intros G. unfold tl_route, tl_endpoints.
  set (is_rs := fun r => negb (rs_is r (l_cr L) (l_sr L) =? 0)).
  set (al := fun r => negb (me =? r) && in_group true group r).
  assert (C : forall v, 0 <= v -> Z.of_nat (length (filter is_rs (upto v))) = servers L v).
  { intros w Hw. unfold servers. rewrite (filter_ext_in is_rs (server L)); [reflexivity|].
    intros a Ha. apply upto_In in Ha. apply is_server_spec; [exact G|lia]. }
  split.
  - intros H. destruct (add_ids_lookup is_rs al k (upto (l_size L)) 0 (upto_NoDup _) v H) as (pre & post & E & H1 & H2 & H3).
    destruct (upto_pre _ _ _ _ E) as [-> Hv]. rewrite C in H3 by lia. unfold is_rs in H1. rewrite is_server_spec in H1 by (try exact G; lia).
    unfold al in H2. apply andb_prop in H2. destruct H2 as [H2 H4]. repeat split; try lia; assumption.
  - intros (Hv & Hs & Hm & Hg & <-). destruct (upto_split (l_size L) v Hv) as [post E]. rewrite E.
    rewrite <- C by lia. rewrite <- (Z.add_0_l (Z.of_nat _)). apply add_ids_found.
    + unfold is_rs. rewrite is_server_spec by (try exact G; lia). exact Hs.
    + unfold al. rewrite Hg. destruct (Z.eqb_spec me v); [contradiction|reflexivity].
Qed.
Lemma servers_fixed L r : good L -> 0 <= r -> server L r = true -> (servers L r = r <-> l_cr L <= l_sr L \/ r < l_sr L).
Proof.
  intros (Hs & Hc & Hr & _) H E. split.
  - intros Q. destruct (Z_le_gt_dec (l_cr L) (l_sr L)) as [A|A]; [left; exact A|]. right.
    pose proof (server_number L r ltac:(lia) ltac:(lia) H E ltac:(lia)) as N.
    pose proof (Z.div_mod r (l_cr L) ltac:(lia)). pose proof (Z.div_pos r (l_cr L) H ltac:(lia)). unfold server in E. nia.
  - intros [A|A]; [apply servers_all; lia|]. destruct (Z_le_gt_dec (l_cr L) (l_sr L)) as [B|B]; [apply servers_all; lia|].
    rewrite (server_number L r) by (try assumption; lia). rewrite Z.div_small, Z.mod_small by lia. lia.
Qed.
Lemma thallium_route L me group r off id : good L -> hosts L r off id -> r <> me -> in_group true group r = true ->
  (tl_route L me group (ds_to_rank L id) = Some r <-> l_cr L <= l_sr L \/ r < l_sr L).
Proof.
  intros G Hh Hm Hg. pose proof Hh as Hh'. apply hosts_spec in Hh'; [|exact G]. destruct Hh' as (Hr & Ho & Hs & ->).
  rewrite ds_to_rank_spec by assumption. rewrite tl_route_spec by exact G. rewrite <- servers_fixed by (try assumption; lia).
  split; [tauto|]. intros Q. repeat split; try assumption; try lia; try congruence.
Qed.
Lemma mpi_sends_nothing eps packed : Forall (fun x => fst x = MESSAGE_SUCCESS \/ fst x = MESSAGE_ERROR) packed ->
  mpi_sent_to eps packed = [].
Proof.
  induction 1 as [|[rc dst] l H Hl IH]; [reflexivity|]. unfold mpi_sent_to in *. cbn [flat_map]. rewrite IH.
  cbn [fst] in H. destruct H as [->| ->]; reflexivity.
Qed.

(* ---- C41 ---- *)
Lemma dash_not_digit : is_digit "-"%char = false.
Proof. reflexivity. Qed.
Lemma split_last (d : byte) : forall a b x y : bytes, ~ In d x -> ~ In d y -> a ++ d :: x = b ++ d :: y -> x = y.
Proof.
  induction a as [|c a IH]; intros b x y Hx Hy H; destruct b as [|e b]; cbn [app] in H.
  - injection H as H. exact H.
  - exfalso. injection H as _ H. apply Hx. rewrite H. apply in_elt.
  - exfalso. injection H as _ H. apply Hy. rewrite <- H. apply in_elt.
  - injection H as _ H. exact (IH b x y Hx Hy H).
Qed.
Lemma to_string_no_dash n : ~ In "-"%char (to_string n).
Proof.
  intros H. destruct (to_string_spec n) as [A _]. unfold all_digits in A. rewrite Forall_forall in A.
  specialize (A _ H). discriminate A.
Qed.
Lemma to_string_inj n m : to_string n = to_string m -> n = m.
Proof.
  intros H. destruct (to_string_spec n) as (_ & A & _). destruct (to_string_spec m) as (_ & B & _).
  rewrite <- A, <- B, H. reflexivity.
Qed.
Lemma generate_name_inj p b id p' b' id' post : 0 <= id <= int_max -> 0 <= id' <= int_max ->
  generate_name p b id post = generate_name p' b' id' post -> id = id'.
Proof.
  intros H1 H2 H. unfold generate_name, int_max in *. rewrite !sz_id in H by lia.
  rewrite !app_comm_cons in H. rewrite !app_assoc in H. apply app_inv_tail in H.
  rewrite <- !app_assoc in H. cbn [app] in H.
  change (p ++ "/"%char :: b ++ "-"%char :: to_string (Z.to_N id)) with (p ++ ("/"%char :: b) ++ "-"%char :: to_string (Z.to_N id)) in H.
  change (p' ++ "/"%char :: b' ++ "-"%char :: to_string (Z.to_N id')) with (p' ++ ("/"%char :: b') ++ "-"%char :: to_string (Z.to_N id')) in H.
  rewrite !app_assoc in H. apply split_last in H; try apply to_string_no_dash. apply to_string_inj in H. lia.
Qed.
Lemma names_distinct L r off id r' off' id' p b p' b' post : good L -> hosts L r off id -> hosts L r' off' id' ->
  (r, off) <> (r', off') -> generate_name p b id post <> generate_name p' b' id' post.
Proof.
  intros G H H' Hne E. destruct (hosts_offset L r off id G H) as [_ B]. destruct (hosts_offset L r' off' id' G H') as [_ B'].
  pose proof G as (_ & _ & _ & _ & Hd). apply generate_name_inj in E; [|lia|lia]. subst id'.
  destruct (hosts_unique L id r off r' off' G H H') as [-> ->]. apply Hne. reflexivity.
Qed.
Lemma change_hash_same L r off id r' off' id' name : good L -> hosts L r off id -> hosts L r' off' id' ->
  off <= l_size L -> off' <= l_size L -> change_hash_name L r off name = change_hash_name L r' off' name.
Proof.
  intros G H H' Ho Ho'. pose proof G as (Hs & _). destruct H as (Hr & Hof & _), H' as (Hr' & Hof' & _).
  assert (K : forall q i, 0 <= q -> 0 <= i <= l_size L -> ds_get_id q (sz (l_size L)) (l_cr L) (l_sr L) i = -1).
  { intros q i Hq Hi. unfold ds_get_id. rewrite sz_id by (unfold int_max in *; lia).
    destruct (Z.leb_spec i (l_size L)); [|lia]. rewrite !orb_true_r. reflexivity. }
  unfold change_hash_name. rewrite !K by lia. reflexivity.
Qed.
