From Verif Require Import ModelBytes ProofBytes ModelElen ModelRoute SpecRoute.
Local Open Scope Z_scope.

Lemma to_int_id z : 0 <= z < 2 ^ 31 -> to_int z = z.
Proof. intros H. unfold to_int. rewrite Z.mod_small by lia. destruct (Z.ltb_spec z (2 ^ 31)); lia. Qed.
Lemma sz_id z : 0 <= z < 2 ^ 64 -> sz z = z.
Proof. intros H. unfold sz. apply Z.mod_small. exact H. Qed.

(* ---- upto ---- *)
Lemma upto_0 n : n <= 0 -> upto n = [].
Proof. intros H. unfold upto. replace (Z.to_nat n) with O by lia. reflexivity. Qed.
Lemma upto_succ n : 0 <= n -> upto (n + 1) = upto n ++ [n].
Proof.
  intros H. unfold upto. replace (Z.to_nat (n + 1)) with (S (Z.to_nat n)) by lia.
  rewrite seq_S, map_app. cbn [map Nat.add]. f_equal. f_equal. lia.
Qed.
Lemma upto_length n : length (upto n) = Z.to_nat n.
Proof. unfold upto. rewrite map_length, seq_length. reflexivity. Qed.
Lemma upto_In n x : In x (upto n) <-> 0 <= x < n.
Proof.
  unfold upto. rewrite in_map_iff. split.
  - intros (k & Hk & Hin). apply in_seq in Hin. lia.
  - intros H. exists (Z.to_nat x). rewrite in_seq. lia.
Qed.
Lemma upto_nth n i : 0 <= i < n -> nth_error (upto n) (Z.to_nat i) = Some i.
Proof.
  intros H. unfold upto. rewrite nth_error_map, nth_error_nth' with (d := O) by (rewrite seq_length; lia).
  rewrite seq_nth by lia. cbn. f_equal. lia.
Qed.
Lemma upto_shift n m : 0 <= n -> 0 <= m -> upto (n + m) = upto n ++ map (fun i => n + i) (upto m).
Proof.
  intros Hn Hm. unfold upto. rewrite Z2Nat.inj_add by lia. rewrite seq_app, map_app. f_equal.
  rewrite map_map. cbn [Nat.add]. rewrite <- (Nat.add_0_r (Z.to_nat n)) at 1.
  generalize (Z.to_nat m) as k. intros k.
  assert (G : forall a, map Z.of_nat (seq (Z.to_nat n + a) k) = map (fun x => n + Z.of_nat x) (seq a k)).
  { induction k as [|k IH]; intros a; [reflexivity|]. cbn [seq map]. f_equal; [lia|].
    rewrite <- Nat.add_succ_r. apply IH. }
  apply G.
Qed.
Lemma upto_ind (P : Z -> Prop) : P 0 -> (forall n, 0 <= n -> P n -> P (n + 1)) -> forall n, 0 <= n -> P n.
Proof. intros H0 HS n Hn. apply natlike_ind; auto. Qed.

(* ---- counting servers ---- *)
Lemma servers_0 L : servers L 0 = 0.
Proof. reflexivity. Qed.
Lemma servers_succ L n : 0 <= n -> servers L (n + 1) = servers L n + (if server L n then 1 else 0).
Proof.
  intros H. unfold servers. rewrite upto_succ, filter_app, app_length by exact H. cbn [filter].
  destruct (server L n); cbn [length]; lia.
Qed.
Lemma servers_nonneg L n : 0 <= servers L n.
Proof. unfold servers. lia. Qed.
Lemma servers_le L n : 0 <= n -> servers L n <= n.
Proof.
  revert n. apply upto_ind; [reflexivity|]. intros n Hn IH. rewrite servers_succ by exact Hn.
  destruct (server L n); lia.
Qed.
Lemma servers_mono L n m : 0 <= n <= m -> servers L n <= servers L m.
Proof.
  intros [Hn Hm]. replace m with (n + (m - n)) by lia. assert (H : 0 <= m - n) by lia. revert H.
  generalize (m - n). apply upto_ind; [rewrite Z.add_0_r; lia|]. intros k Hk IH.
  rewrite Z.add_assoc, servers_succ by lia. destruct (server L (n + k)); lia.
Qed.
Lemma servers_strict L n m : 0 <= n < m -> server L n = true -> servers L n < servers L m.
Proof.
  intros H Hs. pose proof (servers_mono L (n + 1) m ltac:(lia)) as G.
  rewrite servers_succ, Hs in G by lia. lia.
Qed.
(* with at least as many servers as clients every rank is a server *)
Lemma server_all L r : 0 < l_cr L -> l_cr L <= l_sr L -> server L r = true.
Proof. intros H0 H. unfold server. pose proof (Z.mod_pos_bound r (l_cr L) H0). lia. Qed.
Lemma servers_all L n : 0 < l_cr L -> l_cr L <= l_sr L -> 0 <= n -> servers L n = n.
Proof.
  intros H0 H. revert n. apply upto_ind; [reflexivity|]. intros n Hn IH.
  rewrite servers_succ, server_all, IH by assumption. lia.
Qed.
Lemma div_succ n c : 0 < c -> 0 <= n ->
  ((n + 1) / c = n / c /\ (n + 1) mod c = n mod c + 1 /\ n mod c + 1 < c) \/
  ((n + 1) / c = n / c + 1 /\ (n + 1) mod c = 0 /\ n mod c + 1 = c).
Proof.
  intros Hc Hn. pose proof (Z.div_mod n c ltac:(lia)) as E. pose proof (Z.mod_pos_bound n c Hc) as B.
  destruct (Z.eq_dec (n mod c + 1) c) as [Q|Q].
  - right. assert (D : n + 1 = c * (n / c + 1) + 0) by lia.
    split; [|split]; [symmetry; eapply Z.div_unique with (r := 0)|symmetry; eapply Z.mod_unique with (q := n / c + 1)|]; lia.
  - left. assert (D : n + 1 = c * (n / c) + (n mod c + 1)) by lia.
    split; [|split; [|lia]].
    + symmetry. apply Z.div_unique with (r := n mod c + 1); [left; lia|exact D].
    + symmetry. apply Z.mod_unique with (q := n / c); [left; lia|exact D].
Qed.
Lemma servers_closed L n : 0 < l_sr L < l_cr L -> 0 <= n ->
  servers L n = l_sr L * (n / l_cr L) + Z.min (n mod l_cr L) (l_sr L).
Proof.
  intros H. revert n. apply upto_ind.
  - rewrite servers_0, Z.div_0_l, Z.mod_0_l by lia. lia.
  - intros n Hn IH. rewrite servers_succ, IH by exact Hn. unfold server.
    destruct (div_succ n (l_cr L) ltac:(lia) Hn) as [(E1 & E2 & B)|(E1 & E2 & B)]; rewrite E1, E2;
      destruct (Z.ltb_spec (n mod l_cr L) (l_sr L)); nia.
Qed.

Lemma totals L : good L -> total_range_servers L = servers L (l_size L) /\ total_datastores L = datastores L.
Proof.
  intros (Hs & Hc & Hr & Hp & Hd). unfold int_max in *.
  assert (E : total_range_servers L = servers L (l_size L)).
  { unfold total_range_servers. destruct (Z.leb_spec (l_cr L) (l_sr L)).
    - rewrite servers_all; lia.
    - rewrite servers_closed by lia. pose proof (Z.div_mod (l_size L) (l_cr L) ltac:(lia)).
      pose proof (Z.mod_pos_bound (l_size L) (l_cr L) ltac:(lia)).
      pose proof (Z.div_pos (l_size L) (l_cr L) ltac:(lia) ltac:(lia)).
      assert (l_sr L * (l_size L / l_cr L) <= l_cr L * (l_size L / l_cr L)) by nia.
      rewrite (sz_id (l_sr L * _)) by nia. rewrite sz_id by nia. reflexivity. }
  split; [exact E|]. unfold total_datastores, datastores in *. rewrite E. apply sz_id.
  pose proof (servers_nonneg L (l_size L)). nia.
Qed.

Lemma server_number L r : 0 < l_sr L -> 0 < l_cr L -> 0 <= r -> server L r = true -> l_sr L < l_cr L ->
  servers L r = r / l_cr L * l_sr L + r mod l_cr L.
Proof.
  intros H1 H2 H3 Hs Hlt. rewrite servers_closed by lia. unfold server in Hs. rewrite Z.min_l by lia. lia.
Qed.
Lemma rs_get_id_spec L r : good L -> 0 <= r < l_size L ->
  rs_get_id_in r (l_size L) (l_cr L) (l_sr L) = if server L r then servers L r else -1.
Proof.
  intros (Hs & Hc & Hr & Hp & Hd) Hrk. unfold rs_get_id_in, rs_get_id, int_max in *.
  destruct (Z.leb_spec (l_size L) r); [lia|]. destruct (Z.ltb_spec r 0); [lia|].
  destruct (Z.eqb_spec (l_cr L) 0); [lia|]. destruct (Z.eqb_spec (l_sr L) 0); [lia|]. cbn [orb].
  destruct (Z.leb_spec (l_cr L) (l_sr L)) as [A|A].
  - rewrite server_all, servers_all by lia. reflexivity.
  - destruct (server L r) eqn:E.
    + pose proof (server_number L r ltac:(lia) ltac:(lia) ltac:(lia) E A) as N. unfold server in E.
      destruct (Z.leb_spec (l_sr L) (r mod l_cr L)); [lia|].
      pose proof (servers_le L r ltac:(lia)). pose proof (Z.mod_pos_bound r (l_cr L) ltac:(lia)).
      pose proof (Z.div_pos r (l_cr L) ltac:(lia) ltac:(lia)).
      rewrite (sz_id (_ * _)) by nia. rewrite <- N. rewrite sz_id, to_int_id by (pose proof (servers_nonneg L r); lia). reflexivity.
    + unfold server in E. destruct (Z.leb_spec (l_sr L) (r mod l_cr L)); [reflexivity|lia].
Qed.
Lemma server_total L r off : good L -> 0 <= r < l_size L -> server L r = true -> 0 <= off < l_per L ->
  0 <= servers L r * l_per L + off < datastores L.
Proof.
  intros (Hs & Hc & Hr & Hp & Hd) Hrk E Ho. pose proof (servers_strict L r (l_size L) ltac:(lia) E).
  pose proof (servers_nonneg L r). unfold datastores. nia.
Qed.
Lemma ds_get_id_spec L r off : good L -> 0 <= r < l_size L -> 0 <= off < l_per L ->
  ds_get_id_in r off (l_size L) (l_cr L) (l_sr L) (l_per L) = if server L r then servers L r * l_per L + off else -1.
Proof.
  intros G Hrk Ho. assert (Hb : server L r = true -> 0 <= servers L r * l_per L + off < 2 ^ 31).
  { intros E. pose proof (server_total L r off G Hrk E Ho) as T. destruct G as (_ & _ & _ & _ & Hd). unfold int_max in Hd. lia. }
  destruct G as (Hs & Hc & Hr & Hp & Hd). unfold ds_get_id_in, ds_get_id, int_max in *.
  destruct (Z.leb_spec (l_size L) r); [lia|]. destruct (Z.ltb_spec r 0); [lia|].
  destruct (Z.eqb_spec (l_cr L) 0); [lia|]. destruct (Z.eqb_spec (l_sr L) 0); [lia|].
  destruct (Z.eqb_spec (l_per L) 0); [lia|]. destruct (Z.leb_spec (l_per L) off); [lia|]. cbn [orb].
  destruct (Z.leb_spec (l_cr L) (l_sr L)) as [A|A].
  - rewrite server_all in * by lia. specialize (Hb eq_refl). rewrite servers_all in * by lia.
    rewrite (sz_id (r * _)) by nia. rewrite sz_id, to_int_id by lia. reflexivity.
  - destruct (server L r) eqn:E.
    + pose proof (server_number L r ltac:(lia) ltac:(lia) ltac:(lia) E A) as N. unfold server in E.
      destruct (Z.leb_spec (l_sr L) (r mod l_cr L)); [lia|]. specialize (Hb eq_refl).
      pose proof (servers_le L r ltac:(lia)). pose proof (Z.mod_pos_bound r (l_cr L) ltac:(lia)).
      pose proof (Z.div_pos r (l_cr L) ltac:(lia) ltac:(lia)). pose proof (servers_nonneg L r).
      rewrite (sz_id (_ / _ * _)) by nia. rewrite <- N. rewrite (sz_id (servers L r)) by lia.
      rewrite (sz_id (_ * _)) by nia. rewrite sz_id, to_int_id by lia. reflexivity.
    + unfold server in E. destruct (Z.leb_spec (l_sr L) (r mod l_cr L)); [reflexivity|lia].
Qed.
Lemma init_spec L r : good L -> 0 <= r < l_size L ->
  init_datastore L r = Some (if server L r then map (fun i => servers L r * l_per L + i) (upto (l_per L)) else []).
Proof.
  intros G Hrk. pose proof (rs_get_id_spec L r G Hrk) as E1.
  pose proof (ds_get_id_spec L r 0 G Hrk) as E2. destruct G as (Hs & Hc & Hr & Hp & Hd).
  specialize (E2 ltac:(lia)). unfold init_datastore.
  destruct (Z.eqb_spec (l_cr L) 0); [lia|]. destruct (Z.eqb_spec (l_sr L) 0); [lia|].
  destruct (Z.eqb_spec (l_per L) 0); [lia|]. cbn [orb]. rewrite E1, E2.
  pose proof (servers_nonneg L r). destruct (server L r).
  - destruct (Z.ltb_spec (servers L r) 0); [lia|]. rewrite Z.add_0_r.
    rewrite (proj2 (forallb_forall _ _)); [reflexivity|].
    intros x Hx. apply in_map_iff in Hx. destruct Hx as (i & <- & Hi). apply upto_In in Hi. nia.
  - reflexivity.
Qed.
Lemma block_bound r c : 0 < c -> 0 <= r -> 0 <= r / c * c <= r.
Proof.
  intros Hc Hr. pose proof (Z.div_mod r c ltac:(lia)). pose proof (Z.mod_pos_bound r c Hc).
  pose proof (Z.div_pos r c Hr Hc). nia.
Qed.
Lemma ds_to_rank_spec L r off : good L -> 0 <= r < l_size L -> server L r = true -> 0 <= off < l_per L ->
  ds_to_rank L (servers L r * l_per L + off) = r.
Proof.
  intros G Hrk E Ho. pose proof (server_total L r off G Hrk E Ho) as T.
  destruct G as (Hs & Hc & Hr & Hp & Hd). unfold ds_to_rank, ds_get_rank_in, ds_get_rank, int_max in *.
  destruct (Z.ltb_spec (servers L r * l_per L + off) 0); [lia|].
  destruct (Z.eqb_spec (l_cr L) 0); [lia|]. destruct (Z.eqb_spec (l_sr L) 0); [lia|].
  destruct (Z.eqb_spec (l_per L) 0); [lia|]. cbn [orb].
  assert (Q : (servers L r * l_per L + off) / l_per L = servers L r).
  { symmetry. apply Z.div_unique with (r := off); [left|]; lia. }
  rewrite Q. destruct (Z.leb_spec (l_cr L) (l_sr L)) as [A|A].
  - rewrite servers_all by lia. rewrite to_int_id by lia. destruct (Z.leb_spec (l_size L) r); lia.
  - pose proof (server_number L r ltac:(lia) ltac:(lia) ltac:(lia) E A) as N. unfold server in E.
    assert (Q1 : servers L r / l_sr L = r / l_cr L).
    { symmetry. apply Z.div_unique with (r := r mod l_cr L); [left|]; [pose proof (Z.mod_pos_bound r (l_cr L) ltac:(lia))|]; lia. }
    assert (Q2 : servers L r mod l_sr L = r mod l_cr L).
    { symmetry. apply Z.mod_unique with (q := r / l_cr L); [left|]; [pose proof (Z.mod_pos_bound r (l_cr L) ltac:(lia))|]; lia. }
    rewrite Q1, Q2. pose proof (Z.div_mod r (l_cr L) ltac:(lia)).
    pose proof (Z.mod_pos_bound r (l_cr L) ltac:(lia)). pose proof (block_bound r (l_cr L) ltac:(lia) ltac:(lia)).
    rewrite (sz_id (_ * _)) by lia. rewrite sz_id by lia. rewrite to_int_id by lia.
    destruct (Z.leb_spec (l_size L) (r / l_cr L * l_cr L + r mod l_cr L)); lia.
Qed.
Lemma rs_get_rank_spec L r : good L -> 0 <= r < l_size L -> server L r = true ->
  rs_get_rank_in (servers L r) (l_size L) (l_cr L) (l_sr L) = r.
Proof.
  intros (Hs & Hc & Hr & Hp & Hd) Hrk E. unfold rs_get_rank_in, rs_get_rank, int_max in *.
  pose proof (servers_nonneg L r). destruct (Z.ltb_spec (servers L r) 0); [lia|].
  destruct (Z.eqb_spec (l_cr L) 0); [lia|]. destruct (Z.eqb_spec (l_sr L) 0); [lia|]. cbn [orb].
  destruct (Z.leb_spec (l_cr L) (l_sr L)) as [A|A].
  - rewrite servers_all by lia. destruct (Z.leb_spec (l_size L) r); lia.
  - pose proof (server_number L r ltac:(lia) ltac:(lia) ltac:(lia) E A) as N. unfold server in E.
    assert (Q1 : servers L r / l_sr L = r / l_cr L).
    { symmetry. apply Z.div_unique with (r := r mod l_cr L); [left|]; [pose proof (Z.mod_pos_bound r (l_cr L) ltac:(lia))|]; lia. }
    assert (Q2 : servers L r mod l_sr L = r mod l_cr L).
    { symmetry. apply Z.mod_unique with (q := r / l_cr L); [left|]; [pose proof (Z.mod_pos_bound r (l_cr L) ltac:(lia))|]; lia. }
    rewrite Q1, Q2. pose proof (Z.div_mod r (l_cr L) ltac:(lia)).
    pose proof (Z.mod_pos_bound r (l_cr L) ltac:(lia)). pose proof (block_bound r (l_cr L) ltac:(lia) ltac:(lia)).
    rewrite (sz_id (_ * _)) by lia. rewrite sz_id by lia. rewrite to_int_id by lia.
    destruct (Z.leb_spec (l_size L) (r / l_cr L * l_cr L + r mod l_cr L)); lia.
Qed.
(* every server number below the count belongs to a rank *)
Lemma server_of L k n : 0 <= n -> 0 <= k < servers L n -> exists r, 0 <= r < n /\ server L r = true /\ servers L r = k.
Proof.
  intros Hn. revert n Hn k. apply (upto_ind (fun n => forall k, 0 <= k < servers L n ->
    exists r, 0 <= r < n /\ server L r = true /\ servers L r = k)).
  - rewrite servers_0. lia.
  - intros n Hn IH k Hk. rewrite servers_succ in Hk by exact Hn.
    destruct (Z_lt_ge_dec k (servers L n)) as [Q|Q].
    + destruct (IH k ltac:(lia)) as (r & H1 & H2 & H3). exists r. repeat split; try lia; assumption.
    + destruct (server L n) eqn:E; [|lia]. exists n. repeat split; try lia; assumption.
Qed.

Lemma hosted_concat L : good L -> flat_map (hosted L) (upto (l_size L)) = upto (datastores L).
Proof.
  intros G. assert (P : 0 < l_per L) by (destruct G as (? & ? & ? & ? & ?); assumption).
  assert (K : forall n, 0 <= n -> n <= l_size L -> flat_map (hosted L) (upto n) = upto (servers L n * l_per L)).
  { apply (upto_ind (fun n => n <= l_size L -> flat_map (hosted L) (upto n) = upto (servers L n * l_per L))).
    - reflexivity.
    - intros n Hn IH Hle. rewrite upto_succ, flat_map_app, IH by lia. cbn [flat_map]. rewrite app_nil_r.
      unfold hosted. rewrite init_spec by (try exact G; lia). rewrite servers_succ by exact Hn.
      destruct (server L n).
      + rewrite Z.mul_add_distr_r, Z.mul_1_l. symmetry. apply upto_shift; [|lia]. pose proof (servers_nonneg L n). nia.
      + rewrite app_nil_r, Z.add_0_r. reflexivity. }
  apply K; destruct G as (? & ? & ? & ? & ?); lia.
Qed.
Lemma hosts_spec L r off id : good L ->
  (hosts L r off id <-> 0 <= r < l_size L /\ 0 <= off < l_per L /\ server L r = true /\ id = servers L r * l_per L + off).
Proof.
  intros G. unfold hosts, hosted. split.
  - intros (Hr & Ho & H). rewrite init_spec in H by assumption. destruct (server L r) eqn:E.
    + rewrite nth_error_map, upto_nth in H by exact Ho. cbn in H. injection H as <-. tauto.
    + exfalso. destruct (Z.to_nat off); cbn in H; discriminate H.
  - intros (Hr & Ho & E & ->). split; [exact Hr|]. split; [exact Ho|]. rewrite init_spec, E by assumption.
    rewrite nth_error_map, upto_nth by exact Ho. reflexivity.
Qed.
Lemma hosts_exists L id : good L -> 0 <= id < datastores L -> exists r off, hosts L r off id.
Proof.
  intros G Hid. pose proof G as (Hs & Hc & Hr & Hp & Hd).
  destruct (server_of L (id / l_per L) (l_size L) ltac:(lia)) as (r & H1 & H2 & H3).
  { split; [apply Z.div_pos; lia|]. apply Z.div_lt_upper_bound; [lia|]. unfold datastores in Hid. lia. }
  exists r, (id mod l_per L). apply hosts_spec; [exact G|]. pose proof (Z.mod_pos_bound id (l_per L) Hp).
  pose proof (Z.div_mod id (l_per L) ltac:(lia)). repeat split; try lia; assumption.
Qed.
Lemma hosts_unique L id r off r' off' : good L -> hosts L r off id -> hosts L r' off' id -> r' = r /\ off' = off.
Proof.
  intros G H H'. apply hosts_spec in H; [|exact G]. apply hosts_spec in H'; [|exact G].
  destruct H as (A1 & A2 & A3 & A4), H' as (B1 & B2 & B3 & B4).
  assert (E1 : ds_to_rank L id = r) by (rewrite A4; apply ds_to_rank_spec; assumption).
  assert (E2 : ds_to_rank L id = r') by (rewrite B4; apply ds_to_rank_spec; assumption).
  assert (Er : r' = r) by (rewrite <- E1; symmetry; exact E2).
  rewrite Er in B4. split; [exact Er|]. lia.
Qed.
Lemma hosts_offset L r off id : good L -> hosts L r off id -> id mod l_per L = off /\ 0 <= id < datastores L.
Proof.
  intros G H. pose proof H as H'. apply hosts_spec in H; [|exact G]. destruct H as (A1 & A2 & A3 & ->).
  split; [symmetry; apply Z.mod_unique with (q := servers L r); [left|]; lia|].
  apply server_total; assumption.
Qed.

Lemma layout_bijection L : good L ->
  total_range_servers L = servers L (l_size L) /\ total_datastores L = datastores L /\
  flat_map (hosted L) (upto (l_size L)) = upto (datastores L) /\
  (forall r, 0 <= r < l_size L ->
     (server L r = true -> init_datastore L r = Some (hosted L r) /\ length (hosted L r) = Z.to_nat (l_per L) /\
        rs_get_id_in r (l_size L) (l_cr L) (l_sr L) = servers L r /\
        rs_get_rank_in (servers L r) (l_size L) (l_cr L) (l_sr L) = r) /\
     (server L r = false -> init_datastore L r = Some [] /\ rs_get_id_in r (l_size L) (l_cr L) (l_sr L) = -1)) /\
  forall id, 0 <= id < datastores L -> exists r off,
    hosts L r off id /\ server L r = true /\ (forall r' off', hosts L r' off' id -> r' = r /\ off' = off) /\
    ds_to_rank L id = r /\ id mod l_per L = off /\
    ds_get_id_in r off (l_size L) (l_cr L) (l_sr L) (l_per L) = id.
Proof.
  intros G. destruct (totals L G) as [T1 T2]. split; [exact T1|]. split; [exact T2|]. split; [apply hosted_concat; exact G|].
  split.
  - intros r Hr. unfold hosted. rewrite init_spec, rs_get_id_spec by assumption. split; intros E; rewrite E.
    + split; [reflexivity|]. split; [rewrite map_length; apply upto_length|]. split; [reflexivity|].
      apply rs_get_rank_spec; assumption.
    + split; reflexivity.
  - intros id Hid. destruct (hosts_exists L id G Hid) as (r & off & H). exists r, off.
    split; [exact H|]. pose proof (hosts_offset L r off id G H) as [O _].
    pose proof H as H'. apply hosts_spec in H'; [|exact G]. destruct H' as (A1 & A2 & A3 & A4).
    split; [exact A3|]. split; [intros r' off' H'; exact (hosts_unique L id r off r' off' G H H')|].
    split; [rewrite A4; apply ds_to_rank_spec; assumption|]. split; [exact O|].
    rewrite ds_get_id_spec, A3 by assumption. lia.
Qed.
