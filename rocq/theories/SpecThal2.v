(* The Thallium transport: the requests of clients *)
From Verif Require Import ModelBytes ModelKey ModelWire ModelHist ModelMsg SpecMsg ModelStore ModelGetOp ModelDs ModelElen ModelRoute
  SpecStore SpecRoute ModelClient SpecClient SpecCluster SpecScan ModelPar SpecPar ModelThal SpecThal.

(* (dst_rank, bytes) is a request that the Flush after some calls sends to another rank *)
Definition asked (e : env) (k : backend) (c : codec) (x : Z * bytes) : Prop :=
  exists s cl cs s1 cl1 oks t m, fresh e s /\ Forall (scan_call c) cs /\ Forall (steady e k) (flat_map call_getops cs) /\ spread e cs /\
    do_calls e s cl cs = Ok (s1, cl1, oks) /\ In t (flush_tasks e s1) /\ In (fst x, m) (t_far t) /\ msg_pack m = Ok (snd x).
(* clients of one cluster, each with its threads, that reach the ranks they need to *)
Definition clients (E : Z -> env) (e0 : env) (k : backend) (c : codec) (eps : Z -> list (Z * Z)) (threads : list (Z * bool * list (Z * bytes))) : Prop :=
  forall me m q, In (me, m, q) threads ->
  good_client (E me) /\ same_cluster e0 (E me) /\ e_transport (E me) = Some (fun d => lookup d (eps me)) /\ Forall (asked (E me) k c) q.
