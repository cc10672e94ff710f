(* What a histogram request should return while others store *)
From Verif Require Import ModelBytes ModelKey ModelWire ModelHist ModelMsg SpecMsg ModelStore ModelDs SpecStore.
Local Open Scope N_scope.

(* the histogram of a datastore under a name *)
Definition has_hist (d : ds) (n : bytes) (h : hist) : Prop := hist_find n (d_hists d) = Some h.
(* the buckets have been made *)
Definition settled (h : hist) : Prop :=
  h_first_n h <= h_count h /\ exists bs cs, h_buckets h = Some bs /\ h_counts h = Some cs /\
    N.of_nat (length bs) = h_size h /\ N.of_nat (length cs) = h_size h /\ h_size h <> 0.
(* a request stores nothing under the predicate n *)
Definition leaves (n : bytes) (q : body) : Prop :=
  match q with QPut l => Forall (fun i => fld (pi_pred i) <> mkField n T_BYTE) l | _ => True end.
(* each requested histogram as the datastore has it at one of the moments given *)
Definition item_at (d : ds) (b : blob) (i : hist_item) : Prop :=
  (exists h, has_hist d (b_data b) h /\ i = mkHI 1 (Some h)) \/ ((forall h, ~ has_hist d (b_data b) h) /\ i = mkHI 2 None).
