(* What may be put on the wire, and what the receiver is expected to see. *)
From Verif Require Import ModelBytes ModelHist ModelMsg.
Local Open Scope N_scope.

(* values that fit their wire fields *)
Definition u64 (n : N) : Prop := n < 2 ^ 64.
Definition u32 (n : N) : Prop := n < 2 ^ 32.
Definition int32 (z : Z) : Prop := (- 2 ^ 31 <= z < 2 ^ 31)%Z.

(* a field with data (possibly of length 0) *)
Definition blob_ok (b : blob) : Prop := b_null b = false /\ u64 (blen (b_data b)) /\ u32 (b_type b).
Definition ref_ok (r : ref) : Prop := u64 (r_addr r) /\ u64 (r_len r) /\ u32 (r_type r).

Definition put_ok (i : put_item) : Prop :=
  blob_ok (pi_sub i) /\ u64 (pi_sub_addr i) /\ blob_ok (pi_pred i) /\ u64 (pi_pred_addr i) /\ blob_ok (pi_obj i).
Definition get_ok (i : get_item) : Prop :=
  blob_ok (gi_sub i) /\ u64 (gi_sub_addr i) /\ blob_ok (gi_pred i) /\ u64 (gi_pred_addr i) /\ u32 (gi_type i).
(* FIRST and LAST carry no subject and predicate *)
Definition getop_ok (i : getop_item) : Prop :=
  (oi_op i <> GETOP_FIRST -> oi_op i <> GETOP_LAST -> blob_ok (oi_sub i) /\ blob_ok (oi_pred i))
  /\ u32 (oi_op i) /\ u32 (oi_type i) /\ u64 (oi_num i).
Definition del_ok (i : del_item) : Prop :=
  blob_ok (di_sub i) /\ u64 (di_sub_addr i) /\ blob_ok (di_pred i) /\ u64 (di_pred_addr i).
Definition st_ok (i : st_item) : Prop := int32 (si_status i) /\ ref_ok (si_sub i) /\ ref_ok (si_pred i).
Definition got_ok (i : got_item) : Prop :=
  int32 (go_status i) /\ ref_ok (go_sub i) /\ ref_ok (go_pred i)
  /\ (go_status i = 1%Z -> blob_ok (go_obj i)).
Definition rec_ok (success : Prop) (r : rec3) : Prop :=
  blob_ok (rc_sub r) /\ blob_ok (rc_pred r) /\ (success -> blob_ok (rc_obj r)).
Definition gotop_ok (i : gotop_item) : Prop :=
  int32 (gp_status i) /\ u64 (N.of_nat (length (gp_recs i))) /\ Forall (rec_ok (gp_status i = 1%Z)) (gp_recs i).

(* a histogram before (cached values only) or after bucket generation *)
Definition hist_ok (h : hist) : Prop :=
  u64 (blen (h_name h)) /\ u64 (h_count h) /\ u64 (h_first_n h) /\ Forall u64 (h_cache h)
  /\ (h_count h < h_first_n h -> N.of_nat (length (h_cache h)) = h_count h /\ h_size h = 0)
  /\ (h_size h <> 0 ->
        exists bs cs, h_buckets h = Some bs /\ h_counts h = Some cs
          /\ N.of_nat (length bs) = h_size h /\ N.of_nat (length cs) = h_size h
          /\ u64 (h_size h) /\ Forall u64 bs /\ Forall u64 cs /\ u64 (h_upper h)).
Definition hitem_ok (i : hist_item) : Prop :=
  int32 (hi_status i) /\ (hi_status i = 1%Z -> exists h, hi_hist i = Some h /\ hist_ok h).

Definition body_ok (b : body) : Prop :=
  u64 (body_count b) /\
  match b with
  | QPut l => Forall put_ok l | QGet l => Forall get_ok l | QGetOp l => Forall getop_ok l
  | QDel l => Forall del_ok l | QHist l => Forall (fun b => b_null b = false /\ u64 (blen (b_data b))) l
  | RPut l => Forall st_ok l | RGet l => Forall got_ok l | RGetOp l => Forall gotop_ok l
  | RDel l => Forall st_ok l | RHist l => Forall hitem_ok l
  end.
Definition msg_ok (m : msg) : Prop := int32 (m_src m) /\ int32 (m_dst m) /\ body_ok (m_body m).

(* All fields of a request are present and non-empty (what the client API lets through). *)
Definition blob_nonempty (b : blob) : Prop := b_data b <> [].

(* ---- what the receiver sees ---- *)
(* the same bytes and type; a zero-length field arrives with a null pointer *)
Definition seen (b : blob) : blob := mkBlob (match b_data b with [] => true | _ => false end) (b_data b) (b_type b).
Definition nothing : blob := mkBlob true [] 0.

Definition seen_put (i : put_item) : put_item :=
  mkPut (seen (pi_sub i)) (pi_sub_addr i) (seen (pi_pred i)) (pi_pred_addr i) (seen (pi_obj i)).
Definition seen_get (i : get_item) : get_item :=
  mkGet (seen (gi_sub i)) (gi_sub_addr i) (seen (gi_pred i)) (gi_pred_addr i) (gi_type i).
Definition seen_getop (i : getop_item) : getop_item :=
  if (oi_op i =? GETOP_FIRST) || (oi_op i =? GETOP_LAST)
  then mkGetOp (oi_op i) nothing nothing (oi_type i) (oi_num i)
  else mkGetOp (oi_op i) (seen (oi_sub i)) (seen (oi_pred i)) (oi_type i) (oi_num i).
Definition seen_del (i : del_item) : del_item :=
  mkDel (seen (di_sub i)) (di_sub_addr i) (seen (di_pred i)) (di_pred_addr i).
(* histogram names travel without their type *)
Definition seen_name (b : blob) : blob := mkBlob (b_null (seen b)) (b_data b) 0.
(* objects of failed items are not sent *)
Definition seen_got (i : got_item) : got_item :=
  mkGot (go_status i) (go_sub i) (go_pred i) (if (go_status i =? 1)%Z then seen (go_obj i) else nothing).
Definition seen_rec (st : Z) (r : rec3) : rec3 :=
  mkRec (seen (rc_sub r)) (seen (rc_pred r)) (if (st =? 1)%Z then seen (rc_obj r) else nothing).
Definition seen_gotop (i : gotop_item) : gotop_item :=
  mkGotOp (gp_status i) (map (seen_rec (gp_status i)) (gp_recs i)).
(* the generator function is not sent; cached values only while the buckets do not exist *)
Definition seen_hist (h : hist) : hist :=
  let cached := h_count h <? h_first_n h in
  if h_size h =? 0
  then mkHist (h_name h) (h_first_n h) None (if cached then h_first_n h else 0) (if cached then h_cache h else [])
              (h_count h) None 0 None 0
  else mkHist (h_name h) (h_first_n h) None 0 [] (h_count h) (h_buckets h) (h_upper h) (h_counts h) (h_size h).
Definition seen_hitem (i : hist_item) : hist_item :=
  mkHI (hi_status i) (if (hi_status i =? 1)%Z then option_map seen_hist (hi_hist i) else None).

Definition seen_body (b : body) : body :=
  match b with
  | QPut l => QPut (map seen_put l) | QGet l => QGet (map seen_get l) | QGetOp l => QGetOp (map seen_getop l)
  | QDel l => QDel (map seen_del l) | QHist l => QHist (map seen_name l)
  | RPut l => RPut l | RGet l => RGet (map seen_got l) | RGetOp l => RGetOp (map seen_gotop l)
  | RDel l => RDel l | RHist l => RHist (map seen_hitem l)
  end.
Definition seen_msg (m : msg) : msg := mkMsg (m_src m) (m_dst m) (seen_body (m_body m)).

Definition is_request (m : msg) : Prop := body_dir (m_body m) = 1.
Definition is_response (m : msg) : Prop := body_dir (m_body m) = 2.

Definition empty_hist : hist := hist_new [] 0 None.

(* Messages that carry nothing the wire format drops: every field that is sent is non-empty, keyless
   GETOPs carry no key, histogram names no type, failed items no object. Histogram responses lose the
   generator function, so they are never exact (see seen_hist). *)
Definition full (b : blob) : Prop := b_null b = false /\ b_data b <> [].
Definition exact_body (b : body) : Prop :=
  match b with
  | QPut l => Forall (fun i => full (pi_sub i) /\ full (pi_pred i) /\ full (pi_obj i)) l
  | QGet l => Forall (fun i => full (gi_sub i) /\ full (gi_pred i)) l
  | QGetOp l => Forall (fun i => (oi_op i = GETOP_FIRST \/ oi_op i = GETOP_LAST) /\ oi_sub i = nothing /\ oi_pred i = nothing
                                 \/ (oi_op i <> GETOP_FIRST /\ oi_op i <> GETOP_LAST) /\ full (oi_sub i) /\ full (oi_pred i)) l
  | QDel l => Forall (fun i => full (di_sub i) /\ full (di_pred i)) l
  | QHist l => Forall (fun b => full b /\ b_type b = 0) l
  | RPut _ | RDel _ => True
  | RGet l => Forall (fun i => go_status i = 1%Z /\ full (go_obj i) \/ go_status i <> 1%Z /\ go_obj i = nothing) l
  | RGetOp l => Forall (fun i => Forall (fun r => full (rc_sub r) /\ full (rc_pred r) /\
                    (gp_status i = 1%Z /\ full (rc_obj r) \/ gp_status i <> 1%Z /\ rc_obj r = nothing)) (gp_recs i)) l
  | RHist _ => False
  end.
