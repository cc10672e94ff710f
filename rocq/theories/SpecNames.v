(* What warnings about types should do *)
From Verif Require Import ModelBytes ModelKey ModelHist ModelMsg ModelStore ModelGetOp ModelDs ModelNames.
Local Open Scope N_scope.

(* HXHIM_DATA_INVALID to HXHIM_DATA_MAX_KNOWN *)
Definition known (t : N) : Prop := t <= 9.
(* the names of enum hxhim_data_t, include/hxhim/constants.h:130-140 *)
Definition name (t : N) : string :=
  match t with
  | 0 => "HXHIM_DATA_INVALID" | 1 => "HXHIM_DATA_INT32" | 2 => "HXHIM_DATA_INT64" | 3 => "HXHIM_DATA_UINT32" | 4 => "HXHIM_DATA_UINT64"
  | 5 => "HXHIM_DATA_FLOAT" | 6 => "HXHIM_DATA_DOUBLE" | 7 => "HXHIM_DATA_BYTE" | 8 => "HXHIM_DATA_POINTER" | 9 => "HXHIM_DATA_MAX_KNOWN"
  | _ => ""
  end%string.
(* what a callback makes of a blob fits into memory *)
Definition fits (c : codec) (b : blob) : Prop := forall e, c_enc c (b_type b) (b_null b) (b_data b) = Ok (Some e) -> blen e < 2 ^ 64.
(* requests that mention known types only *)
Definition typed_put (c : codec) (i : put_item) : Prop :=
  known (b_type (pi_sub i)) /\ known (b_type (pi_pred i)) /\ known (b_type (pi_obj i)) /\ fits c (pi_sub i) /\ fits c (pi_pred i).
Definition typed (c : codec) (q : body) : Prop :=
  match q with
  | QPut l => Forall (typed_put c) l
  | QGet l => Forall (fun i => known (gi_type i)) l
  | QGetOp l => Forall (fun i => known (b_type (oi_sub i)) /\ known (b_type (oi_pred i)) /\ known (oi_type i)) l
  | _ => True
  end.
Definition without {A B} (x : outcome (A * B)) : outcome A := do (a, _) <- x; Ok a.
(* one warning for types that differ *)
Definition differ (logs : bool) (stored asked : N) : list warning :=
  if logs then if stored =? asked then [] else [(name stored, name asked)] else [].
Definition get_warnings (logs : bool) (i : get_item) (g : got_item) : list warning := differ logs (b_type (go_obj g)) (gi_type i).
Definition getop_warnings (logs : bool) (i : getop_item) (g : gotop_item) : list warning :=
  flat_map (fun r => differ logs (b_type (rc_sub r)) (b_type (oi_sub i)) ++ differ logs (b_type (rc_pred r)) (b_type (oi_pred i)) ++
                     differ logs (b_type (rc_obj r)) (oi_type i)) (gp_recs g).
