(* What GETOP should return, in terms of the stored triples in key order (SpecStore.v) *)
From Verif Require Import ModelBytes ModelKey ModelHist ModelMsg ModelStore ModelGetOp ModelDs SpecStore.
Local Open Scope N_scope.

(* a stored field as the caller sees it *)
Definition seen (f : field) : blob := mkBlob (blen (f_data f) =? 0) (f_data f) (f_type f).
Definition seen3 (t : triple) : rec3 := mkRec (seen (t_sub t)) (seen (t_pred t)) (seen (t_obj t)).
Definition found (ts : list triple) : gotop_item := mkGotOp (Z.of_N DATASTORE_SUCCESS) (map seen3 ts).
(* an error comes with the caller's own subject and predicate *)
Definition nothing (i : getop_item) : gotop_item :=
  mkGotOp (Z.of_N DATASTORE_ERROR) [mkRec (oi_sub i) (oi_pred i) blob_none].

Definition asks (d : ds) (i : getop_item) (g : gotop_item) : Prop :=
  operate d (QGetOp [i]) = Ok (d, Some (RGetOp [g])).

Definition first (n : N) (ts : list triple) : list triple := firstn (N.to_nat n) ts.

(* subject and predicate of the request, encoded; a predicate that cannot be encoded (none given) is empty *)
Definition pred_enc (c : codec) (can : blob -> bool) (i : getop_item) : bytes :=
  if can (oi_pred i) then enc c (fld (oi_pred i)) else [].
Definition prefix_of (c : codec) (can : blob -> bool) (i : getop_item) : bytes :=
  enc c (fld (oi_sub i)) ++ pred_enc c can i.
(* a request the callbacks can deal with *)
Definition fits (c : codec) (can : blob -> bool) (i : getop_item) : Prop :=
  storable c (oi_sub i) /\ knows c can (oi_pred i).

(* no other pair has a key that starts with s p *)
Definition alone (c : codec) (ts : list triple) (s p : field) : Prop :=
  forall t, In t ts -> starts_with (enc c s ++ enc c p) (tkey c t) = true -> t_sub t = s /\ t_pred t = p.

(* where LOWEST and HIGHEST look: just above the prefix, or just above prefix and negative symbol when a
   numeric type is given instead of a predicate *)
Definition least (c : codec) (can : blob -> bool) (i : getop_item) : bytes :=
  prefix_of c can i ++ (if (blen (pred_enc c can i) =? 0) && numeric (b_type (oi_pred i)) then [c_neg c; zero] else [zero]).

(* the triples whose key is below / not below k *)
Definition under (c : codec) (k : bytes) (t : triple) : bool := bltb (tkey c t) k.
Definition over (c : codec) (k : bytes) (t : triple) : bool := bleb k (tkey c t).

(* a request for at least one record, not LAST of an empty and not HIGHEST of an in-memory datastore *)
Definition safe (k : backend) (ts : list triple) (i : getop_item) : Prop :=
  1 <= oi_num i /\ (k = InMemory -> oi_op i <> GETOP_HIGHEST /\ (oi_op i = GETOP_LAST -> ts <> [])).
