(* What a datastore holds and what GETOP returns when the callbacks do not give back exactly what they were given *)
From Verif Require Import ModelBytes ModelKey ModelElen ModelHist ModelMsg ModelStore ModelGetOp ModelDs SpecStore SpecGetOp.
Local Open Scope N_scope.

(* ---- what is left of a history ---- *)
Inductive change := Put (i : put_item) | Del (i : del_item).
Definition changes (q : body) : list change :=
  match q with QPut l => map Put l | QDel l => map Del l | _ => [] end.
(* what the callbacks make of a value, with its type; None: they refuse it *)
Definition code (c : codec) (b : blob) : option field :=
  match c_enc c (b_type b) (b_null b) (b_data b) with Ok (Some e) => Some (mkField e (b_type b)) | _ => None end.
Definition codes (c : codec) (s p : blob) : option (field * field) :=
  match code c s, code c p with Some s', Some p' => Some (s', p') | _, _ => None end.
(* the pair that a PUT or DELETE changes, if it changes anything *)
Definition pair_of (c : codec) (x : change) : option (field * field) :=
  match x with
  | Put i => match code c (pi_obj i) with Some _ => codes c (pi_sub i) (pi_pred i) | None => None end
  | Del i => codes c (di_sub i) (di_pred i)
  end.
(* i is PUT, and afterwards nothing changes its pair *)
Definition kept (c : codec) (xs : list change) (i : put_item) : Prop :=
  pair_of c (Put i) <> None /\
  exists before after, xs = before ++ Put i :: after /\ forall x, In x after -> pair_of c x <> pair_of c (Put i).
(* where it is kept *)
Definition item_key (c : codec) (i : put_item) : bytes :=
  match pair_of c (Put i) with Some (s, p) => sp_to_key s p | None => [] end.
(* ts is what is left, in key order *)
Definition left_by (c : codec) (xs : list change) (ts : list put_item) : Prop :=
  StronglySorted (fun i j => bltb (item_key c i) (item_key c j) = true) ts /\ forall i, In i ts <-> kept c xs i.

(* encoded values have less than 2^64 bytes, types one byte *)
Definition small (c : codec) (b : blob) : Prop := forall f, code c b = Some f -> blen (f_data f) < 2 ^ 64 /\ f_type f < 256.
Definition small_change (c : codec) (x : change) : Prop :=
  match x with
  | Put i => small c (pi_sub i) /\ small c (pi_pred i) /\ small c (pi_obj i)
  | Del i => small c (di_sub i) /\ small c (di_pred i)
  end.

(* ---- what comes back ---- *)
(* r is what reading back a stored b gives *)
Definition back (c : codec) (b r : blob) : Prop :=
  exists f d, code c b = Some f /\ c_dec c (f_type f) (f_data f) = Ok (Some d) /\ r = mkBlob (blen d =? 0) d (b_type b).
Definition back3 (c : codec) (i : put_item) (r : rec3) : Prop :=
  back c (pi_sub i) (rc_sub r) /\ back c (pi_pred i) (rc_pred r) /\ back c (pi_obj i) (rc_obj r).

(* ---- GETOP, from the items in key order: as SpecScan.reply, for any kind of item ---- *)
Section Reply.
Context {A : Type} (key : A -> bytes).
Definition some_if (us l : list A) : option (list A) := match us with [] => None | _ => Some l end.
(* P: encoded subject and predicate; lo: where LOWEST and HIGHEST start *)
Definition reply_by (P lo : bytes) (op n : N) (ts : list A) : option (list A) :=
  let below k := filter (fun t => bltb (key t) k) ts in
  let from k := filter (fun t => bleb k (key t)) ts in
  let with_P := filter (fun t => starts_with P (key t)) in
  let first l := firstn (N.to_nat n) l in
  if op =? GETOP_EQ then some_if (from P) (firstn 1 (from P))
  else if op =? GETOP_NEXT then some_if (from P) (first (from P))
  else if op =? GETOP_PREV then some_if (from P) (first (firstn 1 (from P) ++ rev (below P)))
  else if op =? GETOP_FIRST then some_if ts (first ts)
  else if op =? GETOP_LAST then some_if ts (first (rev ts))
  else if op =? GETOP_LOWEST then some_if (from lo) (first (with_P (from lo)))
  else if op =? GETOP_HIGHEST then some_if (below lo) (first (rev (with_P (below lo))))
  else None.
End Reply.
Definition coded_data (c : codec) (b : blob) : bytes := match code c b with Some f => f_data f | None => [] end.
Definition req_prefix (c : codec) (q : getop_item) : bytes := coded_data c (oi_sub q) ++ coded_data c (oi_pred q).
(* just above the prefix, or just above prefix and negative symbol when a numeric type is given instead of a predicate *)
Definition req_least (c : codec) (q : getop_item) : bytes :=
  req_prefix c q ++ (if (blen (coded_data c (oi_pred q)) =? 0) && numeric (b_type (oi_pred q)) then [c_neg c; zero] else [zero]).
Definition reply_of (c : codec) (ts : list put_item) (q : getop_item) : option (list put_item) :=
  reply_by (item_key c) (req_prefix c q) (req_least c q) (oi_op q) (oi_num q) ts.
(* the answer g *)
Definition replies (c : codec) (ts : list put_item) (q : getop_item) (g : gotop_item) : Prop :=
  match reply_of c ts q with
  | Some us => gp_status g = Z.of_N DATASTORE_SUCCESS /\ Forall2 (back3 c) us (gp_recs g)
  | None => g = nothing q
  end.
(* requests that are answered: FIRST and LAST do not look at the pair; otherwise the subject can be encoded, and encoding the
   predicate is defined; at least one record; not HIGHEST in memory, not LAST of an empty datastore in memory *)
Definition answerable (k : backend) (c : codec) (ts : list put_item) (q : getop_item) : Prop :=
  1 <= oi_num q /\
  (k = InMemory -> oi_op q <> GETOP_HIGHEST /\ (oi_op q = GETOP_LAST -> ts <> [])) /\
  (op_has_key (oi_op q) = true -> code c (oi_sub q) <> None /\ small c (oi_sub q) /\ small c (oi_pred q) /\ b_type (oi_pred q) < 256 /\
     exists e, c_enc c (b_type (oi_pred q)) (b_null (oi_pred q)) (b_data (oi_pred q)) = Ok e).
