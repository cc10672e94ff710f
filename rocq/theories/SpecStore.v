(* What a datastore should do: a map from (subject, predicate) to the last object PUT *)
From Verif Require Import ModelBytes ModelKey ModelElen ModelHist ModelMsg ModelStore ModelDs.
From Coq Require Export Sorted.
Local Open Scope N_scope.

Definition fld (b : blob) : field := mkField (b_data b) (b_type b).
Definition feqb (f g : field) : bool := beqb (f_data f) (f_data g) && (f_type f =? f_type g).

(* ---- the map ---- *)
Definition tmap := field -> field -> option field.
Definition no_triples : tmap := fun _ _ => None.
Definition tset (m : tmap) (s p : field) (o : option field) : tmap :=
  fun s' p' => if feqb s s' && feqb p p' then o else m s' p'.

(* [can b]: the value b can be stored. Responses carry the sender's addresses with sizes and types. *)
Definition answer (st : N) (sa : N) (s : blob) (pa : N) (p : blob) : st_item :=
  mkSt (Z.of_N st) (mkRef sa (blen (b_data s)) (b_type s)) (mkRef pa (blen (b_data p)) (b_type p)).
Fixpoint spec_puts (can : blob -> bool) (m : tmap) (l : list put_item) : tmap * list st_item :=
  match l with
  | [] => (m, [])
  | mkPut s sa p pa o :: l' =>
      let ok := can s && can p && can o in
      let '(m', r) := spec_puts can (if ok then tset m (fld s) (fld p) (Some (fld o)) else m) l' in
      (m', answer (if ok then DATASTORE_SUCCESS else DATASTORE_ERROR) sa s pa p :: r)
  end.
Definition spec_get (can : blob -> bool) (m : tmap) (i : get_item) : got_item :=
  let 'mkGet s sa p pa _ := i in
  match (if can s && can p then m (fld s) (fld p) else None) with
  | Some o => mkGot (Z.of_N DATASTORE_SUCCESS) (mkRef sa (blen (b_data s)) (b_type s)) (mkRef pa (blen (b_data p)) (b_type p))
                    (mkBlob (blen (f_data o) =? 0) (f_data o) (f_type o))
  | None => mkGot (Z.of_N DATASTORE_ERROR) (mkRef sa (blen (b_data s)) (b_type s)) (mkRef pa (blen (b_data p)) (b_type p))
                  blob_none
  end.
Fixpoint spec_dels (can : blob -> bool) (m : tmap) (l : list del_item) : tmap * list st_item :=
  match l with
  | [] => (m, [])
  | mkDel s sa p pa :: l' =>
      let there := can s && can p && match m (fld s) (fld p) with Some _ => true | None => false end in
      let '(m', r) := spec_dels can (if there then tset m (fld s) (fld p) None else m) l' in
      (m', answer (if there then DATASTORE_SUCCESS else DATASTORE_ERROR) sa s pa p :: r)
  end.
Definition spec_req (can : blob -> bool) (m : tmap) (q : body) : tmap * body :=
  match q with
  | QPut l => let '(m', r) := spec_puts can m l in (m', RPut r)
  | QGet l => (m, RGet (map (spec_get can m) l))
  | QDel l => let '(m', r) := spec_dels can m l in (m', RDel r)
  | q => (m, q)
  end.
Fixpoint spec_run (can : blob -> bool) (m : tmap) (h : list body) : tmap * list body :=
  match h with
  | [] => (m, [])
  | q :: h' => let '(m1, r) := spec_req can m q in let '(m2, rs) := spec_run can m1 h' in (m2, r :: rs)
  end.

(* ---- which values the callbacks handle ---- *)
(* encoding succeeds and decoding gives the bytes back; a null handle is an empty one *)
Definition lossless (c : codec) (f : field) : Prop :=
  exists e, (forall null, (null = true -> f_data f = []) -> c_enc c (f_type f) null (f_data f) = Ok (Some e)) /\
            c_dec c (f_type f) e = Ok (Some (f_data f)) /\ blen e < 2 ^ 64 /\ f_type f < 256.
Definition refused (c : codec) (b : blob) : Prop := c_enc c (b_type b) (b_null b) (b_data b) = Ok None.
(* [can] says of b what the callbacks do with it *)
Definition knows (c : codec) (can : blob -> bool) (b : blob) : Prop :=
  (b_null b = true -> b_data b = []) /\ if can b then lossless c (fld b) else refused c b.

(* a value the callbacks handle *)
Definition all_can : blob -> bool := fun _ => true.
Definition storable (c : codec) (b : blob) : Prop := knows c all_can b.

(* the histories: bulk PUT, GET and DELETE of such values *)
Definition req_fits (c : codec) (can : blob -> bool) (q : body) : Prop :=
  match q with
  | QPut l => Forall (fun i => knows c can (pi_sub i) /\ knows c can (pi_pred i) /\ knows c can (pi_obj i)) l
  | QGet l => Forall (fun i => knows c can (gi_sub i) /\ knows c can (gi_pred i)) l
  | QDel l => Forall (fun i => knows c can (di_sub i) /\ knows c can (di_pred i)) l
  | _ => False
  end.

(* q has a PUT of this pair *)
Definition names (s p : blob) (q : body) : Prop :=
  match q with QPut l => exists i, In i l /\ fld (pi_sub i) = fld s /\ fld (pi_pred i) = fld p | _ => False end.

(* one answer per item, in order, with the item's references *)
Definition put_answers (i : put_item) (st : st_item) : Prop :=
  exists s, st = answer s (pi_sub_addr i) (pi_sub i) (pi_pred_addr i) (pi_pred i).
Definition del_answers (i : del_item) (st : st_item) : Prop :=
  exists s, st = answer s (di_sub_addr i) (di_sub i) (di_pred_addr i) (di_pred i).
Definition get_answers (i : get_item) (g : got_item) : Prop :=
  exists s, mkSt (go_status g) (go_sub g) (go_pred g) = answer s (gi_sub_addr i) (gi_sub i) (gi_pred_addr i) (gi_pred i).

(* the integer types *)
Definition int_of (t : N) : option ity :=
  if t =? T_INT32 then Some int32_t else if t =? T_INT64 then Some int64_t
  else if t =? T_UINT32 then Some uint32_t else if t =? T_UINT64 then Some uint64_t else None.

(* ---- the order in which triples are kept ---- *)
Definition enc (c : codec) (f : field) : bytes :=
  match c_enc c (f_type f) (blen (f_data f) =? 0) (f_data f) with Ok (Some e) => e | _ => [] end.
Definition key (c : codec) (s p : field) : bytes := sp_to_key (mkField (enc c s) (f_type s)) (mkField (enc c p) (f_type p)).
Record triple := mkTriple { t_sub : field; t_pred : field; t_obj : field }.
Definition tkey (c : codec) (t : triple) : bytes := key c (t_sub t) (t_pred t).
(* ts are the triples of m in key order *)
Definition contents (c : codec) (m : tmap) (ts : list triple) : Prop :=
  StronglySorted (fun t u => bltb (tkey c t) (tkey c u) = true) ts /\
  forall t, In t ts <-> m (t_sub t) (t_pred t) = Some (t_obj t).

(* d is an open datastore after the history h; m is the map it should hold *)
Definition reached (k : backend) (c : codec) (d : ds) (m : tmap) : Prop :=
  exists can h d0 rs, Forall (req_fits c can) h /\ ds_open (ds_new k c) None = Ok d0 /\
    ds_run d0 (map CallReq h) = Ok (d, rs) /\ m = fst (spec_run can no_triples h).

(* ---- the datastore as an object: opening and closing ---- *)
Definition reads (q : body) : Prop := match q with QGet _ | QGetOp _ => True | _ => False end.
Definition data_request (q : body) : Prop :=
  match q with QPut _ | QGet _ | QGetOp _ | QDel _ => True | _ => False end.
(* open or not, from the calls made *)
Fixpoint open_after (b : bool) (l : list ds_call) : bool :=
  match l with
  | [] => b
  | CallOpen _ :: l' => open_after true l'
  | CallClose _ :: l' => open_after false l'
  | _ :: l' => open_after b l'
  end.

(* ---- two backends side by side ---- *)
(* the first status is also the second, or the first is an error and the second a success *)
Definition same_or_hidden (x y : st_item) : Prop :=
  x = y \/ (si_status x = Z.of_N DATASTORE_ERROR /\ si_status y = Z.of_N DATASTORE_SUCCESS /\
            si_sub x = si_sub y /\ si_pred x = si_pred y).
Definition similar (r1 r2 : option body) : Prop :=
  match r1, r2 with
  | Some (RPut a), Some (RPut b) => Forall2 same_or_hidden a b
  | Some (RDel a), Some (RDel b) => Forall2 same_or_hidden a b
  | _, _ => r1 = r2
  end.
Definition no_highest (q : body) : Prop :=
  match q with
  | QGetOp l => Forall (fun i => oi_op i <> GETOP_HIGHEST) l
  | QPut _ | QGet _ | QDel _ => True
  | _ => False
  end.

(* ---- histograms ---- *)
(* the values a histogram called [name] should receive from the items with these statuses *)
Definition value_of (o : blob) : list N :=
  if b_type o =? T_FLOAT then [f2d (le_dec (firstn 4 (b_data o)))]
  else if b_type o =? T_DOUBLE then [le_dec (firstn 8 (b_data o))]
  else [].
Fixpoint tracked (name : bytes) (l : list put_item) (r : list st_item) : list N :=
  match l, r with
  | i :: l', st :: r' =>
      (if (si_status st =? Z.of_N DATASTORE_SUCCESS)%Z && feqb (fld (pi_pred i)) (mkField name T_BYTE)
       then value_of (pi_obj i) else []) ++ tracked name l' r'
  | _, _ => []
  end.
(* and from a history of requests with these responses *)
Fixpoint tracked_run (name : bytes) (h : list body) (rs : list (option body)) : list N :=
  match h, rs with
  | QPut l :: h', Some (RPut r) :: rs' => tracked name l r ++ tracked_run name h' rs'
  | _ :: h', _ :: rs' => tracked_run name h' rs'
  | _, _ => []
  end.

(* BYTE values are stored as they are (true of the default callbacks) *)
Definition copies_bytes (c : codec) : Prop :=
  forall null d, (null = true -> d = []) -> c_enc c T_BYTE null d = Ok (Some d).
(* the pair under which the histogram n is kept *)
Definition reserved (n : bytes) (s p : blob) : Prop :=
  fld s = mkField (bstr "HISTOGRAM") T_BYTE /\ fld p = mkField n T_BYTE.
(* no PUT or DELETE of q uses the pair of histogram n *)
Definition avoids (n : bytes) (q : body) : Prop :=
  match q with
  | QPut l => forall i, In i l -> ~ reserved n (pi_sub i) (pi_pred i)
  | QDel l => forall i, In i l -> ~ reserved n (di_sub i) (di_pred i)
  | _ => True
  end.
