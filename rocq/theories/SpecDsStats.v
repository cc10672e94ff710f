(* What the statistics of a datastore should say *)
From Verif Require Import ModelBytes ModelKey ModelWire ModelHist ModelMsg ModelStore ModelGetOp ModelDs ModelElen ModelFloat ModelRoute
  SpecRoute SpecClient ModelClient ModelStats SpecStats ModelDsStats.
Local Open Scope N_scope.

Definition timed := (ds_call * (nat -> stamp))%type.
(* the requests of a run with their answers, and with the times of their events *)
Definition answered (l : list timed) (rs : list (option body)) : list (body * body * (nat -> stamp)) :=
  flat_map (fun x => match x with ((CallReq q, ts), Some r) => [(q, r, ts)] | _ => [] end) (combine l rs).

(* ---- PUT ---- *)
Definition put_items (x : body * body * (nat -> stamp)) : list put_item := match x with (QPut l, _, _) => l | _ => [] end.
Definition is_put (x : body * body * (nat -> stamp)) : bool := match x with (QPut _, _, _) => true | _ => false end.
(* the bytes of a triple in a datastore: the encoded fields, 19 bytes of the key and 4 of the value; 0 if a field cannot be encoded *)
Definition triple_bytes (c : codec) (i : put_item) : N :=
  match enc_blob c (pi_sub i), enc_blob c (pi_pred i), enc_blob c (pi_obj i) with
  | Ok (Some s), Ok (Some p), Ok (Some o) => blen s + blen p + blen o + 23
  | _, _, _ => 0
  end.
(* all bytes that were PUT *)
Definition bytes_put (c : codec) (log : list (body * body * (nat -> stamp))) : N := sumN (map (triple_bytes c) (flat_map put_items log)).
(* all bytes in a datastore *)
Definition bytes_stored (db : rows) : N := sumN (map (fun r => blen (fst r) + blen (snd r)) db).
(* a call that does not store histograms *)
Definition no_hist_write (x : ds_call) : Prop :=
  match x with CallWriteHists | CallClose true | CallSync true => False | _ => True end.

(* ---- GET ---- *)
(* what an answer counts as *)
Definition got_count (x : body * body * (nat -> stamp)) : N :=
  match x with
  | (QGet l, _, _) => lenN l                                            (* every GET *)
  | (QGetOp _, RGetOp r, _) => sumN (map (fun g => lenN (gp_recs g)) r) (* every record of every GETOP *)
  | (QHist l, _, _) => lenN l                                           (* every histogram asked for *)
  | _ => 0
  end.
(* the events they are put into *)
Definition got_events (x : body * body * (nat -> stamp)) : N :=
  match x with (QGet _, _, _) | (QHist _, _, _) => 1 | (QGetOp l, _, _) => lenN l | _ => 0 end.
(* the GETs of a run *)
Definition gets_done (x : body * body * (nat -> stamp)) : N := match x with (QGet l, _, _) => lenN l | _ => 0 end.
(* the bytes of the objects that were found *)
Definition bytes_got (x : body * body * (nat -> stamp)) : N :=
  match x with (QGet _, RGet r, _) => sumN (map (fun g => blen (b_data (go_obj g))) r) | _ => 0 end.
(* the bytes of the key of a pair *)
Definition pair_bytes (c : codec) (i : get_item) : N :=
  match enc_blob c (gi_sub i), enc_blob c (gi_pred i) with
  | Ok (Some s), Ok (Some p) => blen s + blen p + 19
  | _, _ => 0
  end.

Definition get_items (x : body * body * (nat -> stamp)) : list get_item := match x with (QGet l, _, _) => l | _ => [] end.
(* neither GETOPs nor histograms *)
Definition no_getop (x : body * body * (nat -> stamp)) : Prop := match x with (QGetOp _, _, _) | (QHist _, _, _) => False | _ => True end.
(* the bytes that GETs are counted with *)
Definition get_bytes (k : backend) (c : codec) (log : list (body * body * (nat -> stamp))) : N :=
  match k with InMemory => sumN (map (pair_bytes c) (flat_map get_items log)) | LevelDB => 0 end.

(* a record is what the callbacks make of a row *)
Definition shows (c : codec) (r : bytes * bytes) (x : rec3) : Prop :=
  exists es ep eo,
    key_to_sp (fst r) = Ok (mkField es (b_type (rc_sub x)), mkField ep (b_type (rc_pred x))) /\
    remove_type (snd r) = Ok (eo, b_type (rc_obj x)) /\
    c_dec c (b_type (rc_sub x)) es = Ok (Some (b_data (rc_sub x))) /\
    c_dec c (b_type (rc_pred x)) ep = Ok (Some (b_data (rc_pred x))) /\
    c_dec c (b_type (rc_obj x)) eo = Ok (Some (b_data (rc_obj x))).

(* ---- time ---- *)
(* the stamps of the events of a run *)
Definition stamps (x : body * body * (nat -> stamp)) : list stamp :=
  match x with
  | (QGetOp l, _, ts) => map ts (seq 0 (length l))
  | (QPut _, _, ts) | (QGet _, _, ts) | (QHist _, _, ts) => [ts O]
  | _ => []
  end.
(* one after the other, between t0 and t1 *)
Fixpoint in_order (t0 : Z) (l : list stamp) (t1 : Z) : Prop :=
  match l with [] => (t0 <= t1)%Z | (a, b) :: l' => (t0 <= a <= b)%Z /\ in_order b l' t1 end.
Definition dur (t : stamp) : Z := (snd t - fst t)%Z.
Definition time_of (log : list (body * body * (nat -> stamp))) : Z := sumZ (map dur (flat_map stamps log)).
