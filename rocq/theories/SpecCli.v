(* The language of the command line interface, in terms of the words of a line *)
From Verif Require Import ModelBytes ModelElen ModelFloat ModelConf ModelMsg ModelClient ModelCli SpecConf SpecOptions SpecFp.
From Coq Require Import Reals.
Local Open Scope N_scope.

(* ---- words ---- *)
Fixpoint spelled (ws : list bytes) (line : bytes) : Prop :=
  match ws with
  | [] => Forall white line
  | w :: ws' => exists gap rest, line = gap ++ w ++ rest /\ Forall white gap /\ word w /\ (rest = [] \/ exists c r, rest = c :: r /\ white c) /\ spelled ws' rest
  end.

(* ---- numbers ---- *)
Definition is_sign (s : bytes) (minus : bool) : Prop := s = [] /\ minus = false \/ s = ["+"%char] /\ minus = false \/ s = ["-"%char] /\ minus = true.
Definition signed_by (minus : bool) (z : Z) : Z := if minus then (- z)%Z else z.
Definition whole (w : bytes) (z : Z) : Prop :=
  exists s minus d n, w = s ++ d /\ is_sign s minus /\ number d n /\ z = signed_by minus (Z.of_N n).
(* digits, a point and digits, an exponent: a number m times 10 to the e *)
Definition digits_text (ds : list N) : bytes := map (fun d => ascii_of_N (48 + d)) ds.
Definition decimal (w : bytes) (minus : bool) (m : N) (e : Z) : Prop :=
  exists s ds1 dot ds2 ex k, w = s ++ digits_text ds1 ++ dot ++ ex /\ is_sign s minus /\
    Forall (fun d => d < 10) ds1 /\ Forall (fun d => d < 10) ds2 /\ ds1 ++ ds2 <> [] /\
    (dot = [] /\ ds2 = [] \/ dot = "."%char :: digits_text ds2) /\
    (ex = [] /\ k = 0%Z \/ exists c w', ex = c :: w' /\ (c = "e"%char \/ c = "E"%char) /\ whole w' k) /\
    m = fold_left (fun a d => 10 * a + d) (ds1 ++ ds2) 0 /\ e = (k - Z.of_nat (List.length ds2))%Z.
Definition number_of (minus : bool) (m : N) (e : Z) : R := ((if minus then -1 else 1) * IZR (Z.of_N m) * ten e)%R.
(* x is as near to v as any value of the format *)
Definition nearest (F : fmt) (v : R) (x : spec_float) : Prop :=
  valid F x /\ finite_fp x /\ forall y, valid F y -> finite_fp y -> (Rabs (val x - v) <= Rabs (val y - v))%R.

(* ---- data ---- *)
(* the bytes of an integer of so many bytes *)
Definition holds_int (n : nat) (d : bytes) (z : Z) : Prop := List.length d = n /\ (Z.of_N (ModelBytes.le_dec d) = z mod 2 ^ (8 * Z.of_nat n))%Z.
Definition float_datum (F : fmt) (w d : bytes) : Prop :=
  exists minus m e x, decimal w minus m e /\ (Rabs (number_of minus m e) <= val (largest F))%R /\ nearest F (number_of minus m e) x /\ d = store_fp F x.
Inductive datum : bytes -> bytes -> N -> bytes -> Prop :=
| int32 w z d : whole w z -> (- 2 ^ 31 <= z < 2 ^ 31)%Z -> holds_int 4 d z -> datum (bstr "INT32") w T_INT32 d
| int64 w z d : whole w z -> (- 2 ^ 63 <= z < 2 ^ 63)%Z -> holds_int 8 d z -> datum (bstr "INT64") w T_INT64 d
| uint32 w z d : whole w z -> (0 <= z < 2 ^ 32)%Z -> holds_int 4 d z -> datum (bstr "UINT32") w T_UINT32 d
| uint64 w z d : whole w z -> (0 <= z < 2 ^ 64)%Z -> holds_int 8 d z -> datum (bstr "UINT64") w T_UINT64 d
| float32 w d : float_datum FLT w d -> datum (bstr "FLOAT") w T_FLOAT d
| float64 w d : float_datum DBL w d -> datum (bstr "DOUBLE") w T_DOUBLE d
| text w : word w -> datum (bstr "BYTE") w T_BYTE w.
Definition blob_says (ws : list bytes) (b : blob) : Prop := exists t w, ws = [t; w] /\ b_null b = false /\ datum t w (b_type b) (b_data b).
Definition type_says (w : bytes) (t : N) : Prop :=
  In (w, t) [(bstr "INT32", T_INT32); (bstr "INT64", T_INT64); (bstr "UINT32", T_UINT32); (bstr "UINT64", T_UINT64); (bstr "FLOAT", T_FLOAT); (bstr "DOUBLE", T_DOUBLE); (bstr "BYTE", T_BYTE)].
Definition op_says (w : bytes) (op : N) : Prop :=
  In (w, op) [(bstr "EQ", GETOP_EQ); (bstr "NEXT", GETOP_NEXT); (bstr "PREV", GETOP_PREV); (bstr "FIRST", GETOP_FIRST); (bstr "LAST", GETOP_LAST)].

(* ---- commands ---- *)
Inductive operation : bytes -> list bytes -> cmd -> Prop :=
| a_put x y z s p o : blob_says x s -> blob_says y p -> blob_says z o -> operation (bstr "PUT") (x ++ y ++ z) (MPut s p o)
| a_get x y t s p ty : blob_says x s -> blob_says y p -> type_says t ty -> operation (bstr "GET") (x ++ y ++ [t]) (MGet s p ty)
| a_getop x y t n g s p ty m op : blob_says x s -> blob_says y p -> type_says t ty -> whole n (Z.of_N m) -> m < 2 ^ 64 -> op_says g op ->
    operation (bstr "GETOP") (x ++ y ++ [t; n; g]) (MGetOp s p ty m op)
| a_del x y s p : blob_says x s -> blob_says y p -> operation (bstr "DEL") (x ++ y) (MDel s p).
Inductive command : list bytes -> list cmd -> Prop :=
| nothing : command [] []
| one name ws c : operation name ws c -> command (name :: ws) [c]
| bulk name n wss cs : In name [bstr "PUT"; bstr "GET"; bstr "GETOP"; bstr "DEL"] -> Forall2 (operation name) wss cs ->
    whole n (Z.of_nat (List.length cs)) -> (Z.of_nat (List.length cs) < 2 ^ 64)%Z -> command (("B"%char :: name) :: n :: concat wss) cs
| flushing w c : In (w, c) [(bstr "FLUSHPUTS", MFlushPuts); (bstr "FLUSHGETS", MFlushGets); (bstr "FLUSHDELS", MFlushDels); (bstr "FLUSH", MFlush)] -> command [w] [c].
(* a line that can be understood, and what it means *)
Definition correct (line : bytes) : Prop := exists ws cs, spelled ws line /\ command ws cs.
Definition means (line : bytes) (cs : list cmd) : Prop := exists ws, spelled ws line /\ command ws cs.

(* ---- scripts: commands on data, then FLUSH, any number of times ---- *)
Definition script (bs : list (list cmd)) : list cmd := flat_map (fun b => b ++ [MFlush]) bs.
(* the calls of the commands from the i-th on *)
Fixpoint calls_at (at_ : addresses) (i : nat) (b : list cmd) : list call :=
  match b with
  | [] => []
  | c :: b' => match call_of (at_ i) c with Some x => x :: calls_at at_ (S i) b' | None => calls_at at_ (S i) b' end
  end.
Fixpoint batches (at_ : addresses) (i : nat) (bs : list (list cmd)) : list (list call) :=
  match bs with [] => [] | b :: bs' => calls_at at_ i b :: batches at_ (i + List.length b + 1) bs' end.
Definition on_data (c : cmd) : Prop := match c with MPut _ _ _ | MGet _ _ _ | MDel _ _ => True | _ => False end.
(* ... and GETOP *)
Definition on_pairs (c : cmd) : Prop := match c with MPut _ _ _ | MGet _ _ _ | MGetOp _ _ _ _ _ | MDel _ _ => True | _ => False end.

(* ---- what is printed ---- *)
(* text that can be typed in for the same bytes; bytes as they are; the nearest number with 9 (17) digits behind the point *)
Definition shows (t : N) (d w : bytes) : Prop :=
  (exists name, datum name w t d) \/ t = T_BYTE /\ w = d \/
  exists F p x minus m, (F = FLT /\ t = T_FLOAT /\ p = 9 \/ F = DBL /\ t = T_DOUBLE /\ p = 17) /\ valid F x /\ d = store_fp F x /\
    decimal w minus m (- Z.of_N p) /\ (Rabs (number_of minus m (- Z.of_N p) - val x) <= ten (- Z.of_N p) / 2)%R.
(* what can be shown: unsigned integers up to the largest signed one, text without zero bytes, finite numbers *)
Definition showable (t : N) (d : bytes) : Prop :=
  t = T_INT32 /\ List.length d = 4%nat \/ t = T_INT64 /\ List.length d = 8%nat \/
  t = T_UINT32 /\ List.length d = 4%nat /\ ModelBytes.le_dec d < 2 ^ 31 \/ t = T_UINT64 /\ List.length d = 8%nat /\ ModelBytes.le_dec d < 2 ^ 63 \/
  t = T_BYTE /\ ~ In "000"%char d /\ blen d < 2 ^ 31 \/
  exists F x, (F = FLT /\ t = T_FLOAT \/ F = DBL /\ t = T_DOUBLE) /\ valid F x /\ finite_fp x /\ d = store_fp F x.
(* the lines; mem: what the references of a result point to *)
Definition ref_shows (mem : N -> bytes) (r : ref) (w : bytes) : Prop := shows (r_type r) (firstn (N.to_nat (r_len r)) (mem (r_addr r))) w.
Definition blob_shows (b : blob) (w : bytes) : Prop := shows (b_type b) (b_data b) w.
Definition triple_line (name x y after : bytes) (from : Z) (line : bytes) : Prop :=
  exists n, whole n from /\ line = name ++ bstr "{" ++ x ++ bstr ", " ++ y ++ bstr "}" ++ after ++ bstr " from range server " ++ n ++ [nl].
Definition status_text (ok : bool) : bytes := if ok then bstr " returned SUCCESS" else bstr " returned ERROR".
Definition result_line (mem : N -> bytes) (x : result) (line : bytes) : Prop :=
  match x with
  | XPut f ok s p => exists a b, ref_shows mem s a /\ ref_shows mem p b /\ triple_line (bstr "PUT          ") a b (status_text ok) f line
  | XDel f ok s p => exists a b, ref_shows mem s a /\ ref_shows mem p b /\ triple_line (bstr "DEL          ") a b (status_text ok) f line
  | XGet f true s p o => exists a b c, ref_shows mem s a /\ ref_shows mem p b /\ blob_shows o c /\ triple_line (bstr "GET returned ") a b (bstr " -> " ++ c) f line
  | XGetOp f true s p o => exists a b c, blob_shows s a /\ blob_shows p b /\ blob_shows o c /\ triple_line (bstr "GET returned ") a b (bstr " -> " ++ c) f line
  | XGet f false _ _ _ | XGetOp f false _ _ _ => exists n, whole n f /\ line = bstr "GET returned ERROR from range server " ++ n ++ [nl]
  | _ => False
  end.
(* references to memory that is there, with something that can be shown *)
Definition ref_showable (mem : N -> bytes) (r : ref) : Prop :=
  r_addr r <> 0 /\ r_len r <= blen (mem (r_addr r)) /\ showable (r_type r) (firstn (N.to_nat (r_len r)) (mem (r_addr r))).
Definition blob_showable (b : blob) : Prop := b_null b = false /\ showable (b_type b) (b_data b).
Definition result_showable (mem : N -> bytes) (x : result) : Prop :=
  match x with
  | XPut _ _ s p | XDel _ _ s p => ref_showable mem s /\ ref_showable mem p
  | XGet _ ok s p o => ok = true -> ref_showable mem s /\ ref_showable mem p /\ blob_showable o
  | XGetOp _ ok s p o => ok = true -> blob_showable s /\ blob_showable p /\ blob_showable o
  | _ => False
  end.
(* the arguments of the commands stay in memory until all have been run (UserInputs in main) *)
Definition kept_at (mem : N -> bytes) (a : N) (b : blob) : Prop := a <> 0 /\ mem a = b_data b /\ showable (b_type b) (b_data b).
Definition kept_cmd (mem : N -> bytes) (a : N * N * N) (c : cmd) : Prop :=
  let '(x, y, z) := a in
  match c with
  | MPut s p o => kept_at mem x s /\ kept_at mem y p /\ kept_at mem z o
  | MGet s p _ | MGetOp s p _ _ _ | MDel s p => kept_at mem x s /\ kept_at mem y p
  | _ => True
  end.
Fixpoint kept_cmds (mem : N -> bytes) (at_ : addresses) (i : nat) (l : list cmd) : Prop :=
  match l with [] => True | c :: l' => kept_cmd mem (at_ i) c /\ kept_cmds mem at_ (S i) l' end.

(* ---- lines that start with no command ---- *)
Definition foreign (line : bytes) : Prop :=
  exists w ws, spelled (w :: ws) line /\
    ~ In w (map bstr ["PUT"; "BPUT"; "GET"; "BGET"; "GETOP"; "BGETOP"; "DEL"; "BDEL"; "FLUSHPUTS"; "FLUSHGETS"; "FLUSHDELS"; "FLUSH"]%string).
(* the commands of a line, and whether it was read without an error *)
Definition understood (line : bytes) (r : list cmd * bool) : Prop := means line (fst r) /\ snd r = true \/ foreign line /\ r = ([], false).
