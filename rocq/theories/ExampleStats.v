(* A session at work, for the theorems about its statistics *)
From Verif Require Import ModelBytes ModelKey ModelWire ModelHist ModelMsg ModelStore ModelGetOp ModelDs ModelElen ModelRoute
  SpecStore SpecRoute ModelClient SpecClient ModelFloat ModelGen ModelStats SpecStats ExampleStore ExampleClient ExampleClient2.
Local Open Scope N_scope.

(* six triples in packets of at most two; a GET, a GETOP, a DELETE and a histogram *)
Definition sacts : list sact :=
  [ SCall (CPut (xa 1 "s") (xa 2 "p") (xa 3 "o") 63) (10%Z, 15%Z); SFlushPuts;
    SCall (CGet (xa 1 "s") (xa 2 "p") T_BYTE) (20%Z, 22%Z);
    SCall (CGetOp (xa 1 "s") (xa 2 "p") T_BYTE 1 0) (30%Z, 31%Z);
    SCall (CBDelete None) (40%Z, 41%Z);
    SCall (CBDelete (Some [(xa 1 "s", xa 2 "p"); (xa 3 "o", xa 2 "p")])) (50%Z, 55%Z); SFlush;
    SCall (CGet (xa 1 "s") (xa 2 "p") T_BYTE) (60%Z, 63%Z) ].
Definition stats_only (x : outcome (session * cluster * stats)) : outcome stats := do (_, st) <- x; Ok st.
Definition tables (st : stats) := map (fun k => (st_single st k, st_bulk st k, st_used st k, map (st_out st k) [0; 1; 2]%Z)) [0; 1; 2; 3; 5].
Definition ssteps_run (l : list sact) : outcome (list (list stamp * list stamp * list N * list N)) :=
  do st <- stats_only (ssteps (xe 0) (opened_session (xe 0)) (xcl InMemory) no_stats l); Ok (tables st).
Definition issues (l : list sact) := map (fun k => (map (issued (xe 0) l k) [0; 1]%Z)) [0; 1; 2; 3; 5].
