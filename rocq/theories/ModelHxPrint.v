(* What examples/hxhim/hx.cpp and examples/hxhim/hx.c print of the results of a flush. Simplifications: printing succeeds; what std::cout and printf
   print comes out in the order in which it is printed (they are synchronised unless told otherwise). *)
From Verif Require Import ModelBytes ModelKey ModelWire ModelHist ModelMsg ModelStore ModelGetOp ModelDs ModelElen ModelFloat ModelRoute ModelClient ModelConf ModelCli.
Local Open Scope N_scope.

(* hx.cpp:17; print_results.c:50-58, hxhimGetMPI having succeeded *)
Definition rank_text (rank : Z) : bytes := bstr "Rank " ++ show_int rank ++ bstr " ".
(* one turn of the loop of print_results, hx.cpp:16-67; GETOPs have a case of their own in print_results.c only. The numbers of the operations:
   include/hxhim/constants.h:69-82 *)
Definition hx_result (mem : N -> bytes) (x : result) : outcome bytes :=
  match x with
  | XPut f ok _ _ => Ok (bstr "PUT returned " ++ (if ok then bstr "SUCCESS" else bstr "ERROR") ++ from_server f)
  | XGet f ok s p o => get_line ok f (print_ref mem s) (print_ref mem p) (print_blob o)
  | XGetOp _ _ _ _ _ => Ok (bstr "Bad Operation: 2" ++ [newline])
  | XDel _ _ _ _ => Ok (bstr "Bad Operation: 3" ++ [newline])
  | XSync _ _ => Ok (bstr "Bad Operation: 4" ++ [newline])
  | XHist _ _ _ => Ok (bstr "Bad Operation: 5" ++ [newline])
  end.
(* the loop, with "Rank r " in front of every line *)
Fixpoint print_ranked (rank : Z) (f : result -> outcome bytes) (l : list result) : outcome bytes :=
  match l with [] => Ok [] | x :: l' => do a <- f x; do b <- print_ranked rank f l'; Ok (rank_text rank ++ a ++ b) end.
(* print_results, hx.cpp:11-68 *)
Definition hx_print (mem : N -> bytes) (rank : Z) (l : list result) : outcome bytes := print_ranked rank (hx_result mem) l.
(* print_results(hx, 1, results), hx.c:18, print_results.c:44-122 *)
Definition hx_c_print (mem : N -> bytes) (rank : Z) (l : list result) : outcome bytes := print_ranked rank (print_result mem) l.
