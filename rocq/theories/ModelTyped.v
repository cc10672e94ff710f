(* The functions for objects of type float and double *)
From Verif Require Import ModelBytes ModelKey ModelHist ModelMsg ModelStore ModelClient.
Local Open Scope N_scope.

(* src/hxhim/ops/float.cpp and src/hxhim/ops/double.cpp, which differ in names and whitespace only. t is the type
   (HXHIM_DATA_FLOAT or HXHIM_DATA_DOUBLE) that the functions fill in. A float or double argument is a pointer: an address
   and the bytes from there on. The C functions (hxhimPutFloat and so on) call the C++ ones and do nothing else. *)

(* sizeof(float), sizeof(double): float.cpp:28, double.cpp:28 *)
Definition fp_size (t : N) : nat := if t =? T_FLOAT then 4%nat else 8%nat.
Record fp_ptr := mkPtr { fp_addr : N; fp_mem : bytes }.
Definition fp_arg (t : N) (x : fp_ptr) : arg := mkArg (fp_addr x) (firstn (fp_size t) (fp_mem x)) t.

(* PutFloat: float.cpp:20-30; PutDouble: double.cpp:20-30 *)
Definition put_fp (t : N) (s p : arg) (x : fp_ptr) (mask : N) : call := CPut s p (fp_arg t x) mask.
(* GetFloat: float.cpp:67-74; GetDouble: double.cpp:67-74 *)
Definition get_fp (t : N) (s p : arg) : call := CGet s p t.
(* GetOpFloat: float.cpp:108-117; GetOpDouble: double.cpp:108-117 *)
Definition getop_fp (t : N) (s p : arg) (n op : N) : call := CGetOp s p t n op.
(* BPutFloat: float.cpp:156-173; BPutDouble: double.cpp:156-173. The array of lengths has as many elements as there are
   objects; alloc_array of 0 elements is null (utils/memory.hpp:30-32), and BPutSingleType refuses a null array
   (single_type.cpp:18). None: an array is null. *)
Definition bput_fp (types : bool) (t : N) (l : option (list (arg * arg * fp_ptr * N))) : call :=
  CBPutOne types t
    (match l with
     | None | Some [] => None
     | Some l => Some (map (fun '(s, p, x, m) => (s, p, fp_arg t x, m)) l)
     end).
(* BGetFloat: float.cpp:214-223; BGetDouble: double.cpp:214-223 *)
Definition bget_fp (types : bool) (t : N) (l : option (list (arg * arg))) : call := CBGetOne types t l.
(* BGetOpFloat: float.cpp:261-272; BGetOpDouble: double.cpp:261-272 *)
Definition bgetop_fp (types ops : bool) (t : N) (l : option (list (arg * arg * N * N))) : call := CBGetOpOne types ops t l.
