(* Storage keys: src/datastore/triplestore.cpp *)
From Verif Require Import ModelBytes.
Local Open Scope N_scope.

(* A field (subject, predicate or object) with non-null data: the observable part of a Blob,
   src/utils/Blob.cpp:10-15 (ptr/len are the bytes, type is the hxhim_data_t). *)
Record field := mkField { f_data : bytes; f_type : N }.

(* '\xff', src/datastore/triplestore.cpp:45 *)
Definition key_terminator : byte := ascii_of_N 255.

(* sp_to_key, src/datastore/triplestore.cpp:25-67.
   subject ++ predicate ++ 0xff ++ LE64(|subject|) ++ LE64(|predicate|) ++ types (one byte each).
   The allocated length is |s|+8+|p|+8+3 (lines 29-31), exactly what is written. *)
Definition sp_to_key (s p : field) : bytes :=
  f_data s ++ f_data p ++ [key_terminator]
  ++ le_enc 8 (blen (f_data s)) ++ le_enc 8 (blen (f_data p))
  ++ le_enc 1 (f_type s) ++ le_enc 1 (f_type p).

(* bytes [off, off+n) of s; UB when the range leaves the buffer.
   (Used for every raw pointer read in key_to_sp.) *)
Definition bsub (s : bytes) (off n : N) : outcome bytes :=
  if off + n <=? blen s then Ok (firstn (N.to_nat n) (skipn (N.to_nat off) s)) else UB.

(* pointer arithmetic: off - n, leaving the buffer at the front is UB *)
Definition bback (off n : N) : outcome N :=
  if n <=? off then Ok (off - n) else UB.

(* key_to_sp, src/datastore/triplestore.cpp:79-128 (always returns HXHIM_SUCCESS; no validation).
   Positions are offsets from key.data(). The copy flag only chooses who owns the bytes. *)
Definition key_to_sp (key : bytes) : outcome (field * field) :=
  let e := blen key in
  do pt <- bback e 1; do pred_type <- bsub key pt 1;              (* 86-88 *)
  do st <- bback pt 1; do sub_type <- bsub key st 1;              (* 91-93 *)
  do pl <- bback st 8; do pred_len <- bsub key pl 8;              (* 96-98 *)
  do sl <- bback pl 8; do sub_len <- bsub key sl 8;               (* 101-103 *)
  do check <- bback sl 1;                                         (* 106 *)
  do pred_start <- bback check (le_dec pred_len);                 (* 109 *)
  do pred <- bsub key pred_start (le_dec pred_len);               (* 110-115 *)
  do sub <- bsub key 0 (le_dec sub_len);                          (* 118-125 *)
  Ok (mkField sub (le_dec sub_type), mkField pred (le_dec pred_type)).
