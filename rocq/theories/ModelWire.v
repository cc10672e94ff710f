(* Reading from a raw buffer through a moving pointer.
   The C++ unpack functions (src/message/Unpacker.cpp, src/utils/Blob.cpp:143-211,
   src/utils/Histogram.cpp:463-525) do not check bounds: reading past the end is UB. *)
From Verif Require Import ModelBytes.
Local Open Scope N_scope.

(* a function that consumes a prefix of the buffer and advances the pointer *)
Definition parser (A : Type) : Type := bytes -> outcome (A * bytes).

Definition pret {A} (a : A) : parser A := fun s => Ok (a, s).
Definition pbind {A B} (p : parser A) (f : A -> parser B) : parser B :=
  fun s => do (a, s') <- p s; f a s'.

Notation "'rd' x <- p ; q" := (pbind p (fun x => q))
  (at level 200, x pattern, p at level 100, q at level 200, right associativity).

(* memcpy(dst, curr, n); curr += n *)
Definition take (n : N) : parser bytes := fun s =>
  if n <=? blen s then Ok (firstn (N.to_nat n) s, skipn (N.to_nat n) s) else UB.

(* little_endian::decode of a k-byte unsigned value; curr += k *)
Definition rd_u (k : N) : parser N := rd b <- take k; pret (le_dec b).

(* two's complement int (32 bits) *)
Definition i32_enc (z : Z) : bytes := le_enc 4 (Z.to_N (z mod 2 ^ 32)).
Definition i32_dec (n : N) : Z := if n <? 2 ^ 31 then Z.of_N n else (Z.of_N n - 2 ^ 32)%Z.
Definition rd_i32 : parser Z := rd n <- rd_u 4; pret (i32_dec n).

(* for(i = 0; i < n; i++) p *)
Fixpoint rd_list {A} (n : nat) (p : parser A) : parser (list A) :=
  match n with
  | O => pret []
  | S n' => rd x <- p; rd xs <- rd_list n' p; pret (x :: xs)
  end.

(* concatenation of per-item writes *)
Definition wr_list {A} (f : A -> bytes) (l : list A) : bytes := flat_map f l.
