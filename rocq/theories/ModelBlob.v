(* Who owns the memory of a Blob: src/utils/Blob.cpp, include/utils/Blob.hpp, src/utils/memory.cpp.
   Only the pointer, the length and the ownership flag; the type does not matter for ownership. *)
From Verif Require Import ModelBytes.

(* null, memory of somebody else (the stack, a string, a receive buffer), or the n-th block given out by alloc *)
Inductive ptr := PNull | POther (a : N) | PBlock (n : nat).
Record handle := mkHandle { hd_ptr : ptr; hd_len : N; hd_clean : bool }.

(* bs_live: blocks allocated and not released, by number; bs_next: how many were ever allocated;
   bs_handles: the Blob objects by number, None = destroyed *)
Record bstate := mkB { bs_live : list nat; bs_next : nat; bs_handles : list (option handle) }.
Definition bs_start : bstate := mkB [] O [].

(* alloc, memory.cpp:3-5 *)
Definition balloc (len : N) (s : bstate) : ptr * bstate :=
  if (len =? 0)%N then (PNull, s)
  else (PBlock (bs_next s), mkB (bs_next s :: bs_live s) (S (bs_next s)) (bs_handles s)).
(* dealloc, memory.cpp:7-9: releasing what is not live, or not from alloc, is undefined *)
Definition bfree (p : ptr) (s : bstate) : outcome bstate :=
  match p with
  | PNull => Ok s
  | POther _ => UB
  | PBlock n => if in_dec Nat.eq_dec n (bs_live s)
                then Ok (mkB (remove Nat.eq_dec n (bs_live s)) (bs_next s) (bs_handles s)) else UB
  end.

(* a handle that exists. Throw: there is none of that number, the program is not one *)
Definition hget (s : bstate) (i : nat) : outcome handle :=
  match nth_error (bs_handles s) i with Some (Some h) => Ok h | _ => Throw end.
Definition lset {A} (l : list A) (i : nat) (x : A) : list A := firstn i l ++ x :: skipn (S i) l.
Definition hset (s : bstate) (i : nat) (h : option handle) : bstate :=
  mkB (bs_live s) (bs_next s) (lset (bs_handles s) i h).
Definition hnew (s : bstate) (h : handle) : bstate := mkB (bs_live s) (bs_next s) (bs_handles s ++ [Some h]).

(* clear, Blob.cpp:97-102 *)
Definition cleared : handle := mkHandle PNull 0 false.
(* dealloc, Blob.cpp:104-109: releases and clears *)
Definition hdealloc (s : bstate) (i : nat) : outcome bstate :=
  do h <- hget s i;
  do s1 <- (if hd_clean h then bfree (hd_ptr h) s else Ok s);
  Ok (hset s1 i (Some cleared)).

Inductive bop :=
| BRef (p : ptr) (len : N)        (* Blob(ptr, len, type, false), ReferenceBlob; Blob.cpp:10-15, 26-28, 273-275 *)
| BOwn (len : N)                  (* RealBlob(alloc(len), len, type), Blob.cpp:10-15, 277-280 *)
| BCopy (len : N)                 (* Blob(len, ptr, type), RealBlob(len, ptr, type): a copy of readable memory; Blob.cpp:17-24, 282-285 *)
| BCopyCtor (j : nat)             (* Blob(Blob &), Blob.cpp:30-32 *)
| BMoveCtor (j : nat)             (* Blob(Blob &&), Blob.cpp:34-38 *)
| BAssign (i j : nat)             (* operator=(Blob &), Blob.cpp:44-56 *)
| BMoveAssign (i j : nat)         (* operator=(Blob &&), Blob.cpp:58-72 *)
| BDealloc (i : nat)              (* dealloc, Blob.cpp:104-109 *)
| BDestroy (i : nat)              (* ~Blob, Blob.cpp:40-42 *)
| BUnpack (i : nat) (src len : N) (copy : bool)  (* unpack, Blob.cpp:143-166, from readable memory at src *)
| BUnpackRef (i : nat) (p : ptr) (len : N)       (* unpack_ref, Blob.cpp:192-211 *)
| BClear (i : nat)                (* clear, Blob.cpp:97-102 *)
| BSetClean (i : nat) (b : bool). (* set_clean, Blob.cpp:91-95 *)

Definition bstep (s : bstate) (o : bop) : outcome bstate :=
  match o with
  | BRef p len => Ok (hnew s (mkHandle p len false))
  | BOwn len => let '(p, s1) := balloc len s in Ok (hnew s1 (mkHandle p len true))
  | BCopy len => let '(p, s1) := balloc len s in Ok (hnew s1 (mkHandle p len true))
  | BCopyCtor j => do h <- hget s j; Ok (hnew s (mkHandle (hd_ptr h) (hd_len h) false))
  | BMoveCtor j => do h <- hget s j;
                   Ok (hnew (hset s j (Some cleared)) (mkHandle (hd_ptr h) (hd_len h) (hd_clean h)))
  | BAssign i j =>
      do _ <- hget s i; do _ <- hget s j;
      if Nat.eqb i j then Ok s
      else do s1 <- hdealloc s i; do h <- hget s1 j; Ok (hset s1 i (Some (mkHandle (hd_ptr h) (hd_len h) false)))
  | BMoveAssign i j =>
      do _ <- hget s i; do _ <- hget s j;
      if Nat.eqb i j then Ok s
      else do s1 <- hdealloc s i; do h <- hget s1 j;
           Ok (hset (hset s1 i (Some (mkHandle (hd_ptr h) (hd_len h) (hd_clean h)))) j (Some cleared))
  | BDealloc i => hdealloc s i
  | BDestroy i => do s1 <- hdealloc s i; Ok (hset s1 i None)
  | BUnpack i src len copy =>
      do _ <- hget s i;
      if copy then let '(p, s1) := balloc len s in Ok (hset s1 i (Some (mkHandle p len true)))
      else Ok (hset s i (Some (mkHandle (POther src) len false)))
  | BUnpackRef i p len => do _ <- hget s i; Ok (hset s i (Some (mkHandle p len false)))
  | BClear i => do _ <- hget s i; Ok (hset s i (Some cleared))
  | BSetClean i b => do h <- hget s i; Ok (hset s i (Some (mkHandle (hd_ptr h) (hd_len h) b)))
  end.
Fixpoint brun (s : bstate) (l : list bop) : outcome bstate :=
  match l with [] => Ok s | o :: l' => do s1 <- bstep s o; brun s1 l' end.
