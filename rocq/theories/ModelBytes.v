(* Bytes, byte strings, little-endian numbers, outcomes.
   Platform assumption: little endian (include/utils/little_endian.hpp:29-31),
   8-byte size_t and pointers, 4-byte int and enums. *)
From Coq Require Export Ascii String Arith ZArith NArith Lia Bool List.
From Coq Require Export ZifyBool ZifyNat ZifyN.
Export ListNotations.
Local Open Scope N_scope.

(* char / uint8_t; Ascii.ascii is eight booleans, so every value is a byte *)
Definition byte := ascii.
(* std::string, and any (pointer, length) buffer *)
Definition bytes := list byte.

(* Result of running a piece of C++: a value, an exception, or undefined behaviour. *)
Inductive outcome (A : Type) : Type :=
| Ok (a : A)
| Throw            (* a C++ exception *)
| UB.              (* undefined behaviour *)
Arguments Ok {A} a.
Arguments Throw {A}.
Arguments UB {A}.

Definition obind {A B : Type} (x : outcome A) (f : A -> outcome B) : outcome B :=
  match x with Ok a => f a | Throw => Throw | UB => UB end.

Notation "'do' p <- x ; y" := (obind x (fun p => y))
  (at level 200, p pattern, x at level 100, y at level 200, right associativity).

(* length of a buffer as a size_t *)
Definition blen (s : bytes) : N := N.of_nat (List.length s).

(* little_endian::encode of a k-byte unsigned integer, include/utils/little_endian.hpp:11-45 *)
Fixpoint le_enc (k : nat) (n : N) : bytes :=
  match k with
  | O => []
  | S k' => ascii_of_N (n mod 256) :: le_enc k' (n / 256)
  end.

(* little_endian::decode, include/utils/little_endian.hpp:47-56 *)
Fixpoint le_dec (s : bytes) : N :=
  match s with
  | [] => 0
  | b :: s' => N_of_ascii b + 256 * le_dec s'
  end.

(* memcmp-style comparison of two byte strings: unsigned bytewise, a proper prefix is smaller.
   This is std::string operator< (std::char_traits<char>), used by std::map<std::string,...>,
   and leveldb/rocksdb's BytewiseComparator. *)
Fixpoint bcmp (a b : bytes) : comparison :=
  match a, b with
  | [], [] => Eq
  | [], _ :: _ => Lt
  | _ :: _, [] => Gt
  | x :: a', y :: b' =>
      match N.compare (N_of_ascii x) (N_of_ascii y) with
      | Eq => bcmp a' b'
      | c => c
      end
  end.

Definition bltb (a b : bytes) : bool := match bcmp a b with Lt => true | _ => false end.
Definition bleb (a b : bytes) : bool := match bcmp a b with Gt => false | _ => true end.
Definition beqb (a b : bytes) : bool := match bcmp a b with Eq => true | _ => false end.

(* s starts with p: memcmp(p, s, |p|) == 0 when |s| >= |p|; leveldb Slice::starts_with *)
Fixpoint starts_with (p s : bytes) : bool :=
  match p, s with
  | [], _ => true
  | _ :: _, [] => false
  | x :: p', y :: s' => Ascii.eqb x y && starts_with p' s'
  end.

(* bytes of a Coq string literal, for examples *)
Fixpoint bstr (s : string) : bytes :=
  match s with EmptyString => [] | String c s' => c :: bstr s' end.

(* constants, src: include/datastore/constants.hpp:4-6 *)
Definition DATASTORE_SUCCESS : N := 1.
Definition DATASTORE_ERROR : N := 2.
Definition DATASTORE_UNSET : N := 3.
(* include/hxhim/constants.h *)
Definition HXHIM_SUCCESS : N := 3.
Definition HXHIM_ERROR : N := 4.
(* hxhim_data_t, include/hxhim/constants.h *)
Definition T_INVALID : N := 0.
Definition T_INT32 : N := 1.
Definition T_INT64 : N := 2.
Definition T_UINT32 : N := 3.
Definition T_UINT64 : N := 4.
Definition T_FLOAT : N := 5.
Definition T_DOUBLE : N := 6.
Definition T_BYTE : N := 7.
Definition T_POINTER : N := 8.
