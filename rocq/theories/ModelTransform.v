(* Which encode and decode functions a datastore uses: src/datastore/transform.cpp,
   include/datastore/transform.hpp, src/hxhim/options.cpp:303-327, src/hxhim/init.cpp:82-101,
   src/datastore/datastore.cpp:377-413 *)
From Verif Require Import ModelBytes ModelKey ModelElen ModelHist ModelMsg ModelStore.
Local Open Scope N_scope.

(* hxhim_encode_func and hxhim_decode_func with their extra argument, include/datastore/transform.h:
   the source pointer may be null; None = not DATASTORE_SUCCESS *)
Definition efun := bool -> bytes -> outcome (option bytes).
Definition dfun := bytes -> outcome (option bytes).

(* Transform::NumericExtra, include/datastore/transform.hpp; transform.cpp:8-13 *)
Record numeric := mkNumeric { ne_neg : byte; ne_pos : byte; ne_float : N; ne_double : N }.

(* std::map from data type to callback; the order of the entries does not matter *)
Definition table (A : Type) := list (N * A).
Fixpoint tfind {A} (t : N) (m : table A) : option A :=
  match m with [] => None | (t', x) :: r => if t =? t' then Some x else tfind t r end.
(* std::map::emplace: an existing entry stays *)
Definition emplace {A} (m : table A) (t : N) (x : A) : table A :=
  match tfind t m with Some _ => m | None => m ++ [(t, x)] end.
Definition emplace_all {A} (m u : table A) : table A := fold_left (fun m e => emplace m (fst e) (snd e)) u m.

(* Transform::Callbacks; None = null callback *)
Record callbacks := mkCallbacks { cb_num : numeric; cb_enc : table (option efun); cb_dec : table (option dfun) }.

(* the floating point callbacks (transform.tpp:44-63, 82-99) by neg, pos, precision and number of bytes *)
Record float_codec := mkFloatCodec {
  fl_enc : byte -> byte -> N -> N -> bytes -> outcome (option bytes);
  fl_dec : byte -> byte -> N -> bytes -> outcome (option bytes) }.

(* transform.tpp:21-63: null source is DATASTORE_ERROR *)
Definition enc_ints T (n : numeric) : efun :=
  fun null d => if null then Ok None else tr_enc_int T (ne_neg n) (ne_pos n) d.
Definition enc_float (f : float_codec) (n : numeric) : efun :=
  fun null d => if null then Ok None else fl_enc f (ne_neg n) (ne_pos n) (ne_float n) 4 d.
Definition enc_double (f : float_codec) (n : numeric) : efun :=
  fun null d => if null then Ok None else fl_enc f (ne_neg n) (ne_pos n) (ne_double n) 8 d.
(* transform.tpp:65-99 *)
Definition dec_ints T (n : numeric) : dfun := tr_dec_int T (ne_neg n) (ne_pos n).
Definition dec_floats (f : float_codec) (n : numeric) (size : N) : dfun := fl_dec f (ne_neg n) (ne_pos n) size.

(* default_callbacks, transform.cpp:15-61. The callbacks get a pointer to numeric_extra of the same
   object, which is set before the first use: here they are built from its final value. *)
Definition default_callbacks (f : float_codec) (n : numeric) : callbacks :=
  mkCallbacks n
    [(T_INT32, Some (enc_ints int32_t n)); (T_INT64, Some (enc_ints int64_t n));
     (T_UINT32, Some (enc_ints uint32_t n)); (T_UINT64, Some (enc_ints uint64_t n));
     (T_FLOAT, Some (enc_float f n)); (T_DOUBLE, Some (enc_double f n));
     (T_BYTE, None); (T_POINTER, None)]
    [(T_INT32, Some (dec_ints int32_t n)); (T_INT64, Some (dec_ints int64_t n));
     (T_UINT32, Some (dec_ints uint32_t n)); (T_UINT64, Some (dec_ints uint64_t n));
     (T_FLOAT, Some (dec_floats f n 4)); (T_DOUBLE, Some (dec_floats f n 8));
     (T_BYTE, None); (T_POINTER, None)].

(* hxhim_set_transform_numeric_values, options.cpp:303-314; false = HXHIM_ERROR *)
Definition set_transform_numeric_values (running : bool) (n : numeric) (c : callbacks) : callbacks * bool :=
  if running then (c, false) else (mkCallbacks n (cb_enc c) (cb_dec c), true).
(* hxhim_set_transform_function, options.cpp:316-327 *)
Definition set_transform_function (running : bool) (t : N) (e : option efun) (d : option dfun) (c : callbacks)
  : callbacks * bool :=
  if running then (c, false)
  else (mkCallbacks (cb_num c) (emplace (cb_enc c) t e) (emplace (cb_dec c) t d), true).

(* hxhim::init::transform, init.cpp:84-99 *)
Definition init_transform (f : float_codec) (u : callbacks) : callbacks :=
  let c := default_callbacks f (cb_num u) in
  mkCallbacks (cb_num c) (emplace_all (cb_enc c) (cb_enc u)) (emplace_all (cb_dec c) (cb_dec u)).

(* Datastore::encode, datastore.cpp:377-394 *)
Definition ds_encode (c : callbacks) (t : N) (null : bool) (d : bytes) : outcome (option bytes) :=
  match tfind t (cb_enc c) with
  | None => Ok None
  | Some None => copy_enc null d
  | Some (Some e) => e null d
  end.
(* Datastore::decode, datastore.cpp:396-413; the source is a whole stored field, never null unless empty *)
Definition ds_decode (c : callbacks) (t : N) (d : bytes) : outcome (option bytes) :=
  match tfind t (cb_dec c) with
  | None => Ok None
  | Some None => Ok (Some d)
  | Some (Some e) => e d
  end.
(* what the datastores of a session use *)
Definition session_codec (c : callbacks) : codec := mkCodec (ds_encode c) (ds_decode c) (ne_neg (cb_num c)).

(* an application configuring its session *)
Inductive reg :=
| RFun (t : N) (e : option efun) (d : option dfun)
| RNum (n : numeric).
Definition configure1 (c : callbacks) (r : reg) : callbacks :=
  fst (match r with
       | RFun t e d => set_transform_function false t e d c
       | RNum n => set_transform_numeric_values false n c
       end).
Definition configure (n0 : numeric) (l : list reg) : callbacks := fold_left configure1 l (mkCallbacks n0 [] []).
