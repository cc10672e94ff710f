(* C08, C09, C53: integers *)
From Verif Require Import ModelBytes ModelKey ModelElen SpecElen ProofElen.
Local Open Scope N_scope.

(* Field level: the bytes the user passed, encoded for storage and decoded again.
   Missing: the smallest signed value, see C08_integer_round_trip_refuted. *)
Theorem C08_integer_round_trip_partial : forall T d neg pos,
  T = int32_t \/ T = int64_t \/ T = uint32_t \/ T = uint64_t ->
  sym_ok neg pos -> blen d = N.of_nat (it_bytes T) ->
  (it_signed T = true -> d <> store T (it_min T)) ->
  exists s, tr_enc_int T neg pos d = Ok (Some s) /\ tr_dec_int T neg pos s = Ok (Some d).
Proof. exact field_round_trip4. Qed.
Print Assumptions C08_integer_round_trip_partial.

(* 8 bytes of 0xff: -1 as INT64, the largest value as UINT64 *)
Example C08_example :
  sym_ok NEG_SYMBOL POS_SYMBOL /\ blen (store int64_t (-1)) = N.of_nat (it_bytes int64_t) /\
  beqb (store int64_t (-1)) (store int64_t (it_min int64_t)) = false /\
  tr_enc_int int64_t NEG_SYMBOL POS_SYMBOL (store int64_t (-1)) = Ok (Some (bstr "/8")) /\
  tr_enc_int uint64_t NEG_SYMBOL POS_SYMBOL (store int64_t (-1)) = Ok (Some (bstr ":::22018446744073709551615")) /\
  tr_enc_int int32_t NEG_SYMBOL POS_SYMBOL (store int32_t (-210)) = Ok (Some (bstr "//6789")).
Proof. repeat split; try (vm_compute; congruence). Qed.

(* INT32 -2^31 and INT64 -2^63 negate to an overflow *)
Theorem C08_integer_round_trip_refuted : forall neg pos,
  tr_enc_int int32_t neg pos (store int32_t (- 2 ^ 31)) = UB /\
  tr_enc_int int64_t neg pos (store int64_t (- 2 ^ 63)) = UB.
Proof. exact int_min_ub. Qed.
Print Assumptions C08_integer_round_trip_refuted.

(* Keys are compared bytewise. The smaller subject sorts first whatever the predicates and the types
   recorded in the keys are; with one subject the smaller predicate sorts first. *)
Theorem C09_integer_order : forall T T' v w neg pos a b,
  T = int32_t \/ T = int64_t \/ T = uint32_t \/ T = uint64_t ->
  T' = int32_t \/ T' = int64_t \/ T' = uint32_t \/ T' = uint64_t ->
  sym_ord neg pos -> encodable T v -> encodable T' w -> (v < w)%Z ->
  enc_int T v neg pos = Ok a -> enc_int T' w neg pos = Ok b ->
  (forall t t' p q, bltb (sp_to_key (mkField a t) p) (sp_to_key (mkField b t') q) = true) /\
  (forall t t' s, bltb (sp_to_key s (mkField a t)) (sp_to_key s (mkField b t')) = true).
Proof. exact key_order4. Qed.
Print Assumptions C09_integer_order.

(* across signs and digit counts: -100 < -99 < -1 < 0 < 9 < 10 *)
Example C09_example :
  sym_ord NEG_SYMBOL POS_SYMBOL /\ encodable int32_t (-100) /\ encodable int64_t (-99) /\
  enc_int int32_t (-100) NEG_SYMBOL POS_SYMBOL = Ok (bstr "//6899") /\
  enc_int int64_t (-99) NEG_SYMBOL POS_SYMBOL = Ok (bstr "//700") /\
  enc_int int64_t 9 NEG_SYMBOL POS_SYMBOL = Ok (bstr ":9") /\
  enc_int uint64_t 10 NEG_SYMBOL POS_SYMBOL = Ok (bstr "::210").
Proof. repeat split; try (vm_compute; congruence). Qed.

(* Of the pairs of symbols the configuration accepts, exactly those around the digits work.
   Missing from C53: every other accepted pair, see C53_symbols_refuted. *)
Theorem C53_symbols_partial : forall neg pos, elen_accepts neg pos = true ->
  (preserves_values neg pos /\ preserves_order neg pos <-> sym_ord neg pos).
Proof. exact symbols_iff. Qed.
Print Assumptions C53_symbols_partial.

Example C53_example : elen_accepts NEG_SYMBOL POS_SYMBOL = true /\ sym_ord NEG_SYMBOL POS_SYMBOL.
Proof. repeat split; vm_compute; reflexivity. Qed.

(* '-' and '5': the value 5 does not come back. '!' and '*': 10 sorts before 9. *)
Theorem C53_symbols_refuted :
  (elen_accepts "-"%char "5"%char = true /\ ~ preserves_values "-"%char "5"%char) /\
  (elen_accepts "!"%char "*"%char = true /\ ~ preserves_order "!"%char "*"%char).
Proof. exact symbols_refuted. Qed.
Print Assumptions C53_symbols_refuted.
