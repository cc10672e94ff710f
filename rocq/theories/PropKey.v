(* C01, C02: storage keys *)
From Verif Require Import ModelBytes ModelKey ProofKey.
Local Open Scope N_scope.

(* field_ok: length below 2^64, type below 256 *)
Theorem C01_keys_distinct : forall s p s' p',
  field_ok s -> field_ok p -> field_ok s' -> field_ok p' ->
  sp_to_key s p = sp_to_key s' p' -> s = s' /\ p = p'.
Proof. exact sp_to_key_inj. Qed.
Print Assumptions C01_keys_distinct.

(* same concatenation, different split; and a field that imitates the trailer of another key *)
Example C01_example :
  field_ok (mkField (bstr "ab") T_BYTE) /\ field_ok (mkField (bstr "c") T_BYTE) /\
  field_ok (mkField (bstr "a") T_BYTE) /\ field_ok (mkField (bstr "bc") T_BYTE) /\
  beqb (sp_to_key (mkField (bstr "ab") T_BYTE) (mkField (bstr "c") T_BYTE))
       (sp_to_key (mkField (bstr "a") T_BYTE) (mkField (bstr "bc") T_BYTE)) = false.
Proof. repeat split; vm_compute; reflexivity. Qed.

Theorem C02_key_round_trip : forall s p, field_ok s -> field_ok p -> key_to_sp (sp_to_key s p) = Ok (s, p).
Proof. exact key_to_sp_of_key. Qed.
Print Assumptions C02_key_round_trip.

Example C02_example :
  field_ok (mkField (key_terminator :: le_enc 8 3) T_INT32) /\ field_ok (mkField [] T_BYTE) /\
  key_to_sp (sp_to_key (mkField (key_terminator :: le_enc 8 3) T_INT32) (mkField [] T_BYTE))
  = Ok (mkField (key_terminator :: le_enc 8 3) T_INT32, mkField [] T_BYTE).
Proof. repeat split; vm_compute; reflexivity. Qed.
