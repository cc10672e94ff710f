(* Cases for PropLarge *)
From Verif Require Import ModelBytes ProofBytes ModelElen ModelTransform ModelFloat SpecElen SpecFp SpecLarge ProofElen ProofFpBase ProofFpMant ModelLarge ProofLarge
  ProofLarge2 ProofLarge3 ProofLarge4 ProofLarge5.
From Coq Require Import Reals Psatz.
From Flocq Require Import Core.
Local Open Scope R_scope.

(* 3/2, -5/4, 1/2, -3/4 *)
Definition d15 := S754_finite false 6755399441055744 (-52).
Definition d125 := S754_finite true 5629499534213120 (-52).
Definition d05 := S754_finite false 4503599627370496 (-53).
Definition d075 := S754_finite true 6755399441055744 (-53).
(* 4096 * 1048576 = 2^32, and -2^32 *)
Definition d32 (s : bool) := S754_finite s 4503599627370496 (-20).
(* 1 - 2^-20 and 1 *)
Definition d1m := S754_finite false 9007190664806400 (-53).

Lemma val_c s m e k : (0 <= k)%Z -> e = (- k)%Z -> val (S754_finite s m e) = (if s then -1 else 1) * IZR (Zpos m) / IZR (2 ^ k).
Proof.
  intros H ->. cbn [val]. rewrite pw2. unfold Rdiv. f_equal. rewrite bpow_opp, two_IZR by exact H. reflexivity.
Qed.
Lemma v15 : val d15 = 3 / 2. Proof. unfold d15. rewrite (val_c _ _ _ 52) by lia. change (2 ^ 52)%Z with 4503599627370496%Z. lra. Qed.
Lemma v125 : val d125 = -5 / 4. Proof. unfold d125. rewrite (val_c _ _ _ 52) by lia. change (2 ^ 52)%Z with 4503599627370496%Z. lra. Qed.
Lemma v05 : val d05 = / 2. Proof. unfold d05. rewrite (val_c _ _ _ 53) by lia. change (2 ^ 53)%Z with 9007199254740992%Z. lra. Qed.
Lemma v075 : val d075 = -3 / 4. Proof. unfold d075. rewrite (val_c _ _ _ 53) by lia. change (2 ^ 53)%Z with 9007199254740992%Z. lra. Qed.
Lemma v32 s : val (d32 s) = (if s then -1 else 1) * 4294967296.
Proof. unfold d32. rewrite (val_c _ _ _ 20) by lia. change (2 ^ 20)%Z with 1048576%Z. destruct s; lra. Qed.
Lemma v1m : val d1m = 1 - / 1048576.
Proof. unfold d1m. rewrite (val_c _ _ _ 53) by lia. change (2 ^ 53)%Z with 9007199254740992%Z. lra. Qed.
Lemma ten3 : ten (- Z.of_N 3) = / 1000. Proof. unfold ten. change (- Z.of_N 3)%Z with (Zneg 3). cbn [powerRZ]. change (Pos.to_nat 3) with 3%nat. cbn [pow]. f_equal. ring. Qed.

Lemma large_case : valid DBL d125 /\ valid DBL d15 /\ Rabs (val d125) <= 2147483647 /\ Rabs (val d15) <= 2147483647 /\ val d125 <= val d15 /\
  enc_large DBL 3 NEG_SYMBOL POS_SYMBOL d125 = Ok (bstr "/8749:") /\ enc_large DBL 3 NEG_SYMBOL POS_SYMBOL d15 = Ok (bstr ":1500/") /\
  dec_large DBL (bstr "/8749:") NEG_SYMBOL POS_SYMBOL = Ok d125.
Proof.
  rewrite v15, v125. split; [reflexivity|]. split; [reflexivity|].
  split; [rewrite Rabs_left by lra; lra|]. split; [rewrite Rabs_pos_eq by lra; lra|]. split; [lra|].
  split; [vm_compute; reflexivity|]. split; vm_compute; reflexivity.
Qed.
Lemma small_case : Rabs (val d075) <= 1 - ten (- Z.of_N 3) /\ Rabs (val d05) <= 1 - ten (- Z.of_N 3) /\ val d075 <= val d05 /\
  enc_small 3 NEG_SYMBOL POS_SYMBOL d075 = bstr "/249:" /\ enc_small 3 NEG_SYMBOL POS_SYMBOL d05 = bstr ":500/" /\
  dec_small DBL (bstr "/249:") NEG_SYMBOL POS_SYMBOL = Ok d075.
Proof.
  rewrite v05, v075, ten3. split; [rewrite Rabs_left by lra; lra|]. split; [rewrite Rabs_pos_eq by lra; lra|]. split; [lra|].
  split; [vm_compute; reflexivity|]. split; vm_compute; reflexivity.
Qed.

(* a value larger than one half that sorts before it; one and a half is written like one half; without digits after the
   point nothing can be read back *)
Lemma small_wrong : (val d05 < val d1m < 1 /\ before (enc_small 3 NEG_SYMBOL POS_SYMBOL d1m) (enc_small 3 NEG_SYMBOL POS_SYMBOL d05)) /\
  (val d05 < val d15 /\ enc_small 3 NEG_SYMBOL POS_SYMBOL d15 = enc_small 3 NEG_SYMBOL POS_SYMBOL d05) /\
  dec_small DBL (enc_small 0 NEG_SYMBOL POS_SYMBOL d05) NEG_SYMBOL POS_SYMBOL = Throw.
Proof.
  rewrite v05, v15, v1m. split; [split; [lra|]|split; [split; [lra|]|]].
  - apply before_slt. replace (enc_small 3 NEG_SYMBOL POS_SYMBOL d1m) with (bstr ":000/") by (vm_compute; reflexivity).
    replace (enc_small 3 NEG_SYMBOL POS_SYMBOL d05) with (bstr ":500/") by (vm_compute; reflexivity).
    exists (bstr ":"), "0"%char, "5"%char, (bstr "00/"), (bstr "00/"). split; [reflexivity|]. split; [reflexivity|]. reflexivity.
  - vm_compute. reflexivity.
  - vm_compute. reflexivity.
Qed.
Lemma carry_case : nonzero_fp d1m /\ 1 - / 2 * ten (- Z.of_N 3) < val d1m <= 1.
Proof. rewrite v1m, ten3. split; [exact Logic.I|lra]. Qed.

(* infinity is written like numbers that round to zero *)
Lemma large_inf F p neg pos : enc_large F p neg pos (S754_infinity false) = Ok [pos; digit 0; neg].
Proof. reflexivity. Qed.
Lemma large_inf_wrong F : fmt_ok F -> exists a b, enc_large F 3 NEG_SYMBOL POS_SYMBOL (S754_infinity false) = Ok a /\
  enc_large F 3 NEG_SYMBOL POS_SYMBOL (if Z.eqb (f_prec F) 53 then d15 else S754_finite false 12582912 (-23)) = Ok b /\ before a b.
Proof.
  intros [->| ->]; exists (bstr ":0/"), (bstr ":1500/"); split; try reflexivity; (split; [vm_compute; reflexivity|]);
    apply before_slt; exists (bstr ":"), "0"%char, "1"%char, (bstr "/"), (bstr "500/"); (split; [reflexivity|split; reflexivity]).
Qed.

(* int16_t *)
Lemma min16 : enc_lib int16_t (-32768) NEG_SYMBOL POS_SYMBOL = Ok (bstr "/3-67231") /\
  dec_lib int16_t (bstr "/3-67231") NEG_SYMBOL POS_SYMBOL = Ok ((-6)%Z, Some 2%N).
Proof. split; vm_compute; reflexivity. Qed.
Lemma beyond_case : valid DBL (d32 false) /\ 2147483648 <= val (d32 false) /\ valid DBL (d32 true) /\ val (d32 true) <= -2147483648 /\
  enc_large DBL 3 NEG_SYMBOL POS_SYMBOL (d32 false) = Ok (bstr ":::2102147483647/").
Proof. rewrite !v32. split; [reflexivity|]. split; [lra|]. split; [reflexivity|]. split; [lra|]. vm_compute. reflexivity. Qed.
