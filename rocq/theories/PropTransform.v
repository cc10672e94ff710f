(* C42: user supplied transformations *)
From Verif Require Import ModelBytes ModelKey ModelElen ModelHist ModelMsg ModelStore ModelTransform SpecTransform ProofTransform ProofTransform2.
Local Open Scope N_scope.

(* Missing from C42: the known types and repeated registrations (refuted below). If no function is
   registered for a known type and none twice for the same type, the registered ones are used. *)
Theorem C42_registered_partial : forall f n0 l,
  (forall t, In t known_types -> regs_of t l = []) ->
  (forall t, (length (regs_of t l) <= 1)%nat) ->
  registered (session_codec (init_transform f (configure n0 l))) l.
Proof. exact registered_once. Qed.
Print Assumptions C42_registered_partial.
Example C42_registered_example :
  let l := [RFun 40 e_rev d_rev; RNum num0; RFun 41 e_one d_one] in
  last_of (map Some (regs_of 41 l)) None = Some (e_one, d_one) /\
  c_enc (session_codec (init_transform fl0 (configure num0 l))) 41 false ["a"%char] = Ok (Some ["1"%char; "a"%char]).
Proof. split; reflexivity. Qed.

(* For the types hxhim knows the built-in functions are used, whatever was registered; the numeric
   settings made last are used by them *)
Theorem C42_builtin_partial : forall f n0 l t, In t known_types ->
  uses (session_codec (init_transform f (configure n0 l))) t
       (c_enc (builtin f (last_of (nums_of l) n0)) t) (c_dec (builtin f (last_of (nums_of l) n0)) t).
Proof. exact known_ignored. Qed.
Print Assumptions C42_builtin_partial.
Example C42_builtin_example :
  let n := mkNumeric "!"%char "^"%char 8 16 in
  let c := session_codec (init_transform fl0 (configure num0 [RFun T_INT32 e_rev d_rev; RNum num0; RNum n])) in
  In T_INT32 known_types /\
  c_enc c T_INT32 false ["007"%char; "000"%char; "000"%char; "000"%char]
  = Ok (Some ["^"%char; "7"%char]).
Proof. split; [cbn [known_types In]; tauto | vm_compute; reflexivity]. Qed.

(* A registration for any known type is without effect *)
Theorem C42_known_refuted : forall f n0 t e d, In t known_types ->
  (exists null x, run_enc e null x <> c_enc (builtin f n0) t null x) ->
  ~ registered (session_codec (init_transform f (configure n0 [RFun t e d]))) [RFun t e d].
Proof. exact known_refuted. Qed.
Print Assumptions C42_known_refuted.
Example C42_known_example :
  ~ registered (session_codec (init_transform fl0 (configure num0 [RFun T_BYTE e_rev d_rev]))) [RFun T_BYTE e_rev d_rev].
Proof. exact ex_byte. Qed.

(* A second registration for any other type is without effect *)
Theorem C42_second_refuted : forall f n0 t e1 d1 e2 d2, ~ In t known_types ->
  (exists null x, run_enc e1 null x <> run_enc e2 null x) ->
  ~ registered (session_codec (init_transform f (configure n0 [RFun t e1 d1; RFun t e2 d2]))) [RFun t e1 d1; RFun t e2 d2].
Proof. exact second_refuted. Qed.
Print Assumptions C42_second_refuted.
Example C42_second_example :
  ~ registered (session_codec (init_transform fl0 (configure num0 [RFun 40 e_rev d_rev; RFun 40 e_one d_one])))
     [RFun 40 e_rev d_rev; RFun 40 e_one d_one].
Proof. exact ex_second. Qed.

(* A running session refuses registrations and keeps its functions *)
Theorem C42_running_partial : forall c t e d n,
  set_transform_function true t e d c = (c, false) /\ set_transform_numeric_values true n c = (c, false).
Proof. exact running_ignored. Qed.
Print Assumptions C42_running_partial.

(* A second registration for a type changes nothing at all, yet reports success *)
Theorem C42_silent : forall c t e d e' d',
  set_transform_function false t e' d' (fst (set_transform_function false t e d c)) = (fst (set_transform_function false t e d c), true).
Proof. exact silent. Qed.
Print Assumptions C42_silent.
Example C42_silent_example : tfind 40 (cb_enc (fst (set_transform_function false 40 e_rev d_rev (mkCallbacks num0 [] [])))) = Some e_rev.
Proof. reflexivity. Qed.

(* Bytes and pointers are copied both ways, whatever was registered; copying from a null pointer is undefined unless nothing is copied *)
Theorem C42_copies : forall f n0 l t, t = T_BYTE \/ t = T_POINTER ->
  (forall x, c_enc (session_codec (init_transform f (configure n0 l))) t false x = Ok (Some x)) /\
  c_enc (session_codec (init_transform f (configure n0 l))) t true [] = Ok (Some []) /\
  (forall x, x <> [] -> c_enc (session_codec (init_transform f (configure n0 l))) t true x = UB) /\
  (forall x, c_dec (session_codec (init_transform f (configure n0 l))) t x = Ok (Some x)).
Proof. exact copies. Qed.
Print Assumptions C42_copies.
Example C42_copies_example : c_enc (session_codec (init_transform fl0 (configure num0 [RFun T_BYTE e_rev d_rev]))) T_BYTE false ["a"%char; "b"%char] = Ok (Some ["a"%char; "b"%char]).
Proof. reflexivity. Qed.

(* The numeric settings are taken, with success, and the functions stay *)
Theorem C42_numeric : forall c n,
  snd (set_transform_numeric_values false n c) = true /\ cb_num (fst (set_transform_numeric_values false n c)) = n /\
  cb_enc (fst (set_transform_numeric_values false n c)) = cb_enc c /\ cb_dec (fst (set_transform_numeric_values false n c)) = cb_dec c.
Proof. intros c n. repeat split. Qed.
Print Assumptions C42_numeric.
Example C42_numeric_example : ne_neg (cb_num (fst (set_transform_numeric_values false (mkNumeric "!"%char "^"%char 8 16) (mkCallbacks num0 [] [])))) = "!"%char.
Proof. reflexivity. Qed.
