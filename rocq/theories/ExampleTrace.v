(* Traces, for the theorems about them *)
From Verif Require Import ModelBytes ProofBytes ModelKey ModelWire ModelHist ModelMsg SpecMsg ModelStore ModelGetOp ModelDs SpecStore ProofStore ModelElen ModelRoute SpecRoute
  ExampleStore ModelClient SpecClient SpecCluster ExampleClient ModelFloat ModelStats ModelDsStats ModelTimes SpecTimes ExampleTimes ModelTrace SpecTrace ProofTrace2 ProofTrace3 ProofTrace4.
Local Open Scope Z_scope.

Definition tv1 : named_event := (bstr "Hash"%string, 1000, 1250).
Definition tv2 : named_event := (bstr "Result"%string, 2000, 1234569000).
(* a session that asks for the buffer twice, and prints once more before it ends *)
Definition tlife : list tact := [TPrint tv1; TPrint tv2; TGet; TPrint tv2; TGet; TPrint tv1; TClose].
Lemma tv_after : Forall (after 500) [tv1; tv2].
Proof. repeat (constructor; [split; [repeat (constructor; [split; discriminate|]); constructor|lia]|]). constructor. Qed.
Lemma tv_text : flat_map (line 3 500) [tv1; tv2] = bstr "3 Hash 500 750 2.5e-07
3 Result 1500 1234568500 1.23457
"%string.
Proof. vm_compute. reflexivity. Qed.
Lemma tlife_run : exists st, tc_run 3 500 (tc_opened (mkOut true [])) tlife = Ok st /\
  o_text (tc_out st) = flat_map (line 3 500) [tv1; tv2; tv2] /\ tc_log st = line 3 500 tv1.
Proof. eexists. split; [vm_compute; reflexivity|]. split; vm_compute; reflexivity. Qed.

(* the buffer is asked for when it is empty *)
Lemma asked_empty : exists rank epoch l st, Forall (after epoch) (flat_map printed l) /\ flat_map printed l <> [] /\
  tc_run rank epoch (tc_opened (mkOut true [])) l = Ok st /\ o_text (tc_out st) = [] /\ tc_buf st = [] /\ tc_log st = [] /\ o_good (tc_out st) = false.
Proof.
  exists 3, 500, [TGet; TPrint tv1; TGet; TPrint tv2; TGet; TClose]. eexists. split; [exact tv_after|]. split; [discriminate|].
  split; [vm_compute; reflexivity|]. repeat split.
Qed.
(* a result that is kept longer than the session *)
Lemma kept_result rank epoch o x t print l : tc_run rank epoch (tc_opened o) (TClose :: TResult x t print :: l) = UB.
Proof. reflexivity. Qed.

(* the records of a GETOP *)
Lemma second_wrapped : exists e T cl l qs w evs xs x t, setting e /\ steady T /\
  t_run e T (t_opened e) (mkWorld cl 0 []) l = Ok (qs, w, evs, xs) /\ Forall body_ok (w_wire w) /\ In (x, t) xs /\ of_sync (x, t) = false /\ far e (from x) = true /\
  forall rank epoch print st, 0 < epoch < 2 ^ 64 -> tc_run rank epoch (tc_opened (mkOut true [])) [TResult x t print; TGet] = Ok st ->
    In (wrapped rank epoch "Hash") (read_trace (o_text (tc_out st))).
Proof.
  destruct tacts_run as (qs & w & R & W).
  exists (xe 0), ticks, (xcl InMemory), tacts, qs, w, tevents, tresults, (fst (nth 7 tresults (XSync 0 true, no_times))), no_times.
  split; [apply xe_setting; lia|]. split; [exact ticks_steady|]. split; [exact R|]. split; [rewrite W; exact twire_ok|].
  split; [unfold tresults; cbn; tauto|]. split; [reflexivity|]. split; [reflexivity|]. intros rank epoch print st H R'. refine (unset_lines _ _ _ _ _ _ H _ R'). reflexivity.
Qed.
(* an operation that stays on the rank of the client *)
Lemma near_wrapped : exists e T cl l qs w evs xs s p x t, setting e /\ steady T /\
  t_run e T (t_opened e) (mkWorld cl 0 []) l = Ok (qs, w, evs, xs) /\ Forall body_ok (w_wire w) /\
  x = XPut 0 true (arg_ref s) (arg_ref p) /\ In (x, t) xs /\ far e 0 = false /\
  forall rank epoch print st, 0 < epoch < 2 ^ 64 -> tc_run rank epoch (tc_opened (mkOut true [])) [TResult x t print; TGet] = Ok st ->
    In (wrapped rank epoch "Hash") (read_trace (o_text (tc_out st))).
Proof.
  destruct tacts_run as (qs & w & R & W).
  exists (xe 0), ticks, (xcl InMemory), tacts, qs, w, tevents, tresults, (xa 1 "s"%string), (xa 2 "p"%string), (fst (nth 2 tresults (XSync 0 true, no_times))), (snd (nth 2 tresults (XSync 0 true, no_times))).
  split; [apply xe_setting; lia|]. split; [exact ticks_steady|]. split; [exact R|]. split; [rewrite W; exact twire_ok|].
  split; [reflexivity|]. split; [unfold tresults; cbn; tauto|]. split; [reflexivity|]. intros rank epoch print st H R'. refine (unset_lines _ _ _ _ _ _ H _ R'). reflexivity.
Qed.
(* the first result of the same session, whose clock starts at 100: its epoch is 90, and it is destroyed at 300 *)
Lemma first_told : match tresults with
  | (x, t) :: _ => exists st, tc_run 0 90 (tc_opened (mkOut true [])) [TResult x t (300, 307); TGet] = Ok st /\
      firstn 2 (map (option_map (fun r => fst r)) (read_trace (o_text (tc_out st)))) =
        [Some (0, bstr "HXHIM_PUT"%string, 20%N, 53%N); Some (0, bstr "Hash"%string, 20%N, 21%N)]
  | [] => False end.
Proof. eexists. split; [vm_compute; reflexivity|]. vm_compute. reflexivity. Qed.
