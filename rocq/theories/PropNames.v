(* C78: warnings about types *)
From Verif Require Import ModelBytes ModelElen ModelKey ModelHist ModelMsg ModelStore ModelGetOp ModelDs ModelNames SpecNames ProofNames ProofNames2 ExampleStore ExampleNames.
Local Open Scope N_scope.

(* A datastore that logs warnings does what one that does not log does, and reads names within the table.
   Missing: types without a name (C78_asked_refuted, C78_stored_refuted); histograms written to the datastore, the values of
   which carry no type *)
Theorem C78_same_partial : forall logs k c hists h, Forall (typed c) h ->
  without (log_run logs (mkDs k c true [] hists) h) = ds_run (mkDs k c true [] hists) (map CallReq h).
Proof. intros logs k c hists h F. apply run_same; [constructor|exact F]. Qed.
Print Assumptions C78_same_partial.
Example C78_same_example : Forall (typed ex_codec) nm_history /\ exists d r, ds_run (nm_start LevelDB ex_codec) (map CallReq nm_history) = Ok (d, r) /\ length r = 3%nat.
Proof. split; [exact nm_typed|exact nm_answers]. Qed.

(* A GET that succeeds is warned about exactly if the type found is not the type asked for; a GETOP for each subject, predicate
   and object found, in their order *)
Theorem C78_get : forall logs c db i g ws, log_get1 logs c db i = Ok (g, ws) -> go_status g = ST_OK -> ws = get_warnings logs i g.
Proof. exact get_logged. Qed.
Print Assumptions C78_get.
Theorem C78_getop : forall logs k c db i g ws, log_getop1 logs k c db i = Ok (g, ws) -> gp_status g = ST_OK -> ws = getop_warnings logs i g.
Proof. intros logs k c db i g ws. apply getop_logged. Qed.
Print Assumptions C78_getop.
Example C78_warnings_example : exists d r, log_run true (nm_start LevelDB ex_codec) nm_history = Ok (d, r,
  [("HXHIM_DATA_BYTE", "HXHIM_DATA_DOUBLE"); ("HXHIM_DATA_BYTE", "HXHIM_DATA_INT64"); ("HXHIM_DATA_BYTE", "HXHIM_DATA_INVALID"); ("HXHIM_DATA_INT32", "HXHIM_DATA_BYTE")]%string).
Proof. exact nm_warnings. Qed.

(* A type without a name makes the warning read beyond the table of names: one that a GET asks for, *)
Theorem C78_asked_refuted : forall k, exists h d r, ds_run (nm_start k ex_codec) (map CallReq h) = Ok (d, r) /\ log_run true (nm_start k ex_codec) h = UB.
Proof. intros k. exists nm_asked. apply nm_asked_refuted. Qed.
Print Assumptions C78_asked_refuted.
(* and one that is stored with callbacks of the user's and asked for as another *)
Theorem C78_stored_refuted : forall k, exists c h d r, Forall (fun q => match q with QGet l => Forall (fun i => known (gi_type i)) l | _ => True end) h /\
  ds_run (nm_start k c) (map CallReq h) = Ok (d, r) /\ log_run true (nm_start k c) h = UB.
Proof.
  intros k. destruct (nm_stored_refuted k) as (d & r & A & B). exists user_codec, nm_stored, d, r. split; [|split; assumption].
  repeat apply Forall_cons; try apply Forall_nil; try exact Logic.I. unfold known. cbn. discriminate.
Qed.
Print Assumptions C78_stored_refuted.

(* Printing a blob reads the table only for known types, and blobs that print alike are alike *)
Theorem C78_print : forall p l t c, exists s, show_blob p l t c = Ok s /\
  forall p' l' t' c', show_blob p' l' t' c' = Ok s -> (p', l', t', c') = (p, l, t, c).
Proof.
  intros p l t c. eexists. split; [apply show_blob_text|]. intros p' l' t' c' H. apply (show_blob_inj p' l' t' c' p l t c). rewrite H. symmetry. apply show_blob_text.
Qed.
Print Assumptions C78_print.
Example C78_print_example : show_blob 48879 12 T_BYTE true = Ok (bstr "[0xbeef, 12, HXHIM_DATA_BYTE, true]"%string) /\
  show_blob 0 0 200 false = Ok (bstr "[0, 0, Unknown Type (200), false]"%string).
Proof. split; vm_compute; reflexivity. Qed.
