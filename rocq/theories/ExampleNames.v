(* Warnings about types: witnesses and examples *)
From Verif Require Import ModelBytes ProofBytes ModelElen ModelKey ModelHist ModelMsg ModelStore ModelGetOp ModelDs ModelNames SpecNames ProofNames ProofNames2 ExampleStore.
Local Open Scope N_scope.

Definition nm_start (k : backend) (c : codec) : ds := mkDs k c true [] [].
(* two PUTs, a GET that asks for the wrong type, a GETOP with three wrong types *)
Definition nm_history : list body :=
  [ QPut [mkPut (xb "a") 1 (xb "b") 2 (xint 5); mkPut (xb "a") 3 (xb "c") 4 (xb "text")];
    QGet [mkGet (xb "a") 5 (xb "c") 6 T_DOUBLE; mkGet (xb "a") 7 (xb "c") 8 T_BYTE];
    QGetOp [mkGetOp GETOP_FIRST (mkBlob false [] T_INT64) (mkBlob false [] T_INVALID) T_BYTE 1] ].
Lemma nm_typed : Forall (typed ex_codec) nm_history.
Proof.
  assert (F : forall s, blen (bstr s) < 2 ^ 64 -> fits ex_codec (xb s)).
  { intros s H e E. cbn in E. injection E as <-. exact H. }
  assert (K : forall t, (t <=? 9) = true -> known t) by (intros t H; apply N.leb_le; exact H).
  repeat (apply Forall_cons || apply Forall_nil).
  1,2: repeat (split; [apply K; reflexivity|]); split; apply F; reflexivity.
  1,2: apply K; reflexivity.
  repeat (split; [apply K; reflexivity|]). apply K. reflexivity.
Qed.
Lemma run_snd {A B} (x : outcome (A * B)) b : (do (_, r) <- x; Ok r) = Ok b -> exists a, x = Ok (a, b).
Proof. destruct x as [[a b']| |]; cbn [obind]; intros H; [|discriminate H..]. apply Ok_inj in H. subst b'. exists a. reflexivity. Qed.
Lemma nm_warnings : exists d r, log_run true (nm_start LevelDB ex_codec) nm_history = Ok (d, r,
  [("HXHIM_DATA_BYTE", "HXHIM_DATA_DOUBLE"); ("HXHIM_DATA_BYTE", "HXHIM_DATA_INT64"); ("HXHIM_DATA_BYTE", "HXHIM_DATA_INVALID"); ("HXHIM_DATA_INT32", "HXHIM_DATA_BYTE")]%string).
Proof.
  match goal with |- exists d r, ?x = Ok (_, _, ?ws) => destruct (run_snd x ws) as [[d r] E] end; [vm_compute; reflexivity|]. exists d, r. exact E.
Qed.

Lemma nm_answers : exists d r, ds_run (nm_start LevelDB ex_codec) (map CallReq nm_history) = Ok (d, r) /\ length r = 3%nat.
Proof.
  assert (E : exists r, (do (_, r) <- ds_run (nm_start LevelDB ex_codec) (map CallReq nm_history); Ok r) = Ok r /\ length r = 3%nat)
    by (eexists; split; [vm_compute; reflexivity|reflexivity]).
  destruct E as (r & E & L). apply run_snd in E as [d E]. exists d, r. split; assumption.
Qed.

(* a type without a name *)
Definition nm_asked : list body := [QPut [mkPut (xb "a") 1 (xb "b") 2 (xint 5)]; QGet [mkGet (xb "a") 5 (xb "b") 6 10]].
Lemma nm_asked_refuted k : exists d r, ds_run (nm_start k ex_codec) (map CallReq nm_asked) = Ok (d, r) /\ log_run true (nm_start k ex_codec) nm_asked = UB.
Proof.
  assert (E : exists r, (do (_, r) <- ds_run (nm_start k ex_codec) (map CallReq nm_asked); Ok r) = Ok r) by (destruct k; eexists; vm_compute; reflexivity).
  destruct E as [r E]. apply run_snd in E as [d E]. exists d, r. split; [exact E|]. destruct k; vm_compute; reflexivity.
Qed.
(* callbacks for a type of the user's *)
Definition user_codec : codec := mkCodec (fun t n d => if t =? 200 then Ok (Some d) else c_enc ex_codec t n d) (fun t d => if t =? 200 then Ok (Some d) else c_dec ex_codec t d) (c_neg ex_codec).
Definition nm_stored : list body :=
  [ QPut [mkPut (xb "a") 1 (xb "b") 2 (mkBlob false (bstr "text") 200)];
    QGet [mkGet (xb "a") 5 (xb "b") 6 T_BYTE] ].
Lemma nm_stored_refuted k : exists d r, ds_run (nm_start k user_codec) (map CallReq nm_stored) = Ok (d, r) /\ log_run true (nm_start k user_codec) nm_stored = UB.
Proof.
  assert (E : exists r, (do (_, r) <- ds_run (nm_start k user_codec) (map CallReq nm_stored); Ok r) = Ok r) by (destruct k; eexists; vm_compute; reflexivity).
  destruct E as [r E]. apply run_snd in E as [d E]. exists d, r. split; [exact E|]. destruct k; vm_compute; reflexivity.
Qed.
