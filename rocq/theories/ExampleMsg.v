(* Concrete messages used by the examples and refutations in PropMsg.v *)
From Verif Require Import ModelBytes ModelHist ModelMsg SpecMsg ProofMsg.
Local Open Scope N_scope.

Definition bl (s : string) : blob := mkBlob false (bstr s) T_BYTE.
Definition ex_put : msg := mkMsg 3 0 (QPut
  [mkPut (bl "ab") 1000 (bl "c") 2000 (bl "xyz"); mkPut (bl "a") 1008 (bl "bc") 2008 (mkBlob false (le_enc 8 77) T_INT64)]).
Definition ex_getop : msg := mkMsg 3 0 (QGetOp
  [mkGetOp GETOP_NEXT (bl "ab") (bl "c") T_BYTE 5; mkGetOp GETOP_FIRST nothing nothing T_BYTE 0]).

Ltac okk := repeat match goal with
  | |- _ /\ _ => split
  | |- Forall _ _ => constructor
  | |- u64 _ => vm_compute; reflexivity
  | |- u32 _ => vm_compute; reflexivity
  | |- int32 _ => unfold int32; split; vm_compute; congruence
  | |- msg_ok _ => unfold msg_ok; cbn [m_src m_dst m_body]
  | |- body_ok _ => unfold body_ok
  | |- put_ok _ => unfold put_ok; cbn
  | |- getop_ok _ => unfold getop_ok; cbn
  | |- got_ok _ => unfold got_ok; cbn
  | |- ref_ok _ => unfold ref_ok; cbn
  | |- blob_ok _ => unfold blob_ok; cbn
  | |- full _ => unfold full; cbn
  | |- _ -> _ => intros ?
  | |- _ = _ => reflexivity
  | |- _ <> _ => vm_compute; congruence
  end.

Lemma ex_requests_ok : is_request ex_put /\ msg_ok ex_put /\ exact_body (m_body ex_put)
                   /\ is_request ex_getop /\ msg_ok ex_getop /\ exact_body (m_body ex_getop).
Proof.
  split; [reflexivity|]. split; [unfold ex_put; okk|]. split; [cbn; okk|].
  split; [reflexivity|]. split.
  - unfold ex_getop. okk; try congruence.
  - cbn. constructor; [right; okk|]. constructor; [left; okk; left; reflexivity|constructor].
Qed.

Definition ex_got : msg := mkMsg 0 3 (RGet
  [mkGot 1 (mkRef 1000 2 T_BYTE) (mkRef 2000 1 T_BYTE) (bl "xyz"); mkGot 2 (mkRef 1008 1 T_BYTE) (mkRef 2008 2 T_BYTE) nothing]).

Definition d5 : N := 0x4014000000000000.  (* 5.0 *)
Definition d1 : N := 0x3ff0000000000000.  (* 1.0 *)
Definition ex_h : hist := mkHist (bstr "temp") 2 None 2 [d5] 1 None 0 None 0.
Definition ex_h2 : hist := mkHist (bstr "temp") 1 None 1 [d5] 2 (Some [d5]) d5 (Some [1]) 1.
Definition ex_hist : msg := mkMsg 0 3 (RHist [mkHI 1 (Some ex_h); mkHI 2 None; mkHI 1 (Some ex_h2)]).

Lemma ex_responses_ok : is_response ex_got /\ msg_ok ex_got /\ exact_body (m_body ex_got)
                   /\ is_response ex_hist /\ msg_ok ex_hist.
Proof.
  split; [reflexivity|]. split; [unfold ex_got; okk; discriminate|].
  split; [cbn; constructor; [left; okk|]; constructor; [right; okk|constructor]|].
  split; [reflexivity|]. unfold ex_hist. okk; unfold hitem_ok; cbn [hi_status hi_hist]; (split; [okk|]); intros H.
  - exists ex_h. split; [reflexivity|]. unfold hist_ok, ex_h. cbn [h_name h_first_n h_gen h_cap h_cache h_count h_buckets h_upper h_counts h_size].
    okk. congruence.
  - discriminate.
  - exists ex_h2. split; [reflexivity|]. unfold hist_ok, ex_h2. cbn [h_name h_first_n h_gen h_cap h_cache h_count h_buckets h_upper h_counts h_size].
    okk; try discriminate. exists [d5], [1]. okk.
Qed.

Definition ex_null : msg := mkMsg 3 0 (QGetOp [mkGetOp GETOP_EQ (bl "abc") nothing T_BYTE 1]).
Lemma null_predicate_ub : exists m b,
  is_request m /\ (exists i, m_body m = QGetOp [i] /\ blob_ok (oi_sub i) /\ oi_pred i = nothing) /\
  msg_pack m = Ok b /\ unpack_request b = UB.
Proof.
  exists ex_null. eexists. split; [reflexivity|]. split.
  { eexists. split; [reflexivity|]. split; [okk|reflexivity]. }
  split; [vm_compute; reflexivity|]. vm_compute. reflexivity.
Qed.
