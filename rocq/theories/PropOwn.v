(* C90 Messages own their arrays: whatever programs do with messages, everything is released exactly once *)
From Verif Require Import ModelBytes ModelOwn SpecOwn ProofOwn ProofOwn2 ProofOwn3 ExampleOwn.
Local Open Scope nat_scope.

(* Programs that make, fill, steal from, use again and destroy messages within their room never release or use an array twice or after its
   end, and whatever is in use then belongs to one message, in one place *)
Theorem C90_once : forall l, all_careful start l -> exists w, acts start l = Ok w /\ accounted w.
Proof. intros l C. destruct (acts_sound l start sound_start C) as (w & E & S). exists w. split; [ exact E | exact (sound_accounted w S) ]. Qed.
Print Assumptions C90_once.
Example C90_once_ex : all_careful start xown /\ (exists w, acts start xown = Ok w /\ in_use (w_heap w) <> []).
Proof. split; [ exact xown_careful |]. eexists. split; [ vm_compute; reflexivity | discriminate ]. Qed.

(* Nothing is left when all messages are destroyed *)
Theorem C90_released : forall l w, all_careful start l -> acts start l = Ok w -> Forall (fun x => x = None) (w_all w) -> h_live (w_heap w) = [].
Proof. intros l w C E. exact (released_all w (reach_sound l w C E)). Qed.
Print Assumptions C90_released.
Lemma xown_end_careful : all_careful start xown_end.
Proof.
  eapply careful_app; [ exact xown_careful | vm_compute; reflexivity |].
  cbn [all_careful]. next_; [ at_ |]. next_; [ at_ | exact Logic.I ].
Qed.
Example C90_released_ex : all_careful start xown_end /\ (exists w, acts start xown_end = Ok w /\ Forall (fun x => x = None) (w_all w) /\ length (w_all w) = 3).
Proof.
  split; [ exact xown_end_careful |]. eexists. split; [ vm_compute; reflexivity |]. split; [ repeat constructor | reflexivity ].
Qed.

(* local::range_server: the final response takes everything from the datastore's response, and nothing is lost or released twice when that
   is destroyed with its count set to 0 *)
Theorem C90_local : forall l w o q c items, all_careful start l -> acts start l = Ok w -> exists_at w q (fun _ => True) ->
  length items <= c -> Forall item_fits items ->
  exists w' t, acts w (local_serve o q c (length (w_all w)) items) = Ok w' /\ accounted w' /\ w_all w' = w_all w ++ [Some t; None] /\
    g_kind t = Response o /\ g_count t = length items.
Proof.
  intros l w o q c items C E (r & Eq & _) Le F.
  destruct (local_sound o q c items w r (reach_sound l w C E) Eq Le F) as (w' & t & E' & S & A & K & _ & N).
  exists w', t. split; [ exact E' |]. split; [ exact (sound_accounted w' S) |]. auto.
Qed.
Print Assumptions C90_local.
Example C90_local_ex : all_careful start xown /\ (exists w, acts start xown = Ok w /\ exists_at w 0 (fun _ => True)) /\ length xown_items <= 2 /\ Forall item_fits xown_items.
Proof.
  split; [ exact xown_careful |]. split; [ eexists; split; [ vm_compute; reflexivity |]; at_ |]. split; [ cbn; lia |].
  repeat constructor; unfold item_fits; cbn; lia.
Qed.

(* There is no check: one item more than the room is written behind the arrays *)
Theorem C90_full : forall l w i j n ok ds, all_careful start l -> acts start l = Ok w -> exists_at w i (fun m => g_count m = g_max m) ->
  act w (AAdd i ok ds) = UB /\ (exists_at w j (fun _ => True) -> act w (ASteal i j n ok ds) = UB).
Proof.
  intros l w i j n ok ds C E Full. pose proof (reach_sound l w C E) as S. split; [ exact (full_add w i ok ds S Full) | exact (full_steal w i j n ok ds S Full) ].
Qed.
Print Assumptions C90_full.
Example C90_full_ex : all_careful start xown /\ (exists w, acts start xown = Ok w /\ exists_at w 1 (fun m => g_count m = g_max m) /\ exists_at w 0 (fun _ => True)).
Proof. split; [ exact xown_careful |]. eexists. split; [ vm_compute; reflexivity |]. split; at_. Qed.

(* Setting the count to 0 is only right when the records are stolen: otherwise they are never released *)
Theorem C90_zero_refuted : exists l w, acts start l = Ok w /\ Forall (fun x => x = None) (w_all w) /\ length (in_use (w_heap w)) = 3.
Proof. exists xleak. eexists. split; [ vm_compute; reflexivity |]. split; [ repeat constructor | reflexivity ]. Qed.
Print Assumptions C90_zero_refuted.

(* alloc empties a message that was used before, but its size stays: the next message is announced with the bytes of both *)
Theorem C90_reuse : forall l w i m max, all_careful start l -> acts start l = Ok w -> nth_error (w_all w) i = Some (Some m) ->
  exists w' m', act w (AAlloc i max) = Ok w' /\ nth_error (w_all w') i = Some (Some m') /\ g_count m' = 0 /\ g_max m' = max /\ g_size m' = g_size m.
Proof. intros l w i m max C E. exact (reuse_size w i m max (reach_sound l w C E)). Qed.
Print Assumptions C90_reuse.
Example C90_reuse_ex : all_careful start xown /\ (exists w m, acts start xown = Ok w /\ nth_error (w_all w) 0 = Some (Some m) /\ g_count m = 0 /\ g_size m = 144%N).
Proof. split; [ exact xown_careful |]. eexists. eexists. split; [ vm_compute; reflexivity |]. repeat split. Qed.
