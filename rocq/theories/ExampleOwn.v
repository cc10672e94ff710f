From Verif Require Import ModelBytes ModelOwn SpecOwn.
Local Open Scope nat_scope.

Ltac at_ := eexists; split; [ reflexivity |]; repeat split; try (cbn; unfold has_room; cbn; lia); try discriminate; try reflexivity.
Ltac next_ := split; [| let w := fresh "w" in let E := fresh "E" in intros w E; vm_compute in E; injection E as <- ].

(* a request with two GETOPs, the response of a datastore with three and no records; items are stolen, the timestamps too; all is destroyed *)
Definition xown : list action :=
  [ANew (Request GetOp) 2; AAdd 0 true 60; AAdd 0 true 60; ANew (Response GetOp) 2; ANew (Response GetOp) 3; AAddRecord 2 4 3 120; AAddRecord 2 0 0 12;
   ASteal 1 2 0 true 120; ASteal 1 2 1 true 12; AZero 2; ADestroy 2; ATimes 1 0 true; AAlloc 0 5].
Definition xown_end : list action := xown ++ [ADestroy 0; ADestroy 1].
Lemma xown_careful : all_careful start xown.
Proof.
  unfold xown. cbn [all_careful]. repeat (next_; [ cbn [careful]; try exact Logic.I |]); try exact Logic.I; try (at_; fail).
  - split; [ at_ | lia ].
  - split; [ at_ | lia ].
  - split; [ lia |]. exists GetOp. split; at_.
  - split; [ lia |]. exists GetOp. split; at_.
  - split; [ lia |]. split; at_.
Qed.
Definition xown_items : list item := [mkItem true 10 3 2; mkItem true 12 0 0].
Definition xleak : list action := [ANew (Response GetOp) 1; AAddRecord 0 2 2 80; AZero 0; ADestroy 0].
