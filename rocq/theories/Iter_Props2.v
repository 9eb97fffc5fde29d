(** Property C27, continued: open loops with a cancellation. *)
From Coq Require Import List ZArith Bool Lia.
From Verif Require Import Base_Model Iter_Model Iter_Proofs Iter_Proofs2 Iter_Proofs3.
Import ListNotations.
Open Scope Z_scope.

(** distbench_engine.cc:1357-1488: [looped] lists what happens to one action
    during passes of RunActionList: each pass starts at most one iteration and
    ends with HandleFinishedActions; other threads act at any time.  Cancelled
    or not, such an action completes at most twice. *)
Theorem C27_at_most_twice : forall c per first done last s, Forall pass_ok done -> pass_ok last ->
  open_run c per first (looped done last) s -> (calls (it_log s) <= 2)%nat.
Proof. exact at_most_twice. Qed.
Print Assumptions C27_at_most_twice.

(** Once the loop was left (no further starts), a cancelled action completes
    when its iterations do, provided there are some and none of them had read
    the flag before it was set. *)
Theorem C27_cancelled_completes : forall c per first sch s sch' s', open_run c per first sch s ->
  it_canceled s = true -> it_live s <> [] -> (forall k x, In (k, x) (it_live s) -> x <> Some false) ->
  (forall now gap, ~ In (ATick now gap) sch') -> it_run c sch' s = ItNext s' -> it_live s' = [] -> In ICall (it_log s').
Proof. exact cancelled_completes. Qed.
Print Assumptions C27_cancelled_completes.

Definition shared : iter_cfg := mkIter 100 1 None (Some 10) 0 false.
(** The bound of C27_at_most_twice is reached: the first iteration completes
    the action in the pass that starts the second. *)
Example C27_twice_example : exists s,
  open_run shared 10 0 (looped [mkPass [] (Some (1, 10)) []]
     (mkPass [ACancel; AEnd 0; AFinish 0 11] (Some (12, 10)) [AEnd 1; AFinish 1 13])) s /\
  it_log s = [ICall; IEnd 1; IStart 1 false 12; ICall; IEnd 0; ICancel; IStart 0 false 1].
Proof. eexists. split; [split; [reflexivity|]; eexists; split; [reflexivity|vm_compute; reflexivity]|reflexivity]. Qed.

Example C27_cancelled_example : exists s s',
  open_run shared 10 0 [ATick 1 10; ATick 11 10; ACancel; AEnd 1] s /\ it_canceled s = true /\
  it_live s = [(0, None); (1, Some true)] /\
  it_run shared [AFinish 1 12; AEnd 0; AFinish 0 13] s = ItNext s' /\ it_live s' = [] /\
  it_log s' = [ICall; IEnd 0; IEnd 1; ICancel; IStart 1 false 11; IStart 0 false 1].
Proof.
  eexists. eexists. split; [split; [reflexivity|]; eexists; split; [reflexivity|vm_compute; reflexivity]|].
  split; [reflexivity|]. split; [reflexivity|]. split; [vm_compute; reflexivity|]. split; reflexivity.
Qed.

(** The proviso is needed: iteration 0 read the flag just before it was set
    and ends last, so nobody completes the action. *)
Theorem C27_read_before_refuted : exists c per first sch s sch' s', open_run c per first sch s /\
  it_canceled s = true /\ it_live s <> [] /\ it_run c sch' s = ItNext s' /\ it_live s' = [] /\ ~ In ICall (it_log s').
Proof.
  exists shared, 10, 0, [ATick 1 10; ATick 11 10; AEnd 0; ACancel]. eexists. exists [AEnd 1; AFinish 1 12; AFinish 0 13].
  eexists. split; [split; [reflexivity|]; eexists; split; [reflexivity|vm_compute; reflexivity]|].
  split; [reflexivity|]. split; [discriminate|]. split; [vm_compute; reflexivity|]. split; [reflexivity|].
  cbn. intuition discriminate.
Qed.
Print Assumptions C27_read_before_refuted.
