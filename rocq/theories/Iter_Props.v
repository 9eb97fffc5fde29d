(** Properties C26, C27, C28 (iteration part), C61: iterations of an action. *)
From Coq Require Import List ZArith Bool Lia.
From Verif Require Import Base_Model Iter_Model Iter_Proofs Iter_Proofs2.
Import ListNotations.
Open Scope Z_scope.

(** * C26 closed loop *)
Theorem C26_numbers : forall c now0 sch s, iter_ok c -> closed_run c now0 sch s ->
  exists n, copies c <= n <= ic_limit c /\ rev (starts (it_log s)) = upto n /\
            NoDup (ends (it_log s)) /\ (forall k, In k (ends (it_log s)) -> 0 <= k < n).
Proof. exact closed_numbers. Qed.
Print Assumptions C26_numbers.

Theorem C26_exact_count : forall c now0 sch s, iter_ok c -> closed_run c now0 sch s ->
  ic_time_limit c = None -> ~ In ICancel (it_log s) -> In ICall (it_log s) ->
  rev (starts (it_log s)) = upto (ic_limit c).
Proof. exact closed_exact. Qed.
Print Assumptions C26_exact_count.

Theorem C26_parallel_bound : forall c now0 sch s, iter_ok c -> closed_run c now0 sch s ->
  Z.of_nat (length (starts (it_log s))) - Z.of_nat (length (ends (it_log s))) <= Z.min (ic_parallel c) (ic_limit c).
Proof. exact closed_parallel. Qed.
Print Assumptions C26_parallel_bound.

Theorem C26_parallelism_kept_up : forall c now0 sch s, iter_ok c -> closed_run c now0 sch s ->
  ic_time_limit c = None -> ~ In ICancel (it_log s) ->
  Z.of_nat (length (it_live s)) =
  Z.min (Z.min (ic_parallel c) (ic_limit c))
        (ic_limit c - (Z.of_nat (length (starts (it_log s))) - Z.of_nat (length (it_live s)))).
Proof. exact closed_full. Qed.
Print Assumptions C26_parallelism_kept_up.

Theorem C26_completion_once : forall c now0 sch s, iter_ok c -> closed_run c now0 sch s ->
  (calls (it_log s) <= 1)%nat /\
  (calls (it_log s) = 1%nat <-> it_live s = []) /\
  (forall l1 l2, it_log s = l1 ++ ICall :: l2 ->
     starts l1 = [] /\ ends l1 = [] /\ forall k, In k (starts l2) -> In k (ends l2)).
Proof. exact closed_callback. Qed.
Print Assumptions C26_completion_once.

Theorem C26_time_limit : forall c now0 sch s t, iter_ok c -> closed_run c now0 sch s ->
  ic_time_limit c = Some t -> forall k w now, In (IStart k w now) (it_log s) ->
  Z.min (ic_parallel c) (ic_limit c) <= k -> now <= t.
Proof. exact closed_time. Qed.
Print Assumptions C26_time_limit.

(** After a cancellation only iterations already past their own check may be
    followed by another, so at most one more per parallel copy. *)
Theorem C26_cancellation : forall c now0 sch s, iter_ok c -> closed_run c now0 sch s ->
  In ICancel (it_log s) -> Z.of_nat (starts_since_cancel (it_log s)) <= Z.min (ic_parallel c) (ic_limit c).
Proof. exact closed_cancel. Qed.
Print Assumptions C26_cancellation.

Theorem C26_cancelled_iteration_is_last : forall c k now s s', ic_period c = None ->
  live_get k (it_live s) = Some (Some true) -> it_step c (AFinish k now) s = ItNext s' ->
  starts (it_log s') = starts (it_log s).
Proof. exact closed_cancel_stops. Qed.
Print Assumptions C26_cancelled_iteration_is_last.

Theorem C26_never_crashes : forall c now0 sch, ic_period c = None -> iter_ok c -> ic_limit c <= int32_max ->
  exists s, closed_run c now0 sch s.
Proof. exact closed_defined. Qed.
Print Assumptions C26_never_crashes.

Theorem C26_progress : forall c now0 sch s, iter_ok c -> closed_run c now0 sch s ->
  Z.of_nat (length (ends (it_log s))) <= ic_limit c /\
  (~ In ICall (it_log s) ->
   exists k x, In (k, x) (it_live s) /\
     match x with
     | None => exists s', it_step c (AEnd k) s = ItNext s' /\ ends (it_log s') = k :: ends (it_log s)
     | Some _ => forall now, it_step c (AFinish k now) s <> ItDisabled
     end).
Proof. exact closed_progress. Qed.
Print Assumptions C26_progress.

(** Without a count the int counters overflow once 2^31-1 iterations ran. *)
Theorem C26_unlimited_refuted : exists sch s0,
  initiate (mkIter (iteration_limit true None) 1 None None 0 false) 0 0 = ItNext s0 /\
  it_run (mkIter (iteration_limit true None) 1 None None 0 false) sch s0 = ItUB.
Proof. exact unlimited_overflow. Qed.
Print Assumptions C26_unlimited_refuted.

(** A count of zero is accepted and the action never completes; a negative
    one throws while the iterations are allocated. *)
Theorem C26_zero_count_refuted : forall par sch s0 s, 0 <= par ->
  let c := mkIter (iteration_limit true (Some 0)) par None None 0 false in
  initiate c 0 0 = ItNext s0 -> it_run c sch s0 = ItNext s -> it_log s = [] \/ it_log s = [ICancel].
Proof. exact zero_hangs. Qed.
Print Assumptions C26_zero_count_refuted.

Theorem C26_negative_count_refuted : exists par count, initiate (mkIter (iteration_limit true (Some count)) par None None 0 false) 0 0 = ItThrow.
Proof. exists 1, (-1). reflexivity. Qed.
Print Assumptions C26_negative_count_refuted.

Definition three_by_two : iter_cfg := mkIter 3 2 None None 1 false.
Definition three_run : list it_action := [AEnd 1; AEnd 0; AFinish 0 5; AFinish 1 6; AEnd 2; AFinish 2 7; AHandled].
Example C26_example :
  iter_ok three_by_two /\
  exists s, closed_run three_by_two 1 three_run s /\ it_live s = [] /\
    it_log s = [ICall; IEnd 2; IStart 2 false 5; IEnd 0; IEnd 1; IStart 1 false 1; IStart 0 true 1].
Proof.
  split; [unfold iter_ok, copies, int32_max; cbn; lia|]. eexists. split; [split; [reflexivity|]; eexists; split; [reflexivity|vm_compute; reflexivity]|].
  split; reflexivity.
Qed.
Definition timed : iter_cfg := mkIter 100 2 (Some 10) None 0 false.
Definition timed_run : list it_action := [AEnd 0; AFinish 0 4; AEnd 1; ACancel; AFinish 1 9; AEnd 2; AFinish 2 10; AEnd 3; AFinish 3 11].
Example C26_limits_example :
  iter_ok timed /\
  exists s, closed_run timed 1 timed_run s /\ rev (starts (it_log s)) = [0; 1; 2; 3] /\
    calls (it_log s) = 1%nat /\ starts_since_cancel (it_log s) = 1%nat.
Proof.
  split; [unfold iter_ok, copies, int32_max; cbn; lia|]. eexists. split; [split; [reflexivity|]; eexists; split; [reflexivity|vm_compute; reflexivity]|].
  repeat split; reflexivity.
Qed.

(** * C27 open loop *)
Theorem C27_numbers : forall c per first sch s, open_run c per first sch s ->
  exists n, 0 <= n <= Z.max 0 (ic_limit c) /\ rev (starts (it_log s)) = upto n /\
            NoDup (ends (it_log s)) /\ (forall k, In k (ends (it_log s)) -> 0 <= k < n).
Proof. exact open_numbers. Qed.
Print Assumptions C27_numbers.

Theorem C27_never_early : forall c per first sch s, constant_gap per sch -> open_run c per first sch s ->
  forall k w now, In (IStart k w now) (it_log s) ->
  first + k * per < now /\ (0 < k -> forall t, ic_time_limit c = Some t -> first + k * per <= t).
Proof. exact open_not_early. Qed.
Print Assumptions C27_never_early.

Theorem C27_not_held_back : forall c per first sch s now, constant_gap per sch -> open_run c per first sch s ->
  ic_limit c <= int32_max ->
  let k := Z.of_nat (length (starts (it_log s))) in
  ~ In ICall (it_log s) -> k < ic_limit c -> first + k * per < now ->
  (0 < k -> forall t, ic_time_limit c = Some t -> first + k * per <= t) ->
  exists s', it_step c (ATick now per) s = ItNext s' /\
             it_log s' = IStart k (ic_list_warmup c || (k <? ic_warmup c)) now :: it_log s.
Proof. exact open_not_held_back. Qed.
Print Assumptions C27_not_held_back.

Theorem C27_completion_once : forall c per first sch s, open_run c per first sch s -> ~ In ICancel (it_log s) ->
  (calls (it_log s) <= 1)%nat /\
  (forall l1 l2, it_log s = l1 ++ ICall :: l2 ->
     starts l1 = [] /\ ends l1 = [] /\ forall k, In k (starts l2) -> In k (ends l2)) /\
  (starts (it_log s) <> [] -> it_live s = [] ->
   Z.of_nat (length (starts (it_log s))) = ic_limit c -> In ICall (it_log s)) /\
  (forall t, constant_gap per sch -> starts (it_log s) <> [] -> it_live s = [] -> ic_time_limit c = Some t ->
   t < first + Z.of_nat (length (starts (it_log s))) * per ->
   In ICall (it_log s)).
Proof. exact open_callback. Qed.
Print Assumptions C27_completion_once.

Theorem C27_never_crashes : forall c per first sch, ic_period c = Some per -> ic_limit c <= int32_max ->
  exists s, open_run c per first sch s.
Proof. exact open_defined. Qed.
Print Assumptions C27_never_crashes.

(** With a cancellation neither half of "completes exactly once" holds. *)
Theorem C27_cancelled_twice_refuted : exists c per first sch s, open_run c per first sch s /\
  constant_gap per sch /\ calls (it_log s) = 2%nat.
Proof. exact open_twice. Qed.
Print Assumptions C27_cancelled_twice_refuted.

Theorem C27_cancelled_never_refuted : exists c per first sch s, open_run c per first sch s /\ constant_gap per sch /\
  In ICancel (it_log s) /\ starts (it_log s) <> [] /\
  forall sch' s', (forall now gap, ~ In (ATick now gap) sch') -> it_run c sch' s = ItNext s' -> ~ In ICall (it_log s').
Proof. exact open_cancel_hangs. Qed.
Print Assumptions C27_cancelled_never_refuted.

Definition paced : iter_cfg := mkIter 100 1 (Some 25) (Some 10) 2 false.
Definition paced_run : list it_action := [ATick 1 10; ATick 11 10; ATick 15 10; AEnd 0; AFinish 0 16; ATick 22 10; AEnd 2; AFinish 2 23; AEnd 1; AFinish 1 30].
Example C27_example :
  constant_gap 10 paced_run /\
  exists s, open_run paced 10 0 paced_run s /\ it_live s = [] /\
    it_log s = [ICall; IEnd 1; IEnd 2; IStart 2 false 22; IEnd 0; IStart 1 true 11; IStart 0 true 1].
Proof.
  split.
  - intros now gap H. cbn in H. decompose [or] H; try discriminate; try contradiction; congruence.
  - eexists. split; [split; [reflexivity|]; eexists; split; [reflexivity|vm_compute; reflexivity]|]. split; reflexivity.
Qed.

(** * C28 warmup marking of iterations *)
Theorem C28_iterations_marked : forall c s k w now,
  ((exists now0 sch, iter_ok c /\ closed_run c now0 sch s) \/ (exists per first sch, open_run c per first sch s)) ->
  In (IStart k w now) (it_log s) -> (w = true <-> ic_list_warmup c = true \/ k < ic_warmup c).
Proof.
  intros c s k w now R H. assert (I : inv c s).
  { destruct R as [[n [sch [W R]]]|[p [f [sch R]]]].
    - eapply k_inv, closed_cinv; eassumption.
    - eapply open_inv; eassumption. }
  rewrite (v_warm _ _ I _ _ _ H). unfold is_warmup. rewrite orb_true_iff, Z.ltb_lt. reflexivity.
Qed.
Print Assumptions C28_iterations_marked.

(** * C61 activities *)
Theorem C61_activity_count : forall c now obs fuel, (forall n, obs n = false) -> ic_time_limit c = None ->
  1 <= copies c -> ic_limit c <= Z.of_nat fuel ->
  let s1 := activity_runs c now obs (Z.to_nat (copies c)) (mkAct (copies c) 0 0 false) in
  let s' := activity_loop c now obs fuel s1 in
  ac_done s' = true /\ Z.of_nat (ac_runs s') = ic_limit c.
Proof. exact activity_exact. Qed.
Print Assumptions C61_activity_count.
Example C61_example :
  let c := mkIter 7 3 None None 0 false in
  let s1 := activity_runs c (fun _ => 0) (fun _ => false) 3 (mkAct 3 0 0 false) in
  ac_done s1 = false /\ ac_runs (activity_loop c (fun _ => 0) (fun _ => false) 9 s1) = 7%nat.
Proof. split; reflexivity. Qed.
