(** Properties C24, C25: running an action list.
    [event_ok] (AList_Proofs) is the specification of what may follow what. *)
From Coq Require Import Ascii String List ZArith Bool Lia Arith.
From Verif Require Import Base_Model Base_Proofs AList_Model AList_Proofs AList_Proofs2.
Import ListNotations.
Open Scope Z_scope.

(** * C24 *)
Theorem C24_start_rule : forall acts preds s, list_ok acts -> reachable acts preds s ->
  forall l1 i skip now l2, al_log s = l1 ++ LStart i skip now :: l2 ->
  exists a, nth_error acts i = Some a /\
    (forall sk t, ~ In (LStart i sk t) l2) /\
    (forall j, In j (aa_deps a) -> In (LDone j) l2) /\
    (skip = true <-> (exists p, In p (aa_preds a) /\ ~ In p preds) \/
                     (exists j t, In j (aa_deps a) /\ In (LStart j true t) l2)) /\
    (aa_delay a = true -> exists t d, In (LDelay i t d) l2 /\ t + d <= now).
Proof.
  intros acts preds s OK R l1 i skip now l2 E. pose proof (reachable_history _ _ OK _ R) as H. rewrite E in H.
  destruct (history_split _ _ _ _ _ H) as [_ [A [a [B [C [D F]]]]]]. exists a. auto.
Qed.
Print Assumptions C24_start_rule.

(** A delay runs from a moment at which the dependencies had finished, and is
    taken once. *)
Theorem C24_delay_rule : forall acts preds s, list_ok acts -> reachable acts preds s ->
  forall l1 i now d l2, al_log s = l1 ++ LDelay i now d :: l2 ->
  (forall sk t, ~ In (LStart i sk t) l2) /\ (forall t x, ~ In (LDelay i t x) l2) /\
  exists a, nth_error acts i = Some a /\ aa_delay a = true /\ forall j, In j (aa_deps a) -> In (LDone j) l2.
Proof.
  intros acts preds s OK R l1 i now d l2 E. pose proof (reachable_history _ _ OK _ R) as H.
  pose proof (proj1 (reach_delay acts preds s R)) as O. rewrite E in H, O.
  destruct (history_split _ _ _ _ _ H) as [_ [A B]]. split; [assumption|]. split; [|assumption].
  clear -O. induction l1 as [|e l1 IH]; cbn [app delays_once] in O; [exact (proj1 O)|apply IH; exact (proj2 O)].
Qed.
Print Assumptions C24_delay_rule.

(** Started, called back, finished, done: in this order, each at most once. *)
Theorem C24_life_cycle : forall acts preds s, list_ok acts -> reachable acts preds s ->
  forall l1 e l2, al_log s = l1 ++ e :: l2 ->
  match e with
  | LCall i => ~ In (LCall i) l2 /\ exists sk t, In (LStart i sk t) l2
  | LFinish i => ~ In (LFinish i) l2 /\ In (LCall i) l2
  | LDone i => ~ In (LDone i) l2 /\ In (LFinish i) l2
  | _ => True
  end.
Proof.
  intros acts preds s OK R l1 e l2 E. pose proof (reachable_history _ _ OK _ R) as H. rewrite E in H.
  pose proof (history_split _ _ _ _ _ H) as A. destruct e; cbn [event_ok] in A; tauto.
Qed.
Print Assumptions C24_life_cycle.

Theorem C24_complete : forall acts preds s, list_ok acts -> reachable acts preds s ->
  forall l1 l2, al_log s = l1 ++ LFree :: l2 ->
  (forall i skip t, In (LStart i skip t) l2 -> In (LDone i) l2) /\
  (~ In LCancel l2 -> forall i, (i < length acts)%nat -> In (LDone i) l2).
Proof. intros acts preds s OK R l1 l2 E. apply (returned acts preds OK s l1 l2 R E). Qed.
Print Assumptions C24_complete.

(** No path through a well formed list aborts, calls a completed action's
    callback again or touches the list after it returned. *)
Theorem C24_never_crashes : forall acts preds, list_ok acts ->
  forall l, exists s, al_run acts preds l al_init = AlNext s.
Proof. exact never_crashes. Qed.
Print Assumptions C24_never_crashes.

(** After a scan every action whose dependencies are done has been started, or
    waits for a delay that began in this scan or is not over. *)
Theorem C24_ready_actions_start : forall acts preds s now, list_ok acts -> reachable acts preds s ->
  al_pc_ s = PScan (length acts) now ->
  forall i a, nth_error acts i = Some a -> (forall d, In d (aa_deps a) -> In (LDone d) (al_log s)) ->
  (exists skip t, In (LStart i skip t) (al_log s)) \/
  (exists t d, In (LDelay i t d) (al_log s) /\ (t = now \/ now < t + d)).
Proof. intros acts preds s now OK R P i a A D. exact (ready_started acts preds OK s now R P i a A D). Qed.
Print Assumptions C24_ready_actions_start.

(** If the list's thread is blocked, a started action has not yet finished. *)
Theorem C24_blocked_only_by_running_action : forall acts preds s now d, list_ok acts -> reachable acts preds s ->
  main_step acts preds now d s = AlDisabled -> al_pc_ s <> PDone ->
  exists i, (i < length acts)%nat /\ (exists skip t, In (LStart i skip t) (al_log s)) /\ ~ In (LFinish i) (al_log s).
Proof. intros acts preds s now d OK R. exact (blocked acts preds OK s now d R). Qed.
Print Assumptions C24_blocked_only_by_running_action.

Theorem C24_acyclic_progress : forall acts preds s now, list_ok acts ->
  (exists rank : nat -> nat, forall i a d, nth_error acts i = Some a -> In d (aa_deps a) -> (rank d < rank i)%nat) ->
  reachable acts preds s -> al_pc_ s = PScan (length acts) now ->
  (exists i, (i < length acts)%nat /\ ~ In (LDone i) (al_log s)) ->
  exists i, (i < length acts)%nat /\ ~ In (LDone i) (al_log s) /\
    ((exists skip t, In (LStart i skip t) (al_log s)) \/
     (exists t d, In (LDelay i t d) (al_log s) /\ (t = now \/ now < t + d))).
Proof. intros acts preds s now OK AC R. exact (in_progress acts preds OK AC s now R). Qed.
Print Assumptions C24_acyclic_progress.

(** Each predicate is drawn either as itself or negated, never both. *)
Theorem C24_predicates : forall draws p, NoDup (map fst draws) ->
  (forall n, In n (map fst draws) -> starts_with n (s_ "!"%string) = false) ->
  In p (map fst draws) ->
  (In p (draw_predicates draws) <-> In (p, true) draws) /\
  (In (s_ "!"%string ++ p)%list (draw_predicates draws) <-> In (p, false) draws) /\
  (In (p, true) draws <-> ~ In (p, false) draws).
Proof. exact predicates_drawn. Qed.
Print Assumptions C24_predicates.

Theorem C24_cancel_when_done : forall acts preds s, reachable acts preds s ->
  forall i a, nth_error acts i = Some a -> aa_cancel a = true -> In (LCall i) (al_log s) -> In LCancel (al_log s).
Proof. exact cancel_when_done. Qed.
Print Assumptions C24_cancel_when_done.

(** Findings.  An action that InitiateAction gives up on hangs the list, even
    when traffic is cancelled. *)
Theorem C24_given_up_action_refuted : exists acts, list_ok acts /\
  forall l s, al_run acts [] l al_init = AlNext s -> ~ In LFree (al_log s).
Proof.
  exists silent_list. split; [|exact silent_hangs]. intros i a A. destruct i as [|[|i]]; try discriminate.
  injection A as <-. split; [intros d []|reflexivity].
Qed.
Print Assumptions C24_given_up_action_refuted.

(** A dependency cycle passes all checks and makes the thread spin. *)
Theorem C24_dependency_cycle_refuted : exists acts, list_ok acts /\
  forall l s, ~ In ECancel l -> al_run acts [] l al_init = AlNext s ->
  ~ In LFree (al_log s) /\ (forall now d, main_step acts [] now d s <> AlDisabled).
Proof.
  exists cycle_list. split; [|exact cycle_spins]. intros i a A.
  destruct i as [|[|[|i]]]; try discriminate; injection A as <-; (split; [|reflexivity]); intros d [<-|[]]; cbn; lia.
Qed.
Print Assumptions C24_dependency_cycle_refuted.

(** * C25 *)
Theorem C25_one_response : forall acts preds s, list_ok acts -> reachable acts preds s ->
  (send_count (al_log s) <= 1)%nat /\
  forall l1 l2, al_log s = l1 ++ LFree :: l2 ->
    send_count l2 = 1%nat /\ ~ In LFree l2 /\ Forall (fun e => e = LCancel) l1.
Proof.
  intros acts preds s OK R. split; [exact (at_most_one_response acts preds OK s R)|]. intros l1 l2 E.
  destruct (returned acts preds OK s l1 l2 R E) as [A [B [C _]]]. auto.
Qed.
Print Assumptions C25_one_response.

Theorem C25_sender : forall acts preds s, list_ok acts -> reachable acts preds s ->
  forall l1 by_ ov l2, al_log s = l1 ++ LSend by_ ov :: l2 ->
  match by_ with
  | Some i => (exists r, l2 = LCall i :: r) /\
              exists a, nth_error acts i = Some a /\ (length acts = 1%nat \/ aa_send a = true)
  | None => forall i skip t a, In (LStart i skip t) l2 -> nth_error acts i = Some a ->
              length acts <> 1%nat /\ aa_send a = false
  end.
Proof.
  intros acts preds s OK R l1 by_ ov l2 E. pose proof (reachable_history _ _ OK _ R) as H. rewrite E in H.
  pose proof (history_split _ _ _ _ _ H) as A. destruct by_; cbn [event_ok] in A; [|tauto].
  destruct A as [_ [_ [B [C _]]]]. auto.
Qed.
Print Assumptions C25_sender.

(** The payload override used: the sender's own, else the one of the action
    that finished last with an override. *)
Theorem C32_list_override : forall acts preds s, list_ok acts -> reachable acts preds s ->
  forall l1 by_ ov l2, al_log s = l1 ++ LSend by_ ov :: l2 ->
  ov = match by_ with
       | Some i => if own_override acts l2 i =? -1 then last_override acts l2 else own_override acts l2 i
       | None => last_override acts l2
       end.
Proof.
  intros acts preds s OK R l1 by_ ov l2 E. pose proof (reachable_history _ _ OK _ R) as H. rewrite E in H.
  pose proof (history_split _ _ _ _ _ H) as A. destruct by_; cbn [event_ok] in A; tauto.
Qed.
Print Assumptions C32_list_override.

(** * Examples *)
(** Action 1 waits for action 0, is delayed by 5, and sends the response;
    action 2 needs the predicate "p", which was drawn false, and action 3
    depends on action 2. *)
Definition ex_list : list al_action :=
  [mkAA [] false false false [] 7 false false false false;
   mkAA [0%nat] true true false [] (-1) false false false false;
   mkAA [] false false false [s_ "p"%string] 3 false false false false;
   mkAA [2%nat] false false false [] 4 false false false false].
Definition ex_sched : list al_action_ :=
  repeat (MStep 0 5) 7 ++ [ECall 0; EFinish 0] ++ repeat (MStep 1 5) 9 ++ repeat (MStep 3 5) 10 ++
  repeat (MStep 9 5) 9 ++ [ECall 1; EFinish 1] ++ repeat (MStep 9 5) 20.
Definition ex_preds : list str := draw_predicates [(s_ "p"%string, false)].
Definition ex_state : al_state :=
  match al_run ex_list ex_preds ex_sched al_init with AlNext s => s | _ => al_init end.
Example C24_example_ok : list_ok ex_list /\ reachable ex_list ex_preds ex_state.
Proof.
  split.
  - intros i a A. do 4 (destruct i as [|i]; [injection A as <-; split; [|reflexivity]; cbn [aa_deps In ex_list length]; intros d D; lia|]).
    destruct i; discriminate.
  - exists ex_sched. vm_compute. reflexivity.
Qed.
Example C24_example_log : rev (al_log ex_state) =
  [LStart 0 false 0; LStart 2 true 0; LCall 2; LFinish 2; LDone 2; LCall 0; LFinish 0; LStart 3 true 1;
   LCall 3; LFinish 3; LDone 0; LDone 3; LDelay 1 3 5; LStart 1 false 9; LCall 1; LSend (Some 1%nat) 7;
   LFinish 1; LDone 1; LFree]%list.
Proof. vm_compute. reflexivity. Qed.
Example C24_example_acyclic : exists rank : nat -> nat, forall i a d,
  nth_error ex_list i = Some a -> In d (aa_deps a) -> (rank d < rank i)%nat.
Proof.
  exists (fun i => i). intros i a d A.
  do 4 (destruct i as [|i]; [injection A as <-; cbn [aa_deps In]; lia|]). destruct i; discriminate.
Qed.
Example C24_example_predicates : ex_preds = [s_ "!p"%string].
Proof. reflexivity. Qed.

(** Finding: an action whose predicate is false still sends the response and
    cancels the traffic if it is marked so. *)
Theorem C24_skipped_action_acts_refuted : exists acts preds s i a p, list_ok acts /\ reachable acts preds s /\ nth_error acts i = Some a /\ In p (aa_preds a) /\ ~ In p preds /\ In (LStart i true 0) (al_log s) /\ In (LSend (Some i) (-1)) (al_log s) /\ In LCancel (al_log s).
Proof.
  exists [mkAA [] false true true [s_ "p"%string] 3 false false false false], [s_ "!p"%string].
  set (acts := [mkAA [] false true true [s_ "p"%string] 3 false false false false]).
  assert (E : exists s, al_run acts [s_ "!p"%string] [MStep 0 0; MStep 0 0] al_init = AlNext s /\ al_log s = [LFinish 0; LCancel; LSend (Some 0%nat) (-1); LCall 0; LStart 0 true 0]).
  { eexists. split; [reflexivity|]. vm_compute. reflexivity. }
  destruct E as [s [E L]]. exists s, 0%nat, (mkAA [] false true true [s_ "p"%string] 3 false false false false), (s_ "p"%string).
  split; [intros [|[|i]] a A; try discriminate; injection A as <-; split; [intros d []|reflexivity]|].
  split; [eexists; exact E|]. split; [reflexivity|]. split; [left; reflexivity|].
  split; [intros [Q|[]]; discriminate|]. rewrite L. cbn [In]. repeat split; auto 10.
Qed.
Print Assumptions C24_skipped_action_acts_refuted.
