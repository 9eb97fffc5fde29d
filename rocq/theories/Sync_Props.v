(** Properties C23, C35, C36, C37, C59. *)
From Coq Require Import Ascii String List ZArith Bool Lia.
From Verif Require Import Base_Model Iter_Model Sync_Model Sync_Proofs Sync_Proofs2.
Import ListNotations.
Open Scope Z_scope.

(** ** C36 SafeNotification *)
(** The one-shot notification is never triggered twice. *)
Theorem C36_never_notified_twice : forall schedule, sn_run schedule sn0 <> SnCrash.
Proof. intros l E. pose proof (sn_run_ok l sn0 NI0) as Q. now rewrite E in Q. Qed.
Print Assumptions C36_never_notified_twice.

(** At most one attempt reports success; once any attempt has returned the
    notification is set and some attempt has won (it may still be returning). *)
Theorem C36_one_winner : forall s, sn_reach s ->
  (forall t u, sn_th s t = SnRet true -> sn_th s u = SnRet true -> t = u) /\
  (forall t b, sn_th s t = SnRet b -> sn_flag s = true /\
     exists w, sn_th s w = SnRet true \/ sn_th s w = SnUnlock true).
Proof.
  intros s R. pose proof (sn_reach_NI s R) as H. split.
  - intros t u A B. apply (N_one _ H); [rewrite A|rewrite B]; exact Logic.I.
  - intros t b A. assert (F : sn_flag s = true) by (apply (N_past _ H t); rewrite A; exact Logic.I). split; [assumption|].
    destruct (N_win _ H F) as [w W]. exists w. destruct (sn_th s w) as [| | | | |[|]|[|]]; cbn in W; try contradiction; auto.
Qed.
Print Assumptions C36_one_winner.

(** When every attempt that began has returned, exactly one has succeeded. *)
Theorem C36_exactly_one : forall s, sn_reach s ->
  (forall t, sn_th s t = SnIdle \/ exists b, sn_th s t = SnRet b) -> (exists t b, sn_th s t = SnRet b) ->
  exists w, sn_th s w = SnRet true /\ forall t, sn_th s t = SnRet true -> t = w.
Proof.
  intros s R A [t [b B]]. destruct (C36_one_winner s R) as [U V]. destruct (V t b B) as [_ [w [W|W]]].
  - exists w. split; [assumption|]. intros u X. apply U; assumption.
  - destruct (A w) as [Q|[c Q]]; congruence.
Qed.
Print Assumptions C36_exactly_one.

Theorem C36_stays_notified : forall s schedule s', sn_flag s = true -> sn_run schedule s = SnNext s' -> sn_flag s' = true.
Proof. intros s l s' F E. exact (sn_flag_mono l s s' E F). Qed.
Print Assumptions C36_stays_notified.

(** From every reachable state every attempt can be completed: no deadlock. *)
Theorem C36_can_finish : forall s t, sn_reach s -> exists schedule s' b, sn_run schedule s = SnNext s' /\ sn_th s' t = SnRet b.
Proof. intros s t R. destruct (sn_finishes s t (sn_reach_NI s R)) as [l [s' [E [b Q]]]]. exists l, s', b. auto. Qed.
Print Assumptions C36_can_finish.

(** Three attempts, all past the unlocked check before any takes the mutex. *)
Example C36_example : exists s, sn_run [1;2;3;1;2;3;2;2;2;2;1;1;1;3;3;3]%nat sn0 = SnNext s /\
  sn_th s 1%nat = SnRet false /\ sn_th s 2%nat = SnRet true /\ sn_th s 3%nat = SnRet false.
Proof. eexists. split; [vm_compute; reflexivity|]. repeat split; vm_compute; reflexivity. Qed.

(** ** C35 CancelTraffic *)
Theorem C35_never_crashes : forall schedule, cx_run schedule cx0 <> CxCrash.
Proof. intros l E. pose proof (cx_run_ok l cx0 CI0) as Q. now rewrite E in Q. Qed.
Print Assumptions C35_never_crashes.

(** The reason and the deadline are stored once, by the same call, with the
    reason that call was given. *)
Theorem C35_one_cancellation : forall s l1 l2, cx_reach s -> 
  (forall t r, cx_log s = l1 ++ CvReason t r :: l2 ->
     (exists g, In (CvCall t r g) l2) /\ forall u x, ~ In (CvReason u x) l2) /\
  (forall t d, cx_log s = l1 ++ CvDeadline t d :: l2 ->
     (exists r, In (CvReason t r) l2) /\ forall u x, ~ In (CvDeadline u x) l2).
Proof.
  intros s l1 l2 R. pose proof (C_hist _ (cx_reach_CI s R)) as H. split.
  - intros t r E. rewrite E in H. destruct (cx_history_split _ _ _ H) as [A [B _]]. auto.
  - intros t d E. rewrite E in H. destruct (cx_history_split _ _ _ H) as [A [B _]]. auto.
Qed.
Print Assumptions C35_one_cancellation.

(** A call returns only when a reason and a deadline are in force. *)
Theorem C35_returns_cancelled : forall s l1 t l2, cx_reach s -> cx_log s = l1 ++ CvReturn t :: l2 ->
  exists w r d, In (CvReason w r) l2 /\ In (CvDeadline w d) l2.
Proof.
  intros s l1 t l2 R E. pose proof (C_hist _ (cx_reach_CI s R)) as H. rewrite E in H.
  destruct (cx_history_split _ _ _ H) as [_ [w [r [d [A B]]]]]. exists w, r, d. auto.
Qed.
Print Assumptions C35_returns_cancelled.

(** A refused request is told the stored reason, after the stored deadline. *)
Theorem C35_refusals : forall s l1 t r now l2, cx_reach s -> cx_log s = l1 ++ CvRefuse t r now :: l2 ->
  exists w d, In (CvReason w r) l2 /\ In (CvDeadline w d) l2 /\ d < now.
Proof.
  intros s l1 t r now l2 R E. pose proof (C_hist _ (cx_reach_CI s R)) as H. rewrite E in H.
  destruct (cx_history_split _ _ _ H) as [_ [w [d [[A B] C]]]]. exists w, d. auto.
Qed.
Print Assumptions C35_refusals.

(** A request let through after a cancellation returned is within the grace
    period of the stored deadline. *)
Theorem C35_grace_period : forall s l1 t now l2 c, cx_reach s -> cx_log s = l1 ++ CvPass t now :: l2 -> In (CvReturn c) l2 ->
  exists n w d, now = Some n /\ In (CvDeadline w d) l2 /\ n <= d.
Proof.
  intros s l1 t now l2 c R E I. pose proof (C_hist _ (cx_reach_CI s R)) as H. rewrite E in H.
  pose proof (cx_history_split _ _ _ H) as Q. destruct now as [n|]; cbn in Q.
  - destruct Q as [_ [w [r [d [[A B] C]]]]]. exists n, w, d. auto.
  - destruct Q as [_ Q]. destruct (Q c I).
Qed.
Print Assumptions C35_grace_period.

(** The log carries the stored reason. *)
Theorem C35_logged_reason : forall s l1 x l2, cx_reach s -> cx_log s = l1 ++ CvLogs x :: l2 ->
  match x with
  | Some r => exists w, In (CvReason w r) l2
  | None => forall w r, In (CvReason w r) l2 -> r = []
  end.
Proof.
  intros s l1 x l2 R E. pose proof (C_hist _ (cx_reach_CI s R)) as H. rewrite E in H.
  exact (cx_history_split _ _ _ H).
Qed.
Print Assumptions C35_logged_reason.

Theorem C35_no_deadlock : forall s t now, cx_reach s -> cx_th s t <> CxIdle -> cx_th s t <> CxDone -> cx_th s t <> HxDone ->
  exists u s', cx_step (CaStep u now) s = CxNext s'.
Proof. intros s t now R A B C. exact (cx_no_deadlock s t (cx_reach_CI s R) A B C now). Qed.
Print Assumptions C35_no_deadlock.

(** Two cancellations race; a request before, one in the grace period, one after. *)
Definition c35_run : list cx_action :=
  [CaRequest 5; CaStep 5 0;
   CaCancel 1 (s_ "first"%string) 100; CaCancel 2 (s_ "second"%string) 7;
   CaStep 2 1; CaStep 1 1; CaStep 2 1; CaStep 2 1; CaStep 2 1; CaRequest 6; CaStep 2 1; CaStep 2 1; CaStep 6 2; CaStep 2 3;
   CaStep 6 3; CaStep 2 4; CaStep 2 10; CaStep 2 11; CaStep 6 12; CaStep 6 12; CaStep 6 13;
   CaStep 1 20; CaStep 1 20; CaStep 1 20; CaStep 1 20; CaRequest 7; CaStep 7 30; CaStep 7 30; CaStep 7 30; CaLogs]%nat.
Example C35_example : exists s, cx_run c35_run cx0 = CxNext s /\
  cx_log s = [CvLogs (Some (s_ "second"%string)); CvRefuse 7%nat (s_ "second"%string) 30; CvEnter 7%nat; CvReturn 1%nat; CvPass 6%nat (Some 12);
              CvReturn 2%nat; CvDeadline 2%nat 17; CvReason 2%nat (s_ "second"%string); CvEnter 6%nat;
              CvCall 2%nat (s_ "second"%string) 7; CvCall 1%nat (s_ "first"%string) 100; CvPass 5%nat None; CvEnter 5%nat].
Proof. eexists. split; vm_compute; reflexivity. Qed.

(** ** C37 dictionary *)
(** Fewer than 2^31 - 1 lookups: the bound under which indices fit an int. *)
Theorem C37_bijection : forall l is_ d, dict_run l dict0 = (is_, d) -> Z.of_nat (length l) < 2147483647 ->
  length is_ = length l /\
  forall a b ta tb ia ib, nth_error l a = Some ta -> nth_error l b = Some tb -> nth_error is_ a = Some ia -> nth_error is_ b = Some ib ->
  (ta = tb <-> ia = ib).
Proof.
  intros l is_ d E B. destruct (dict_run_spec l dict0 DI0) as [is' [d' [more [E' [H [_ [LN [R _]]]]]]]]; [change (length (dc_contents dict0)) with 1%nat; lia|].
  rewrite E in E'. injection E' as <- <-. split; [assumption|]. intros a b ta tb ia ib A1 A2 A3 A4.
  destruct (R a ta A1) as [x [X1 [X2 X3]]]. destruct (R b tb A2) as [y [Y1 [Y2 Y3]]].
  assert (x = ia) by congruence. assert (y = ib) by congruence. subst x y. split.
  - intros ->. pose proof (D_nodup _ H) as ND. rewrite NoDup_nth_error in ND.
    assert (Z.to_nat ia = Z.to_nat ib); [|lia]. apply ND; [|congruence]. apply nth_error_Some. congruence.
  - intros ->. congruence.
Qed.
Print Assumptions C37_bijection.

(** The table maps each index back, now and after any further lookups. *)
Theorem C37_stable : forall l more is_ d is2 d2, dict_run l dict0 = (is_, d) -> dict_run more d = (is2, d2) ->
  Z.of_nat (length l) + Z.of_nat (length more) < 2147483647 ->
  forall a t i, nth_error l a = Some t -> nth_error is_ a = Some i ->
    dict_value i d = Some t /\ dict_value i d2 = Some t /\ nth_error (dict_contents d2) (Z.to_nat i) = Some t.
Proof.
  intros l more is_ d is2 d2 E E2 B a t i A1 A2.
  destruct (dict_run_spec l dict0 DI0) as [is' [d' [m [E' [H [C1 [LN [R _]]]]]]]]; [change (length (dc_contents dict0)) with 1%nat; lia|].
  rewrite E in E'. injection E' as <- <-. destruct (R a t A1) as [x [X1 [X2 X3]]]. assert (x = i) by congruence. subst x.
  assert (LB : Z.of_nat (length (dc_contents d)) + Z.of_nat (length more) < 2147483648).
  { assert (G : forall l d is_ d', dict_run l d = (is_, d') -> (length (dc_contents d') <= length (dc_contents d) + length l)%nat).
    { clear. induction l as [|t r IH]; intros d is_ d' E; cbn [dict_run] in E; [injection E as _ <-; cbn; lia|].
      destruct (dict_index t d) as [i d1] eqn:Q. destruct (dict_run r d1) as [is1 d3] eqn:Q2. injection E as _ <-.
      specialize (IH _ _ _ Q2). unfold dict_index in Q. destruct (map_find t (dc_map d)); injection Q as _ <-; cbn [length dc_contents] in *;
        rewrite ?app_length in IH; cbn [length] in IH; lia. }
    specialize (G _ _ _ _ E). change (length (dc_contents dict0)) with 1%nat in G. lia. }
  destruct (dict_run_spec more d H LB) as [is'' [d'' [m2 [E'' [H2 [C2 _]]]]]].
  rewrite E2 in E''. injection E'' as <- <-.
  assert (X4 : nth_error (dc_contents d2) (Z.to_nat i) = Some t).
  { rewrite C2, nth_error_app1; [assumption|]. apply nth_error_Some. congruence. }
  unfold dict_value, dict_contents. rewrite (proj2 (Z.ltb_ge i 0)) by lia. auto.
Qed.
Print Assumptions C37_stable.

(** The table holds the empty string first, and otherwise exactly the strings
    looked up, each once. *)
Theorem C37_dense : forall l is_ d, dict_run l dict0 = (is_, d) -> Z.of_nat (length l) < 2147483647 ->
  NoDup (dict_contents d) /\ nth_error (dict_contents d) 0 = Some [] /\ forall t, In t (dict_contents d) <-> t = [] \/ In t l.
Proof.
  intros l is_ d E B. destruct (dict_run_spec l dict0 DI0) as [is' [d' [more [E' [H [C [LN [R S0]]]]]]]]; [change (length (dc_contents dict0)) with 1%nat; lia|].
  rewrite E in E'. injection E' as <- <-. unfold dict_contents. split; [apply H|]. split; [rewrite C; reflexivity|].
  intros t. rewrite S0. cbn. split; [intros [[X|[]]|X]; auto|intros [X|X]; auto].
Qed.
Print Assumptions C37_dense.

Example C37_example : dict_run [s_ "b"%string; s_ "a"%string; s_ "b"%string; []; s_ "a"%string] dict0
  = ([1; 2; 1; 0; 2], mkDict [[]; s_ "b"%string; s_ "a"%string] [([], 0); (s_ "b"%string, 1); (s_ "a"%string, 2)]).
Proof. vm_compute. reflexivity. Qed.

(** ** C23 overload monitor *)
(** Starting a thread fires exactly when a threshold other than zero is armed,
    more threads than it exist counting the new one, and a callback is set. *)
Theorem C23_fires_iff : forall s l1 t l2, ov_reach s -> ov_log s = l1 ++ VStart t :: l2 ->
  ((exists l0, l1 = l0 ++ [VTrigger t]) <->
   exists n c, armed_by l2 n /\ n <> 0 /\ n < live (VStart t :: l2) /\ registered_by l2 c).
Proof.
  intros s l1 t l2 R E. pose proof (O_starts _ (ov_reach_OI s R)) as H. rewrite E in H.
  rewrite <- (starts_split _ _ _ H). apply fires_spec.
Qed.
Print Assumptions C23_fires_iff.

(** Between two firings the threshold was set again, to a value other than
    zero. *)
Theorem C23_once_per_arming : forall s l1 t l2 u l3, ov_reach s -> ov_log s = l1 ++ VTrigger t :: l2 ++ VTrigger u :: l3 ->
  exists n, In (VArm n) l2 /\ n <> 0.
Proof.
  intros s l1 t l2 u l3 R E. pose proof (O_starts _ (ov_reach_OI s R)) as H. rewrite E in H.
  destruct (trigger_after_start _ _ _ H) as [r Q].
  assert (S0 : ov_log s = (l1 ++ [VTrigger t]) ++ VStart t :: r) by (rewrite E, Q, <- app_assoc; reflexivity).
  destruct (proj1 (C23_fires_iff s _ t r R S0)) as [n [c [[a [b [A1 [A2 A3]]]] [N _]]]]; [exists l1; reflexivity|].
  exists n. split; [|assumption]. destruct l2 as [|e l2]; [cbn in Q; discriminate|]. cbn [app] in Q. injection Q as -> Q.
  rewrite <- Q in A1. right. clear -A1 A3. revert a A1 A3.
  induction l2 as [|e l2 IH]; intros a A1 A3; cbn [app] in A1.
  - destruct a as [|x a]; [discriminate|]. injection A1 as <- _. destruct (A3 u). left. reflexivity.
  - destruct a as [|x a]; injection A1 as -> A1; [left; reflexivity|]. right. apply (IH a A1). intros v V. apply (A3 v). right. assumption.
Qed.
Print Assumptions C23_once_per_arming.

(** After the threshold is set to zero nothing fires until a callback is
    registered again. *)
Theorem C23_zero_disarms : forall s l1 t l2 l3, ov_reach s -> ov_log s = l1 ++ VTrigger t :: l2 ++ VArm 0 :: l3 ->
  exists c, In (VCallback (Some c)) l2.
Proof.
  intros s l1 t l2 l3 R E. pose proof (O_starts _ (ov_reach_OI s R)) as H. rewrite E in H.
  destruct (trigger_after_start _ _ _ H) as [r Q].
  assert (S0 : ov_log s = (l1 ++ [VTrigger t]) ++ VStart t :: r) by (rewrite E, Q, <- app_assoc; reflexivity).
  destruct (proj1 (C23_fires_iff s _ t r R S0)) as [n [c [_ [_ [_ [a [b [A1 [A2 A3]]]]]]]]]; [exists l1; reflexivity|].
  exists c. destruct l2 as [|e l2]; [cbn in Q; discriminate|]. cbn [app] in Q. injection Q as -> Q.
  rewrite <- Q in A1. right. clear -A1 A3. revert a A1 A3.
  induction l2 as [|e l2 IH]; intros a A1 A3; cbn [app] in A1.
  - destruct a as [|x a]; [discriminate|]. injection A1 as <- _. destruct A3. left. reflexivity.
  - destruct a as [|x a]; injection A1 as -> A1; [left; reflexivity|]. right. apply (IH a A1). intros V. apply A3. right. assumption.
Qed.
Print Assumptions C23_zero_disarms.

(** The callback is called only by a thread whose start fired, before that
    thread's work ends, and once. *)
Theorem C23_calls : forall s l1 t c l2, ov_reach s -> ov_log s = l1 ++ VCall t c :: l2 ->
  In (VTrigger t) l2 /\ (forall d, ~ In (VCall t d) l2) /\ ~ In (VExit t) l2.
Proof.
  intros s l1 t c l2 R E. pose proof (O_hist _ (ov_reach_OI s R)) as H. rewrite E in H. exact (ov_history_split _ _ _ H).
Qed.
Print Assumptions C23_calls.

(** The thread counter is the number of registered threads alive. *)
Theorem C23_counter : forall s, ov_reach s -> ov_cur s = live (ov_log s).
Proof. intros s R. exact (O_cur _ (ov_reach_OI s R)). Qed.
Print Assumptions C23_counter.

(** The callback is read outside the mutex: disarming between the check and
    the call makes the new thread call an empty function. *)
Theorem C23_disarm_race_refuted : exists schedule, ov_run schedule ov0 = OvCrash.
Proof.
  exists [OaCallback (Some 9%nat); OaArm 1; OaRun 1%nat; OaRun 2%nat; OaThread 2%nat; OaThread 2%nat; OaArm 0; OaThread 2%nat].
  vm_compute. reflexivity.
Qed.
Print Assumptions C23_disarm_race_refuted.

Example C23_example : exists s,
  ov_run [OaCallback (Some 9%nat); OaArm 1; OaRun 1%nat; OaRun 2%nat; OaThread 2%nat; OaThread 2%nat; OaRun 3%nat; OaThread 2%nat;
          OaThread 1%nat; OaThread 1%nat; OaArm 2; OaRun 4%nat] ov0 = OvNext s /\
  ov_log s = [VTrigger 4%nat; VStart 4%nat; VArm 2; VExit 1%nat; VCall 2%nat 9%nat; VStart 3%nat; VTrigger 2%nat; VStart 2%nat;
              VStart 1%nat; VArm 1; VCallback (Some 9%nat)].
Proof. eexists. split; vm_compute; reflexivity. Qed.

(** ** C59 iteration state cache *)
(** Every object handed out has the fields of a new one, and is handed out
    again only after it was freed. *)
Theorem C59_fresh_and_exclusive : forall cap acts l1 o f l2, ic_log (ic_run cap acts ic0) = l1 ++ IvAlloc o f :: l2 ->
  f = mkIt None 0 false [] 0 /\
  forall l3 g l4, l2 = l3 ++ IvAlloc o g :: l4 -> In (IvFree o) l3.
Proof.
  intros cap acts l1 o f l2 E. pose proof (I_log _ _ (ic_run_II cap acts ic0 (II0 cap))) as H. rewrite E in H.
  apply allocs_split in H. cbn [allocs_ok] in H. destruct H as [A [B _]]. split; [exact A|]. intros l3 g l4 ->.
  exact (held_until_freed _ _ _ _ B).
Qed.
Print Assumptions C59_fresh_and_exclusive.

(** The cache is bounded; cached objects are distinct and not in use. *)
Theorem C59_cache : forall cap acts, let s := ic_run cap acts ic0 in
  (length (ic_cache s) <= cap)%nat /\ NoDup (ic_cache s) /\ NoDup (ic_used s) /\
  forall o, In o (ic_cache s) -> ~ In o (ic_used s) /\ ic_heap s o = mkIt None 0 false [] 0.
Proof.
  intros cap acts s. pose proof (ic_run_II cap acts ic0 (II0 cap)) as H. fold s in H.
  pose proof (proj1 (nodup3 _ _ _) (I_nodup _ _ H)) as [A [B [_ [C _]]]]. repeat split; auto; try apply (I_bound _ _ H).
  apply (I_cached _ _ H). assumption.
Qed.
Print Assumptions C59_cache.

(** Capacity one: the second freed object is destroyed. *)
Example C59_example :
  let s := ic_run 1 [IaAlloc; IaAlloc; IaWrite 0 (mkIt (Some 3%nat) 7 true [1; 2] 2); IaWrite 1 (mkIt (Some 3%nat) 8 true [5] 1);
                     IaFree 0; IaCache 0; IaFree 1; IaCache 1; IaAlloc; IaAlloc] ic0 in
  ic_log s = [IvAlloc 2 it_fresh; IvAlloc 0 it_fresh; IvFree 1; IvFree 0; IvAlloc 1 it_fresh; IvAlloc 0 it_fresh] /\
  ic_cache s = [] /\ ic_used s = [2; 0]%nat.
Proof. vm_compute. auto. Qed.
