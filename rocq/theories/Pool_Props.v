(** C22: the thread pools. *)
From Coq Require Import Ascii String List ZArith Bool Lia.
From Verif Require Import Base_Model Base_Proofs Sync_Model Pool_Model Pool_Proofs.
Import ListNotations.
Open Scope nat_scope.

(** Any sequence of AddTask calls, thread steps, timeouts and destructor steps. *)
Definition pool_after (k : pool_kind) (l : list p_action) : pool := p_run (pool_step k) l (pool_init k).

(** A task starts only after it was added, and never again. *)
Theorem C22_starts_once : forall k l i l1 l2, kind_ok k -> po_log (pool_after k l) = l1 ++ PStart i :: l2 ->
  In (PAdd i) l2 /\ ~ In (PStart i) l2 /\ ~ In (PStart i) l1.
Proof.
  intros k l i l1 l2 K E. pose proof (T_hist _ _ _ _ _ _ (V_tasks _ _ (KI_PV _ _ (KI_run k l K)))) as H.
  fold (pool_after k l) in H. rewrite E in H. pose proof (p_history_split _ _ _ _ H) as [A [B _]]. split; [assumption|]. split; [assumption|].
  intros X. apply in_split in X. destruct X as [a [b ->]]. rewrite <- app_assoc in H. cbn [app] in H.
  apply p_history_split in H. destruct H as [_ [H _]]. apply H, in_app_iff. right. left. reflexivity.
Qed.
Print Assumptions C22_starts_once.
(** A task ends only after it started, and never again. *)
Theorem C22_ends_once : forall k l i l1 l2, kind_ok k -> po_log (pool_after k l) = l1 ++ PEnd i :: l2 ->
  In (PStart i) l2 /\ ~ In (PEnd i) l2 /\ ~ In (PEnd i) l1.
Proof.
  intros k l i l1 l2 K E. pose proof (T_hist _ _ _ _ _ _ (V_tasks _ _ (KI_PV _ _ (KI_run k l K)))) as H.
  fold (pool_after k l) in H. rewrite E in H. pose proof (p_history_split _ _ _ _ H) as [A B]. split; [assumption|]. split; [assumption|].
  intros X. apply in_split in X. destruct X as [a [b ->]]. rewrite <- app_assoc in H. cbn [app] in H.
  apply p_history_split in H. destruct H as [_ H]. apply H, in_app_iff. right. left. reflexivity.
Qed.
Print Assumptions C22_ends_once.
(** When the destructor returns, every task that was ever added has run to its
    end; and afterwards the pool does nothing more. *)
Theorem C22_destroyed_ran_all : forall k l, kind_ok k -> po_gone (pool_after k l) = true ->
  (forall i, In (PAdd i) (po_log (pool_after k l)) -> In (PStart i) (po_log (pool_after k l)) /\ In (PEnd i) (po_log (pool_after k l)))
  /\ (forall a, pool_step k a (pool_after k l) = None).
Proof.
  intros k l K G. pose proof (KI_run k l K) as H. fold (pool_after k l) in H. pose proof (KI_PV _ _ H) as V.
  destruct (V_gone _ _ V G) as [_ Z0]. destruct (all_gone _ _ V Z0) as [Q N]. pose proof (V_tasks _ _ V) as T. split.
  - intros i A. apply (T_add _ _ _ _ _ _ T) in A. destruct (T_all _ _ _ _ _ _ T i A) as [X|[[t X]|X]].
    + rewrite Q in X. destruct X.
    + destruct (N t i X).
    + split; [apply (T_end _ _ _ _ _ _ T), X|assumption].
  - intros a. now apply after_destroyed.
Qed.
Print Assumptions C22_destroyed_ran_all.
(** At the very moment the destructor returns, too. *)
Theorem C22_destroyed_last : forall k l l1 l2, kind_ok k -> po_log (pool_after k l) = l1 ++ PDestroyed :: l2 ->
  forall i, In (PAdd i) l2 -> In (PEnd i) l2.
Proof.
  intros k l l1 l2 K E. pose proof (T_hist _ _ _ _ _ _ (V_tasks _ _ (KI_PV _ _ (KI_run k l K)))) as H.
  fold (pool_after k l) in H. rewrite E in H. exact (p_history_split _ _ _ _ H).
Qed.
Print Assumptions C22_destroyed_last.
(** The queueing pools hand tasks to threads in the order they were added. *)
Theorem C22_fifo : forall k l i l1 l2, kind_ok k -> k <> PoolNull -> po_log (pool_after k l) = l1 ++ PTake i :: l2 ->
  ~ In (PTake i) l2 /\ (forall j, j < i -> In (PTake j) l2) /\ (forall j, i < j -> ~ In (PTake j) l2).
Proof.
  intros k l i l1 l2 K NN E. pose proof (T_hist _ _ _ _ _ _ (V_tasks _ _ (KI_PV _ _ (KI_run k l K)))) as H.
  fold (pool_after k l) in H. rewrite E in H. pose proof (p_history_split _ _ _ _ H) as [_ [B [_ D]]].
  assert (F : fifo_kind k = true) by (destruct k; [reflexivity|reflexivity|congruence]).
  split; [assumption|]. split; [apply D, F|]. intros j L X. apply in_split in X. destruct X as [a [b ->]]. 
  change (l1 ++ PTake i :: a ++ PTake j :: b) with (l1 ++ (PTake i :: a) ++ PTake j :: b) in H. rewrite app_assoc in H.
  apply p_history_split in H. destruct H as [_ [_ [_ H]]]. apply B, in_app_iff. right. right. exact (H F i L).
Qed.
Print Assumptions C22_fifo.
(** The elastic queue never holds more tasks than the configured size. *)
Theorem C22_elastic_bounded : forall n l, 0 < n -> length (po_queue (pool_after (PoolElastic n) l)) <= n.
Proof. intros n l K. exact (E_len _ _ (KI_run (PoolElastic n) l K)). Qed.
Print Assumptions C22_elastic_bounded.
(** tasks_processed is the number of tasks that ended, apart from threads that
    are still about to count theirs. *)
Theorem C22_elastic_stats : forall n l, 0 < n -> let s := pool_after (PoolElastic n) l in
  (forall t, po_th s t <> ThLock true) -> po_count s = ends (po_log s).
Proof.
  intros n l K s N. pose proof (E_count _ _ (KI_run (PoolElastic n) l K)) as H. fold (pool_after (PoolElastic n) l) in H. fold s in H.
  assert (Z0 : (cnt lockb (po_th s) (po_nth s) = 0)%Z).
  { pose proof (cnt_nonneg lockb (po_th s) (po_nth s)). destruct (Z.eq_dec (cnt lockb (po_th s) (po_nth s)) 0) as [|X]; [assumption|].
    destruct (cnt_pos lockb (po_th s) (po_nth s)) as [t [_ T]]; [lia|]. specialize (N t).
    destruct (po_th s t) as [| | |[|]| |]; try discriminate. congruence. }
  lia.
Qed.
Print Assumptions C22_elastic_stats.
(** A task that was added and has not ended always leaves a thread able to make
    a step, and so does a destructor that cannot return yet; thread steps
    cannot go on for ever without new tasks. *)
Theorem C22_progress : forall k l, kind_ok k -> let s := pool_after k l in
  (forall i, In (PAdd i) (po_log s) -> ~ In (PEnd i) (po_log s) -> exists t, pool_step k (QThread t) s <> None)
  /\ (po_shutdown s = true -> po_gone s = false -> pool_step k QDestroyed s <> None \/ exists t, pool_step k (QThread t) s <> None)
  /\ (forall n s', thread_steps k n s s' -> n <= work s).
Proof.
  intros k l K s. split; [|split].
  - intros i. apply progress_task. assumption.
  - now apply progress_destructor.
  - intros n s' T. destruct (thread_steps_bound k n s s' K (KI_run k l K) T). lia.
Qed.
Print Assumptions C22_progress.
(** AddTask on the elastic pool waits only while some thread is idle and can
    take a task, so tasks that add tasks cannot block each other for ever. *)
Theorem C22_elastic_add_wakes : forall n l who, 0 < n -> let s := pool_after (PoolElastic n) l in
  may_add who s = true -> elastic_step n (QAdd who) s = None ->
  exists t d, po_th s t = ThWait d /\ elastic_step n (QThread t) s <> None.
Proof.
  intros n l who K s M E. pose proof (KI_run (PoolElastic n) l K) as H. fold (pool_after (PoolElastic n) l) in H. fold s in H.
  pose proof (room_run n l K) as R. fold (pool_after (PoolElastic n) l) in R. change (room n s) in R.
  cbn [elastic_step] in E. rewrite M in E. cbn [negb] in E. destruct (Nat.leb_spec (length (po_queue s) + 1) n) as [L|L].
  - destruct (_ || _), (po_queue s ++ [po_next s]); discriminate.
  - assert (NZ : po_idle s <> 0%Z) by (intros X; specialize (R X); lia). pose proof (E_idle _ _ H) as I0.
    pose proof (cnt_nonneg waitb (po_th s) (po_nth s)). destruct (cnt_pos waitb (po_th s) (po_nth s)) as [t [_ T]]; [lia|].
    destruct (po_th s t) as [| | | |d|] eqn:P; try discriminate. exists t, d. split; [exact P|]. cbn [elastic_step]. rewrite P.
    assert (AV : available s = true) by (unfold available; destruct (po_queue s) eqn:Q; [cbn in L; lia|reflexivity]). rewrite AV. discriminate.
Qed.
Print Assumptions C22_elastic_add_wakes.
(** CreateThreadpool accepts exactly positive sizes of the known kinds. *)
Theorem C22_create : forall type size k, create_threadpool type size = PoolOk k ->
  (1 <= size)%Z /\ kind_ok k
  /\ match k with
     | PoolSimple n => type = s_ "simple" /\ Z.of_nat n = size
     | PoolElastic n => (type = [] \/ type = s_ "elastic") /\ Z.of_nat n = size
     | PoolNull => type = s_ "null"
     end.
Proof.
  intros type size k E. unfold create_threadpool in E. destruct (Z.ltb_spec size 1) as [|L]; [discriminate|]. split; [assumption|].
  destruct (str_eqb_spec type (s_ "simple")) as [->|N1]; [injection E as <-; cbn; repeat split; lia|].
  destruct (str_eqb_spec type []) as [->|N2]; [injection E as <-; cbn; repeat split; auto; lia|].
  destruct (str_eqb_spec type (s_ "elastic")) as [->|N3]; [injection E as <-; cbn; repeat split; auto; lia|].
  destruct (str_eqb_spec type (s_ "null")) as [->|N4]; [injection E as <-; cbn; auto|]. cbn in E. discriminate.
Qed.
Print Assumptions C22_create.

(** Not so: every added task has a thread of its own or an idle thread coming
    for it.  Here three tasks arrive while the only idle thread has not woken
    yet; it takes one and starts a thread for another, and the third stays
    queued although nobody is idle: it waits for a running task to end. *)
Definition three_for_one : list p_action :=
  [QAdd None; QAdd None; QAdd None; QThread 0; QThread 1; QThread 2; QThread 0; QThread 0;
   QAdd None; QAdd None; QAdd None; QThread 0; QThread 0; QThread 3].
Theorem C22_elastic_every_task_has_thread_refuted :
  exists n l, 0 < n /\ let s := pool_after (PoolElastic n) l in
    po_queue s <> [] /\ po_idle s = 0%Z /\ (forall t, liveb (po_th s t) = true -> exists i, po_th s t = ThRun i).
Proof.
  exists 3, three_for_one. split; [lia|]. split; [vm_compute; discriminate|]. split; [vm_compute; reflexivity|].
  intros t. destruct t as [|[|[|[|t]]]]; vm_compute; intros X; try discriminate; eexists; reflexivity.
Qed.
Print Assumptions C22_elastic_every_task_has_thread_refuted.

Definition run_all (k : pool_kind) : list p_action :=
  [QAdd None; QAdd None] ++ flat_map (fun t => [QThread t; QThread t; QThread t]) [0; 1; 0; 1]
  ++ [QShutdown] ++ flat_map (fun t => [QThread t; QThread t]) [0; 1; 0; 1] ++ [QDestroyed].
Example C22_example_simple : po_gone (pool_after (PoolSimple 2) (run_all (PoolSimple 2))) = true
  /\ po_log (pool_after (PoolSimple 2) (run_all (PoolSimple 2)))
     = [PDestroyed; PEnd 1; PStart 1; PTake 1; PEnd 0; PStart 0; PTake 0; PAdd 1; PAdd 0].
Proof. vm_compute. split; reflexivity. Qed.
Example C22_example_elastic : po_gone (pool_after (PoolElastic 2) (run_all (PoolElastic 2))) = true
  /\ po_count (pool_after (PoolElastic 2) (run_all (PoolElastic 2))) = 2%Z
  /\ (forall t, po_th (pool_after (PoolElastic 2) (run_all (PoolElastic 2))) t <> ThLock true).
Proof.
  split; [vm_compute; reflexivity|]. split; [vm_compute; reflexivity|].
  intros t. destruct t as [|[|t]]; vm_compute; discriminate.
Qed.
Example C22_example_null : po_gone (pool_after PoolNull (run_all PoolNull)) = true /\ In (PEnd 1) (po_log (pool_after PoolNull (run_all PoolNull))).
Proof. vm_compute. auto 10. Qed.
Example C22_example_full : let s := pool_after (PoolElastic 1) [QAdd None; QThread 0; QThread 0; QThread 0; QAdd None] in
  may_add None s = true /\ elastic_step 1 (QAdd None) s = None /\ po_th s 0 = ThWait false.
Proof. vm_compute. auto. Qed.
Example C22_example_progress : let s := pool_after (PoolElastic 3) three_for_one in
  In (PAdd 5) (po_log s) /\ ~ In (PEnd 5) (po_log s) /\ work s = 17.
Proof. vm_compute. split; [auto 10|]. split; [|reflexivity]. intros X. repeat destruct X as [X|X]; try discriminate; exact X. Qed.
Example C22_example_create : create_threadpool [] 4 = PoolOk (PoolElastic 4) /\ create_threadpool (s_ "simple") 0 = PoolError (s_ "Threadpool size must be positive").
Proof. split; reflexivity. Qed.
