(** C95: threads of test sequencers, node managers and engines do not deadlock
    over their mutexes and joins, unless the overload callback runs. *)
From Coq Require Import List Bool Arith Lia Relations.
From Verif Require Import Lock_Model Lock_Proofs.
Import ListNotations.
Open Scope nat_scope.

(** However the threads have been scheduled: from every thread that is not done,
    following who waits for whom, there is one that can go on. *)
Theorem C95_no_deadlock : forall prefer s0 schedule s i h, begins entry none s0 -> run prefer schedule s0 = Some s ->
  nth_error s i = Some h -> t_todo h <> [] ->
  exists j, clos_refl_trans nat (waits_for prefer s) i j /\ try prefer s j <> None.
Proof.
  intros prefer s0 schedule s i h B R H N. apply (someone_goes false prefer s i h); [|exact H|exact N]. apply (run_ok _ _ _ _ _ R).
  apply (begins_ok false none s0); [intros c C; left; exact C|exact B|discriminate].
Qed.
(** With the overload callback as well, as long as nobody is to change a node
    manager's engines. *)
Theorem C95_overload_while_reading : forall prefer s0 schedule s i h, begins entry (opt callback) s0 ->
  (forall i h n, nth_error s0 i = Some h -> ~ In (Acq Excl (NodeMu n)) (t_todo h)) ->
  run prefer schedule s0 = Some s -> nth_error s i = Some h -> t_todo h <> [] ->
  exists j, clos_refl_trans nat (waits_for prefer s) i j /\ try prefer s j <> None.
Proof.
  intros prefer s0 schedule s i h B W R H N. apply (someone_goes true prefer s i h); [|exact H|exact N]. apply (run_ok _ _ _ _ _ R).
  apply (begins_ok true (opt callback) s0); [intros c C; right; auto|exact B|intros _; exact W].
Qed.
(** So every schedule ends, and only when all threads are done. *)
Theorem C95_completes : forall prefer s0, begins entry none s0 ->
  (exists bound, forall schedule s, run prefer schedule s0 = Some s -> length schedule <= bound) /\
  forall schedule s, run prefer schedule s0 = Some s -> (forall i, try prefer s i = None) -> forall i h, nth_error s i = Some h -> t_todo h = [].
Proof.
  intros prefer s0 B. split.
  - exists (lefts s0). intros schedule s R. apply run_lefts in R. lia.
  - intros schedule s R T i h H. destruct (t_todo h) as [|o r] eqn:E; [reflexivity|].
    destruct (C95_no_deadlock prefer s0 schedule s i h B R H ltac:(rewrite E; discriminate)) as (j & _ & J). destruct (J (T j)).
Qed.
(** A mutex held exclusively has no other holder (callbacks or not). *)
Theorem C95_exclusion : forall prefer serve before s0 schedule s i j hi hj l m, begins serve before s0 -> run prefer schedule s0 = Some s ->
  nth_error s i = Some hi -> nth_error s j = Some hj -> i <> j -> In (l, Excl) (t_held hi) -> ~ In (l, m) (t_held hj).
Proof. intros prefer serve before s0 schedule s i j hi hj l m B R. exact (run_excl prefer schedule s0 s R (begins_excl serve before s0 B) i j hi hj l m). Qed.
(** Conditions are awaited on a mutex that is held, and with no other mutex held;
    but for thread pools that are destroyed with an engine, when the mutex of the
    node manager is. *)
Theorem C95_conditions : forall x s l outer, many entry x \/ (exists e, then_ (work e) thread_end x) \/ callback x -> In s x -> In (l, outer) (awaited [] s) ->
  outer = [l] \/ exists n p, l = PoolMu p /\ outer = [PoolMu p; NodeMu n].
Proof.
  intros x s l outer H I A. assert (F : Forall fair (awaiteds [] x)) by (destruct H as [H|[[e H]|H]]; [exact (fairly_entry x H)|exact (fairly_work e x H)|exact (fairly_callback x H)]).
  rewrite Forall_forall in F. apply (F (l, outer)). unfold awaiteds. apply in_flat_map. exists s. auto.
Qed.

(** ** The overload callback *)
Definition stuck (prefer : bool) (s : state) : Prop := (forall i, try prefer s i = None) /\ exists i h, nth_error s i = Some h /\ t_todo h <> [].
(** ConfigureNode of one node manager that starts one driver: the thread that the
    driver starts is one too many and so calls the callback. *)
Definition abort : step := Take Excl Abort [Touch true AbortLimits].
Definition configuring (b : list step) : list step := [Take Excl (NodeMu 0) ([Touch true (TrafficConfig 0); abort; Touch true (Engines 0); Touch false (TrafficConfig 0)] ++ abort :: b)].
Definition alias : step := Take Excl (ConfigMu 0) [Touch false (NodeConf 0)].
Definition calling_back : list step := [Touch false AbortCallback; alias; Take Shared (NodeMu 0) [Touch false (Engines 0); alias]].
Ltac first_ a := exists a; eexists; split; [reflexivity|]; split.
Ltac box := eexists; split; [reflexivity|].
Lemma many_one (P : prog) x : P x -> many P x.
Proof. intros H. rewrite <- (app_nil_r x). apply many_cons; [exact H|apply many_nil]. Qed.
Lemma alias_ok : node_alias 0 [alias].
Proof. box. reflexivity. Qed.
Lemma calling_back_ok : callback calling_back.
Proof.
  first_ [Touch false AbortCallback]; [reflexivity|]. apply many_one. exists 0. first_ [alias]; [exact alias_ok|]. box. first_ [Touch false (Engines 0)]; [reflexivity|].
  first_ (@nil step); [apply many_nil|exact alias_ok].
Qed.
Lemma configuring_ok b : alloc_engine 0 (abort :: b) -> configure_node 0 (configuring b).
Proof.
  intros H. box. first_ [Touch true (TrafficConfig 0)]; [reflexivity|]. first_ [abort].
  - right. box. first_ [Touch true AbortLimits]; [right; reflexivity|left; reflexivity].
  - first_ [Touch true (Engines 0)]; [right; reflexivity|]. first_ (@nil step); [apply many_nil|]. apply many_one. first_ [Touch false (TrafficConfig 0)]; [reflexivity|].
    exists (abort :: b), []. split; [rewrite app_nil_r; reflexivity|]. split; [exists 0; exact H|]. first_ (@nil step); left; reflexivity.
Qed.
Definition started : state := [serving (configuring [Take Shared (Started 1) []]); made 1 calling_back [abort]].
Definition joined : state := [serving (configuring [Take Shared (Thread 1) []]); made 1 calling_back [abort]].
Lemma abort_first b : alloc_engine 0 b -> alloc_engine 0 (abort :: b).
Proof. intros H. change (abort :: b) with ([abort] ++ b). apply many_cons; [|exact H]. left. box. first_ [Touch true AbortLimits]; [reflexivity|left; reflexivity]. Qed.
Lemma start_ok : alloc_engine 0 [Take Shared (Started 1) []].
Proof. apply many_one. right. left. exists 1. box. reflexivity. Qed.
Lemma join_ok : alloc_engine 0 [Take Shared (Thread 1) []].
Proof. apply many_one. do 5 right. apply many_one. left. exists 1. box. reflexivity. Qed.
Lemma configure_is_entry x : configure_node 0 x -> many entry x.
Proof. intros H. apply many_one. left. exists 0. exact H. Qed.
Lemma two_begin (before : prog) x c w : many entry x -> before c -> then_ (work 0) thread_end w -> begins entry before [serving x; made 1 c w].
Proof.
  intros X C W. split.
  - intros [|[|i]] h H; cbn [nth_error] in H; [injection H as <-; left; exists x; auto|injection H as <-; right; exists 1, 0, c, w; auto|destruct i; discriminate H].
  - intros [|[|i]] [|[|j]] t c1 w1 c2 w2 H K; try reflexivity; cbn [nth_error] in H, K; try (destruct i; discriminate H); try (destruct j; discriminate K); discriminate.
Qed.
Lemma work_end : then_ (work 0) thread_end [abort].
Proof. first_ (@nil step); [apply many_nil|]. box. reflexivity. Qed.
Lemma started_begins : begins entry (opt callback) started.
Proof. apply two_begin; [|right; exact calling_back_ok|exact work_end]. apply configure_is_entry, configuring_ok, abort_first, start_ok. Qed.
Lemma joined_begins : begins entry (opt callback) joined.
Proof. apply two_begin; [|right; exact calling_back_ok|exact work_end]. apply configure_is_entry, configuring_ok, abort_first, join_ok. Qed.
Lemma stuck_two prefer a b : try prefer [a; b] 0 = None -> try prefer [a; b] 1 = None -> forall i, try prefer [a; b] i = None.
Proof. intros A B [|[|i]]; [exact A|exact B|]. unfold try. cbn [nth_error]. destruct i; reflexivity. Qed.
(** A driver that waits for its thread to begin (the polling server of gRPC): the
    thread is in the callback, which waits for ConfigureNode; and nothing has
    failed. *)
Theorem C95_overload_start_refuted : forall prefer, exists s0 schedule s, begins entry (opt callback) s0 /\ (exists x h, s0 = [serving x; h] /\ configure_node 0 x) /\
  run prefer schedule s0 = Some s /\ stuck prefer s /\ waits_for prefer s 0 1 /\ waits_for prefer s 1 0.
Proof.
  intros prefer. exists started, [0; 0; 0; 0; 0; 0; 0; 0; 0; 0; 0; 1; 1; 1; 1; 1].
  assert (R : exists s, run prefer [0; 0; 0; 0; 0; 0; 0; 0; 0; 0; 0; 1; 1; 1; 1; 1] started = Some s) by (destruct prefer; vm_compute; eexists; reflexivity).
  destruct R as [s R]. exists s. split; [exact started_begins|]. split.
  { eexists. eexists. split; [reflexivity|]. apply configuring_ok, abort_first, start_ok. }
  split; [exact R|]. destruct prefer; vm_compute in R; injection R as <-.
  all: split; [split; [apply stuck_two; reflexivity|exists 0; eexists; split; [reflexivity|discriminate]]|].
  all: split; do 5 eexists; (split; [reflexivity|]); (split; [reflexivity|]); split; reflexivity.
Qed.
(** A driver that fails after it started a thread: it is destroyed at once, and
    so joins the thread. *)
Theorem C95_overload_join_refuted : forall prefer, exists s0 schedule s, begins entry (opt callback) s0 /\ (exists x h, s0 = [serving x; h] /\ configure_node 0 x) /\
  run prefer schedule s0 = Some s /\ stuck prefer s /\ waits_for prefer s 0 1 /\ waits_for prefer s 1 0.
Proof.
  intros prefer. exists joined, [0; 0; 0; 0; 0; 0; 0; 0; 0; 0; 0; 1; 1; 1; 1; 1].
  assert (R : exists s, run prefer [0; 0; 0; 0; 0; 0; 0; 0; 0; 0; 0; 1; 1; 1; 1; 1] joined = Some s) by (destruct prefer; vm_compute; eexists; reflexivity).
  destruct R as [s R]. exists s. split; [exact joined_begins|]. split.
  { eexists. eexists. split; [reflexivity|]. apply configuring_ok, abort_first, join_ok. }
  split; [exact R|]. destruct prefer; vm_compute in R; injection R as <-.
  all: split; [split; [apply stuck_two; reflexivity|exists 0; eexists; split; [reflexivity|discriminate]]|].
  all: split; do 5 eexists; (split; [reflexivity|]); (split; [reflexivity|]); split; reflexivity.
Qed.

(** ** Cancelling *)
(** The test sequencer in RunTraffic, a node that registers, a second test
    sequence that is to cancel the first.  If a mutex admits no reader while a
    writer waits, then nobody gets on but RunTraffic, and so it is not cancelled;
    if it does, the second sequence goes on at once. *)
Definition sequence : list step :=
  [Take Shared (SeqMu 0) [Touch false (Registry 0)]; Take Shared (SeqMu 0) [Touch false (Registry 0); Take Excl (CancelMu 0) [Touch true (Active 0)]]; Take Excl (SeqMu 0) [Touch true (Running 0)]].
Definition registration : list step := [Take Excl (SeqMu 0) [Touch false (Registry 0); Touch true (Registry 0)]].
Definition registering : state := [serving sequence; serving registration; serving sequence].
Lemma sequence_ok : run_sequence 0 sequence.
Proof.
  first_ [Take Shared (SeqMu 0) [Touch false (Registry 0)]]; [box; first_ [Touch false (Registry 0)]; [reflexivity|apply many_nil]|]. first_ (@nil step); [apply many_nil|].
  first_ [Take Shared (SeqMu 0) [Touch false (Registry 0); Take Excl (CancelMu 0) [Touch true (Active 0)]]]; [|box; reflexivity].
  apply many_one. right. left. box. first_ [Touch false (Registry 0)]; [reflexivity|]. apply many_one. box. right. reflexivity.
Qed.
Lemma serving_begin before xs : Forall (many entry) xs -> begins entry before (map serving xs).
Proof.
  intros F. split.
  - intros i h H. left. apply nth_error_In in H. apply in_map_iff in H. destruct H as (x & <- & I). exists x. rewrite Forall_forall in F. auto.
  - intros i j t c w c' w' H. apply nth_error_In in H. apply in_map_iff in H. destruct H as (x & E & _). discriminate E.
Qed.
Lemma sequence_is_entry : many entry sequence.
Proof. apply many_one. do 9 right. left. exists 0. exact sequence_ok. Qed.
Lemma registering_begins : begins entry none registering.
Proof.
  apply (serving_begin none [sequence; registration; sequence]). repeat apply Forall_cons; try apply Forall_nil; try exact sequence_is_entry. apply many_one. do 8 right. left. exists 0. box. first_ [Touch false (Registry 0)]; [reflexivity|right; reflexivity].
Qed.
Theorem C95_cancel_waits_refuted : exists s0 schedule s, begins entry none s0 /\ (exists x a y, s0 = [serving x; a; serving y] /\ run_sequence 0 x /\ run_sequence 0 y) /\ run true schedule s0 = Some s /\
  try true s 0 <> None /\ (forall i, i <> 0 -> try true s i = None) /\
  (exists h, nth_error s 2 = Some h /\ t_todo h = flat_map ops sequence) /\ try false s 2 <> None.
Proof.
  exists registering, [0; 0; 0; 0; 1; 2]. eexists. split; [exact registering_begins|]. split; [exists sequence; eexists; exists sequence; split; [reflexivity|split; exact sequence_ok]|].
  split; [vm_compute; reflexivity|]. split; [discriminate|]. split.
  - intros [|[|[|i]]] N; [congruence|reflexivity|reflexivity|]. unfold try. cbn [nth_error]. destruct i; reflexivity.
  - split; [eexists; split; reflexivity|discriminate].
Qed.
(** The same at a node manager, where the thread that RunTraffic joins calls the
    overload callback and GetTrafficResult waits: a deadlock if readers do not
    pass waiting writers, and none if they do. *)
Definition traffic : list step := [Take Shared (NodeMu 0) [Touch true (RusageStart 0); Touch false (Engines 0); Touch true (MainThread 0); abort; Take Shared (Thread 1) []; Touch true (MainThread 0)]].
Definition results : list step := [Take Excl (NodeMu 0) [Touch false (Engines 0); Touch false (Reason 0); Take Excl (Dict 0) [Touch false (Contents 0)]; Touch false (ActivityLogs 0); Take Excl (ReplayLogs 0) []; alias; Touch false (RusageStart 0)]].
Definition collecting : state := [serving traffic; made 1 calling_back [abort]; serving results].
Lemma run_traffic_is_entry : many entry traffic.
Proof.
  apply many_one. do 2 right. left. exists 0. box. first_ [Touch true (RusageStart 0)]; [reflexivity|]. first_ [Touch false (Engines 0)]; [reflexivity|].
  first_ [Touch true (MainThread 0); abort].
  - apply many_one. exists 0. first_ [Touch true (MainThread 0)]; [reflexivity|]. right. box. first_ [Touch true AbortLimits]; [reflexivity|left; reflexivity].
  - apply many_one. first_ [Take Shared (Thread 1) []]; [exists 1; box; reflexivity|exists 0; reflexivity].
Qed.
Lemma get_result_is_entry : many entry results.
Proof.
  apply many_one. do 3 right. left. exists 0. box. first_ [Touch false (Engines 0)]; [reflexivity|].
  first_ [Touch false (Reason 0); Take Excl (Dict 0) [Touch false (Contents 0)]; Touch false (ActivityLogs 0); Take Excl (ReplayLogs 0) []].
  - apply many_one. exists 0. first_ [Touch false (Reason 0)]; [reflexivity|]. first_ (@nil step); [apply many_nil|]. first_ [Take Excl (Dict 0) [Touch false (Contents 0)]]; [box; first_ [Touch false (Contents 0)]; [reflexivity|left; reflexivity]|].
    first_ [Touch false (ActivityLogs 0)]; [reflexivity|]. box. left. reflexivity.
  - first_ (@nil step); [left; reflexivity|]. first_ [alias]; [exact alias_ok|reflexivity].
Qed.
Lemma collecting_begins : begins entry (opt callback) collecting.
Proof.
  split.
  - intros [|[|[|i]]] h H; cbn [collecting nth_error] in H; [injection H as <-; left; eexists; split; [exact run_traffic_is_entry|reflexivity]| |injection H as <-; left; eexists; split; [exact get_result_is_entry|reflexivity]|destruct i; discriminate H].
    injection H as <-. right. exists 1, 0, calling_back, [abort]. split; [reflexivity|]. split; [right; exact calling_back_ok|exact work_end].
  - intros [|[|[|i]]] [|[|[|j]]] t c1 w1 c2 w2 H K; try reflexivity; cbn [collecting nth_error] in H, K; try (destruct i; discriminate H); try (destruct j; discriminate K); discriminate.
Qed.
Theorem C95_overload_writer_refuted : exists s0 schedule s, begins entry (opt callback) s0 /\ run true schedule s0 = Some s /\ stuck true s /\
  waits_for true s 0 1 /\ waits_for true s 1 2 /\ waits_for true s 2 0 /\ try false s 1 <> None.
Proof.
  exists collecting, [0; 0; 0; 0; 0; 0; 0; 0; 1; 1; 1; 1; 2; 1]. eexists. split; [exact collecting_begins|]. split; [vm_compute; reflexivity|]. split.
  - split; [|exists 0; eexists; split; [reflexivity|discriminate]]. intros [|[|[|i]]]; try reflexivity. unfold try. cbn [nth_error]. destruct i; reflexivity.
  - split; [|split; [|split; [|discriminate]]]; do 5 eexists; (split; [reflexivity|]); (split; [reflexivity|]); split; reflexivity.
Qed.

(** ** Examples *)
(** ConfigureNode waits for the driver's thread, which can go on. *)
Example C95_no_deadlock_ex : exists s0 s, begins entry none s0 /\ run true [0; 0; 0; 0; 0; 0; 0; 0; 0; 0; 0] s0 = Some s /\ try true s 0 = None /\ waits_for true s 0 1 /\ try true s 1 <> None.
Proof.
  exists [serving (configuring [Take Shared (Started 1) []]); made 1 [] [abort]]. eexists. split.
  - apply two_begin; [|reflexivity|exact work_end]. apply configure_is_entry, configuring_ok, abort_first, start_ok.
  - split; [vm_compute; reflexivity|]. split; [reflexivity|]. split; [|discriminate]. do 5 eexists. split; [reflexivity|]. split; [reflexivity|]. split; reflexivity.
Qed.
(** RunTraffic joins a thread that is in the callback. *)
Example C95_overload_while_reading_ex : exists s0 s, begins entry (opt callback) s0 /\ (forall i h n, nth_error s0 i = Some h -> ~ In (Acq Excl (NodeMu n)) (t_todo h)) /\
  run true [0; 0; 0; 0; 0; 0; 0; 0; 1; 1; 1; 1; 1] s0 = Some s /\ try true s 0 = None /\ waits_for true s 0 1 /\ try true s 1 <> None.
Proof.
  exists [serving traffic; made 1 calling_back [abort]]. eexists. split.
  - apply two_begin; [exact run_traffic_is_entry|right; exact calling_back_ok|exact work_end].
  - split; [intros [|[|i]] h n H; cbn [nth_error] in H; [injection H as <-|injection H as <-|destruct i; discriminate H]; cbn; intros K; repeat (destruct K as [K|K]; [discriminate K|]); exact K|].
    split; [vm_compute; reflexivity|]. split; [reflexivity|]. split; [|discriminate]. do 5 eexists. split; [reflexivity|]. split; [reflexivity|]. split; reflexivity.
Qed.
(** A whole schedule. *)
Example C95_completes_ex : exists s, run true ([0; 0; 0; 0; 1; 2] ++ [0; 0; 0; 0; 0] ++ [1; 1; 1; 1] ++ [2; 2; 2] ++ [2; 2; 2; 2; 2; 2] ++ [0; 0; 0] ++ [2; 2; 2]) registering = Some s /\ forall i h, nth_error s i = Some h -> t_todo h = [].
Proof.
  eexists. split; [vm_compute; reflexivity|]. intros [|[|[|i]]] h H; cbn [nth_error] in H; try (injection H as <-; reflexivity). destruct i; discriminate H.
Qed.
(** Two readers, and a writer that has to wait for them. *)
Example C95_exclusion_ex : exists s a b, run false [0; 0; 0; 0; 1; 2] registering = Some s /\ nth_error s 0 = Some a /\ nth_error s 2 = Some b /\ t_held a = [(SeqMu 0, Shared)] /\ t_held b = [(SeqMu 0, Shared)] /\ try false s 1 = None.
Proof. do 3 eexists. split; [vm_compute; reflexivity|]. repeat split. Qed.
Example C95_exclusion_excl : exists s a, run true [0] started = Some s /\ nth_error s 0 = Some a /\ t_held a = [(NodeMu 0, Excl)].
Proof. do 2 eexists. split; [vm_compute; reflexivity|]. split; reflexivity. Qed.
(** A pool destroyed under the mutex of the node manager; actions awaited. *)
Example C95_conditions_ex : exists x s, many entry x /\ In s x /\ awaited [] s = [(PoolMu 3, [PoolMu 3; NodeMu 0])].
Proof.
  exists [Take Excl (NodeMu 0) [Touch true (TrafficConfig 0); Touch true (Engines 0); Take Excl (PoolMu 3) [Touch true (Tasks 3); Await (PoolMu 3)]]]. eexists. split; [|split; [left; reflexivity|reflexivity]].
  apply many_one. left. exists 0. box. first_ [Touch true (TrafficConfig 0)]; [reflexivity|]. first_ (@nil step); [left; reflexivity|]. first_ [Touch true (Engines 0)]; [right; reflexivity|].
  first_ [Take Excl (PoolMu 3) [Touch true (Tasks 3); Await (PoolMu 3)]]; [|apply many_nil]. apply many_one. right. right. exists 3. box. first_ [Touch true (Tasks 3)]; reflexivity.
Qed.
Definition waiting : list step := [Take Excl (ActionMu 5) [Touch false (Finished 5); Await (ActionMu 5); Touch true (Finished 5)]; abort].
Lemma waiting_ok : then_ (work 0) thread_end waiting.
Proof.
  first_ [Take Excl (ActionMu 5) [Touch false (Finished 5); Await (ActionMu 5); Touch true (Finished 5)]]; [|box; reflexivity]. apply many_one. do 8 right. left. exists 5. box.
  first_ [Touch false (Finished 5)]; [reflexivity|]. first_ [Await (ActionMu 5)]; [reflexivity|]. first_ [Touch true (Finished 5)]; [reflexivity|apply many_nil].
Qed.
Example C95_conditions_work : exists x s, then_ (work 0) thread_end x /\ In s x /\ awaited [] s = [(ActionMu 5, [ActionMu 5])].
Proof. exists waiting. eexists. split; [exact waiting_ok|]. split; [left; reflexivity|reflexivity]. Qed.
(** While a thread awaits, another takes the mutex. *)
Example C95_conditions_given_up : exists s a b, run true [0; 0; 0; 0; 1; 1] [made 1 [] waiting; made 2 [] waiting] = Some s /\
  nth_error s 0 = Some a /\ hd_error (t_todo a) = Some (Acq Excl (ActionMu 5)) /\ try true s 0 <> None /\ nth_error s 1 = Some b /\ In (ActionMu 5, Excl) (t_held b).
Proof. do 3 eexists. split; [vm_compute; reflexivity|]. split; [reflexivity|]. split; [reflexivity|]. split; [discriminate|]. split; [reflexivity|left; reflexivity]. Qed.

Print Assumptions C95_no_deadlock.
Print Assumptions C95_overload_while_reading.
Print Assumptions C95_completes.
Print Assumptions C95_exclusion.
Print Assumptions C95_conditions.
Print Assumptions C95_overload_start_refuted.
Print Assumptions C95_overload_join_refuted.
Print Assumptions C95_cancel_waits_refuted.
Print Assumptions C95_overload_writer_refuted.
