(** C96: data races among the threads of engines, node managers and the test
    sequencer. *)
From Coq Require Import List Bool Arith Lia.
From Verif Require Import Lock_Model Lock_Proofs Lock_Props Race_Model Race_Proofs.
Import ListNotations.
Open Scope nat_scope.

(** Whoever is about to touch a field with a mutex of its own holds this mutex,
    and exclusively in order to write. *)
Theorem C96_holds_mutex : forall prefer s0 schedule s i h w f r l, begins entry (opt callback) s0 -> run prefer schedule s0 = Some s ->
  nth_error s i = Some h -> t_todo h = Tch w f :: r -> guard f = Some l -> exists m, In (l, m) (t_held h) /\ (w = true -> m = Excl).
Proof.
  intros prefer s0 schedule s i h w f r l B R H E G.
  pose proof (run_sound guarded prefer schedule s0 s R (begins_sound guarded entry (opt callback) s0 keeping_entry keeping_callback keeping_work B) i h H) as K.
  rewrite E in K. destruct K as [K _]. unfold guarded in K. rewrite G in K. destruct K as [K|[-> K]]; eexists; (split; [exact K|congruence]).
Qed.
(** So there is no race on such a field, in any execution, deadlocked or not. *)
Theorem C96_no_race : forall prefer s0 schedule s f, begins entry (opt callback) s0 -> run prefer schedule s0 = Some s -> guard f <> None -> ~ race s f.
Proof.
  intros prefer s0 schedule s f B R G. destruct (guard f) as [l|] eqn:Q; [|destruct (G eq_refl)]. apply (no_race guarded l).
  - exact (run_sound guarded prefer schedule s0 s R (begins_sound guarded entry (opt callback) s0 keeping_entry keeping_callback keeping_work B)).
  - exact (run_excl prefer schedule s0 s R (begins_excl entry (opt callback) s0 B)).
  - intros held w K. unfold guarded in K. rewrite Q in K. exact K.
Qed.
(** While no node manager is being initialised or destroyed, there is none on its
    engines and its registration either. *)
Theorem C96_living : forall prefer s0 schedule s n, begins living (opt callback) s0 -> run prefer schedule s0 = Some s -> ~ race s (Engines n) /\ ~ race s (Registration n).
Proof.
  intros prefer s0 schedule s n B R.
  pose proof (run_sound guarded_living prefer schedule s0 s R (begins_sound guarded_living living (opt callback) s0 keeping_living keeping_living_callback keeping_living_work B)) as K. split.
  - apply (no_race guarded_living (NodeMu n)); [exact K|exact (run_excl prefer schedule s0 s R (begins_excl living (opt callback) s0 B))|]. intros held w T. exact T.
  - intros (i & j & hi & hj & w & w' & ri & rj & _ & Hi & Hj & Ei & Ej & W). pose proof (K _ _ Hi) as P. pose proof (K _ _ Hj) as Q. rewrite Ei in P. rewrite Ej in Q.
    destruct P as [P _]. destruct Q as [Q _]. cbn in P, Q. subst w w'. discriminate W.
Qed.

(** ** The races *)
Definition doing (w : list step) : thread := made 1 [] w.
Lemma doing_begin x w : many entry x -> then_ (work 0) thread_end w -> begins entry none [serving x; doing w].
Proof. intros X W. apply two_begin; [exact X|reflexivity|exact W]. Qed.
Lemma then_end x : work 0 x -> then_ (work 0) thread_end (x ++ [abort]).
Proof. intros H. exists x, [abort]. split; [reflexivity|]. split; [exact H|]. box. reflexivity. Qed.
(** GetTrafficResult reads cancelation_reason_ (distbench_engine.cc:942-944)
    while a thread of the engine cancels. *)
Definition cancels : list step := [Take Excl (Cancelation 0) [Take Excl (Notified (NCanceled 0)) []; Touch true (Reason 0)]].
Theorem C96_reason_refuted : forall prefer, exists s0 schedule s, begins entry none s0 /\ run prefer schedule s0 = Some s /\ race s (Reason 0) /\ (forall i, try prefer s i <> None <-> i < 2).
Proof.
  intros prefer. exists [serving results; doing (cancels ++ [abort])], [0; 0; 1; 1; 1; 1].
  assert (R : exists s, run prefer [0; 0; 1; 1; 1; 1] [serving results; doing (cancels ++ [abort])] = Some s) by (destruct prefer; vm_compute; eexists; reflexivity).
  destruct R as [s R]. exists s. split.
  { apply doing_begin; [exact get_result_is_entry|]. apply then_end. apply many_one. do 2 right. left. box. first_ [Take Excl (Notified (NCanceled 0)) []]; [right; box; reflexivity|right; reflexivity]. }
  split; [exact R|]. destruct prefer; vm_compute in R; injection R as <-.
  all: split; [exists 0, 1; do 6 eexists; (split; [discriminate|]); repeat (split; [reflexivity|]); reflexivity|].
  all: intros [|[|i]]; split; intros H; try lia; try discriminate; exfalso; apply H; unfold try; cbn [nth_error]; destruct i; reflexivity.
Qed.
(** GetTrafficResult reads the activity logs (921-930) while an action list ends
    (1514-1515). *)
Definition finishes : list step := [Take Excl (ActivityLog 0) [Touch true (ActivityLogs 0)]].
Theorem C96_activity_logs_refuted : forall prefer, exists s0 schedule s, begins entry none s0 /\ run prefer schedule s0 = Some s /\ race s (ActivityLogs 0).
Proof.
  intros prefer. exists [serving results; doing (finishes ++ [abort])], [0; 0; 0; 0; 0; 0; 1; 1].
  assert (R : exists s, run prefer [0; 0; 0; 0; 0; 0; 1; 1] [serving results; doing (finishes ++ [abort])] = Some s) by (destruct prefer; vm_compute; eexists; reflexivity).
  destruct R as [s R]. exists s. split.
  { apply doing_begin; [exact get_result_is_entry|]. apply then_end. apply many_one. do 10 right. left. box. reflexivity. }
  split; [exact R|]. destruct prefer; vm_compute in R; injection R as <-.
  all: exists 0, 1; do 6 eexists; (split; [discriminate|]); repeat (split; [reflexivity|]); reflexivity.
Qed.
(** The callbacks of two RPCs of one iteration draw from its generator
    (distbench_engine.cc:1702, 2224) before they take any mutex. *)
Definition records : list step := [Touch true (IterGen 0 0); Take Excl (Reservoir 0) []].
Theorem C96_generator_refuted : forall prefer, exists s0 s, begins entry none s0 /\ (exists x y, s0 = [serving x; doing (y ++ [abort])] /\ record_latency 0 0 x /\ record_latency 0 0 y) /\
  (exists schedule, run prefer schedule s0 = Some s) /\ race s (IterGen 0 0) /\ (forall i, try prefer s i <> None <-> i < 2).
Proof.
  intros prefer. assert (L : record_latency 0 0 records).
  { right. left. first_ [Touch true (IterGen 0 0)]; [exists 0; reflexivity|]. right. box. left. reflexivity. }
  assert (W : work 0 records) by (apply many_one; do 5 right; left; exists 0; exact L).
  assert (R : exists s, run prefer [1] [serving records; doing (records ++ [abort])] = Some s) by (destruct prefer; vm_compute; eexists; reflexivity). destruct R as [s R].
  exists [serving records; doing (records ++ [abort])], s. split.
  { apply doing_begin; [|exact (then_end _ W)]. apply many_one. do 11 right. left. exists 0. exact W. }
  split; [exists records, records; auto|]. split; [exists [1]; exact R|]. destruct prefer; vm_compute in R; injection R as <-.
  all: split; [exists 0, 1; do 6 eexists; (split; [discriminate|]); repeat (split; [reflexivity|]); reflexivity|].
  all: intros [|[|i]]; split; intros H; try lia; try discriminate; exfalso; apply H; unfold try; cbn [nth_error]; destruct i; reflexivity.
Qed.
(** An open loop: HandleFinishedActions writes next_iteration_time with action_mu
    (1566) while FinishIteration reads it with iteration_mutex (2064): after
    traffic is cancelled an action may finish with an iteration under way. *)
Definition handles : list step := [Take Excl (ActionMu 0) [Touch false (Finished 0); Await (ActionMu 0); Touch true (Finished 0); Touch true (NextTime 0 0)]].
Definition ends_iteration : list step := [Take Excl (IterMu 0 0) [Touch true (IterCount 0 0); Touch false (NextTime 0 0)]].
Theorem C96_next_time_refuted : forall prefer, exists s0 s, begins entry none s0 /\ (exists x y, s0 = [serving x; doing (y ++ [abort])] /\ wait_actions 0 x /\ iteration 0 0 y) /\
  (exists schedule, run prefer schedule s0 = Some s) /\ race s (NextTime 0 0) /\ (forall i, try prefer s i <> None <-> i < 2).
Proof.
  intros prefer. set (sched := [0; 0; 0; 0; 0; 1; 1; 1]).
  assert (A : wait_actions 0 handles).
  { box. first_ [Touch false (Finished 0)]; [reflexivity|]. first_ [Await (ActionMu 0)]; [reflexivity|]. first_ [Touch true (Finished 0)]; [reflexivity|]. apply many_one. exists 0. reflexivity. }
  assert (B : iteration 0 0 ends_iteration) by (box; first_ [Touch true (IterCount 0 0)]; [right; reflexivity|right; left; reflexivity]).
  assert (R : exists s, run prefer sched [serving handles; doing (ends_iteration ++ [abort])] = Some s) by (destruct prefer; vm_compute; eexists; reflexivity). destruct R as [s R].
  exists [serving handles; doing (ends_iteration ++ [abort])], s. split.
  { apply doing_begin.
    - apply many_one. do 11 right. left. exists 0. apply many_one. do 8 right. left. exists 0. exact A.
    - apply then_end. apply many_one. do 11 right. left. exists (0, 0). exact B. }
  split; [exists handles, ends_iteration; auto|]. split; [exists sched; exact R|]. destruct prefer; vm_compute in R; injection R as <-.
  all: split; [exists 0, 1; do 6 eexists; (split; [discriminate|]); repeat (split; [reflexivity|]); reflexivity|].
  all: intros [|[|i]]; split; intros H; try lia; try discriminate; exfalso; apply H; unfold try; cbn [nth_error]; destruct i; reflexivity.
Qed.
(** Two calls of RunTraffic: the mutex is taken shared (distbench_node_manager.cc:191), both write
    rusage_start_test_ (193) and the main threads of the engines. *)
Theorem C96_run_traffic_refuted : forall prefer, exists s0 first second s s', begins entry none s0 /\ run prefer first s0 = Some s /\ race s (RusageStart 0) /\ run prefer second s = Some s' /\ race s' (MainThread 0).
Proof.
  intros prefer. exists (map serving [traffic; traffic]), [0; 1], [0; 0; 1; 1].
  assert (R : exists s, run prefer [0; 1] (map serving [traffic; traffic]) = Some s) by (destruct prefer; vm_compute; eexists; reflexivity). destruct R as [s R].
  assert (Q : exists s', run prefer [0; 0; 1; 1] s = Some s') by (destruct prefer; vm_compute in R; injection R as <-; vm_compute; eexists; reflexivity). destruct Q as [s' Q].
  exists s, s'. split; [apply (serving_begin none [traffic; traffic]); repeat apply Forall_cons; try apply Forall_nil; exact run_traffic_is_entry|].
  split; [exact R|]. destruct prefer; vm_compute in R; injection R as <-; vm_compute in Q; injection Q as <-.
  all: split; [|split; [reflexivity|]]; exists 0, 1; do 6 eexists; (split; [discriminate|]); repeat (split; [reflexivity|]); reflexivity.
Qed.
(** CancelTraffic while the node manager is destroyed (274-283). *)
Definition cancelling : list step := [alias; Take Shared (NodeMu 0) [Touch false (Engines 0); alias]].
Theorem C96_destroy_refuted : forall prefer, exists s0 schedule s, begins entry none s0 /\ (exists x y, s0 = [serving x; serving y] /\ cancel_node 0 x /\ destroy_node 0 y) /\ run prefer schedule s0 = Some s /\ race s (Engines 0).
Proof.
  intros prefer. exists (map serving [cancelling; [Touch true (Engines 0)]]), [0; 0; 0; 0].
  assert (C : cancel_node 0 cancelling) by (first_ [alias]; [exact alias_ok|]; box; first_ [Touch false (Engines 0)]; [reflexivity|]; first_ (@nil step); [apply many_nil|exact alias_ok]).
  assert (D : destroy_node 0 [Touch true (Engines 0)]) by (first_ (@nil step); [left; reflexivity|]; first_ [Touch true (Engines 0)]; [reflexivity|apply many_nil]).
  assert (R : exists s, run prefer [0; 0; 0; 0] (map serving [cancelling; [Touch true (Engines 0)]]) = Some s) by (destruct prefer; vm_compute; eexists; reflexivity). destruct R as [s R].
  exists s. split; [|split; [exists cancelling, [Touch true (Engines 0)]; auto|]].
  { apply (serving_begin none [cancelling; [Touch true (Engines 0)]]). repeat apply Forall_cons; try apply Forall_nil; apply many_one; [do 4 right; left|do 7 right; left]; exists 0; assumption. }
  split; [exact R|]. destruct prefer; vm_compute in R; injection R as <-.
  all: exists 0, 1; do 6 eexists; (split; [discriminate|]); repeat (split; [reflexivity|]); reflexivity.
Qed.
(** ConfigureNode reads what Initialize still writes after it started the server
    (285-367). *)
Definition configures : list step := [Take Excl (NodeMu 0) [Touch true (TrafficConfig 0); Touch false (TrafficConfig 0); Touch false (Registration 0)]].
Theorem C96_initialize_refuted : forall prefer, exists s0 schedule s, begins entry none s0 /\ (exists x y, s0 = [serving x; serving y] /\ configure_node 0 x /\ init_node 0 y) /\ run prefer schedule s0 = Some s /\ race s (Registration 0).
Proof.
  intros prefer. exists (map serving [configures; [Touch true (Registration 0)]]), [0; 0; 0].
  assert (C : configure_node 0 configures).
  { box. first_ [Touch true (TrafficConfig 0)]; [reflexivity|]. first_ (@nil step); [left; reflexivity|]. first_ (@nil step); [left; reflexivity|]. first_ (@nil step); [apply many_nil|]. apply many_one.
    first_ [Touch false (TrafficConfig 0)]; [reflexivity|]. first_ (@nil step); [exists 0; apply many_nil|]. first_ (@nil step); [left; reflexivity|right; reflexivity]. }
  assert (D : init_node 0 [Touch true (Registration 0)]) by (first_ [Touch true (Registration 0)]; [apply many_one; reflexivity|left; left; reflexivity]).
  assert (R : exists s, run prefer [0; 0; 0] (map serving [configures; [Touch true (Registration 0)]]) = Some s) by (destruct prefer; vm_compute; eexists; reflexivity). destruct R as [s R].
  exists s. split; [|split; [exists configures, [Touch true (Registration 0)]; auto|]].
  { apply (serving_begin none [configures; [Touch true (Registration 0)]]). repeat apply Forall_cons; try apply Forall_nil; apply many_one; [left|do 6 right; left]; exists 0; assumption. }
  split; [exact R|]. destruct prefer; vm_compute in R; injection R as <-.
  all: exists 0, 1; do 6 eexists; (split; [discriminate|]); repeat (split; [reflexivity|]); reflexivity.
Qed.
(** A new thread reads the overload callback (distbench_thread_support.cc:68-71)
    while it is set (38-49). *)
Theorem C96_callback_refuted : forall prefer, exists s0 schedule s, begins entry (opt callback) s0 /\ (exists x h, s0 = [serving x; h] /\ set_overload x) /\ run prefer schedule s0 = Some s /\ race s AbortCallback.
Proof.
  intros prefer. exists [serving [Take Excl Abort [Touch true AbortCallback]]; made 1 calling_back [abort]], [0].
  assert (C : set_overload [Take Excl Abort [Touch true AbortCallback]]) by (box; first_ (@nil step); [left; reflexivity|right; reflexivity]).
  assert (R : exists s, run prefer [0] [serving [Take Excl Abort [Touch true AbortCallback]]; made 1 calling_back [abort]] = Some s) by (destruct prefer; vm_compute; eexists; reflexivity). destruct R as [s R].
  exists s. split; [|split; [do 2 eexists; split; [reflexivity|exact C]|]].
  { apply two_begin; [apply many_one; do 12 right; exact C|right; exact calling_back_ok|exact work_end]. }
  split; [exact R|]. destruct prefer; vm_compute in R; injection R as <-.
  all: exists 0, 1; do 6 eexists; (split; [discriminate|]); repeat (split; [reflexivity|]); reflexivity.
Qed.

(** ** Examples *)
(** Two sequences about to read the registry with the mutex shared, the
    registration waiting to write; then the registration about to write. *)
Example C96_holds_mutex_ex : exists s a b q r, begins entry none registering /\ run true [0; 2; 1] registering = Some s /\ nth_error s 0 = Some a /\ nth_error s 2 = Some b /\
  t_todo a = Tch false (Registry 0) :: q /\ t_todo b = Tch false (Registry 0) :: r /\ t_held a = [(SeqMu 0, Shared)] /\ t_held b = [(SeqMu 0, Shared)] /\ try true s 1 = None.
Proof. do 5 eexists. split; [exact registering_begins|]. split; [vm_compute; reflexivity|]. repeat (split; [reflexivity|]). reflexivity. Qed.
Example C96_no_race_ex : exists s h r, run true [1; 1] registering = Some s /\ nth_error s 1 = Some h /\ t_todo h = Tch true (Registry 0) :: r /\ t_held h = [(SeqMu 0, Excl)] /\ guard (Registry 0) = Some (SeqMu 0).
Proof. do 3 eexists. split; [vm_compute; reflexivity|]. repeat (split; [reflexivity|]). reflexivity. Qed.
(** ConfigureNode about to write the engines, CancelTraffic waiting to read
    them. *)
Example C96_living_ex : exists x y s h r, begins living (opt callback) (map serving [x; y]) /\ run true [0; 0; 1; 1; 1; 1] (map serving [x; y]) = Some s /\
  nth_error s 0 = Some h /\ t_todo h = Tch true (Engines 0) :: r /\ waits_for true s 1 0.
Proof.
  exists [Take Excl (NodeMu 0) [Touch true (TrafficConfig 0); Touch true (Engines 0)]], cancelling. do 3 eexists. split.
  - split.
    + intros [|[|i]] h H; cbn [map nth_error] in H; [injection H as <-; left; eexists; split; [|reflexivity]|injection H as <-; left; eexists; split; [|reflexivity]|destruct i; discriminate H]; apply many_one.
      * left. exists 0. box. first_ [Touch true (TrafficConfig 0)]; [reflexivity|]. first_ (@nil step); [left; reflexivity|]. first_ [Touch true (Engines 0)]; [right; reflexivity|]. first_ (@nil step); apply many_nil.
      * do 4 right. left. exists 0. first_ [alias]; [exact alias_ok|]. box. first_ [Touch false (Engines 0)]; [reflexivity|]. first_ (@nil step); [apply many_nil|exact alias_ok].
    + intros [|[|i]] j t c w c' w' H; cbn [map nth_error] in H; try discriminate H. destruct i; discriminate H.
  - split; [vm_compute; reflexivity|]. split; [reflexivity|]. split; [reflexivity|]. do 5 eexists. split; [reflexivity|]. split; [reflexivity|]. split; reflexivity.
Qed.

Print Assumptions C96_holds_mutex.
Print Assumptions C96_no_race.
Print Assumptions C96_living.
Print Assumptions C96_reason_refuted.
Print Assumptions C96_activity_logs_refuted.
Print Assumptions C96_generator_refuted.
Print Assumptions C96_next_time_refuted.
Print Assumptions C96_run_traffic_refuted.
Print Assumptions C96_destroy_refuted.
Print Assumptions C96_initialize_refuted.
Print Assumptions C96_callback_refuted.
