(** C81: the resource usage in a test result. *)
From Coq Require Import Ascii String List ZArith QArith Qabs Bool SpecFloat Permutation Lia.
From Verif Require Cluster_Proofs Place_Proofs.
From Verif Require Import Base_Model Base_Proofs Float_Model Text_Model Float_Proofs3 Seq_Model Seq_Proofs Usage_Model Usage_Proofs.
Import ListNotations.
Open Scope Z_scope.

(** * What a message means *)
(** Which kernel counter each field of the message is, as documented in
    getrusage(2) and distbench.proto. *)
Definition counters : list ((rusage -> Z) * (usage -> Z)) :=
  [(ru_maxrss, us_max_resident_set_size); (ru_ixrss, us_integral_shared_memory_size); (ru_idrss, us_integral_unshared_data_size);
   (ru_isrss, us_integral_unshared_stack_size); (ru_minflt, us_page_reclaims_soft_page_faults); (ru_majflt, us_page_faults_hard_page_faults);
   (ru_nswap, us_swaps); (ru_inblock, us_block_input_operations); (ru_oublock, us_block_output_operations); (ru_msgsnd, us_ipc_messages_sent);
   (ru_msgrcv, us_ipc_messages_received); (ru_nsignals, us_signals_received); (ru_nvcsw, us_voluntary_context_switches);
   (ru_nivcsw, us_involuntary_context_switches)].
Definition cpu_times : list ((rusage -> timeval) * (usage -> spec_float)) :=
  [(ru_utime, us_user_cpu_time_seconds); (ru_stime, us_system_cpu_time_seconds)].

Lemma long_sub_some a b d : long_sub a b = Some d -> d = a - b /\ - 2 ^ 63 <= a - b < 2 ^ 63.
Proof. unfold long_sub. destruct ((- 2 ^ 63 <=? a - b) && (a - b <? 2 ^ 63))%bool eqn:E; [|discriminate]. apply andb_true_iff in E as [E1 E2]. apply Z.leb_le in E1. apply Z.ltb_lt in E2. intros [= <-]. lia. Qed.
Lemma long_sub_ok a b : 0 <= a < 2 ^ 63 -> 0 <= b < 2 ^ 63 -> long_sub a b = Some (a - b).
Proof. intros A B. unfold long_sub. rewrite (proj2 (Z.leb_le _ _)), (proj2 (Z.ltb_lt _ _)) by lia. reflexivity. Qed.
Lemma bind_sub_some a b k u : bind_sub a b k = Some u -> k (a - b) = Some u.
Proof. unfold bind_sub. destruct (long_sub a b) as [d|] eqn:E; [|discriminate]. apply long_sub_some in E as [-> _]. auto. Qed.

Ltac each H := cbn [counters cpu_times In] in H; repeat (destruct H as [H|H]; [injection H as <- <-|]); [..|destruct H].

(** Every counter: the message has its value at the start, and the start plus
    the difference is its value at the end. *)
Theorem C81_counters : forall a b s, stats_of (Some a) (Some b) = Stats s ->
  forall r m, In (r, m) counters -> m (rs_start s) = r a /\ r a + m (rs_diff s) = r b.
Proof.
  intros a b s H r m R. cbn [stats_of] in H. destruct (usage_diff a b) as [d|] eqn:D; [|discriminate]. injection H as <-. cbn [rs_start rs_diff].
  unfold usage_diff in D. repeat apply bind_sub_some in D. injection D as <-. each R; split; try reflexivity;
  cbn [us_max_resident_set_size us_integral_shared_memory_size us_integral_unshared_data_size us_integral_unshared_stack_size us_page_reclaims_soft_page_faults us_page_faults_hard_page_faults us_swaps us_block_input_operations us_block_output_operations us_ipc_messages_sent us_ipc_messages_received us_signals_received us_voluntary_context_switches us_involuntary_context_switches]; lia.
Qed.
(** The kernel's counters are never negative: no subtraction overflows. *)
Theorem C81_defined : forall a b, (forall r m, In (r, m) counters -> 0 <= r a < 2 ^ 63 /\ 0 <= r b < 2 ^ 63) ->
  exists s, stats_of (Some a) (Some b) = Stats s.
Proof.
  intros a b H. cbn [stats_of]. unfold usage_diff, bind_sub.
  assert (K : forall r m, In (r, m) counters -> long_sub (r b) (r a) = Some (r b - r a)) by (intros r m I; destruct (H r m I); now apply long_sub_ok).
  rewrite (K ru_maxrss us_max_resident_set_size), (K ru_ixrss us_integral_shared_memory_size), (K ru_idrss us_integral_unshared_data_size),
    (K ru_isrss us_integral_unshared_stack_size), (K ru_minflt us_page_reclaims_soft_page_faults), (K ru_majflt us_page_faults_hard_page_faults),
    (K ru_nswap us_swaps), (K ru_inblock us_block_input_operations), (K ru_oublock us_block_output_operations), (K ru_msgsnd us_ipc_messages_sent),
    (K ru_msgrcv us_ipc_messages_received), (K ru_nsignals us_signals_received), (K ru_nvcsw us_voluntary_context_switches),
    (K ru_nivcsw us_involuntary_context_switches) by (cbn [counters In]; tauto).
  eexists. reflexivity.
Qed.

(** ** CPU times *)
(** A time that getrusage can return in the first 34 years of CPU use. *)
Definition cpu_time (t : timeval) : Prop := 0 <= tv_sec t < 2 ^ 30 /\ 0 <= tv_usec t < 1000000.
(** A double that is a number, not negative. *)
Definition finite_nonneg (x : spec_float) : Prop := match x with S754_zero _ => True | S754_finite s _ _ => s = false | _ => False end.
(** [x] seconds, rounded to microseconds, are [n] microseconds. *)
Definition is_micros (x : spec_float) (n : Z) : Prop := finite_nonneg x /\ (Qabs (val x * inject_Z 1000000 - inject_Z n) < 1 # 2)%Q.
(** The two CPU times are right to the microsecond. *)
Theorem C81_cpu : forall a b s, stats_of (Some a) (Some b) = Stats s ->
  forall t x, In (t, x) cpu_times -> cpu_time (t a) -> cpu_time (t b) ->
  tv_sec (t a) * 1000000 + tv_usec (t a) <= tv_sec (t b) * 1000000 + tv_usec (t b) ->
  is_micros (x (rs_start s)) (tv_sec (t a) * 1000000 + tv_usec (t a))
  /\ is_micros (x (rs_diff s)) (tv_sec (t b) * 1000000 + tv_usec (t b) - (tv_sec (t a) * 1000000 + tv_usec (t a))).
Proof.
  intros a b s H t x T A B L. cbn [stats_of] in H. destruct (usage_diff a b) as [d|] eqn:D; [|discriminate]. injection H as <-. cbn [rs_start rs_diff].
  unfold usage_diff in D. repeat apply bind_sub_some in D. injection D as <-.
  assert (ST : is_micros (timeval_to_double (t a)) (microseconds (t a))).
  { pose proof (timeval_value (t a) A) as R. split; [|].
    - destruct R as [[[m [e [-> _]]]| ->] _]; [reflexivity|exact Logic.I].
    - pose proof (represents_val _ _ R) as [R1 R2]. apply Qabs_case; intros; Lqa.lra. }
  pose proof (span (t a) (t b) A B L) as [S1 S2].
  each T; (split; [exact ST|split; [exact S1|exact S2]]).
Qed.

(** ** A later reading *)
Definition later (a b : rusage) : Prop :=
  (forall r m, In (r, m) counters -> 0 <= r a <= r b /\ r b < 2 ^ 63)
  /\ (forall t x, In (t, x) cpu_times -> cpu_time (t a) /\ cpu_time (t b) /\ tv_sec (t a) * 1000000 + tv_usec (t a) <= tv_sec (t b) * 1000000 + tv_usec (t b)).
(** From two readings of the same process a usage is computed that is never negative. *)
Theorem C81_nonneg : forall a b, later a b ->
  exists s, stats_of (Some a) (Some b) = Stats s
  /\ (forall r m, In (r, m) counters -> 0 <= m (rs_diff s)) /\ (forall t x, In (t, x) cpu_times -> finite_nonneg (x (rs_diff s))).
Proof.
  intros a b [C T]. destruct (C81_defined a b) as [s H]; [intros r m R; specialize (C r m R); lia|]. exists s. split; [assumption|]. split.
  - intros r m R. pose proof (C81_counters a b s H r m R). specialize (C r m R). lia.
  - intros t x X. destruct (T t x X) as [A [B L]]. apply (C81_cpu a b s H t x X A B L).
Qed.

(** * A node manager *)
(** The usage a node reports spans from its last RunTraffic to the request. *)
Theorem C81_node : forall before between first start now, (forall c, In c between -> exists r, c = NResult r) ->
  exists reported_before, node_usages first (before ++ NRun start :: between ++ [NResult now]) = reported_before ++ [stats_of start now].
Proof.
  intros before between first start now B. revert first. induction before as [|c l IH]; intros first; cbn [app].
  - cbn [node_usages node_usage app]. induction between as [|c l IH]; cbn [app].
    + exists []. reflexivity.
    + destruct (B c (or_introl eq_refl)) as [r ->]. destruct IH as [p IH]; [intros c I; apply B; right; exact I|].
      cbn [node_usages node_usage]. rewrite IH. exists (stats_of start r :: p). reflexivity.
  - cbn [node_usages]. destruct (node_usage first c) as [s o]. destruct (IH s) as [p ->]. exists (match o with Some x => [x] | None => [] end ++ p). rewrite app_assoc. reflexivity.
Qed.
(** Asked before it ever ran traffic, it reports garbage. *)
Theorem C81_before_run : forall l, (forall c, In c l -> exists r, c = NResult r) -> Forall (fun x => x = Junk) (node_usages None l).
Proof.
  induction l as [|c l IH]; intros H; [constructor|]. destruct (H c (or_introl eq_refl)) as [r ->]. cbn [node_usages node_usage app].
  constructor; [reflexivity|]. apply IH. intros c I. apply H. right. exact I.
Qed.

(** * A test *)
(** Every call is answered once. *)
Definition all_answered (nodes : list Z) (ev : list (Z * bool)) : Prop := Permutation (map fst (filter snd ev)) nodes.
(** The result of a test has one usage for each of its nodes: from the node's
    reading when this test's traffic started to that when it was asked. *)
Theorem C81_test : forall nodes alias reached ran got stored at_run at_get ev1 ev2 active s0 s1 tu,
  do_run_usage nodes alias reached ran got stored at_run at_get ev1 ev2 active s0 s1 = Some tu ->
  NoDup nodes -> (forall i j, In i nodes -> In j nodes -> alias i = alias j -> i = j) ->
  all_answered nodes ev1 -> all_answered nodes ev2 -> (forall id, ran id = true -> reached id = true) ->
  NoDup (map fst (tu_nodes tu))
  /\ (forall name v, In (name, v) (tu_nodes tu) <-> exists id, In id nodes /\ name = alias id /\ v = stats_of (at_run id) (at_get id))
  /\ tu_sequencer tu = stats_of s0 s1.
Proof.
  intros nodes alias reached ran got stored at_run at_get ev1 ev2 active s0 s1 tu H ND AI E1 E2 RR.
  unfold do_run_usage, run_traffic in H. unfold all_answered in E1, E2.
  rewrite (await_run_spec ran ev1 (length nodes) None) in H by (apply Permutation_length, E1).
  destruct (last_such _ (map fst (filter snd ev1)) None) as [w|] eqn:L1; [discriminate|]. apply last_such_None in L1 as [_ L1].
  rewrite await_results_spec in H by (apply Permutation_length, E2).
  destruct (last_such _ (map fst (filter snd ev2)) None) as [w|] eqn:L2; [discriminate|]. apply last_such_None in L2 as [_ L2].
  cbn [fst] in H. match type of H with Some ?x = Some _ => assert (TE : tu = x) by congruence end. rewrite TE. clear H TE tu. cbn [tu_nodes tu_sequencer].
  assert (RAN : forall id, In id nodes -> usage_after_run reached at_run stored id = at_run id).
  { intros id I. unfold usage_after_run. rewrite RR; [reflexivity|]. apply negb_false_iff, L1. apply Permutation_in with (2 := I). symmetry. exact E1. }
  set (l := map fst (filter snd ev2)) in *. set (rep := usage_reply alias got at_get (usage_after_run reached at_run stored)) in *.
  assert (REP : forall id, In id l -> rp_logs (rep id) = [(alias id, stats_of (at_run id) (at_get id))]).
  { intros id I. specialize (L2 id I). apply negb_false_iff in L2. unfold rep, usage_reply in L2 |- *. cbn [rp_ok rp_logs node_usage snd] in *. rewrite L2, RAN; [reflexivity|]. apply Permutation_in with (1 := E2), I. }
  assert (NDM : NoDup (map fst (fold_left (fun m i => merge m (rp_logs (rep i))) l []))) by (apply (Cluster_Proofs.merges_NoDup (fun i => rp_logs (rep i))); constructor).
  split; [exact NDM|]. split; [|reflexivity]. intros name v. rewrite <- (Place_Proofs.map_find_iff name v _ NDM).
  rewrite (merge_all_find (fun i => rp_logs (rep i))).
  - split.
    + intros [K|(i & I & K)]; [discriminate|]. rewrite (REP i I) in K. destruct K as [K|[]]. injection K as <- <-. exists i. split; [apply Permutation_in with (1 := E2), I|]. split; reflexivity.
    + intros (i & I & -> & ->). right. exists i. assert (J : In i l) by (apply Permutation_in with (2 := I); symmetry; exact E2). split; [exact J|]. rewrite (REP i J). left. reflexivity.
  - apply Permutation_NoDup with (2 := ND). symmetry. exact E2.
  - intros i I. rewrite (REP i I). constructor; [intros []|constructor].
  - intros i j x I J. rewrite (REP i I), (REP j J). cbn [map fst In]. intros [<-|[]] [K|[]]. apply AI; [apply Permutation_in with (1 := E2), I|apply Permutation_in with (1 := E2), J|]. symmetry. exact K.
  - intros i I K. reflexivity.
Qed.

(** * Several tests *)
(** Readings of one process in the order they were made. *)
Fixpoint chronological (l : list (rusage * rusage)) : Prop :=
  match l with
  | [] => True
  | (a, b) :: r => later a b /\ match r with [] => True | (a', _) :: _ => later b a' end /\ chronological r
  end.
Definition spent (m : usage -> Z) (x : reported) : Z := match x with Stats s => m (rs_diff s) | _ => 0 end.
Definition total (m : usage -> Z) (l : list (rusage * rusage)) : Z :=
  fold_right Z.add 0 (map (fun x => spent m (stats_of (Some (fst x)) (Some (snd x)))) l).
(** The usages of successive tests do not overlap: together they are at most
    what the process used from the start of the first to the end of the last. *)
Theorem C81_sequence : forall l a b, chronological ((a, b) :: l) -> forall r m, In (r, m) counters ->
  r a + total m ((a, b) :: l) <= r (snd (last l (a, b))).
Proof.
  induction l as [|[a' b'] l IH]; intros a b [L [G C]] r m R.
  - unfold total. cbn [map fold_right fst snd last]. destruct (C81_nonneg a b L) as [s [S _]]. rewrite S. cbn [spent]. pose proof (C81_counters a b s S r m R). lia.
  - specialize (IH a' b' C r m R). unfold total in *. cbn [map fold_right fst snd] in *. destruct (C81_nonneg a b L) as [s [S _]]. rewrite S. cbn [spent].
    pose proof (C81_counters a b s S r m R). destruct G as [G _]. specialize (G r m R).
    replace (last ((a', b') :: l) (a, b)) with (last l (a', b')) by (clear; revert a' b'; induction l as [|x l IHl]; intros; [reflexivity|]; destruct l; [reflexivity|]; exact (IHl a' b')). lia.
Qed.

(** * The peak of the memory use *)
(** ru_maxrss is the largest resident set size since the process started. *)
Definition peak (sizes : list Z) : Z := fold_right Z.max 0 sizes.
(** The message tells the peak during the test only if it exceeds every
    earlier one. *)
Theorem C81_peak : forall before during a b s, stats_of (Some a) (Some b) = Stats s ->
  ru_maxrss a = peak before -> ru_maxrss b = peak (before ++ during) ->
  let growth := us_max_resident_set_size (rs_diff s) in
  (0 < growth -> us_max_resident_set_size (rs_start s) + growth = peak during)
  /\ (growth = 0 <-> peak during <= us_max_resident_set_size (rs_start s)).
Proof.
  intros before during a b s H A B. cbv zeta.
  destruct (C81_counters a b s H ru_maxrss us_max_resident_set_size ltac:(cbn [counters In]; tauto)) as [C1 C2].
  assert (P : peak (before ++ during) = Z.max (peak before) (peak during)).
  { assert (N : 0 <= peak during) by (clear; induction during as [|x l IH]; cbn [peak fold_right]; [lia|]; fold (peak l); lia).
    clear - N. induction before as [|x l IH]; [change (peak []) with 0; cbn [app]; lia|]. change (peak ((x :: l) ++ during)) with (Z.max x (peak (l ++ during))). change (peak (x :: l)) with (Z.max x (peak l)). lia. }
  rewrite P in B. split; [intros|split; intros]; lia.
Qed.

(** * Examples *)
Definition ex_reading (u s maxrss nvcsw : Z) : rusage := mkRU (mkTV (u / 1000000) (u mod 1000000)) (mkTV 0 s) maxrss 0 0 0 120 3 0 8 16 0 0 0 nvcsw 7.
Definition ex_before := ex_reading 1999999 250 50000 10.
Definition ex_after := ex_reading 3500001 900 70000 25.
Ltac all_of H := cbn [counters cpu_times In] in H; repeat (destruct H as [H|H]; [injection H as <- <-|]); [..|destruct H]; vm_compute; intuition discriminate.
Example C81_ex_later : later ex_before ex_after.
Proof. split; intros r m H; all_of H. Qed.
Example C81_ex_stats : exists s, stats_of (Some ex_before) (Some ex_after) = Stats s
  /\ us_voluntary_context_switches (rs_start s) = 10 /\ us_voluntary_context_switches (rs_diff s) = 15
  /\ us_max_resident_set_size (rs_diff s) = 20000 /\ us_involuntary_context_switches (rs_diff s) = 0
  /\ is_micros (us_user_cpu_time_seconds (rs_start s)) 1999999 /\ is_micros (us_user_cpu_time_seconds (rs_diff s)) 1500002
  /\ is_micros (us_system_cpu_time_seconds (rs_diff s)) 650.
Proof. eexists. split; [vm_compute; reflexivity|]. vm_compute. repeat split. Qed.
(** Undefined when a counter would overflow. *)
Example C81_ex_overflow : stats_of (Some (ex_reading 0 0 (- 2 ^ 63) 0)) (Some ex_after) = Overflow.
Proof. reflexivity. Qed.
(** A node asked first for results, then running two tests. *)
Example C81_ex_node : node_usages None [NResult (Some ex_before); NRun (Some ex_before); NResult (Some ex_after); NRun None; NResult (Some ex_after)]
  = [Junk; stats_of (Some ex_before) (Some ex_after); Junk].
Proof. reflexivity. Qed.
Definition ex_alias (i : Z) : str := s_ (if i =? 0 then "node0" else if i =? 1 then "node1" else "node2").
Example C81_ex_test :
  let at_run i := Some (ex_reading (1000 * i) 0 (100 * i) i) in
  let at_get i := Some (ex_reading (5000000 + i) 10 (100 * i + 4) (2 * i)) in
  exists tu, do_run_usage [2; 0] ex_alias (fun _ => true) (fun _ => true) (fun _ => true) (fun _ => None) at_run at_get
      [(0, true); (9, false); (2, true)] [(2, true); (0, true)] [] (Some ex_before) (Some ex_after) = Some tu
  /\ map fst (tu_nodes tu) = [s_ "node2"; s_ "node0"] /\ map (spent us_voluntary_context_switches) (map snd (tu_nodes tu)) = [2; 0]
  /\ tu_sequencer tu = stats_of (Some ex_before) (Some ex_after).
Proof. eexists. split; [vm_compute; reflexivity|]. repeat split. Qed.
Example C81_ex_sequence : chronological [(ex_before, ex_after); (ex_after, ex_after); (ex_after, ex_reading 4000000 901 70000 30)]
  /\ total us_voluntary_context_switches [(ex_before, ex_after); (ex_after, ex_after); (ex_after, ex_reading 4000000 901 70000 30)] = 20.
Proof. split; [|reflexivity]. cbn [chronological]. repeat (apply conj; [first [exact Logic.I|split; intros r m H; all_of H]|]). exact Logic.I. Qed.

(** * What the numbers do not say *)
(** The usage is that of the whole process: nodes in the same process (as in
    distbench_test_sequencer --local_nodes) each report all of it.  The sum over the nodes is not what
    they used. *)
Theorem C81_shared_refuted : exists a b nodes tu,
  do_run_usage nodes ex_alias (fun _ => true) (fun _ => true) (fun _ => true) (fun _ => None) (fun _ => Some a) (fun _ => Some b)
    (map (fun i => (i, true)) nodes) (map (fun i => (i, true)) nodes) [] (Some a) (Some b) = Some tu
  /\ later a b
  /\ ~ fold_right Z.add 0 (map (spent us_voluntary_context_switches) (map snd (tu_nodes tu))) <= ru_nvcsw b - ru_nvcsw a.
Proof.
  exists ex_before, ex_after, [0; 1]. eexists. split; [vm_compute; reflexivity|]. split; [exact C81_ex_later|]. vm_compute. intros H. exact (H eq_refl).
Qed.
(** A second test with the same memory use as the first reports no use at all. *)
Theorem C81_peak_refuted : exists before during a b s, stats_of (Some a) (Some b) = Stats s
  /\ ru_maxrss a = peak before /\ ru_maxrss b = peak (before ++ during)
  /\ us_max_resident_set_size (rs_diff s) <> peak during - last before 0.
Proof.
  exists [100; 90000; 100], [100; 90000; 100], (ex_reading 0 0 90000 0), (ex_reading 1 0 90000 0). eexists.
  split; [vm_compute; reflexivity|]. split; [reflexivity|]. split; [reflexivity|]. vm_compute. discriminate.
Qed.

Print Assumptions C81_counters.
Print Assumptions C81_defined.
Print Assumptions C81_cpu.
Print Assumptions C81_nonneg.
Print Assumptions C81_node.
Print Assumptions C81_before_run.
Print Assumptions C81_test.
Print Assumptions C81_sequence.
Print Assumptions C81_peak.
Print Assumptions C81_shared_refuted.
Print Assumptions C81_peak_refuted.
