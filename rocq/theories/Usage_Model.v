(** Resource usage: getrusage readings and how they reach the test result.
    Definitions only. *)
From Coq Require Import Ascii String List ZArith Bool SpecFloat.
From Verif Require Import Base_Model Float_Model Text_Model.
From Verif Require Seq_Model.
Import ListNotations.
Open Scope Z_scope.

(** struct timeval and struct rusage of <sys/resource.h>; every member that is
    not a time is a long. *)
Record timeval := mkTV { tv_sec : Z; tv_usec : Z }.
Record rusage := mkRU {
  ru_utime : timeval; ru_stime : timeval; ru_maxrss : Z; ru_ixrss : Z; ru_idrss : Z; ru_isrss : Z; ru_minflt : Z; ru_majflt : Z;
  ru_nswap : Z; ru_inblock : Z; ru_oublock : Z; ru_msgsnd : Z; ru_msgrcv : Z; ru_nsignals : Z; ru_nvcsw : Z; ru_nivcsw : Z }.
(** distbench.proto 111-128: RUsage; every field is set, so presence is not modelled. *)
Record usage := mkUsage {
  us_user_cpu_time_seconds : spec_float; us_system_cpu_time_seconds : spec_float;
  us_max_resident_set_size : Z; us_integral_shared_memory_size : Z; us_integral_unshared_data_size : Z; us_integral_unshared_stack_size : Z;
  us_page_reclaims_soft_page_faults : Z; us_page_faults_hard_page_faults : Z; us_swaps : Z; us_block_input_operations : Z;
  us_block_output_operations : Z; us_ipc_messages_sent : Z; us_ipc_messages_received : Z; us_signals_received : Z;
  us_voluntary_context_switches : Z; us_involuntary_context_switches : Z }.
(** distbench.proto 130-133: RUsageStats. *)
Record usage_stats := mkStats { rs_start : usage; rs_diff : usage }.

(** 1'000'000.0 of distbench_utils.cc 210. *)
Definition f64_1e6 : spec_float := S754_finite false 8589934592000000 (-33).
(** distbench_utils.cc 209-211: TimevalToDouble. *)
Definition timeval_to_double (t : timeval) : spec_float :=
  f64_add (f64_div (f64_of_Z (tv_usec t)) f64_1e6) (f64_of_Z (tv_sec t)).

(** distbench_utils.cc 214-235: StructRUsageToMessage. *)
Definition usage_of (r : rusage) : usage := {|
  us_user_cpu_time_seconds := timeval_to_double (ru_utime r);
  us_system_cpu_time_seconds := timeval_to_double (ru_stime r);
  us_max_resident_set_size := ru_maxrss r;
  us_integral_shared_memory_size := ru_ixrss r;
  us_integral_unshared_data_size := ru_idrss r;
  us_integral_unshared_stack_size := ru_isrss r;
  us_page_reclaims_soft_page_faults := ru_minflt r;
  us_page_faults_hard_page_faults := ru_majflt r;
  us_swaps := ru_nswap r;
  us_block_input_operations := ru_inblock r;
  us_block_output_operations := ru_oublock r;
  us_ipc_messages_sent := ru_msgsnd r;
  us_ipc_messages_received := ru_msgrcv r;
  us_signals_received := ru_nsignals r;
  us_voluntary_context_switches := ru_nvcsw r;
  us_involuntary_context_switches := ru_nivcsw r |}.

(** long subtraction; None: it overflows, which is undefined. *)
Definition long_sub (a b : Z) : option Z := if (- 2 ^ 63 <=? a - b) && (a - b <? 2 ^ 63) then Some (a - b) else None.
Definition bind_sub (a b : Z) (k : Z -> option usage) : option usage := match long_sub a b with Some d => k d | None => None end.
(** distbench_utils.cc 237-261: DiffStructRUsageToMessage. *)
Definition usage_diff (start end_ : rusage) : option usage :=
  let d f k := bind_sub (f end_) (f start) k in
  d ru_maxrss (fun maxrss => d ru_ixrss (fun ixrss => d ru_idrss (fun idrss => d ru_isrss (fun isrss =>
  d ru_minflt (fun minflt => d ru_majflt (fun majflt => d ru_nswap (fun nswap => d ru_inblock (fun inblock =>
  d ru_oublock (fun oublock => d ru_msgsnd (fun msgsnd => d ru_msgrcv (fun msgrcv => d ru_nsignals (fun nsignals =>
  d ru_nvcsw (fun nvcsw => d ru_nivcsw (fun nivcsw => Some {|
    us_user_cpu_time_seconds := f64_sub (timeval_to_double (ru_utime end_)) (timeval_to_double (ru_utime start));
    us_system_cpu_time_seconds := f64_sub (timeval_to_double (ru_stime end_)) (timeval_to_double (ru_stime start));
    us_max_resident_set_size := maxrss;
    us_integral_shared_memory_size := ixrss;
    us_integral_unshared_data_size := idrss;
    us_integral_unshared_stack_size := isrss;
    us_page_reclaims_soft_page_faults := minflt;
    us_page_faults_hard_page_faults := majflt;
    us_swaps := nswap;
    us_block_input_operations := inblock;
    us_block_output_operations := oublock;
    us_ipc_messages_sent := msgsnd;
    us_ipc_messages_received := msgrcv;
    us_signals_received := nsignals;
    us_voluntary_context_switches := nvcsw;
    us_involuntary_context_switches := nivcsw |})))))))))))))).

(** distbench_utils.cc 275-282: DoGetRusage.  [None]: getrusage failed; the
    struct returned is uninitialised. *)
Definition reading := option rusage.
(** What a message built from readings holds: [Junk]: it was computed from an
    uninitialised struct; [Overflow]: a subtraction overflowed. *)
Inductive reported := Junk | Overflow | Stats (s : usage_stats).
(** distbench_utils.cc 263-273: GetRUsageStatsFromStructs. *)
Definition stats_of (start end_ : reading) : reported :=
  match start, end_ with
  | Some a, Some b => match usage_diff a b with Some d => Stats (mkStats (usage_of a) d) | None => Overflow end
  | _, _ => Junk
  end.

(** * A node manager *)
(** distbench_node_manager.cc 188-233, the part about resource usage.  The
    state is rusage_start_test_ (distbench_node_manager.h 115), uninitialised
    until the first RunTraffic; each request comes with what getrusage returns
    while it is handled.  RunTraffic stores its reading first, whatever the
    engines do afterwards (193); that it writes while holding the lock shared
    (191) is not modelled: requests are handled one at a time. *)
Inductive node_call := NRun (now : reading) | NResult (now : reading).
Definition node_usage (start : reading) (c : node_call) : reading * option reported :=
  match c with
  | NRun now => (now, None)
  | NResult now => (start, Some (stats_of start now))
  end.
Fixpoint node_usages (start : reading) (l : list node_call) : list reported :=
  match l with
  | [] => []
  | c :: r => let (start', out) := node_usage start c in match out with Some x => [x] | None => [] end ++ node_usages start' r
  end.

(** * A test *)
(** What happens to the usage in DoRunTest (distbench_test_sequencer.cc
    373-413) once peers are introduced: [nodes] are the node ids, [alias] their
    names, [stored] what rusage_start_test_ of each node held before, [reached]
    whether the RunTraffic request arrived there, [ran] and [got] whether the
    two calls succeeded, [at_run] and [at_get] what getrusage returns in each
    node, [seq_start] and [seq_end] in the sequencer.  The response of a
    failed GetTrafficResult is empty.  *)
Record test_usage := mkTU { tu_nodes : list (str * reported); tu_sequencer : reported }.
Definition usage_after_run (reached : Z -> bool) (at_run stored : Z -> reading) (id : Z) : reading :=
  if reached id then fst (node_usage (stored id) (NRun (at_run id))) else stored id.
Definition usage_reply (alias : Z -> str) (got : Z -> bool) (at_get start : Z -> reading) (id : Z) : Seq_Model.reply reported :=
  Seq_Model.mkReply (got id)
    (if got id then match snd (node_usage (start id) (NResult (at_get id))) with Some x => [(alias id, x)] | None => [] end else []).
Definition do_run_usage (nodes : list Z) (alias : Z -> str) (reached ran got : Z -> bool) (stored at_run at_get : Z -> reading)
    (ev1 ev2 : list (Z * bool)) (active : list Z) (seq_start seq_end : reading) : option test_usage :=
  match fst (Seq_Model.run_traffic nodes ran (usage_reply alias got at_get (usage_after_run reached at_run stored)) ev1 ev2 active) with
  | Seq_Model.TOk m => Some (mkTU m (stats_of seq_start seq_end))
  | _ => None
  end.
