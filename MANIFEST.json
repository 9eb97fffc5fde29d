{
 "claims": [
  {
   "property": "C01",
   "status": "proved",
   "theorems": [
    "C01_padding_size"
   ],
   "note": "exact sizes for every target"
  },
  {
   "property": "C02",
   "status": "proved",
   "theorems": [
    "C02_varint_size",
    "C02_varint_encoding",
    "C02_varint_round_trip",
    "C02_varint_decode_exact"
   ],
   "note": ""
  },
  {
   "property": "C03",
   "status": "proved",
   "theorems": [
    "C03_cord_round_trip",
    "C03_cord_same_bytes",
    "C03_cord_same_length"
   ],
   "note": "wire format of protobuf itself is modelled (trusted)"
  },
  {
   "property": "C04",
   "status": "partial",
   "theorems": [
    "C04_metadata_scan",
    "C04_fast_parse_reconstructs",
    "C04_after_fields_partial",
    "C04_scan_exact",
    "C04_after_fields_refuted",
    "C04_no_payload_crash_refuted",
    "C04_scan_terminates_refuted"
   ],
   "note": "payload-last messages proved in full; for every message with a payload and every fragment with its header the result is exact (C04_scan_exact): a fragment which ends at most one byte past the payload is taken for payload-last, so the claim about fields after the payload holds for complete messages and is refuted for such fragments; payload-free messages above 4096 bytes crash the receiver; the scan diverges on some inputs"
  },
  {
   "property": "C05",
   "status": "proved",
   "theorems": [
    "C05_grid_bijection"
   ],
   "note": ""
  },
  {
   "property": "C06",
   "status": "proved",
   "theorems": [
    "C06_names_unique",
    "C06_names_parse_back",
    "C06_slash_in_name_refuted"
   ],
   "note": "for service names without '/', as stated; names containing '/' refuted separately"
  },
  {
   "property": "C07",
   "status": "partial",
   "theorems": [
    "C07_accepts_only_valid_shapes",
    "C07_accepts_all_valid_shapes",
    "C07_result_canonical",
    "C07_idempotent",
    "C07_overflow_only_when_too_big",
    "C07_idempotent_refuted",
    "C07_no_overflow_refuted"
   ],
   "note": "acceptance exact when products fit in int; overflow and idempotence for services without count/size refuted"
  },
  {
   "property": "C08",
   "status": "partial",
   "theorems": [
    "C08_validation_partial",
    "C08_bang_predicate_refuted",
    "C08_replay_index_refuted",
    "C08_replay_grid_refuted"
   ],
   "note": "exact acceptance condition proved; '!'-predicates, replay indices and grid replay counts refuted"
  },
  {
   "property": "C09",
   "status": "proved",
   "theorems": [
    "C09_placement_sound",
    "C09_placement_complete_unconstrained",
    "C09_exactly_one_refuted",
    "C09_negative_count_refuted",
    "C09_greedy_refuted"
   ],
   "note": "Soundness for every accepted placement; success is characterised exactly when there are no constraints. Refuted parts: an instance that is bundled and constrained is placed twice, a negative count throws, the greedy constrained phase can fail although an assignment exists."
  },
  {
   "property": "C10",
   "status": "proved",
   "theorems": [
    "C10_constraints_exact",
    "C10_constraints_sound",
    "C10_modulus_refuted"
   ],
   "note": "Exact whenever no MODULO constraint has modulus 0 or -1; every answer is correct in all cases. Refuted: modulus 0 divides by zero."
  },
  {
   "property": "C11",
   "status": "proved",
   "theorems": [
    "C11_unique_identities",
    "C11_granted",
    "C11_undisturbed",
    "C11_refused",
    "C11_placed_nodes_callable",
    "C11_defined",
    "C11_defined_refuted",
    "C11_called"
   ],
   "note": "Every history of registrations. Refuted part: preassigned id 2^31-1 overflows int."
  },
  {
   "property": "C12",
   "status": "proved",
   "theorems": [
    "C12_never_crashes",
    "C12_mutual_exclusion",
    "C12_serial",
    "C12_started_once",
    "C12_cancelled_runs_no_test",
    "C12_everyone_can_finish",
    "C12_newest_wins_refuted"
   ],
   "note": "All schedules of any number of callers, with mutex critical sections atomic. Refuted extra: the newest request does not always win."
  },
  {
   "property": "C13",
   "status": "proved",
   "theorems": [
    "C13_results_in_order",
    "C13_phases"
   ],
   "note": "Outcomes of individual tests are oracles."
  },
  {
   "property": "C14",
   "status": "proved",
   "theorems": [
    "C14_collection",
    "C14_logs_complete",
    "C14_cancel_clears"
   ],
   "note": "Completion orders and replies are oracles; gRPC completion queue delivers each tag once."
  },
  {
   "property": "C15",
   "status": "partial",
   "theorems": [
    "C15_targets_valid",
    "C15_within_service_always_supported",
    "C15_foreign_grid_refuted",
    "C15_grid_exact",
    "C15_foreign_grid",
    "C15_names"
   ],
   "note": "every filter except stochastic, for every sender whose named coordinates exist in the target grid (always true within a service); otherwise exact (C15_grid_exact, C15_foreign_grid): the targets exist iff the furthest one does, and none is an instance the filter names; the full statement is refuted"
  },
  {
   "property": "C16",
   "status": "proved",
   "theorems": [
    "C16_grid_filters",
    "C16_names"
   ],
   "note": ""
  },
  {
   "property": "C17",
   "status": "proved",
   "theorems": [
    "C17_ring_target",
    "C17_ring_permutes",
    "C17_ring_visits_line",
    "C17_next_is_step",
    "C17_names"
   ],
   "note": ""
  },
  {
   "property": "C18",
   "status": "partial",
   "theorems": [
    "C18_round_robin_fair",
    "C18_round_robin_defined",
    "C18_random_single_uniform",
    "C18_concurrent_refuted",
    "C18_parallel_bound",
    "C18_starved_refuted",
    "C18_names"
   ],
   "note": "iterations run one after another: fair. In parallel: no peer gets more than k times its share plus k (C18_parallel_bound); fairness is refuted, up to starvation (C18_starved_refuted)"
  },
  {
   "property": "C19",
   "status": "partial",
   "theorems": [
    "C19_linear_target",
    "C19_linear_parses",
    "C19_missing_distance_refuted",
    "C19_accepts"
   ],
   "note": "selection exact; accepted strings exact (C19_accepts); a missing distance is silently accepted (refuted)"
  },
  {
   "property": "C20",
   "status": "proved",
   "theorems": [
    "C20_staggered_order",
    "C20_no_common_destination"
   ],
   "note": ""
  },
  {
   "property": "C21",
   "status": "partial",
   "theorems": [
    "C21_cardinality",
    "C21_stochastic_partial",
    "C21_distinct_peers_refuted"
   ],
   "note": "drawn cardinality proved; distinct destinations refuted: every RPC goes to instance 0"
  },
  {
   "property": "C22",
   "status": "proved",
   "theorems": [
    "C22_starts_once",
    "C22_ends_once",
    "C22_destroyed_ran_all",
    "C22_destroyed_last",
    "C22_fifo",
    "C22_elastic_bounded",
    "C22_elastic_stats",
    "C22_progress",
    "C22_elastic_add_wakes",
    "C22_create",
    "C22_elastic_every_task_has_thread_refuted",
    "C22_add"
   ],
   "note": "Null, simple and elastic pools as step systems over every interleaving; AddTask from outside after the destructor began is excluded. A full queue of the elastic pool always has an idle thread to drain it; a task queued with nobody idle is shown reachable (refuted claim)."
  },
  {
   "property": "C23",
   "status": "proved",
   "theorems": [
    "C23_fires_iff",
    "C23_once_per_arming",
    "C23_zero_disarms",
    "C23_calls",
    "C23_counter",
    "C23_disarm_race_refuted"
   ],
   "note": "Firing rule in both directions for every interleaving; the unlocked read of the callback can crash, C23_disarm_race_refuted."
  },
  {
   "property": "C24",
   "status": "proved",
   "theorems": [
    "C24_start_rule",
    "C24_delay_rule",
    "C24_life_cycle",
    "C24_complete",
    "C24_never_crashes",
    "C24_ready_actions_start",
    "C24_blocked_only_by_running_action",
    "C24_acyclic_progress",
    "C24_predicates",
    "C24_cancel_when_done",
    "C24_given_up_action_refuted",
    "C24_dependency_cycle_refuted",
    "C24_skipped_action_acts_refuted",
    "C24_cancelled_by"
   ],
   "note": "LTS of RunActionList over all schedules of the list thread, iteration callbacks and cancellation; hypotheses: dependencies resolve (checked by InitializeTables) and no NOP action. Findings: given-up actions hang the list, dependency cycles spin, skipped actions still send/cancel."
  },
  {
   "property": "C25",
   "status": "proved",
   "theorems": [
    "C25_one_response",
    "C25_sender"
   ],
   "note": "Exactly one LSend before the single LFree, by the marked action's callback or at the end; each action's callback being called at most once is C26 (closed loop) and an assumption for open loops, where C27 refutes it."
  },
  {
   "property": "C26",
   "status": "proved",
   "theorems": [
    "C26_numbers",
    "C26_exact_count",
    "C26_parallel_bound",
    "C26_parallelism_kept_up",
    "C26_completion_once",
    "C26_time_limit",
    "C26_cancellation",
    "C26_cancelled_iteration_is_last",
    "C26_never_crashes",
    "C26_progress",
    "C26_unlimited_refuted",
    "C26_zero_count_refuted",
    "C26_negative_count_refuted",
    "C26_no_copies_refuted",
    "C26_many_copies_refuted"
   ],
   "note": "for counts up to 2^31-1 and at least one copy; zero, negative and missing counts refuted separately"
  },
  {
   "property": "C27",
   "status": "partial",
   "theorems": [
    "C27_numbers",
    "C27_never_early",
    "C27_not_held_back",
    "C27_completion_once",
    "C27_never_crashes",
    "C27_cancelled_twice_refuted",
    "C27_cancelled_never_refuted",
    "C27_at_most_twice",
    "C27_cancelled_completes",
    "C27_read_before_refuted"
   ],
   "note": "holds without cancellation; with cancellation at most two completions (C27_at_most_twice), one when no iteration read the flag too early (C27_cancelled_completes); exactly once is refuted: it may happen twice or never"
  },
  {
   "property": "C28",
   "status": "proved",
   "theorems": [
    "C28_iterations_marked",
    "C28_warmup_chain",
    "C28_requests_marked"
   ],
   "note": "Marking of iterations (Iter) and propagation along any chain of RPCs and nested action lists (Rpc)."
  },
  {
   "property": "C29",
   "status": "proved",
   "theorems": [
    "C29_no_race",
    "C29_numbers",
    "C29_all_kept",
    "C29_sampled",
    "C29_schedule_independent",
    "C29_progress",
    "C29_end_order"
   ],
   "note": "Recorders as concurrent threads; the draws are an arbitrary function of the sample number. Distribution of the draws (uniformity) is not claimed."
  },
  {
   "property": "C30",
   "status": "proved",
   "theorems": [
    "C30_recorded",
    "C30_bad_peer_aborts",
    "C30_nothing_lost",
    "C30_nothing_invented",
    "C30_packed_same",
    "C30_packed_weight_refuted"
   ],
   "note": "From RecordLatency through the per-list logs and partial logs to GetLogs, for any merge order per peer; peers are assumed to have distinct log names. A latency weight of 0 reads back as 1 when samples are packed (refuted claim)."
  },
  {
   "property": "C31",
   "status": "proved",
   "theorems": [
    "C31_cancelled",
    "C31_no_index_no_size",
    "C31_bad_index",
    "C31_not_allowed",
    "C31_no_handler",
    "C31_handler_list",
    "C31_one_owner",
    "C31_error_iff_refused",
    "C31_replay_unanswered_refuted"
   ],
   "note": "All dispatch cases; the replay branch that never answers is C31_replay_unanswered_refuted."
  },
  {
   "property": "C32",
   "status": "proved",
   "theorems": [
    "C32_list_override",
    "C32_response_size",
    "C32_negative_size_refuted"
   ],
   "note": "Precedence; list overrides from AList; negative sizes wrap, C32_negative_size_refuted."
  },
  {
   "property": "C33",
   "status": "proved",
   "theorems": [
    "C33_request_size",
    "C33_one_request_per_target"
   ],
   "note": "Precedence and one request per target."
  },
  {
   "property": "C34",
   "status": "proved",
   "theorems": [
    "C34_trace_chain",
    "C34_parallel_lists",
    "C34_extends",
    "C34_sampling",
    "C34_sampling_wraps_refuted"
   ],
   "note": "Chain of contexts, sampling rule; 32-bit wrap of the counter refutes exact sampling."
  },
  {
   "property": "C35",
   "status": "proved",
   "theorems": [
    "C35_first_cancellation_kept",
    "C35_never_crashes",
    "C35_one_cancellation",
    "C35_returns_cancelled",
    "C35_refusals",
    "C35_grace_period",
    "C35_logged_reason",
    "C35_no_deadlock"
   ],
   "note": "All interleavings of CancelTraffic, RpcHandler and GetLogs."
  },
  {
   "property": "C36",
   "status": "proved",
   "theorems": [
    "C36_never_notified_twice",
    "C36_one_winner",
    "C36_exactly_one",
    "C36_stays_notified",
    "C36_can_finish"
   ],
   "note": "All interleavings of the double-checked notify."
  },
  {
   "property": "C37",
   "status": "proved",
   "theorems": [
    "C37_bijection",
    "C37_stable",
    "C37_dense"
   ],
   "note": "Up to 2^31-1 lookups."
  },
  {
   "property": "C38",
   "status": "proved",
   "theorems": [
    "C38_points",
    "C38_points_all",
    "C38_cdf",
    "C38_intervals",
    "C38_cdf_defined",
    "C38_engine_cdf_defined",
    "C38_points_defined",
    "C38_engine_points",
    "C38_engine_cdf",
    "C38_tables",
    "C38_accepted_defined_refuted",
    "C38_wide_interval_refuted",
    "C38_equal_weights_refuted",
    "C38_joint_size_refuted",
    "C38_weights_sum",
    "C38_cdf_accepted"
   ],
   "note": "Support and reachability for points and CDFs, directly and through the engine's canonical form; intervals nonempty/disjoint/cover; CDFs without NaN never undefined (IEEE float arguments); tables. Findings refuted: NaN/negative/reversed accepted, 32-bit truncation, 78 equal weights rejected, joint size distribution crashes. The random numbers themselves are arguments."
  },
  {
   "property": "C39",
   "status": "proved",
   "theorems": [
    "C39_fields",
    "C39_missing",
    "C39_invalid",
    "C39_distinct_fields",
    "C39_cdf",
    "C39_choice"
   ],
   "note": "Fields, weights, missing fields, invalid inputs, CDF expansion."
  },
  {
   "property": "C40",
   "status": "proved",
   "theorems": [
    "C40_conserved",
    "C40_instances",
    "C40_pairs",
    "C40_counters",
    "C40_time",
    "C40_defined",
    "C40_rate_without_warmup_refuted"
   ],
   "note": "All result logs: totals conserved, per instance and per pair sums, counters, time, definedness; warmup RPCs counted in the rate is refuted as a finding. Text formatting not modelled."
  },
  {
   "property": "C41",
   "status": "proved",
   "theorems": [
    "C41_percentiles",
    "C41_reported"
   ],
   "note": "IEEE double index computation (SpecFloat) proved right for up to 2^42 samples."
  },
  {
   "property": "C42",
   "status": "proved",
   "theorems": [
    "C42_string",
    "C42_int",
    "C42_added_option_is_default",
    "C42_builder_arguments",
    "C42_builder_agrees_refuted",
    "C42_sides",
    "C42_added_elsewhere"
   ],
   "note": "Lookups return the last setting of the name holding the asked type; refuted: a setting with both values is ignored by both lookups but still passed to the gRPC builder."
  },
  {
   "property": "C43",
   "status": "proved",
   "theorems": [
    "C43_named",
    "C43_named_found",
    "C43_any",
    "C43_any_found",
    "C43_loopback",
    "C43_loopback_last_refuted",
    "C43_ipv4_link_local_refuted",
    "C43_version",
    "C43_version_found",
    "C43_any_version_found_refuted",
    "C43_socket_unique",
    "C43_bind_named",
    "C43_bind_any",
    "C43_advertised",
    "C43_private_v4",
    "C43_private_6to4",
    "C43_private_v6",
    "C43_private_refuted",
    "C43_link_local_v4",
    "C43_link_local_v6"
   ],
   "note": "Exact selection rule for named and unnamed devices and for the advertised and bound addresses. Refuted: loopback can win a tie, 169.254/16 is not recognised as link local, an IP version without device can be missed."
  },
  {
   "property": "C44",
   "status": "proved",
   "theorems": [
    "C44_terminates",
    "C44_size",
    "C44_cycle",
    "C44_alias_chain",
    "C44_unresolved",
    "C44_no_inner",
    "C44_inner",
    "C44_service_options",
    "C44_default_options",
    "C44_empty_name_rejected",
    "C44_unknown_options_rejected_refuted",
    "C44_alias_keeps_device_refuted"
   ],
   "note": "Terminates for every resolver and options; size bounds, alias chains, inner options, service options. Refuted: unknown options names are accepted silently, resolving an alias loses the default device."
  },
  {
   "property": "C45",
   "status": "proved",
   "theorems": [
    "C45_alternates",
    "C45_shares",
    "C45_even",
    "C45_differ_by_one",
    "C45_never_stuck",
    "C45_finishes",
    "C45_server"
   ],
   "note": "Any interleaving and any nesting; the 32-bit counter may wrap."
  },
  {
   "property": "C46",
   "status": "proved",
   "theorems": [
    "C46_no_use_after_free",
    "C46_once",
    "C46_no_leak",
    "C46_one_waiting",
    "C46_shutdown_completes",
    "C46_joined",
    "C46_terminates",
    "C46_deaf_after_failed_finish_refuted",
    "C46_no_handler_hangs_refuted",
    "C46_contract_needed_refuted",
    "C46_handoff",
    "C46_handoff_late_read_refuted",
    "C46_inline_unanswered_refuted"
   ],
   "note": "Grpc_Model.v models the polling server's completion queue, PollingRpcHandlerFsm and ShutdownServer as a transition system with the gRPC library as environment. Deletion exactly once, no use after free, shutdown completion for every schedule, for handlers that obey read/send/free. Refuted: a failed Finish makes the server deaf; a call accepted without a handler hangs shutdown. Handoff and inline servers covered by smaller theorems."
  },
  {
   "property": "C47",
   "status": "proved",
   "theorems": [
    "C47_once",
    "C47_result",
    "C47_pending",
    "C47_no_crash",
    "C47_shutdown_waits",
    "C47_completes",
    "C47_terminates",
    "C47_late_initiate_refuted",
    "C47_unconnected_refuted"
   ],
   "note": "Both gRPC clients, every interleaving of initiations, gRPC completions, the completion thread and ShutdownClient. Shutdown statements need that RPCs are not initiated from outside callbacks once shutdown began; that this is needed is proved (C47_late_initiate_refuted)."
  },
  {
   "property": "C48",
   "status": "proved",
   "theorems": [
    "C48_round_trip",
    "C48_free",
    "C48_message",
    "C48_decode_any",
    "C48_received",
    "C48_sent",
    "C48_lengths_checked_refuted",
    "C48_truncation_detected_refuted",
    "C48_length_bounded_refuted",
    "C48_encode_errors_reported_refuted"
   ],
   "note": "Serializer, encode/decode/free; message level round trip through server input and client output. Refuted: unequal lengths, truncation, huge length, encode errors."
  },
  {
   "property": "C49",
   "status": "proved",
   "theorems": [
    "C49_once",
    "C49_complete",
    "C49_not_early",
    "C49_after_start",
    "C49_order",
    "C49_greedy",
    "C49_target",
    "C49_samples",
    "C49_never_stuck",
    "C49_terminates",
    "C49_ignored_distances_refuted"
   ],
   "note": "sent at most once and only this client's records, exactly once with one sample when the replay returns, never before its time, earliest ready first, right target and sizes, bounded number of steps; refuted: distances with a non-PRIOR mode hang the replay"
  },
  {
   "property": "C50",
   "status": "partial",
   "theorems": [
    "C50_prior_start",
    "C50_prior_end",
    "C50_single_prior_end",
    "C50_default_distance_refuted",
    "C50_last_end_refuted",
    "C50_last_recorded",
    "C50_in_order"
   ],
   "note": "start timing: after every prior RPC by the delay; end timing: after every prior end, and by the delay after the one recorded last (C50_last_recorded), so after all of them when callbacks take the mutex in the order in which they read the clock (C50_in_order). Missing, and false of the code: the delay after the latest end in general (C50_last_end_refuted) and the documented default distance (C50_default_distance_refuted)"
  },
  {
   "property": "C51",
   "status": "proved",
   "theorems": [
    "C51_setup",
    "C51_abort_only",
    "C51_bad_aborts",
    "C51_accepted_safe",
    "C51_accepted_aborts_refuted",
    "C51_channels",
    "C51_unknown_channel_refuted",
    "C51_peers"
   ],
   "note": "the statement is false of the code (C51_accepted_aborts_refuted, five ways); proved instead: exactly when setup succeeds, that only a bad target aborts a run, and which extra checks make an accepted trace safe"
  },
  {
   "property": "C52",
   "status": "proved",
   "theorems": [
    "C52_actions",
    "C52_rpcs",
    "C52_sizes",
    "C52_agree",
    "C52_dependent",
    "C52_validated",
    "C52_accepts",
    "C52_main_list",
    "C52_duplicate_rpcs_refuted",
    "C52_duplicate_services_refuted",
    "C52_duplicate_lists_refuted",
    "C52_override_refuted",
    "C52_size_refuted",
    "C52_unknown_distribution_refuted",
    "C52_validation_undefined_refuted"
   ],
   "note": "Names of services and RPCs must be distinct; what happens otherwise, and what validation lets through, is proved in the _refuted theorems. C52_accepts gives the converse: a configuration whose references are all defined is accepted."
  },
  {
   "property": "C53",
   "status": "proved",
   "theorems": [
    "C53_peers",
    "C53_bijection",
    "C53_connected",
    "C53_agree",
    "C53_total",
    "C53_empty_address_refuted",
    "C53_names_refuted"
   ],
   "note": "ConnectToPeers and the gRPC client's HandleConnect (Peer_Model.v). Peers, ids, addresses and trace numbers for all canonical configurations with distinct slash-free service names and known endpoints; refuted: empty addresses, unknown endpoint names and slashes abort the engine."
  },
  {
   "property": "C54",
   "status": "proved",
   "theorems": [
    "C54_members",
    "C54_addresses",
    "C54_accepted",
    "C54_right_channel",
    "C54_index_refuted",
    "C54_selected_refuted",
    "C54_unused_channel_refuted",
    "C54_missing_member_refuted"
   ],
   "note": "Members of every multi-server channel and the addresses its gRPC channel gets, for all configurations. Which channel an RPC uses is only right if no earlier service called by the engine has channels (C54_right_channel); otherwise it goes to another service's channel (C54_index_refuted)."
  },
  {
   "property": "C55",
   "status": "proved",
   "theorems": [
    "C55_sum",
    "C55_default",
    "C55_empty",
    "C55_unparsable",
    "C55_not_positive",
    "C55_only",
    "C55_flag",
    "C55_no_flag",
    "C55_flag_negative",
    "C55_deadline",
    "C55_deadline_positive_refuted",
    "C55_flag_defined_refuted",
    "C55_min_rejected_refuted"
   ],
   "note": "Refuted: narrowing of the deadline, infinite flag value overflows, INT64_MIN is accepted as unset."
  },
  {
   "property": "C56",
   "status": "proved",
   "theorems": [
    "C56_configured",
    "C56_coordinates",
    "C56_lifecycle",
    "C56_previous_discarded",
    "C56_max_threads",
    "C56_name_without_index",
    "C56_run",
    "C56_never_terminates",
    "C56_results",
    "C56_clear",
    "C56_cancel",
    "C56_peers",
    "C56_refused_unchanged_refuted",
    "C56_all_or_nothing_refuted",
    "C56_run_failure_refuted"
   ],
   "note": "Proved for every reachable node: exactly one engine and endpoint per requested name with coordinates and address, earlier engines discarded, create/use/join/destroy order of engines over every request history. Refuted (C56_*_refuted): a refused request leaves the node unchanged; configuration is all-or-nothing; a failed RunTraffic leaves the node restartable."
  },
  {
   "property": "C57",
   "status": "proved",
   "theorems": [
    "C57_sums",
    "C57_order",
    "C57_no_overflow"
   ],
   "note": "Sums over all runs in any order; signed overflow is a separate outcome, excluded when the totals fit."
  },
  {
   "property": "C58",
   "status": "proved",
   "theorems": [
    "C58_grpc_round_trip",
    "C58_absl_round_trip",
    "C58_outcome",
    "C58_annotate",
    "C58_unknown_code"
   ],
   "note": "Every status code, known or not."
  },
  {
   "property": "C59",
   "status": "proved",
   "theorems": [
    "C59_fresh_and_exclusive",
    "C59_cache"
   ],
   "note": "Random generator state is carried over and left out."
  },
  {
   "property": "C60",
   "status": "proved",
   "theorems": [
    "C60_pending_count",
    "C60_overload_cancels",
    "C60_overload_only_above_limit",
    "C60_iteration_finish"
   ],
   "note": "Pending count equals RPCs sent minus completed in every interleaving; overload cancels."
  },
  {
   "property": "C61",
   "status": "proved",
   "theorems": [
    "C61_activity_count"
   ],
   "note": ""
  },
  {
   "property": "C62",
   "status": "proved",
   "theorems": [
    "C62_accepted_runs",
    "C62_amount",
    "C62_unknown_rejected",
    "C62_duration_required",
    "C62_accepted_allocates_refuted",
    "C62_accepted_defined_refuted"
   ],
   "note": "Exact acceptance; refuted: accepted array sizes that cannot be allocated or that become 0 after narrowing."
  },
  {
   "property": "C63",
   "status": "proved",
   "theorems": [
    "C63_client",
    "C63_server",
    "C63_statistics"
   ],
   "note": "Counters are unbounded in the model."
  },
  {
   "property": "C64",
   "status": "proved",
   "theorems": [
    "C64_once",
    "C64_result",
    "C64_pending",
    "C64_peers",
    "C64_identity",
    "C64_shutdown_waits",
    "C64_nested",
    "C64_shutdown_possible",
    "C64_always_called_refuted",
    "C64_failure_reported_refuted",
    "C64_late_refuted"
   ],
   "note": "Client as a transition system over all interleavings. Refuted: always called back, failure reported, late RPC completes."
  },
  {
   "property": "C65",
   "status": "proved",
   "theorems": [
    "C65_sent",
    "C65_copied",
    "C65_one_piece",
    "C65_in_pieces",
    "C65_fall_back",
    "C65_any_cut_refuted",
    "C65_copied_refuted",
    "C65_ping_pong"
   ],
   "note": "Messages above 1 MiB overrun the copying receiver's buffer: proved as C65_copied_refuted. Fast path on messages without payload above 4096 bytes: see C04."
  },
  {
   "property": "C66",
   "status": "proved",
   "theorems": [
    "C66_once",
    "C66_result",
    "C66_pending",
    "C66_one_thread",
    "C66_shutdown_waits",
    "C66_leaving",
    "C66_idle_shutdown",
    "C66_shutdown_hangs_refuted",
    "C66_failure_reported_refuted",
    "C66_unparsable_refuted"
   ],
   "note": "Transition system of client, kernel, completion threads and shutdown. Refuted parts: C66_shutdown_hangs_refuted, C66_failure_reported_refuted, C66_unparsable_refuted."
  },
  {
   "property": "C67",
   "status": "proved",
   "theorems": [
    "C67_requests",
    "C67_no_dangling",
    "C67_shutdown_waits",
    "C67_one_thread_mapped",
    "C67_mapped_refuted",
    "C67_unanswered_refuted",
    "C67_before",
    "C67_serves"
   ],
   "note": "Refuted parts: C67_mapped_refuted (two or more threads), C67_unanswered_refuted."
  },
  {
   "property": "C68",
   "status": "proved",
   "theorems": [
    "C68_modes",
    "C68_mode_known"
   ],
   "note": ""
  },
  {
   "property": "C69",
   "status": "proved",
   "theorems": [
    "C69_negative_count_refuted",
    "C69_defined_refuted",
    "C69_runnable_refuted",
    "C69_unnamed_refuted"
   ],
   "note": "What the code does not guarantee is refuted in C69_*_refuted."
  },
  {
   "property": "C70",
   "status": "proved",
   "theorems": [
    "C70_one_node",
    "C70_constrained",
    "C70_constraints_refuted",
    "C70_started",
    "C70_success",
    "C70_canonical_twice_refuted"
   ],
   "note": "What the code does not guarantee is refuted in C70_*_refuted."
  },
  {
   "property": "C71",
   "status": "proved",
   "theorems": [
    "C71_arguments",
    "C71_alias",
    "C71_order_refuted",
    "C71_names_refuted"
   ],
   "note": ""
  },
  {
   "property": "C72",
   "status": "proved",
   "theorems": [
    "C72_given",
    "C72_by_name",
    "C72_by_device",
    "C72_registration",
    "C72_accepted",
    "C72_control_ip_refuted"
   ],
   "note": ""
  },
  {
   "property": "C73",
   "status": "proved",
   "theorems": [
    "C73_every_node_once",
    "C73_failed_stub_refuted",
    "C73_inactive",
    "C73_all_inactive"
   ],
   "note": ""
  },
  {
   "property": "C74",
   "status": "proved",
   "theorems": [
    "C74_engines",
    "C74_placement",
    "C74_once",
    "C74_traffic",
    "C74_logs",
    "C74_cleared",
    "C74_any_outcome",
    "C74_ends",
    "C74_succeeds",
    "C74_two_engines_refuted",
    "C74_failure_cleared_refuted"
   ],
   "note": "C74_two_engines_refuted: an instance that is both bundled and constrained runs as two engines, one of which is unknown to its peers and whose log may be lost. C74_failure_cleared_refuted: a failed test leaves engines on the nodes that did not fail."
  },
  {
   "property": "C75",
   "status": "proved",
   "theorems": [
    "C75_delivered",
    "C75_channel",
    "C75_requests",
    "C75_received",
    "C75_refused",
    "C75_call",
    "C75_wrong_client",
    "C75_foreign_filter_refuted"
   ],
   "note": "the network is an oracle: a connection request is answered by the engine listening at the address; the gRPC driver's connection table as in C53/C54"
  },
  {
   "property": "C76",
   "status": "proved",
   "theorems": [
    "C76_status",
    "C76_cancels_first",
    "C76_results",
    "C76_reported",
    "C76_again",
    "C76_quiet",
    "C76_accepted",
    "C76_ends",
    "C76_succeeds",
    "C76_left_running_refuted"
   ],
   "note": "One sequence at a time (concurrent callers: C12); the registry does not change during a sequence; summary and size of the reply are oracles (C40, C41 model the summary). C76_left_running_refuted: a failed sequence leaves engines running until the next request."
  },
  {
   "property": "C77",
   "status": "proved",
   "theorems": [
    "C77_grpc",
    "C77_grpc_refused",
    "C77_homa",
    "C77_homa_throws",
    "C77_mercury",
    "C77_mercury_never_throws",
    "C77_mercury_info",
    "C77_tree",
    "C77_fields",
    "C77_announced",
    "C77_connects",
    "C77_grpc_connects",
    "C77_serves",
    "C77_accepted",
    "C77_delivered",
    "C77_homa_server_threads_refuted",
    "C77_homa_initialises_refuted",
    "C77_async_callback_refuted",
    "C77_client_transport_refuted",
    "C77_kinds_match_refuted",
    "C77_no_address",
    "C77_no_address_version"
   ],
   "note": "Outside calls (socket, bind, BuildAndStart, HG_*) are oracles; expectations the code falsifies are the C77_*_refuted theorems."
  },
  {
   "property": "C78",
   "status": "proved",
   "theorems": [
    "C78_result",
    "C78_counts",
    "C78_pairs",
    "C78_instances",
    "C78_latencies",
    "C78_time",
    "C78_defined",
    "C78_kept",
    "C78_log",
    "C78_again",
    "C78_reason_lost_refuted",
    "C78_replayed_once_refuted"
   ],
   "note": "End-to-end composition of C36, C40, C41, C53, C74. The recorded RPCs are arguments (C28-C35 say what is recorded). Two refuted statements record findings."
  },
  {
   "property": "C79",
   "status": "proved",
   "theorems": [
    "C79_text",
    "C79_reported",
    "C79_total_rate_refuted"
   ],
   "note": "C79_text is about any logs, C79_reported about a test that was run. Found false and recorded: the total rates use the longest time between two instances instead of the duration of the test (C79_total_rate_refuted)."
  },
  {
   "property": "C80",
   "status": "proved",
   "theorems": [
    "C80_bound",
    "C80_exact",
    "C80_same",
    "C80_total",
    "C80_reported",
    "C80_failures_refuted"
   ],
   "note": "Bound for every execution, exact numbers for complete ones, equality of two executions, total and reported summary. Executions are records of what each list, action and iteration did, constrained by the models of C24, C26, C27, C52, C74, C75 and C78; lists that start one another in a circle are excluded (layered). Multi-server channels, replays and activities start no recorded RPC here. C80_failures_refuted: with failing RPCs a completed test makes fewer."
  },
  {
   "property": "C81",
   "status": "proved",
   "theorems": [
    "C81_counters",
    "C81_defined",
    "C81_cpu",
    "C81_nonneg",
    "C81_node",
    "C81_before_run",
    "C81_test",
    "C81_sequence",
    "C81_peak",
    "C81_shared_refuted",
    "C81_peak_refuted"
   ],
   "note": "C81_shared_refuted, C81_peak_refuted and C81_before_run record what the numbers do not say: nodes in one process each report the whole process, and the growth of the resident set is not the test's own."
  },
  {
   "property": "C82",
   "status": "proved",
   "theorems": [
    "C82_order",
    "C82_delay",
    "C82_wait",
    "C82_clients",
    "C82_iterations",
    "C82_response",
    "C82_sender",
    "C82_cancel"
   ],
   "note": "Composition of C24-C28, C32, C52 and C75 on the executions of C80: the same statements in terms of the configuration of the test instead of the compiled tables."
  },
  {
   "property": "C83",
   "status": "proved",
   "theorems": [
    "C83_everyone",
    "C83_in_time",
    "C83_asked",
    "C83_closed",
    "C83_bounded",
    "C83_progress",
    "C83_why",
    "C83_ends",
    "C83_waits",
    "C83_all_gone",
    "C83_failed_registration",
    "C83_delivers",
    "C83_wait_refuted",
    "C83_hang_refuted",
    "C83_zombie_refuted"
   ],
   "note": "Refuted parts are findings: C83_wait_refuted, C83_hang_refuted, C83_zombie_refuted."
  },
  {
   "property": "C84",
   "status": "proved",
   "theorems": [
    "C84_resolver",
    "C84_no_dangling",
    "C84_same_table",
    "C84_latest",
    "C84_plain",
    "C84_threads",
    "C84_order_refuted",
    "C84_stale_refuted",
    "C84_destroyed_refuted"
   ],
   "note": "Refuted parts are findings: C84_order_refuted, C84_stale_refuted, C84_destroyed_refuted."
  },
  {
   "property": "C85",
   "status": "proved",
   "theorems": [
    "C85_stages",
    "C85_no_late_work",
    "C85_body",
    "C85_body_safe_refuted",
    "C85_body_plain",
    "C85_deletable",
    "C85_report",
    "C85_complete",
    "C85_joined",
    "C85_all_logged_refuted",
    "C85_terminate",
    "C85_terminates",
    "C85_setups",
    "C85_setups_none"
   ],
   "note": "Two statements are refuted by the code: C85_body_safe_refuted (use of destroyed members by a pool thread) and C85_all_logged_refuted (logs of handlers missing from the result)."
  },
  {
   "property": "C86",
   "status": "proved",
   "theorems": [
    "C86_decoded",
    "C86_same_message",
    "C86_no_misuse",
    "C86_lives",
    "C86_builds_agree",
    "C86_answered_twice_refuted",
    "C86_at_most_once",
    "C86_answered",
    "C86_buffers",
    "C86_quiet",
    "C86_shutdown_ends",
    "C86_progressed",
    "C86_last_progress_refuted",
    "C86_buffers_deleted_refuted",
    "C86_early_request_refuted",
    "C86_long_request_refuted",
    "C86_serves"
   ],
   "note": "All interleavings of the polling thread, handlers, pool tasks and ShutdownServer; what Mercury does is an argument (accept or refuse a response, which responses a progress call completes). Refuted parts: responses sent by pool tasks may never be progressed, buffers leak, early or oversized requests end the process, release builds send a second response."
  },
  {
   "property": "C87",
   "status": "proved",
   "theorems": [
    "C87_lock_held",
    "C87_await_held",
    "C87_same",
    "C87_result",
    "C87_never_early",
    "C87_spins_on",
    "C87_no_deadline",
    "C87_turns",
    "C87_on_time_refuted",
    "C87_spin_for",
    "C87_spin_for_ends",
    "C87_spin_for_crash"
   ],
   "note": "absl::Mutex, absl::Now and the thread CPU clock are oracles; assumed: a blocking wait returns false only after its deadline, and CPU time is not faster than real time. Refuted: a spinning wait gives up at its deadline."
  },
  {
   "property": "C88",
   "status": "proved",
   "theorems": [
    "C88_exchange",
    "C88_handled_once",
    "C88_survives",
    "C88_all_answered",
    "C88_can_finish",
    "C88_server_gone_refuted"
   ],
   "note": "Mercury delivers requests at most once and unchanged and calls every accepted RPC back once (trusted). Handlers are functions of the request and its number; memory for the messages is assumed. Refuted: an RPC to a server that is gone has a callback without an error of Mercury."
  },
  {
   "property": "C89",
   "status": "proved",
   "theorems": [
    "C89_safe",
    "C89_answer",
    "C89_shutdown_waits",
    "C89_shutdown_completes",
    "C89_terminates",
    "C89_no_handler_hangs_refuted",
    "C89_silent_handler_refuted",
    "C89_contract_needed_refuted"
   ],
   "note": "Both servers are modelled with their handlers' operations as separate steps; two statements about shutdown are refuted, see Findings."
  },
  {
   "property": "C90",
   "status": "proved",
   "theorems": [
    "C90_exchange",
    "C90_handled_once",
    "C90_survives",
    "C90_all_answered",
    "C90_completes",
    "C90_terminates",
    "C90_deaf_server_refuted",
    "C90_acts",
    "C90_called_with_request"
   ],
   "note": "The completion part is for servers that were not shut down and whose responses could all be sent; C90_deaf_server_refuted shows a polling server that stops answering otherwise."
  },
  {
   "property": "C91",
   "status": "proved",
   "theorems": [
    "C91_exchange",
    "C91_handled_once",
    "C91_survives",
    "C91_all_answered",
    "C91_completes",
    "C91_terminates",
    "C91_lost_refuted"
   ],
   "note": "Messages must be readable where they lie (C65) and failures reported with a length, as C65_any_cut_refuted and C66_failure_reported_refuted show; C91_lost_refuted shows the RPC dropped by a server that shuts down."
  },
  {
   "property": "C92",
   "status": "proved",
   "theorems": [
    "C92_once",
    "C92_no_crash",
    "C92_shutdown_waits",
    "C92_completes",
    "C92_terminates",
    "C92_even",
    "C92_callback_initiate_refuted",
    "C92_nested"
   ],
   "note": "Composes the concurrent driver tree of C45 with the gRPC clients of C46/C47; the discipline (no RPC after ShutdownClient was called) is necessary below a double barrel, shown by C92_callback_initiate_refuted."
  },
  {
   "property": "C93",
   "status": "proved",
   "theorems": [
    "C93_homa_released",
    "C93_homa_one_thread",
    "C93_homa_buffer_refuted",
    "C93_homa_leak_refuted",
    "C93_homa_threads",
    "C93_homa_threads_after_success_refuted",
    "C93_mercury_released",
    "C93_mercury_ordered",
    "C93_mercury_threads",
    "C93_mercury_deregisters",
    "C93_mercury_deregister_refuted",
    "C93_mercury_self_refuted",
    "C93_mercury_reconnect_refuted"
   ],
   "note": "The order of acquisitions and releases only: join is taken to return, mmap and setsockopt to succeed (their results are not looked at). C93_*_refuted are findings: the Homa server buffer is unmapped after the first of several server threads ended, leaked with none; Homa threads start before bind; Mercury leaks addresses and deregisters an unset id."
  },
  {
   "property": "C94",
   "status": "proved",
   "theorems": [
    "C94_grpc_released",
    "C94_tree_lives",
    "C94_tree_failed",
    "C94_tree_released",
    "C94_failed_released",
    "C94_connect",
    "C94_connect_atomic_refuted",
    "C94_shutdown",
    "C94_channels",
    "C94_channels_refuted"
   ],
   "note": "gRPC drivers release what they make whatever fails; leaves of trees live as on their own; connecting is in order but not atomic, and channels do not pass composites (refuted)"
  },
  {
   "property": "C95",
   "status": "proved",
   "theorems": [
    "C95_no_deadlock",
    "C95_overload_while_reading",
    "C95_completes",
    "C95_exclusion",
    "C95_conditions",
    "C95_overload_start_refuted",
    "C95_overload_join_refuted",
    "C95_cancel_waits_refuted",
    "C95_overload_writer_refuted"
   ],
   "note": "Programs over-approximate what each function does with mutexes; waits for RPC replies, completion queues and gRPC server shutdown are left out (RPCs have deadlines). The refuted theorems are the cases with the overload callback and with a waiting writer."
  },
  {
   "property": "C96",
   "status": "proved",
   "theorems": [
    "C96_holds_mutex",
    "C96_no_race",
    "C96_living",
    "C96_reason_refuted",
    "C96_activity_logs_refuted",
    "C96_generator_refuted",
    "C96_next_time_refuted",
    "C96_run_traffic_refuted",
    "C96_destroy_refuted",
    "C96_initialize_refuted",
    "C96_callback_refuted"
   ],
   "note": "Fields are those of Lock_Model.v; those set up before threads start, atomics and packed samples are not among them; of next_iteration_time and the generator of an iteration only what several threads may do at once. Executions interleave single accesses. The refuted theorems are the nine fields that race in the code."
  },
  {
   "property": "C97",
   "status": "proved",
   "theorems": [
    "C97_full_refuted",
    "C97_exit_refuted",
    "C97_too_large_refuted"
   ],
   "note": "Streams of protobuf and of the C++ library are modelled down to writes to a device that takes a number of bytes; what the printer writes is an argument. The refuted theorems are findings."
  },
  {
   "property": "C98",
   "status": "proved",
   "theorems": [
    "C98_once",
    "C98_safe",
    "C98_destroyed",
    "C98_gone",
    "C98_drains",
    "C98_order",
    "C98_init_refuted"
   ],
   "note": "Mercury's thread pool itself is a stated assumption: a queue, workers that take from its front, a destroy that lets them empty it and joins them, a pointer set only on success. C98_init_refuted records the unchecked initialisation."
  },
  {
   "property": "C99",
   "status": "proved",
   "theorems": [
    "C99_copied",
    "C99_untouched",
    "C99_size",
    "C99_sent",
    "C99_size_refuted"
   ],
   "note": "The function is declared in distbench_utils.h but not called in this commit. C99_size_refuted is the finding."
  },
  {
   "property": "C100",
   "status": "proved",
   "theorems": [
    "C100_answered",
    "C100_failed",
    "C100_grpc_failed_refuted",
    "C100_other_failed_refuted",
    "C100_unsupported",
    "C100_cancels",
    "C100_weights",
    "C100_fanout",
    "C100_replayed",
    "C100_replay_failed_refuted"
   ],
   "note": "End times are in Log_Model.v (C29, C30)."
  }
 ]
}