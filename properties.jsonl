{"id": "C01", "title": "Padding hits the requested serialized size", "statement": "After padding a request/response to a target size, its serialized size is exactly the target whenever that is achievable (target at least two bytes above the message without payload and trim, or equal to its present size); one byte above the bare message gives exactly one byte too much, and a target at or below the bare message removes the payload and leaves the bare message. No other field changes.", "quantifier": "every message content (all optional fields) and every target size", "why_tests_cant": "The varint length prefix changes width at every power of 128, so the boundary cases are unbounded; unit tests sample a few thousand sizes of one message.", "anchors": ["distbench_payload.cc:GetPaddingForSerializedSize", "distbench_payload.cc:PayloadAllocator::AddPadding", "distbench_payload.cc:VarIntSize"]}
{"id": "C02", "title": "Varint encode/decode round trip and memory safety", "statement": "Decoding the encoding of any 64-bit value returns that value and consumes exactly the encoded bytes, the announced encoded size is the real one, and decoding arbitrary bytes never reads outside the given buffer, consumes at most 10 bytes, and fails on truncated or over-long input without moving the cursor.", "quantifier": "every uint64 value, every byte buffer, every start position", "why_tests_cant": "2^64 values and arbitrary hostile buffers cannot be enumerated.", "anchors": ["distbench_payload.cc:MakeVarInt", "distbench_payload.cc:ReadVarInt", "distbench_payload.cc:VarIntSize"]}
{"id": "C03", "title": "Zero-copy serialization is equivalent to ordinary serialization", "statement": "The copy-avoiding serializer produces bytes which parse back to the original message for every message, and produces the identical byte string as the ordinary serializer whenever no field numbered after the payload is set.", "quantifier": "every message", "why_tests_cant": "All combinations of optional fields and payload lengths are needed.", "anchors": ["distbench_payload.cc:SerializeToCord", "distbench.proto:GenericRequestResponse"]}
{"id": "C04", "title": "Metadata scan locates the payload", "statement": "For any serialized message whose payload is the last field, and any fragment of it that contains at least the metadata and the payload header, the metadata scan returns the metadata length and the payload offset; when the payload is followed by other fields it reports that fast parsing is impossible; a receiver using these numbers reconstructs the sent message.", "quantifier": "every message and every fragment length", "why_tests_cant": "Fragment boundaries and payload lengths vary without bound.", "anchors": ["distbench_payload.cc:MetaDataLength", "protocol_driver_homa.cc:FastParse"]}
{"id": "C05", "title": "Grid coordinates and instance numbers are in bijection", "statement": "For every 1D/2D/3D service, instance number to grid coordinate to instance number is the identity on 0..count-1, coordinates stay in range, and every in-range coordinate belongs to exactly one instance.", "quantifier": "every service shape and every instance", "why_tests_cant": "All sizes x*y*z are needed.", "anchors": ["distbench_utils.cc:GetServiceIndex", "distbench_utils.cc:GetInstanceFromGridIndex"]}
{"id": "C06", "title": "Instance names are unique and parse back", "statement": "Distinct instances of the services of one test get distinct names, and parsing an instance name returns the grid coordinate it was made from, for service names without '/'.", "quantifier": "every set of services with distinct names, every pair of instances", "why_tests_cant": "Quantifies over all names and all instance pairs.", "anchors": ["distbench_utils.cc:GetInstanceName", "distbench_utils.cc:GetGridIndexFromName"]}
{"id": "C07", "title": "Service-shape canonicalisation is sound and idempotent", "statement": "A service description is accepted exactly when its sizes are positive, dimensions are given in order, and an explicit count equals the product; the accepted result has count = x*y*z, keeps every user-supplied value, and canonicalising twice changes nothing.", "quantifier": "every service description", "why_tests_cant": "The optional-field combinations multiply with unbounded sizes.", "anchors": ["distbench_utils.cc:GetCanonicalServiceSpec"]}
{"id": "C08", "title": "Test-description validation accepts exactly the valid descriptions", "statement": "A test sequence is accepted iff every test has valid service shapes, valid replay traces, known interval distributions and no predicate name starting with '!'; the canonical form only completes service shapes.", "quantifier": "every test sequence", "why_tests_cant": "Quantifies over all descriptions, including every predicate name.", "anchors": ["distbench_utils.cc:GetCanonicalDistributedSystemDescription", "distbench_utils.cc:GetCanonicalTestSequence", "distbench_utils.cc:ValidateIterations"]}
{"id": "C09", "title": "Service placement is complete, exclusive and honours bundles and constraints", "statement": "When placement succeeds every service instance is on exactly one registered node; a bundle node hosts exactly its bundle; any other node hosts at most one instance; an instance with constraints sits on a node whose attributes satisfy them.", "quantifier": "every test description and every set of nodes with attributes", "why_tests_cant": "Arbitrary numbers of nodes, services, bundles and constraints interact.", "anchors": ["distbench_test_sequencer.cc:ConstraintSolver", "distbench_test_sequencer.cc:TestSequencer::PlaceServices"]}
{"id": "C10", "title": "Constraint matching is AND of ORs", "statement": "A node matches a constraint list iff every constraint set has some constraint for which some attribute with that name is in the stated relation to some listed value; string values support only (in)equality, integer values only parseable attributes.", "quantifier": "every constraint list and attribute list", "why_tests_cant": "All nestings and attribute multiplicities are needed.", "anchors": ["distbench_utils.cc:CheckConstraintList", "distbench_utils.cc:CheckConstraintSet", "distbench_utils.cc:CheckConstraint", "distbench_utils.cc:CheckIntConstraint", "distbench_utils.cc:CheckStringConstraint"]}
{"id": "C11", "title": "Node registration hands out unique, stable identities", "statement": "Over any history of registrations, two different accepted registrations never share an id or alias, repeating a registration returns the same id and alias, a granted preassigned id is the requested one, and no request ever disturbs an already registered node.", "quantifier": "every sequence of registration requests, including conflicting preassigned ids", "why_tests_cant": "Histories are unbounded and preassigned ids leave gaps that later registrations fall into.", "anchors": ["distbench_test_sequencer.cc:TestSequencer::RegisterNode"]}
{"id": "C12", "title": "At most one test sequence runs at a time", "statement": "However many clients ask for test sequences concurrently, at most one is executing tests at any moment, and a sequence only starts after the previous one has finished.", "quantifier": "every number of callers and every interleaving of their steps", "why_tests_cant": "Depends on all thread schedules.", "anchors": ["distbench_test_sequencer.cc:TestSequencer::RunTestSequence"]}
{"id": "C13", "title": "Test results match the tests, in order", "statement": "A successful test sequence returns one result per test in the order given; a failing or cancelled sequence returns the results of a proper prefix; an over-large reply is cleared and reported.", "quantifier": "every test sequence and every outcome history of the individual tests", "why_tests_cant": "Quantifies over all outcome and cancellation histories.", "anchors": ["distbench_test_sequencer.cc:TestSequencer::DoRunTestSequence"]}
{"id": "C14", "title": "Traffic results are collected from every node exactly once", "statement": "Whatever the order in which nodes answer, a successful run merges the reply of each participating node exactly once, reports failure if any node failed, and leaves no node marked active; a run that fails early leaves the nodes marked active so that the next sequence cancels them.", "quantifier": "every set of nodes, every completion order and every pattern of failures", "why_tests_cant": "Completion orders grow factorially.", "anchors": ["distbench_test_sequencer.cc:TestSequencer::RunTraffic", "distbench_test_sequencer.cc:TestSequencer::CancelTraffic"]}
{"id": "C15", "title": "Fanout targets are valid peers, never self, never duplicated", "statement": "For every fanout filter, the chosen targets are existing instance numbers of the target service, contain no duplicates, and never contain the sender itself.", "quantifier": "every filter, service shape, sender coordinate, random choice and counter value", "why_tests_cant": "Shapes and coordinates are unbounded; out-of-range targets are undefined behaviour rather than a test failure.", "anchors": ["distbench_engine.cc:DistBenchEngine::PickRpcFanoutTargets", "distbench_engine.cc:DistBenchEngine::PickGridTargets", "distbench_engine.cc:DistBenchEngine::PickRingTargets", "distbench_engine.cc:DistBenchEngine::PickLinearTargets"]}
{"id": "C16", "title": "Grid filters select exactly the matching coordinates", "statement": "same_x, same_y, same_z and their combinations select exactly the peers whose named coordinates equal the sender's (excluding the sender itself); 'all' selects every peer.", "quantifier": "every grid shape and sender coordinate", "why_tests_cant": "All shapes and coordinates are needed.", "anchors": ["distbench_engine.cc:DistBenchEngine::PickGridTargets"]}
{"id": "C17", "title": "Ring filters form rings", "statement": "For ring_x/y/z each instance sends to the instance whose named coordinate is one higher modulo the size of that axis and whose other coordinates are equal; over all instances this is a permutation, and following it visits the whole line of the grid in fewer steps than the line is long. The alternating variants run backwards on lines with an odd cross coordinate (y for alternating_ring_x, x for the others) and are permutations visiting whole lines as well.", "quantifier": "every grid shape", "why_tests_cant": "A global property over all instances of arbitrary grids.", "anchors": ["distbench_engine.cc:DistBenchEngine::PickRingTargets"]}
{"id": "C18", "title": "Round robin and random_single are fair", "statement": "Over any window of consecutive round-robin RPCs as long as the number of eligible peers, each eligible peer is targeted exactly once; random_single maps its uniform draw one-to-one onto the eligible peers.", "quantifier": "every service size, sender and starting counter value", "why_tests_cant": "Quantifies over all windows of an unbounded history.", "anchors": ["distbench_engine.cc:DistBenchEngine::PickRpcFanoutTargets"]}
{"id": "C19", "title": "Linear filters select exactly the peer at the signed distance", "statement": "linear_x/y/z{d} selects exactly the peer whose named coordinate is the sender's plus d, with the other coordinates equal, and no peer at all when that leaves the grid (or is the sender itself); a filter string without a distance is rejected.", "quantifier": "every shape, coordinate and distance", "why_tests_cant": "All shapes, coordinates and distances are needed.", "anchors": ["distbench_engine.cc:DistBenchEngine::PickLinearTargets", "distbench_engine.cc:DistBenchEngine::InitializeRpcFanoutFilter"]}
{"id": "C20", "title": "All-to-all fanout is staggered", "statement": "When every instance of a service fans out to all others, the k-th targets of the different senders are pairwise distinct, so no receiver is hit by two senders in the same position.", "quantifier": "every service size and every position", "why_tests_cant": "A global property over all senders of arbitrary services.", "anchors": ["distbench_engine.cc:DistBenchEngine::PickRpcFanoutTargets"]}
{"id": "C21", "title": "Stochastic fanout picks the requested number of distinct peers", "statement": "A stochastic filter targets the drawn number of distinct peers (bounded by the number available).", "quantifier": "every cardinality and service size", "why_tests_cant": "Quantifies over all cardinalities and random draws.", "anchors": ["distbench_engine.cc:DistBenchEngine::PickRpcFanoutTargets"]}
{"id": "C22", "title": "Thread pools run every task exactly once", "statement": "For each thread pool kind and every interleaving, every submitted task starts at most once, a destroyed pool has run every submitted task exactly once, and the elastic pool's queue never exceeds its configured size.", "quantifier": "every number of tasks, threads, sizes, timeouts and every interleaving", "why_tests_cant": "Depends on all schedules.", "anchors": ["distbench_threadpool.cc:NullThreadpool", "distbench_threadpool.cc:SimpleThreadpool", "distbench_threadpool.cc:ElasticThreadpool"]}
{"id": "C23", "title": "Overload abort fires at most once per arming and only above the threshold", "statement": "The overload callback is triggered at most once after each arming of the threshold, only when more threads than the threshold exist, and never when disarmed.", "quantifier": "every sequence of thread starts, exits and threshold changes", "why_tests_cant": "Unbounded histories.", "anchors": ["distbench_thread_support.cc:RunRegisteredThread", "distbench_thread_support.cc:SetOverloadAbortThreshhold"]}
{"id": "C24", "title": "Actions respect dependencies, predicates and start at most once", "statement": "In every run of an action list, an action starts only after all its dependencies have finished, starts at most once, is skipped iff one of its predicates is false or a dependency was skipped, and a run that ends normally has finished or skipped every action.", "quantifier": "every action list, predicate outcome and completion schedule", "why_tests_cant": "Quantifies over all dependency graphs and completion orders.", "anchors": ["distbench_engine.cc:DistBenchEngine::RunActionList", "distbench_engine.cc:DistBenchEngine::ActionListState::HandleFinishedActions"]}
{"id": "C25", "title": "A handled RPC gets exactly one response", "statement": "An RPC served by an action list gets exactly one response: after the action marked to send it has finished, otherwise at the end of the list; and its resources are released exactly once.", "quantifier": "every action list and completion schedule", "why_tests_cant": "Quantifies over all schedules.", "anchors": ["distbench_engine.cc:DistBenchEngine::RunActionList", "distbench_engine.cc:DistBenchEngine::RpcHandler"]}
{"id": "C26", "title": "Closed-loop actions run exactly the requested iterations", "statement": "A closed-loop action without a time limit and not cancelled runs exactly max_iteration_count iterations numbered 0..n-1, never more than max_parallel_iterations at once, and reports completion exactly once, after the last iteration; with a time limit or cancellation it starts no new iteration after the condition is observed and still reports completion exactly once.", "quantifier": "every limit, parallelism, completion order and cancellation point", "why_tests_cant": "All interleavings of completions.", "anchors": ["distbench_engine.cc:DistBenchEngine::InitiateAction", "distbench_engine.cc:DistBenchEngine::FinishIteration", "distbench_engine.cc:DistBenchEngine::StartNewIterations"]}
{"id": "C27", "title": "Open-loop actions keep to their schedule and complete once", "statement": "An open-loop action starts iteration k at its scheduled time independent of completions, starts no more than max_iteration_count iterations, and reports completion exactly once after all of them.", "quantifier": "every interval, limit and interleaving of starts, completions and cancellation", "why_tests_cant": "All interleavings.", "anchors": ["distbench_engine.cc:DistBenchEngine::StartOpenLoopIteration", "distbench_engine.cc:DistBenchEngine::FinishIteration"]}
{"id": "C28", "title": "Warmup marking is exact and propagates", "statement": "An RPC is marked warmup iff its action list was itself triggered by a warmup RPC or replay, or its iteration number is below warmup_iterations; nested action lists and downstream RPCs inherit the mark.", "quantifier": "every nesting of action lists and every iteration", "why_tests_cant": "Arbitrary nesting depth.", "anchors": ["distbench_engine.cc:DistBenchEngine::StartIteration", "distbench_engine.cc:DistBenchEngine::RunActionList", "distbench_engine.cc:DistBenchEngine::RunRpcActionIterationCommon"]}
{"id": "C29", "title": "Reservoir sampling keeps a bounded, schedule-independent sample", "statement": "With a sample limit m, if at most m RPCs finish all are kept; otherwise exactly m distinct samples are kept, each a really recorded RPC, and which ones are kept depends only on the random draws, not on the order in which concurrent recorders reach the reservoir.", "quantifier": "every number of samples, every draw and every interleaving", "why_tests_cant": "All interleavings of concurrent recorders.", "anchors": ["distbench_engine.cc:DistBenchEngine::ActionListState::RecordLatency", "distbench_engine.cc:DistBenchEngine::ActionListState::RecordPackedLatency"]}
{"id": "C30", "title": "No recorded RPC is lost or duplicated in the logs", "statement": "With unlimited samples, each completed RPC appears exactly once in the final logs, under its own peer and RPC kind, among the successes or the failures according to its outcome.", "quantifier": "every number of action lists, RPCs and merge order", "why_tests_cant": "Unbounded histories and merge orders.", "anchors": ["distbench_engine.cc:DistBenchEngine::ActionListState::RecordLatency", "distbench_engine.cc:DistBenchEngine::ActionListState::UnpackLatencySamples", "distbench_engine.cc:DistBenchEngine::GetLogs"]}
{"id": "C31", "title": "Server-side dispatch classifies every incoming RPC", "statement": "Every incoming request is either rejected with an error response (after cancellation, missing size, unknown or disallowed RPC) or handled, and each rejected or handler-less RPC is answered and freed exactly once before dispatch returns.", "quantifier": "every request and engine state", "why_tests_cant": "All rpc_index values including negative ones and all cancellation times.", "anchors": ["distbench_engine.cc:DistBenchEngine::RpcHandler"]}
{"id": "C32", "title": "Response size follows the documented precedence", "statement": "The response size is the size in the request if present, otherwise the action's override payload, otherwise the RPC's response payload (distribution before fixed size).", "quantifier": "every combination of settings", "why_tests_cant": "All combinations with arbitrary tables.", "anchors": ["distbench_engine.cc:DistBenchEngine::ComputeResponseSize"]}
{"id": "C33", "title": "Request size follows the documented precedence", "statement": "The request size comes from the RPC's joint distribution if it has one, else from the action's request override, else from the RPC's own payload (distribution before fixed size).", "quantifier": "every combination of settings and random draw", "why_tests_cant": "All combinations with arbitrary tables.", "anchors": ["distbench_engine.cc:DistBenchEngine::RunRpcActionIterationCommon"]}
{"id": "C34", "title": "Trace contexts record the whole call path", "statement": "Along any chain of traced RPCs the trace context has one entry per hop in each of its parallel lists, each hop extends the incoming context without altering it, and sampling selects exactly every tracing_interval-th RPC.", "quantifier": "every call depth and every sequence of hops", "why_tests_cant": "Unbounded call chains.", "anchors": ["distbench_engine.cc:DistBenchEngine::RunRpcActionIterationCommon"]}
{"id": "C35", "title": "The first cancellation wins", "statement": "However many threads cancel the traffic, exactly one cancellation takes effect; its reason and deadline are the ones reported to peers ever after.", "quantifier": "every number of cancelling threads and interleaving", "why_tests_cant": "All schedules.", "anchors": ["distbench_engine.cc:DistBenchEngine::CancelTraffic", "distbench_utils.h:SafeNotification"]}
{"id": "C36", "title": "Safe notification notifies exactly once", "statement": "Among any number of concurrent notify attempts exactly one reports success, the underlying one-shot notification is never triggered twice, and it stays triggered.", "quantifier": "every number of threads and interleaving", "why_tests_cant": "All schedules.", "anchors": ["distbench_utils.h:SafeNotification"]}
{"id": "C37", "title": "Error-string interning is a stable bijection", "statement": "Equal strings always get the same index, different strings different indices, an index once handed out keeps its meaning for ever, and the table stays dense.", "quantifier": "every sequence of lookups", "why_tests_cant": "Unbounded histories.", "anchors": ["distbench_engine.cc:ThreadSafeDictionary::GetIndex", "distbench_engine.cc:ThreadSafeDictionary::GetValue"]}
{"id": "C38", "title": "Sampled values lie in the configured support", "statement": "Every sample drawn from an accepted distribution is a configured exact value or lies in a configured inclusive interval; intervals derived from a CDF are non-empty, disjoint and cover exactly first value..last value.", "quantifier": "every accepted distribution and every random draw", "why_tests_cant": "All distributions and draws.", "anchors": ["joint_distribution_sample_generator.cc:DistributionSampleGenerator::InitializeWithCdf", "joint_distribution_sample_generator.cc:DistributionSampleGenerator::GetRandomSample", "distbench_utils.cc:ValidateCdfConfig"]}
{"id": "C39", "title": "Distribution canonicalisation reorders fields faithfully", "statement": "The canonical form of a joint distribution lists the fields in canonical order; the value of each named field of each point is unchanged, and a missing field is rejected.", "quantifier": "every distribution and every canonical field list", "why_tests_cant": "All permutations of fields.", "anchors": ["distbench_utils.cc:GetCanonicalDistributionConfig"]}
{"id": "C40", "title": "Summary traffic totals are conserved", "statement": "In the per-instance summary the total transmitted bytes over all instances equal the total received bytes, and both equal the sum over all successful non-warmup RPC samples of request plus response sizes.", "quantifier": "every result log", "why_tests_cant": "Arbitrary logs.", "anchors": ["distbench_summary.cc:AddCommunicationSummary", "distbench_summary.cc:AddInstanceSummary", "distbench_summary.cc:SummarizeTestResult"]}
{"id": "C41", "title": "Latency percentiles are real samples in order", "statement": "The min, median, 90th, 99th, 99.9th percentile and maximum reported are actual recorded latencies, non-decreasing in that order, never read outside the sample list, and each percentile bounds the stated fraction of samples.", "quantifier": "every non-empty list of latencies", "why_tests_cant": "All lengths.", "anchors": ["distbench_summary.cc:LatencySummary"]}
{"id": "C42", "title": "Named settings: first well-typed match wins", "statement": "Looking up a named setting returns the value of the first entry with that name and type, the default otherwise, and is unaffected by entries of other names or types.", "quantifier": "every list of settings", "why_tests_cant": "All lists.", "anchors": ["distbench_utils.cc:GetNamedSettingString", "distbench_utils.cc:GetNamedSettingInt64"]}
{"id": "C43", "title": "Address selection never returns an unusable address", "statement": "The automatically chosen address is one of the machine's addresses of the wanted family, is never link-local unless named explicitly, and is loopback only if nothing better exists.", "quantifier": "every interface table", "why_tests_cant": "All tables.", "anchors": ["distbench_netutils.cc:GetBestAddress"]}
{"id": "C44", "title": "Protocol driver resolution terminates", "statement": "Resolving protocol driver aliases and nested drivers terminates with a driver or an error for every alias table, including cyclic ones, and never nests deeper than the fixed limit.", "quantifier": "every alias resolver, including cyclic ones", "why_tests_cant": "Non-termination cannot be observed by tests.", "anchors": ["protocol_driver_allocator.cc:AllocateProtocolDriver", "distbench_node_manager.cc:NodeManager::ResolveProtocolDriverAlias"]}
{"id": "C45", "title": "The double-barrel driver alternates", "statement": "Consecutive RPCs alternate strictly between the two underlying drivers, whatever the interleaving of callers: the two shares never differ by more than one.", "quantifier": "every number of RPCs and callers", "why_tests_cant": "All histories.", "anchors": ["protocol_driver_double_barrel.cc:ProtocolDriverDoubleBarrel::InitiateRpc"]}
{"id": "C46", "title": "Polling server RPC state is freed exactly once", "statement": "For every order of completion events and handler releases the per-RPC state of the polling gRPC server is deleted exactly once, never used afterwards, and finished exactly once.", "quantifier": "every interleaving of completion-queue events and handler calls", "why_tests_cant": "All schedules; a use-after-free need not crash a test.", "anchors": ["protocol_driver_grpc.cc:PollingRpcHandlerFsm"]}
{"id": "C47", "title": "Every initiated RPC completes exactly once and shutdown waits", "statement": "For the gRPC clients each initiated RPC invokes its completion callback exactly once, the pending count equals initiated minus completed, and client shutdown returns only when none is pending.", "quantifier": "every interleaving of initiations, completions and shutdown", "why_tests_cant": "All schedules.", "anchors": ["protocol_driver_grpc.cc:GrpcPollingClientDriver", "protocol_driver_grpc.cc:GrpcCallbackClientDriver"]}
{"id": "C48", "title": "Mercury serialization round trip", "statement": "Decoding what the Mercury serializer encoded yields the original message and both sides touch the buffer identically.", "quantifier": "every message and buffer content", "why_tests_cant": "All messages.", "anchors": ["protocol_driver_mercury.cc:GenericRpcSerializer"]}
{"id": "C49", "title": "Trace replay sends every RPC once and never early", "statement": "Replaying a trace sends each record addressed to this client exactly once, never before its scheduled time, and in order of readiness.", "quantifier": "every trace, timing and completion schedule", "why_tests_cant": "All traces and completion orders.", "anchors": ["distbench_engine.cc:RpcReplayTraceRunner::Run", "distbench_engine.cc:RpcReplayTraceRunner::SetupDependencies"]}
{"id": "C50", "title": "Trace replay respects prior-RPC timing", "statement": "A record timed relative to prior RPCs is sent only after all of them have started (or ended), at the stated delay after the last one.", "quantifier": "every trace and completion schedule", "why_tests_cant": "All dependency graphs and schedules.", "anchors": ["distbench_engine.cc:RpcReplayTraceRunner::ActivateStartDeps", "distbench_engine.cc:RpcReplayTraceRunner::ActivateEndDeps"]}
{"id": "C51", "title": "An accepted replay trace never aborts the engine", "statement": "A replay trace that passes validation only addresses existing client and server instances, so running it cannot crash the node.", "quantifier": "every trace and service size", "why_tests_cant": "All traces.", "anchors": ["distbench_utils.cc:ValidateRpcReplayTrace", "distbench_engine.cc:RpcReplayTraceRunner"]}
{"id": "C52", "title": "Compiled tables resolve every name correctly", "statement": "After a configuration is accepted, every action, action list, RPC, activity, payload and delay reference points at the entry of that name, client and server agree on RPC and service numbering, and dependency indices point to earlier-named actions of the same list.", "quantifier": "every configuration", "why_tests_cant": "All configurations.", "anchors": ["distbench_engine.cc:DistBenchEngine::InitializeTables", "distbench_utils.cc:EnumerateServiceTypes", "distbench_utils.cc:EnumerateRpcs"]}
{"id": "C53", "title": "Peer connection ids are a bijection", "statement": "Connecting to peers gives every instance of every dependent service its own driver-level id 0..n-1, and server-side identities agree with the global numbering.", "quantifier": "every endpoint map and dependency set", "why_tests_cant": "All maps.", "anchors": ["distbench_engine.cc:DistBenchEngine::ConnectToPeers", "distbench_utils.cc:EnumerateServiceInstanceIds"]}
{"id": "C54", "title": "Multi-server channels reach exactly their servers", "statement": "An RPC that names a multi-server channel is sent over a channel whose members are exactly the selected or constraint-matching instances of the target service.", "quantifier": "every set of services, channels and constraints", "why_tests_cant": "All combinations.", "anchors": ["distbench_engine.cc:DistBenchEngine::ConnectToPeers", "distbench_engine.cc:DistBenchEngine::InitializeRpcDefinitionsMap"]}
{"id": "C55", "title": "Command-line timeouts are summed or defaulted", "statement": "The overall timeout is the sum of the per-test timeouts if every test specifies a positive one, the default if some test has none, and an error for a non-positive or unparsable one met before that.", "quantifier": "every test sequence", "why_tests_cant": "All sequences.", "anchors": ["distbench_busybox.cc:GetTestSequenceTimeout"]}
{"id": "C56", "title": "Node configuration describes exactly the placed instances", "statement": "Configuring a node creates exactly one engine per service instance assigned to it, reports one endpoint each with the instance's grid attributes, and discards the engines of the previous test.", "quantifier": "every configuration sequence", "why_tests_cant": "Unbounded histories.", "anchors": ["distbench_node_manager.cc:NodeManager::ConfigureNode", "distbench_node_manager.cc:NodeManager::AllocService"]}
{"id": "C57", "title": "Activity logs add up", "statement": "The metrics reported for an activity are the sums of the metrics of all its runs, regardless of the order in which action lists finish.", "quantifier": "every set and order of runs", "why_tests_cant": "All orders.", "anchors": ["distbench_engine.cc:DistBenchEngine::ActionListState::UpdateActivitiesLog", "distbench_engine.cc:DistBenchEngine::AddActivityLogs"]}
{"id": "C58", "title": "Status conversion preserves outcome", "statement": "Converting statuses between the two libraries preserves code and message, annotation preserves the code and failure is never turned into success.", "quantifier": "every status", "why_tests_cant": "All messages.", "anchors": ["distbench_utils.cc:Annotate", "distbench_utils.cc:grpcStatusToAbslStatus", "distbench_utils.cc:abslStatusToGrpcStatus"]}
{"id": "C59", "title": "Recycled iteration state carries nothing over", "statement": "An iteration that reuses cached state is indistinguishable from one with fresh state, a state object is never in use by two iterations, and the cache stays bounded.", "quantifier": "every sequence of allocations and frees", "why_tests_cant": "Unbounded histories.", "anchors": ["distbench_engine.cc:DistBenchEngine::AllocIterationState", "distbench_engine.cc:DistBenchEngine::FreeIterationState"]}
{"id": "C60", "title": "Pending RPC accounting and overload cancellation", "statement": "The pending-RPC count equals RPCs sent minus RPCs completed at all times, returns to zero when traffic is done, and exceeding the configured maximum cancels the traffic.", "quantifier": "every interleaving of sends and completions", "why_tests_cant": "All schedules.", "anchors": ["distbench_engine.cc:DistBenchEngine::RunRpcActionIterationCommon"]}
{"id": "C61", "title": "Activities run exactly the requested number of times", "statement": "An activity action that is neither cancelled nor time limited performs its activity exactly max_iteration_count times, whatever max_parallel_iterations is, and then reports completion.", "quantifier": "all iteration counts and parallelism values of at least one", "why_tests_cant": "Tests try a few counts; the bookkeeping of numbered but not started iterations depends on every combination of count and parallelism.", "anchors": ["distbench_engine.cc:DistBenchEngine::RunActivity", "distbench_engine.cc:DistBenchEngine::FinishIteration", "distbench_engine.cc:DistBenchEngine::RunActionList"]}
{"id": "C62", "title": "Accepted activities can be run as configured", "statement": "An activity configuration that passes parsing can be allocated and run without crashing, performs the configured amount of work per iteration, and unknown activity names or a missing required duration are rejected.", "quantifier": "every activity configuration (settings list, values of every type and size)", "why_tests_cant": "Settings are unbounded integers and strings, silently narrowed in places; tests use a few values.", "anchors": ["activity.cc:ParseActivityConfig", "activity.cc:AllocateActivity", "activity.cc:ConsumeCpu::Initialize", "activity.cc:PolluteDataCache::Initialize"]}
{"id": "C63", "title": "The composable RPC counter counts exactly", "statement": "At any time the client counter equals the number of InitiateRpc calls that have returned, the server counter the number of RPCs delivered by the drivers underneath, and both appear in the transport statistics together with everything the wrapped driver reports.", "quantifier": "every driver tree, every interleaving of concurrent callers, every sequence of arrivals", "why_tests_cant": "The counters are incremented concurrently; a test sees one interleaving.", "anchors": ["composable_rpc_counter.cc:ComposableRpcCounter::InitiateRpc", "composable_rpc_counter.cc:ComposableRpcCounter::SetHandler", "composable_rpc_counter.cc:ComposableRpcCounter::GetTransportStats"]}
{"id": "C64", "title": "Mercury client: callbacks, counting and shutdown", "statement": "A Mercury client calls done_callback at most once per InitiateRpc, with the decoded response and the caller's request; pending_rpcs_ counts exactly the RPCs that are not over; ShutdownClient returns only after every RPC started before (or by a callback of one that was) is over, and can always be completed; RPCs for which HG_Create, HG_Forward or HG_Get_output fails are never called back.", "quantifier": "every interleaving of InitiateRpc callers, Mercury results, the polling thread and ShutdownClient", "why_tests_cant": "Mercury failures and thread interleavings cannot be enumerated by tests.", "anchors": ["protocol_driver_mercury.cc:InitiateRpc", "protocol_driver_mercury.cc:RpcClientCallback", "protocol_driver_mercury.cc:ShutdownClient", "protocol_driver_mercury.cc:ClientPollingThread"]}
{"id": "C65", "title": "Homa messages are read back as sent", "statement": "What the Homa driver puts on the wire for a request or response is never empty: it is the serialized message, or a one-byte placeholder that is not the serialization of any message; the size CHECK in InitiateRpc cannot fail. The receiver gets the same message back: with copying whenever it is at most 1 MiB (longer ones overrun the receive buffer), without copying whenever it is at most 4096 bytes in one piece or its payload comes last and its header lies in the first piece. The ping-pong server answers with exactly the bytes received, or dies when they lie in more pieces than it has room for.", "quantifier": "all messages, all splits of the message into contiguous pieces of the receive buffer, both values of the nocopy settings on each side", "why_tests_cant": "Tests need a Homa kernel module and cover one page layout and a few sizes; the split of a message over buffer pages is chosen by the kernel.", "anchors": ["protocol_driver_homa.cc:40-99", "protocol_driver_homa.cc:386-392", "protocol_driver_homa.cc:441-457", "protocol_driver_homa.cc:470-480"]}
{"id": "C66", "title": "The Homa client completes each RPC once and shuts down when idle", "statement": "In every interleaving of InitiateRpc, the kernel, the completion threads and ShutdownClient, done_callback is called at most once per RPC, never before the RPC has been refused or answered, with success=false exactly when it was refused, empty or answered with an error, and otherwise with the parsed response; pending_rpcs_ is the number of RPCs not over; the socket is closed only when all threads have ended and all RPCs started before are over; the shutdown of an idle client always terminates. It is refuted that every RPC is reported (network failures are dropped and block the shutdown for ever), that the shutdown of a client with pending RPCs terminates, and that unparsable responses are failures.", "quantifier": "all interleavings, any number of completion threads and RPCs, all responses", "why_tests_cant": "The hang needs one thread to consume two wake-up RPCs; failures need kernel errors; tests run a handful of schedules.", "anchors": ["protocol_driver_homa.cc:335-410", "protocol_driver_homa.cc:499-533"]}
{"id": "C67", "title": "The Homa server answers before its threads go away", "statement": "In every interleaving, nothing is received until the handler is set; from then on until ShutdownServer every thread without a message passes the next one to the handler, which can answer it; the handler gets what the nonempty received message parses to; the counter of each server thread is the number of requests it handed out that are still unanswered; no response touches the counter of a thread that has ended; when ShutdownServer returns all threads have ended and every request handed out has been answered. A server with one thread never reads its receive buffer after it was unmapped; with two or more it can, and a handler that never answers blocks ShutdownServer for ever.", "quantifier": "all interleavings, any number of server threads and requests", "why_tests_cant": "The use of the unmapped buffer needs a request to arrive on one thread while another is being joined.", "anchors": ["protocol_driver_homa.cc:171-181", "protocol_driver_homa.cc:295-333", "protocol_driver_homa.cc:414-497"]}
{"id": "C68", "title": "run_tests reports success only for results that were received and saved", "statement": "`distbench run_tests` exits with status 0 exactly when no extra arguments were given, the input file could be read and parsed (as binary, and as text only if that fails), the timeouts of the tests are valid, the sequencer answered RunTestSequence with results, and those results were written to --outfile if one was given. At most one RunTestSequence call is made; it carries the sequence of the file changed in nothing but the test_timeout attributes (and in nothing at all without --max_test_duration), with the deadline computed from them; what is printed and saved is exactly what the sequencer returned, saved in the format that was asked for. The first word on the command line alone selects the mode.", "quantifier": "For all file contents, flags, arguments, parsers, answers of the sequencer and outcomes of writing the file.", "why_tests_cant": "A test exercises a few files against one server; success must be tied to the combination of every failure of parsing, timeouts, RPC and saving.", "anchors": ["distbench_busybox.cc:91-229", "distbench_busybox.cc:423-463", "distbench_utils.cc:169-183", "distbench_utils.cc:374-430"]}
{"id": "C69", "title": "What check_test accepts can be started", "statement": "If `distbench check_test` exits with status 0, every test of the file has a canonical form and with that form (which is not what check_test validates) the engine of every service that has instances initialises without error, for every position in the grid. Every file whose tests have valid shapes and whose references are all defined is accepted; unreadable, malformed or invalid files exit with 1; nothing is run or written, and the canonical form is printed when it differs. Not guaranteed by the code (refuted): that an accepted test can be placed (negative counts), that check_test itself never crashes, and that run_tests accepts what check_test accepts (timeouts).", "quantifier": "For all files, parsers and test sequences with any number of tests, services, RPCs, actions, activities, distributions and replay traces.", "why_tests_cant": "check_test validates the sequence as written while engines get the completed one; that validation carries over is a statement about every configuration.", "anchors": ["distbench_busybox.cc:231-263", "distbench_engine.cc:2642-2657", "distbench_engine.cc:437-658", "distbench_utils.cc:795-814"]}
{"id": "C70", "title": "test_preview runs every instance on the one node it starts", "statement": "test_preview starts exactly one node for a non-empty file whatever the tests contain, bundles all instances of each test on node0 and leaves the rest of the canonical test unchanged; a placement on a single node called node0 then succeeds and puts every instance, and nothing else, there. It exits with 0 only if that sequence was run and its results were printed or saved. Refuted: tests with a service constraint can never be previewed, even if the node satisfies it; a test with a service of no instances passes check_test but not test_preview, because it is canonicalised twice.", "quantifier": "For all files, test sequences, node attributes and answers of the in-process sequencer; counts non-negative, their sum an int, instance names distinct.", "why_tests_cant": "The preview depends on the whole placement algorithm for arbitrary numbers of services and instances.", "anchors": ["distbench_busybox.cc:265-314", "distbench_test_sequencer_tester.cc:101-148", "distbench_utils.cc:816-826", "distbench_test_sequencer.cc:225-432"]}
{"id": "C71", "title": "node_manager arguments", "statement": "node_manager accepts exactly: an optional first argument node<N>, N in plain decimal within an int, which requests the id N and adds the attribute node_alias=node<N>; followed by name=value arguments, split at the first '='. Everything else is refused. A node started as node<N> and granted registration by a sequencer that did not know it gets exactly that alias. Refuted: the order of attributes does not matter (one whose name begins with \"node\" is refused in first place); names are non-empty and distinct.", "quantifier": "For all argument lists and all reachable states of the sequencer's registry.", "why_tests_cant": "There are infinitely many argument lists; tests use one or two.", "anchors": ["distbench_busybox.cc:360-421", "distbench_test_sequencer.cc:41-95"]}
{"id": "C72", "title": "The address under which a node registers", "statement": "A node manager registers with --service_address if given; otherwise with dns:///<hostname>:<port> when no control plane device is named or the device has no usable address, and otherwise with ipv4:///<ip>:<port> or ipv6:///[<ip>]:<port> for a usable address of that device, of the preferred version if the device has one. The registration carries the id, host name, port and attributes the node was started with; it is sent only if --test_sequencer is given and the server started, and no error value is ever dereferenced. A registry that does not know the node and has the id free accepts it. Refuted: control_ip is an IP address (it is a description such as \"10.0.0.7 on eth0 (ipv4)\").", "quantifier": "For all interface tables, flags, host names, devices, ports, ids, attributes and reachable registries.", "why_tests_cant": "Tests run on the interfaces of one machine.", "anchors": ["distbench_node_manager.cc:287-367", "distbench_netutils.cc:83-231", "distbench_test_sequencer.cc:41-95"]}
{"id": "C73", "title": "Shutdown reaches every registered node once", "statement": "After any history of registrations in which stubs could be created, TestSequencer::Shutdown sends ShutdownNode to each registered node exactly once and to no pending slot, and after the answers, whether good or bad, no registered node counts as active. Refuted: this holds when creating a stub failed (the null stub is called).", "quantifier": "For all histories of registrations, and all orders of answers.", "why_tests_cant": "Tests shut down a few nodes registered in order; gaps left by preassigned ids and failed registrations are not exercised.", "anchors": ["distbench_test_sequencer.cc:636-680", "distbench_test_sequencer.cc:41-95"]}
{"id": "C74", "title": "A whole test: placement, engines, traffic and results agree across all nodes", "statement": "If a test succeeds on a set of registered nodes (well-formed test, every request of a phase completes in any order, node managers with any earlier history), then during traffic each registered node has exactly the engines of the instances placed on it, each with the right service type and instance number and with the whole placement as its peers; the placement in the result has exactly one entry per service instance, with the address, host name and attributes of a node hosting it; an instance has exactly one engine unless it is both bundled and constrained; every engine is started once, with a main thread exactly if its service has an action list; the logs of the result are exactly those of the engines; afterwards the registered nodes have no engines and are not active and no other node was touched. The sequencer neither crashes nor waits for ever once placement has been decided, a test on nodes that answer and can host its instances succeeds, and whatever the outcome the nodes remain in states the theorems apply to.", "quantifier": "all registries, placements, node environments, request fates, completion orders, tests and earlier histories", "why_tests_cant": "tests run a few fixed placements on one machine; the agreement of placement, engines, endpoints and logs must hold for every registry, every test and every order of completions", "anchors": ["distbench_test_sequencer.cc:373-634", "distbench_node_manager.cc:43-286"]}
{"id": "C75", "title": "RPCs of a running test reach the instances they are meant for and are handled there", "statement": "In a test that ran successfully, an engine that has connected to its peers (in whatever order it visits them) and executes an RPC action that its service may call sends the RPC, if it does not use a multi-server channel and its fan-out filter fits the server's grid, to a set of distinct server instances other than itself, and each of these messages goes to the driver address announced by the engine that hosts exactly that instance, on whichever node it was placed; with the default fan-out every other instance of the server is reached exactly once. Each request carries the index of the RPC, the trace and the warm-up flag of the iteration, and has the size the traffic configuration prescribes (RPC distribution, the action's payload, the RPC's payload, or 16 bytes). Over a multi-server channel it is sent to the comma-separated addresses of exactly the instances that are selected or whose node attributes satisfy the channel's constraints. The engine that gets the RPC has the type and instance number it was meant for and either runs the action list named after the RPC or, if that is empty, answers it at once without error, with the size the configuration or the request prescribes, giving its own instance exactly for multi-server channels; an engine of any other service refuses the RPC. An action whose RPC is not for the engine's service sends nothing. (A filter such as same_x towards a service with a smaller grid reads beyond the peers.)", "quantifier": "all registries, placements, tests, node environments, completion orders, peer visiting orders, network answers, random draws and requests", "why_tests_cant": "the path from an action name to a socket crosses the placement, the endpoint map, three index tables, the peer scan and the driver's connection ids; tests see a few small configurations on one host where mixing up two peers can go unnoticed", "anchors": ["distbench_engine.cc:703-874", "distbench_engine.cc:1861-1890", "distbench_engine.cc:2104-2254", "distbench_engine.cc:977-1049", "protocol_driver_grpc.cc:InitiateRpc"]}
{"id": "C76", "title": "A test sequence on the whole cluster", "statement": "RunTestSequence first asks the nodes left active by an earlier sequence to cancel and then runs the completed tests one after the other. Every reported result i is the result of a whole test (C74, C75) of test i of the request with its services completed, run on nodes which, except for the first test, have no engines; it shows one endpoint per instance and logs of instances only, none if logs were not asked for. The status tells how many tests ran: all of them (SeqOk, or an emptied reply if too big), or exactly those before the first failure or cancellation; the sequencer shuts down only if all ran. An accepted request whose instance counts do not overflow and whose constraints do not divide by zero is always answered; it succeeds if the nodes answer, can create the engines and these connect. A request that breaks a rule is refused without effect. Whatever the outcome, the state left behind again meets the assumptions of these statements.", "quantifier": "all histories of registrations, requests, orders of completion events, fates of the requests to the nodes, external failures and cancellations", "why_tests_cant": "The existing tests run short sequences that succeed or fail in one chosen way on local node managers; the orders of completion, the moment of a failure or cancellation and what an earlier failed sequence left behind cannot be enumerated.", "anchors": ["distbench_test_sequencer.cc:97-223", "distbench_test_sequencer.cc:373-634", "distbench_node_manager.cc:160-286", "distbench_utils.cc:795-814"]}
{"id": "C77", "title": "Drivers are initialised as the options say and connect to each other's servers", "statement": "Initialize of the gRPC, Homa and Mercury drivers succeeds exactly when the settings are valid, the device has an address of the IP version asked for, and the outside calls succeed; the driver then has the client, server, thread pool, transport, address and assigned port that the options ask for. A gRPC driver that cannot be initialised returns an error whose code tells which of the listed reasons holds; it never throws, nor does Mercury; Homa throws only for a negative number of threads. The tree made by the allocator consists of initialised drivers. The information a tree announces parses back to the address, port and socket of its first leaf's server; a tree connects to it exactly if each leaf can, and trees of gRPC drivers always do, every leaf to that server. In a test that ran, on nodes without Homa and Mercury, every engine has such a driver, none of them refuses another's information, and each RPC is sent to the socket of the driver of the engine of its target instance.", "quantifier": "all options, interface tables, outcomes of system and library calls, driver trees, ports and addresses that fit the message, and all tests as in C75", "why_tests_cant": "Tests start a few drivers with a few options on one host where every call succeeds; combinations of settings, failing calls, trees of drivers and placements over hosts are not enumerable, and the handshake between different kinds of driver is never tried.", "anchors": ["protocol_driver_grpc.cc:57-133", "protocol_driver_grpc.cc:335-471", "protocol_driver_grpc.cc:625-666", "protocol_driver_homa.cc:109-285", "protocol_driver_mercury.cc:44-199", "protocol_driver_double_barrel.cc:38-90", "composable_rpc_counter.cc:37-83", "protocol_driver_allocator.cc:45-84", "distbench_node_manager.cc:123-170"]}
{"id": "C78", "title": "The result and the summary of a test are made of exactly the RPCs recorded in it", "statement": "In a test that ran, the result holds, under the name of each instance and of the instance it called, every RPC recorded by its engine's action lists and no other: once, with the same RPC number, outcome and sample; every target is an instance of the test, no pair or RPC entry is empty, and names are unique. The summary then states the numbers of all, failed and warm-up RPCs; for each pair of instances between which an RPC was recorded the successful RPCs and the bytes of those outside the warm-up; for each instance the bytes it sent and received; for each kind of RPC the latencies of its successful RPCs outside the warm-up; and the longest duration on one pair. If RPC numbers are those of the test, sizes and times are not negative and totals fit, the summary is computed without overflow or access outside an array. An engine that recorded something is never left out of its node's answer, and fetching the logs twice gives the same, unless a trace was replayed.", "quantifier": "all tests, registrations, placements and orders of answers as in C74 and C75 (no instance both bundled and constrained), all action lists and recorded RPCs of each engine, all orders of merging", "why_tests_cant": "Tests check that some traffic is summarised; they do not compare the summary with the individual RPCs of all engines, which depends on the placement, the interleaving of the action lists, and the maps by name at three levels.", "anchors": ["distbench_engine.cc:921-969", "distbench_engine.cc:1500-1509", "distbench_node_manager.cc:208-230", "distbench_test_sequencer.cc:196-198", "distbench_test_sequencer.cc:380-410", "distbench_summary.cc:59-217"]}
{"id": "C79", "title": "The text of the summary states the recorded RPCs with correctly rounded rates", "statement": "For logs whose RPC numbers are those of the configuration, with unique names and totals that fit: if no successful RPC outside the warm-up took time, no text is returned. Otherwise the text has, in this order, a heading and one line per RPC name that was recorded, a heading and one line per pair of instances, a heading and one line per instance, and the totals; names and pairs are in alphabetical order and none is missing or repeated. A latency line states the number of measured RPCs of that name and, if there are any, latencies of theirs that are the minimum, the maximum and the 50, 90, 99 and 99.9 percent quantiles. A pair line states the number of successful RPCs, and decimals with 2 and 1 digits that differ from that number per second / 1000 and from the request and response bytes per second / 2^20 by at most half a unit of the last digit and one part in 2^50; an instance line does so for the bytes sent and received, and the totals for all samples, failures, warm-ups, time, MiB and rates. For a test that was run, all of this holds with the numbers taken from the RPCs recorded by its engines.", "quantifier": "all names, logs and sizes (any length of names, any int64 values), and all tests, registrations, placements and orders of answers of C78", "why_tests_cant": "The rates go through three double divisions and a decimal conversion, so that a test can only compare a few printed values; the error bound is a statement about all pairs of 63 bit numbers, and order and completeness of the lines one about all sets of names.", "anchors": ["distbench_summary.cc:31-44", "distbench_summary.cc:59-77", "distbench_summary.cc:79-146", "distbench_summary.cc:148-217", "distbench_test_sequencer.cc:196-204"]}
{"id": "C80", "title": "A test makes the RPCs its configuration prescribes, neither more nor, when it completes, fewer", "statement": "For a test that was set up (C74) on a network without shared addresses (C75), the configuration prescribes for each pair of instances and each RPC a number: an instance runs the action list named after its service once; a run of a list calls the RPC of each of its actions, as often as the action has iterations, at every instance of the server other than itself; a successful RPC makes its server run the list named after the RPC, if it has actions; an action that names a list runs it once per iteration. In every execution, whatever the schedule of threads, failures, cancellations, predicates, durations and fan-outs, no instance calls an RPC at another instance more often, and runs no list more often, than prescribed, and the total of all RPCs is bounded accordingly. When every list comes to its end without cancellation, no RPC fails, the RPCs go to all servers and no action has a predicate or a duration, the numbers are exactly the prescribed ones; two such executions, on different nodes, placements, addresses and schedules, make the same numbers; and the summary of the test reports exactly the prescribed total, no failures, one line for each pair with a positive number, with that number.", "quantifier": "all configurations whose lists do not start one another in a circle, all placements and registrations, all schedules of lists, iterations (open and closed loop) and answers, all random draws and all sets of failing RPCs", "why_tests_cant": "The number of RPCs is the product of decisions of the table compiler, the fan-out, the iteration counter, the action list scheduler, the handler of the server and the logs, under concurrency; a test observes one configuration and one interleaving, and a lost or duplicated iteration shows only in rare ones.", "anchors": ["distbench_engine.cc:876-902", "distbench_engine.cc:1018-1044", "distbench_engine.cc:1311-1516", "distbench_engine.cc:1796-1911", "distbench_engine.cc:1912-2091", "distbench_engine.cc:2103-2254", "traffic_config.proto:128-137"]}
{"id": "C81", "title": "The resource usage in a test result is what the kernel counted during that test", "statement": "A usage message computed from two getrusage readings has, in each of its 14 integer fields, the kernel counter of that name: the value at the start, and a difference such that start plus difference is the value at the end; the subtraction never overflows for counters that are not negative. The two CPU times, computed in double arithmetic, are finite and not negative and, rounded to microseconds, are exactly the number of microseconds counted, for up to 2^30 seconds. A node reports the usage from its last RunTraffic to the request. The result of a successful test holds exactly one usage for each of its nodes, under the node's name, from the node's reading when the traffic of this test started to its reading when the results were collected, whatever was stored from earlier tests and in whatever order the nodes answered, and the sequencer's own. The usages of successive tests in one process do not overlap: together they are at most what the process used. The memory peak of a test can be computed from its message exactly when it exceeds every earlier one.", "quantifier": "all pairs of readings, all times below 2^30 seconds, all histories of requests at a node, all sets of nodes and orders of completion, all sequences of tests", "why_tests_cant": "The readings are not reproducible, so a test can only check that fields are present; a field taken from the wrong counter, a stale start reading or a rounding error of the floating-point difference goes unnoticed.", "anchors": ["distbench_utils.cc:207-282", "distbench_node_manager.cc:188-233", "distbench_test_sequencer.cc:373-413", "distbench.proto:111-133"]}
{"id": "C82", "title": "The actions of a running test keep the order, delays, clients, time limits and responses of its configuration", "statement": "On every engine of a test that was set up, for every schedule of an action list: an action starts only when all actions named in its dependencies, which stand before it in the list, are done and its delay, if it has one, is over; it is skipped exactly if one of its predicates was not drawn or an action it depends on was skipped. The thread of the list sleeps without a time limit exactly if no action finished meanwhile, one is running, and no action that is not done waits for a delay, is an activity or starts iterations at intervals. An action without an interval has never more iterations running than allowed and, apart from the first of them, none starts after max_duration_us; one with an interval starts none before its time and, apart from the first, none due after the limit; only the first warmup_iterations are marked as warmup unless the list is. A list returns only if its instance is of a client service of the RPCs of all actions that were started and not skipped, even when the traffic is canceled. The response has the payload of the override action that sends it, else of the override action that finished last, else none.", "quantifier": "all configurations, placements, networks, schedules, predicates drawn and delays", "why_tests_cant": "The order depends on the schedule of the threads; an index off by one in the compiled dependencies or a sleep that misses a delay shows only in some interleavings.", "anchors": ["distbench_engine.cc:1311-1516", "distbench_engine.cc:1796-1967", "distbench_engine.cc:402-658"]}
{"id": "C83", "title": "The sequencer shuts down every node it registered, in a bounded number of steps, and a node that was told ends when its handlers have returned", "statement": "For every interleaving of the sequencer's main thread (starting local node managers, Wait, Shutdown, destructors) with node managers starting, registering, giving up, serving and ending, test sequences, and ShutdownNode RPCs that are delivered, answered or time out: when the sequencer's process ends, every node that was ever registered was sent ShutdownNode by the destructor over its own connection, nobody else was, and nobody more than once per Shutdown; nodes registered before the shutdown was requested are told before Wait returns. Wait returns only after a sequence that asked for shutdown ended, and afterwards nothing registers and no sequence runs. The main thread takes at most 4n+9 steps for n local nodes and, once asked to shut down, waits only for RPCs with a deadline, sequences and registrations in progress, and handlers of local nodes. A node in its own process closes only if told, then ends after its running handlers have returned and not before; one whose registration failed can end exactly if none of its handlers needs its name.", "quantifier": "all numbers of local and remote nodes with distinct requests, all interleavings of threads, handlers, messages and failures", "why_tests_cant": "Registration racing with shutdown, late replies and handlers in flight occur only in rare interleavings.", "anchors": ["distbench_node_manager.cc:235-367", "distbench_test_sequencer.cc:41-95", "distbench_test_sequencer.cc:636-699", "distbench_busybox.cc:313-355"]}
{"id": "C84", "title": "Node managers that share a process configure as if alone exactly when aliases are not involved or resolve alike", "statement": "For every interleaving of constructions, destructions and ConfigureNode calls of node managers in one process: protocol driver aliases are resolved by the node manager constructed last, by none after any destructor ran since, and never by one that was destroyed. A ConfigureNode that overlaps arbitrarily with others replies and leaves the node in the same state as in a process of its own if it is for the node manager constructed last and none is constructed or destroyed meanwhile, or if whenever it allocates the resolver answers as its own configuration would, or if its options name no alias. The thread limit of the process is that of the last ConfigureNode of any of them that was not refused for its limit. That aliases always resolve by the node's own test configuration is refuted: it fails by order, by staleness and after destruction.", "quantifier": "all numbers of node managers, configurations, and interleavings", "why_tests_cant": "The tests that use aliases have one configuration for all nodes and pass or fail with the order in which the nodes happen to be configured.", "anchors": ["protocol_driver_allocator.cc:34-84", "distbench_node_manager.cc:34-119", "distbench_node_manager.cc:275-285", "distbench_thread_support.cc:38-44", "distbench_busybox.cc:325-343"]}
{"id": "C85", "title": "An engine is destroyed only after its threads have left it, and its report holds the lists that ended before it", "statement": "Whatever RPCs, action lists and connection set-ups are in progress or arrive, each wait of the destructor of an engine leaves behind for good what it waits for: the main list, SetupConnection calls, handlers in driver threads, detached lists, client RPCs with their done callbacks, tasks of the thread pool. No action list starts, calls or merges once the client of the driver is being shut down. When the body of the destructor has returned only an iteration in the engine's thread pool that was not the last one of its action can still be in the engine, and without lists started by lists nothing can. The destructor can always end in a bounded number of steps. GetLogs returns the logs of exactly the action lists merged before, each once; after FinishTraffic these include the main list and every list started below it, and all lists if none is in progress. Starting the main list again terminates the process exactly if FinishTraffic has not returned in between. Refuted: that the members used by an iteration still exist when it ends; that the RPCs of a handler whose response was sent are in the report.", "quantifier": "for all sequences of events of the threads of an engine (main list, handlers, detached and nested lists, RPC completions, SetupConnection, GetLogs, RunTraffic, destructor) in any interleaving", "why_tests_cant": "The races need a thread to be delayed between two instructions while a test ends; tests see the usual order only.", "anchors": ["distbench_engine.cc:113", "distbench_engine.cc:876", "distbench_engine.cc:914", "distbench_engine.cc:940", "distbench_engine.cc:1038", "distbench_engine.cc:1490", "distbench_engine.cc:2045", "distbench_engine.h:438"]}
{"id": "C86", "title": "The Mercury server answers every request once and drains on shutdown", "statement": "Every request the Mercury driver receives is given to the handler once, as the message that was sent, after its input was released. If handlers keep the contract of ServerRpcState (at most one response, then free), no state is used after it was freed, no build aborts, at most one response per request reaches HG_Respond and it is the handler's, and once ShutdownServer has returned every handler and every piece of returned work is done: each answer was handed to Mercury and each state freed exactly once, and nothing happens any more. ShutdownServer ends after a bounded number of steps. If the handler is set first and no request needs more memory than there is, the process lives. A debug build that does not abort behaves as a release build. A response sent by the handler itself is followed by HG_Progress before the polling thread ends. Refuted: the same for responses sent by returned work; that all result buffers are deleted; that a request before SetHandler or with an oversized length is survived; that release builds refuse a second response. With the handler set first and no shutdown begun, the polling thread can by itself finish what it does and take any further request that fits the memory to the handler.", "quantifier": "for all interleavings of polling thread, handler operations, pool tasks and shutdown, all requests and wire contents, all handlers, both builds and all results of the Mercury calls", "why_tests_cant": "The order of the last HG_Progress, pool tasks and shutdown, refused responses and malformed requests do not occur in a test on a quiet machine.", "anchors": ["protocol_driver_mercury.cc:141", "protocol_driver_mercury.cc:148", "protocol_driver_mercury.cc:264", "protocol_driver_mercury.cc:306", "protocol_driver_mercury.cc:361", "protocol_driver_mercury.cc:413", "protocol_driver.cc:37"]}
{"id": "C87", "title": "Timed waits hold the mutex, never time out early and spin until the deadline", "statement": "MutexLockWhenWithDeadline returns with the mutex locked, never having locked it twice or released it unheld; MutexAwaitWithDeadline needs it locked and returns it locked; given the same readings both return the same result at the same time. True means that the condition held at the last evaluation, false that it did not, and that the deadline has passed; all evaluations before the last were false. A spinning wait that stops spinning without the condition does so only after its deadline, so it never sleeps before it; without a deadline it returns only because the condition holds. If each turn uses CPU time, a spinning wait ends after at most as many turns as there is time, and takes at least one. SpinFor returns at the first reading at which the given CPU time was used, and ends the process exactly when it reads a clock that fails. Refuted: that a spinning wait gives up at its deadline; it counts CPU time of the thread.", "quantifier": "for all deadlines, durations, sequences of clock readings and results of the condition", "why_tests_cant": "Preemption between clock readings, expired deadlines and conditions that become true between the last turn and the blocking wait are decided by the scheduler.", "anchors": ["protocol_driver.cc:74", "protocol_driver.cc:85", "protocol_driver.cc:108"]}
{"id": "C88", "title": "Mercury RPCs are correct from end to end", "statement": "For any number of clients and servers that exchange messages over Mercury: each RPC is given to at most one handler, once, at the server it was addressed to and with the request as it was given, and every handler call stems from such an RPC. Every callback reports success, gives the request back and carries a response that the handler of that server sent to this very request. No process ends, if RPCs go to peers that exist, messages fit and handlers keep the contract of ServerRpcState. When ShutdownClient returns and Mercury reported no error to that client, each RPC started before has had exactly one callback, with its handler's response. While nothing is shutting down and nothing was refused, the threads can always go on, without errors, until every RPC made so far has been answered. Refuted: that an RPC is called back although its server shut down before it looked at the request.", "quantifier": "for all numbers of clients and servers, all peers, messages and handlers, and all interleavings of their threads, of the delivery of messages and of errors of Mercury", "why_tests_cant": "The claim is about every interleaving of several processes and about shutdowns that race with messages under way.", "anchors": ["protocol_driver_mercury.cc:227", "protocol_driver_mercury.cc:273", "protocol_driver_mercury.cc:284", "protocol_driver_mercury.cc:354", "protocol_driver_mercury.cc:424"]}
{"id": "C89", "title": "The inline and handoff gRPC servers answer each call once and shut down after the last answer", "statement": "Of the synchronous (inline) and callback (handoff) servers of the gRPC driver, with handlers that read, send and free as ServerRpcState asks: nothing that was freed is used and no response is sent twice. A call is answered at most once, with status OK and the handler's response to this call's request, never with UNAVAILABLE, and its state is deleted at most once and only after the response was sent. ShutdownServer returns only when every call that arrived was answered, and the driver goes away only when no handler has work left and every handoff state was deleted. Once shutdown began and the handler was set, the threads can only take so many steps and when none is left the driver is gone. Refuted: that shutdown ends when a call came before SetHandler was ever called, and that it ends when a handoff handler never sends a response.", "quantifier": "for both server types, all handlers that keep the contract, all requests and all interleavings of SetHandler, arriving calls, handlers, completions and shutdown", "why_tests_cant": "The calls race with each other, with SetHandler and with shutdown; a test sees a few of the orders.", "anchors": ["protocol_driver_grpc.cc:296", "protocol_driver_grpc.cc:306", "protocol_driver_grpc.cc:314", "protocol_driver_grpc.cc:386", "protocol_driver_grpc.cc:580", "protocol_driver_grpc.cc:593", "protocol_driver_grpc.cc:605", "protocol_driver_grpc.cc:674"]}
{"id": "C90", "title": "gRPC end to end: every RPC is answered with its own response", "statement": "Of any number of gRPC clients (polling and callback) and servers (inline, handoff and polling) connected by gRPC: each callback of an RPC carries either the request that was given to InitiateRpc together with the response which the handler of the peer's server made for this very call, or an error that gRPC reported for this RPC, with no request and no response. Every call a handler sees belongs to exactly one initiated RPC, was sent to this server and carries that RPC's request; no RPC is handled twice. Under handlers that keep the contract and clients used as documented no process crashes. Once ShutdownClient has passed its wait, every RPC had exactly one callback, a successful one unless gRPC reported an error for it. When no thread can go on and no server was shut down and no response failed to be sent, every RPC was called back exactly once and released, and ShutdownClient has returned if it was called; the threads can take only finitely many steps from any state. Refuted: that this also holds after a polling server failed to send one response.", "quantifier": "for all numbers of clients and servers of every type, all routes between them, all handlers that keep the contract, all requests and responses and all interleavings of client threads, server threads, handlers, deliveries, completions and errors", "why_tests_cant": "A test runs one client against one server of one type and sees a few interleavings; a swapped or doubled response needs a rare one.", "anchors": ["protocol_driver_grpc.cc:238", "protocol_driver_grpc.cc:246", "protocol_driver_grpc.cc:251", "protocol_driver_grpc.cc:281", "protocol_driver_grpc.cc:296", "protocol_driver_grpc.cc:306", "protocol_driver_grpc.cc:386", "protocol_driver_grpc.cc:537", "protocol_driver_grpc.cc:580", "protocol_driver_grpc.cc:593", "protocol_driver_grpc.cc:674", "protocol_driver_grpc.cc:716", "protocol_driver_grpc.cc:824", "protocol_driver_grpc.cc:842"]}
{"id": "C91", "title": "Homa end to end: every RPC is answered with its own response", "statement": "Of any number of Homa clients and servers, reading messages by copying or in place, connected by the kernel: each callback of an RPC carries the response which the handler of the peer's server made for this very RPC, after it was given exactly the request passed to InitiateRpc, or it reports a failure and no response, and then the kernel refused the message or reported a failure for it. Every request a handler sees was parsed from the message of exactly one initiated RPC, sent to this server; no RPC is handled twice, however messages lie in the buffers. While no server is shut down and messages can be read where they lie, no process crashes. Once ShutdownClient has returned, every RPC initiated before had exactly one callback, apart from those whose refused send is still being reported. When no thread, handler or message can move any more, no server was shut down and no failure came with a negative length, every RPC was called back exactly once, with the response unless a failure was reported for it; and from any state only finitely many steps change anything until another RPC is made. Refuted: that a server that is being shut down answers or rejects what it has received.", "quantifier": "for all numbers of clients, servers and threads of each, all routes, all handlers, all requests and responses, all layouts of messages in the receive buffers in which they can be read, and all interleavings of client threads, server threads, handlers, deliveries, completions and failures", "why_tests_cant": "The driver is built and tested only with the Homa kernel module present; a swapped response or a lost request needs a rare interleaving with shutdown.", "anchors": ["protocol_driver_homa.cc:295", "protocol_driver_homa.cc:335", "protocol_driver_homa.cc:380", "protocol_driver_homa.cc:386", "protocol_driver_homa.cc:400", "protocol_driver_homa.cc:414", "protocol_driver_homa.cc:441", "protocol_driver_homa.cc:463", "protocol_driver_homa.cc:470", "protocol_driver_homa.cc:487", "protocol_driver_homa.cc:499", "protocol_driver_homa.cc:504", "protocol_driver_homa.cc:529"]}
{"id": "C92", "title": "Composite drivers over real gRPC clients lose no RPC and shut down cleanly", "statement": "A protocol driver is a tree of double barrels and RPC counters with gRPC clients at its leaves. Whatever the interleaving, every InitiateRpc call of the driver becomes exactly one RPC of exactly one client, to the peer and with the request given, and its callback runs at most once, with the response or the failure that this RPC got; no client makes an RPC of its own accord. Used with connected peers, and with ShutdownClient called when no call is in progress and no RPC is initiated afterwards, it never crashes; when ShutdownClient returns, every RPC had exactly one callback and every client has been shut down; when nothing can move any more every call has returned and every RPC had its callback; and from any state only finitely many steps change anything until another RPC is initiated. RPCs of any two clients differ in number by at most one once all calls have returned. Refuted: that RPCs may still be initiated from callbacks while ShutdownClient waits, which a single gRPC client allows: below a double barrel such an RPC can go to the instance that has already been shut down, and the CHECK of the peer index ends the process.", "quantifier": "for all trees of drivers, all kinds of gRPC client at each leaf, all peers, requests, responses and failures, and all interleavings of any number of InitiateRpc calls (also from callbacks) with the clients' threads, the network and ShutdownClient", "why_tests_cant": "The tests of the double barrel send a few RPCs from one thread and shut down when idle; races of the counters and of a callback with the shutdown of the other barrel are not reached.", "anchors": ["protocol_driver_double_barrel.cc:119", "protocol_driver_double_barrel.cc:135", "composable_rpc_counter.cc:98", "composable_rpc_counter.cc:110", "protocol_driver_grpc.cc:491", "protocol_driver_grpc.cc:506"]}
{"id": "C93", "title": "Homa and Mercury drivers release what they acquire", "statement": "From Initialize (successful or not) through any calls of ShutdownServer and ShutdownClient to the destructor, a Homa driver releases its pool, sockets, client buffer and threads exactly once, threads before what they use; its server buffer is released too unless no server thread was started. A Mercury driver releases its pool, threads, contexts and classes exactly once and in order whatever fails, and also every address if the number of peers is set once and each peer connected to once and HG_Addr_to_string and HG_Addr_free do not fail. Mercury threads are started only by an Initialize that succeeds; the destructor deregisters the RPC exactly once, with a class and id that exist if Initialize succeeded. Refuted: with two or more Homa server threads the server buffer is unmapped while threads may read it; client_threads 0 leaks it; Homa threads start before bind; Mercury leaks its own address when HG_Addr_to_string fails, leaks an address on reconnection, and deregisters with an unset id after a failed Initialize.", "quantifier": "forall outcomes of every system and library call of Initialize, all options, all sequences of calls before destruction", "why_tests_cant": "Tests initialise drivers successfully and destroy them once; the failing calls of sockets and Mercury cannot be provoked at will, and use of an unmapped buffer depends on the order in which threads end.", "anchors": ["protocol_driver_homa.cc:109-378", "protocol_driver_mercury.cc:44-199", "protocol_driver_mercury.cc:264-283"]}
{"id": "C94", "title": "gRPC drivers and trees of drivers release what they acquire", "statement": "From Initialize (successful or not) through any calls of SetNumPeers, HandleConnect, SetNumMultiServerChannels, SetupMultiserverChannel, ShutdownServer and ShutdownClient to the destructor, a gRPC driver with any client and server type releases its completion queues, threads, pools, services, servers and stubs exactly once, each after whatever uses it. A tree of drivers is made exactly where the allocator returns one; what happens at each of its leaves is exactly a life of that driver on its own with the calls that reach it, so that used as the engine does every leaf is released in order; if the allocation fails, each driver that was begun is released likewise. HandleConnect of a composite succeeds exactly if every leaf does, leaves are asked in order and none after one that fails. Refuted: a failed connection is undone; multi-server channels can be set up through composites.", "quantifier": "forall options, outcomes of every system call of Initialize of each leaf, alias resolvers, sequences of calls with any outcome of connecting each leaf", "why_tests_cant": "Tests allocate a few trees that all succeed; failures of the second instance of a double barrel, of starting a server and of single connections cannot be provoked at will, nor are leaks or orders of destruction observed.", "anchors": ["protocol_driver_grpc.cc:105-178", "protocol_driver_grpc.cc:281-291", "protocol_driver_grpc.cc:334-516", "protocol_driver_grpc.cc:521-576", "protocol_driver_grpc.cc:624-678", "protocol_driver_grpc.cc:780-836", "protocol_driver_double_barrel.cc:38-143", "composable_rpc_counter.cc:37-112", "protocol_driver_allocator.cc:45-84", "protocol_driver.cc:139-146"]}
{"id": "C95", "title": "Threads do not deadlock over mutexes, joins and conditions, unless the overload callback runs", "statement": "Let any number of threads run any sequences of the RPC handlers and main-thread functions of test sequencers and node managers, and any number of threads made for engines do any engine work. However they are scheduled, and whether or not waiting writers keep readers of a mutex out, from every unfinished thread following who-waits-for-whom leads to a thread that can go on; every schedule ends, and only with all threads done; a mutex held exclusively has no other holder; conditions are awaited only on the one mutex held, or on a thread pool's under the node manager's. This stays so with overload callbacks as long as nobody takes a node manager's mutex exclusively. It is false otherwise: ConfigureNode deadlocks with a driver thread that runs the overload callback, and a waiting RegisterNode or GetTrafficResult keeps CancelTraffic out of the mutex that RunTraffic holds.", "quantifier": "for all sets of threads, all programs within the model of each function, all schedules, both admission policies of reader-writer mutexes", "why_tests_cant": "Deadlocks depend on the interleaving of several threads; tests run few schedules and do not run the overload callback during configuration.", "anchors": ["distbench_node_manager.cc:55-265", "distbench_test_sequencer.cc:94-222", "distbench_engine.cc:904-988", "distbench_thread_support.cc:38-91", "protocol_driver_grpc.cc:812-846", "distbench_threadpool.cc:50-266"]}
{"id": "C96", "title": "Shared fields are touched only with their mutexes; nine fields are not and race", "statement": "In every execution of the threads of C95, with overload callbacks too and deadlocked or not: a thread about to read or write the registry or running context of the test sequencer, its active nodes, a node manager's traffic configuration, peers or node configuration, an engine's partial logs, replay logs, state cache, random generator or error dictionary, an action list's logs, override or finished actions, iteration counts, replay state, the tasks of a pool, or the thread limits holds the mutex of that field, and holds it exclusively in order to write; hence no two threads are about to touch it with one of them writing. While no node manager is being initialised or destroyed the same holds of its engines and its registration. It is false of cancelation_reason_, the cumulative activity logs, rusage_start_test_, the main thread of an engine, the overload callback, the random generator of an iteration (drawn from by the callbacks of its RPCs once the packed samples are full), the time of the next iteration of an action (written when the action finishes, read when an iteration ends), and (around Initialize and the destructor) the registration and the engines of a node manager: for each, an execution reaches a data race.", "quantifier": "for all sets of threads, all programs within the model of each function, all schedules, both admission policies of reader-writer mutexes, all fields listed", "why_tests_cant": "A data race is a property of interleavings and is mostly harmless when it happens; thread sanitizers see only the schedules that a test runs, and compile-time annotations cover only annotated fields.", "anchors": ["distbench_engine.cc:876-971", "distbench_engine.cc:1502-1595", "distbench_node_manager.cc:55-367", "distbench_test_sequencer.cc:41-222", "distbench_thread_support.cc:30-77", "distbench_threadpool.cc:50-266"]}
{"id": "C97", "title": "The result file holds a beginning of the results; success is reported though up to a block may be missing", "statement": "Saving results, in either format: a file that cannot be opened is left alone and an error is returned; otherwise the old contents are gone and the file holds exactly as many leading bytes of the results as the device took, no other file being touched. If the device has room, the file is complete and success is returned. An error means that the file was not opened or is not complete; success means that at most one block of protobuf's stream (text) or one buffer of the C++ file (binary) is missing at the end. It does not mean that the file is complete: on a full device results that fit into a block are reported as saved and run_tests exits with 0 while the file is empty. The text form leaves the file descriptor open, the binary form does not; results too large to be serialised leave the file empty.", "quantifier": "for all results, file names, file systems, amounts of room on the device, block and buffer sizes, and choices of the C++ library which writes to hold in its buffer", "why_tests_cant": "Tests save small results to devices that do not fill up; the truncation depends on where the device fails relative to block boundaries.", "anchors": ["distbench_utils.cc:402-430", "distbench_busybox.cc:213-229", "distbench_busybox.cc:296-312"]}
{"id": "C98", "title": "The thread pool over Mercury's calls each task once and frees its object once", "statement": "A pool made over Mercury's thread pool: each task given to it is called exactly once, or still waits to be; its heap object is used by no one after it was deleted and deleted exactly once, whatever addresses the allocator gives out and however the workers interleave. Once the destructor has returned every task has returned, no object is left, and any further use is undefined; until then, with at least one worker, some worker can go on, and after at most four steps per object the destructor gets through. One worker calls tasks in the order in which they were given. Nothing undefined happens unless the pool is used after its destruction. If hg_thread_pool_init fails, the error is only logged and the pointer it did not set is used by AddTask and by the destructor.", "quantifier": "for all numbers of workers, tasks, addresses handed out by the allocator, and interleavings of AddTask, of the workers' steps and of the destructor", "why_tests_cant": "Tests run a few interleavings with one allocator, and no test makes the initialisation of the pool fail.", "anchors": ["distbench_threadpool.cc:270-320"]}
{"id": "C99", "title": "CopyRequestFields copies the RPC index into the response size", "statement": "CopyRequestFields sets rpc_index, the trace context, warmup and the processing time of the destination to those of the source where the source has them, and leaves every other field of the destination alone; the result can be sent and is received unchanged. The response size is not copied: if the source has one, the destination gets the RPC index of the source instead, or 0, which is right exactly if the two are equal.", "quantifier": "for all source and destination messages", "why_tests_cant": "No test calls the function; tests with equal values would pass.", "anchors": ["distbench_utils.cc:945-962"]}
{"id": "C100", "title": "What is recorded about an RPC of a closed loop", "statement": "An RPC that is answered is recorded with the sizes of its own request and answer, its own warmup mark and trace, and as a success exactly if the answer carries no error message, whatever RPCs used the same state before. An RPC that fails is never recorded as a success; but what else is recorded about it is taken from what is left in the state: with gRPC the request counts as empty (size 0, no warmup mark, no trace), the answer is the last one that came before with the message of the status, and on a multi-server channel the RPC counts for the instance that gave that last answer; with Homa and Mercury also the error message is that of the last answer. Traffic is cancelled exactly when the recorded message starts as that of an overloaded peer. The first RPC has no latency weight and each other one the time since the start of the one before it, so that together they weigh the time from the first start to the last. In iterations with several targets each place has its own state, which lasts until an iteration has targets but none at this place. A replayed RPC has a state of its own; it is logged with the error message of its answer or of the gRPC status, and without any mark if it fails with Homa or Mercury.", "quantifier": "for all drivers, all sequences of iterations, targets, requests and outcomes, all positions in them", "why_tests_cant": "Needs RPCs that fail after others were answered in the same closed loop, and a look at the samples of the failed ones.", "anchors": ["distbench_engine.cc:2045-2091", "distbench_engine.cc:2104-2240", "distbench_engine.cc:1735-1792", "protocol_driver_grpc.cc:183-275", "protocol_driver_grpc.cc:530-570", "protocol_driver_mercury.cc:227-260", "protocol_driver_mercury.cc:423-450", "protocol_driver_homa.cc:380-412", "protocol_driver_homa.cc:510-535", "protocol_driver.cc:148-156", "distbench_engine.cc:1208-1250"]}
