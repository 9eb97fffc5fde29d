# Formal model of google/distbench in Rocq (Coq 8.16.1)

The sources under /repo were read as text; nothing was built or run.  The
model lives in `rocq/theories` (logical name `Verif`).  Each subsystem `X` has

* `X_Model.v` : executable Gallina definitions only.  Every definition cites
  the file and lines of /repo it models and says where it simplifies;
* `X_Proofs.v`: specifications that do not mention the model's helpers, and
  the lemmas;
* `X_Props.v` : only the property theorems (`Theorem ... exact lemma. Qed.`),
  `Print Assumptions` under each, and the non-vacuity `Example`s.

## Conventions

* Integers are `Z` or `N` (unbounded) unless the property is about overflow;
  where the C++ type truncates and it matters the truncation is written out.
* `CHECK`, `LOG(FATAL)`, out-of-range indexing, division by zero and other
  undefined behaviour are distinct outcomes of the model, never defaults.
* Randomness, clocks, thread schedules, completion orders and remote replies are
  universally quantified arguments: oracles (functions/lists) or step
  sequences chosen by an adversary.
* Critical sections under a mutex are atomic steps; code between two critical
  sections, and each atomic access, is a separate step of its thread.
* `_refuted` theorems are statements the unchanged code violates, with a
  concrete witness; `_partial` theorems prove a part of the stated property.

## Plan per property

| id | modelled | proof |
|----|----------|-------|
| C01 | payload.cc padding arithmetic over the real wire sizes of every field | case split on the varint boundary |
| C02 | MakeVarInt / VarIntSize / ReadVarInt over byte lists, bit-exact, reads outside the buffer are an error outcome | induction on the value / loop invariant |
| C03 | wire serializer and parser for GenericRequestResponse, SerializeToCord | round trip by induction over fields |
| C04 | MetaDataLength, FastParse of the Homa driver | scan invariant over the field list |
| C05 C06 C07 | grid arithmetic, instance names as strings, GetCanonicalServiceSpec | div/mod algebra; string parsing lemmas |
| C08 | GetCanonicalDistributedSystemDescription, ValidateIterations | equivalence with a declarative validity predicate; `!` check refuted |
| C09 C10 | ConstraintSolver, CheckConstraint* | loop invariants over the placement state; double placement refuted |
| C11 | RegisterNode as a state machine | invariant over request histories |
| C12 | RunTestSequence as a multi-thread transition system | invariant over all interleavings |
| C13 C14 | DoRunTestSequence, RunTraffic, CancelTraffic with completion order oracle | induction over tests / completions |
| C15-C21 | all fanout filters | arithmetic on grids; permutations; stochastic refuted |
| C22 | three thread pools as transition systems | invariants over all interleavings |
| C23 | thread_support.cc | invariant over histories |
| C24 C25 | RunActionList as a transition system over completion events | invariants |
| C26 C27 C28 | iteration bookkeeping | invariants over interleavings; open-loop double completion refuted |
| C29 C30 | RecordLatency / RecordPackedLatency / UnpackLatencySamples / GetLogs | multiset conservation; max-of-choosers characterisation |
| C31-C34 | RpcHandler, ComputeResponseSize, RunRpcActionIterationCommon | case analysis against declarative precedence; induction over hops |
| C35 C36 C37 | CancelTraffic, SafeNotification, ThreadSafeDictionary | invariants over interleavings / histories |
| C38 C39 | distributions; probabilities only as rationals | interval arithmetic, permutation of fields |
| C40 C41 | summary | sums over logs; sortedness |
| C42 C58 C55 | small lookups | induction |
| C43 | GetBestAddress | loop invariant |
| C44 C45 | driver allocation, double barrel | well-founded depth; counting |
| C46 C47 | gRPC FSM and clients | invariants over interleavings |
| C48 | Mercury serializer | round trip |
| C49 C50 C51 | RpcReplayTraceRunner | invariants over events; validation refuted |
| C52 C53 C54 | table compilation, ConnectToPeers | induction over configurations; channel index refuted |
| C56 C57 C59 C60 | node manager, activity logs, iteration cache, pending RPCs | invariants |
| C61 C62 | activity.cc | loop counts; acceptance characterised; truncations refuted |
| C63 | composable RPC counter | invariant over interleavings |
| C64 | Mercury client | invariant over interleavings with the library as environment |
| C65 C66 C67 | Homa framing, client, server | parser lemmas; invariants over interleavings |
| C68-C73 | distbench_busybox.cc commands, registration address, shutdown | case analysis against what the sequencer does |
| C74 | one test on all nodes: sequencer, node managers and engines composed | composition of C09, C14, C53, C56 |
| C75 | an RPC from the action to the handler of the peer, in a test of C74 | composition of C15-C20, C31-C33, C52-C54, C74 |
| C76 | a sequence of tests on the cluster | composition of C13, C74 |
| C77 | initialisation of the protocol drivers from their options, ServerAddress and the connection handshake, and both in a test of C75 | specification of each Initialize as an iff; round trip of the message; composition of C44, C56, C75 |
| C78 | the result and the summary of a test in terms of the RPCs its engines recorded: GetLogs, the node manager's choice of logs, merging, the summary's numbers | permutation from recorded samples to reported ones (C36, C53, C74), then C40 and C41 restated over the recorded RPCs |
| C79 | the text of the summary: headings, order, names, counts and the decimals of the rates, for any logs and for a test of C78 | error bounds for double division and decimal rounding over rationals; order lemmas for std::map keys; composition with C40, C41, C78 |
| C80 | the RPCs made by a whole test against the numbers the configuration prescribes: lists, actions, iterations, fan-out, handlers, logs | counting over execution records constrained by C24, C26, C27, C52, C75; induction over the depth of lists that start one another; composition with C78 |
| C81 | resource usage: getrusage readings, TimevalToDouble, the differences, node managers and sequencer, the test result | error bounds for double addition and subtraction over rationals; induction over histories of requests; merge of replies as in C14 |
| C82 | the action lists of the executions of C80 in terms of the configuration: order, delays, sleeping, clients, iterations, responses | invariants of C24-C28 and C32 through the compiled tables (C52); exact characterisation of the actions that are given up |
| C83 | small steps of the sequencer's main thread, of node managers, of the registration, test sequence and ShutdownNode RPCs and of handlers, in any interleaving | invariants over the runs (registry, messages sent, phases); a weight of the main thread; draining of the handlers |
| C84 | small steps of construction, destruction and ConfigureNode of node managers in one process, with the shared alias resolver and thread limit | simulation of each ConfigureNode by the model of a node manager alone (C56), under exact conditions; history invariants |
| C85 | small steps of the threads of one engine: action lists by origin, iterations up to the end of FinishIteration, merging of logs, GetLogs, RunTraffic, the waits of the destructor and the order of its members | invariants over runs and iterations; well-founded order of lists started by lists; a weight for progress |
| C86 | small steps of the Mercury server: polling thread, request and done callbacks, ServerRpcState in both builds, thread pool, ShutdownServer | invariant on who still works on which request; a weight for the shutdown; composition with C48 |
| C87 | the two timed waits and SpinFor of RealClock over readings of the clocks and results of the mutex | induction on the turns of the loop; mutex discipline as a run of a two-state automaton |
| C88 | clients of C64, servers of C86 and the messages between them, for any number of both | invariant linking every request to its RPC and every reply to its response; C48, C64 and C86 are used as they stand; progress by a macro step per RPC |
| C89 | inline and handoff gRPC servers under every interleaving of arriving calls, handlers and shutdown | invariant per call (six shapes a call can be in); a measure of the remaining work |
| C90 | gRPC clients of C46 and C47, all three gRPC servers and the calls between them, for any number of both | invariant linking each server call to its RPC and each completion to the server's answer; a lexicographic measure for the end |
| C91 | Homa clients and servers of C66 and C67 and the messages between them, for any number of both | invariant linking each request to the RPC its bytes came from and each completion to the server's response; a lexicographic measure for the end |
| C92 | driver trees of C45 with the gRPC clients of C46 and C47 at the leaves, ShutdownClient leaf by leaf | projection of each run to a run of the counters and to a run of each client; invariant matching calls and RPCs; measure |
| C93 | what Homa and Mercury drivers make and unmake from Initialize to the destructor, every failure of Initialize, any shutdown calls and connections between | a checker of event lists ([replay]: nothing made twice, used after it is gone, or unmade while needed); set version of it; invariant relating members to what is held |
| C94 | what gRPC drivers make and unmake from Initialize to the destructor; allocation, set-up, shutdown and destruction of trees of drivers, with every outcome at every leaf | the checker of C93; relation between the history of a tree and the lives of its leaves (by induction on the tree and the calls) |
| C95 | which function takes which mutex while holding which, joins, conditions; threads running such programs under reader-writer mutexes with either admission policy | order on mutexes kept by every program (by induction on programs); a chain of waits-for climbs the order; measure on operations |
| C96 | which field each of these functions reads or writes, holding what; a race is two threads about to touch a field, one to write it | every program touches a field only inside its mutex (by induction on programs), and mutexes exclude (C95) |
| C97 | writing results: blocks of the protobuf streams, the buffer of std::fstream, a device that fills up, descriptors | invariant of the block loop for any writer that either keeps a total or is full |
| C98 | tasks and heap objects of the pool over Mercury's, addresses chosen by the allocator | invariant: live objects are a permutation of queued and busy ones; measure for draining |
| C99 | CopyRequestFields | field by field, with the wire round trip of C03 |
| C100 | one ClientRpcState through the iterations of a closed loop: what gRPC, Mercury and Homa leave in it, the callback of the engine, what is recorded | the response in the state as a function of the outcomes so far (induction on them) |

## Trusted base

1. Coq 8.16.1's kernel (`coqc`), and `vm_compute` used in examples and
   `_refuted` witnesses.  No `native_compute`, no plugins.
2. `Print Assumptions` under every property theorem says "Closed under the
   global context": no axiom is used by any of them, neither one of the
   standard library nor one of this development.  The files load parts of the
   standard library that declare the seven parameters
   `Coq.ssr.ssrunder.Under_rel.*` (the body-less side of a sealed module of the
   `ssreflect` plugin's own library); they are loaded through `Lia`/`ssr`, and no
   theorem depends on them.
3. The claim that the definitions in the `_Model.v` files are what the code
   does.  Each cites the lines it models.  Nothing checks this but reading;
   mutation of the definitions (seeded/LOG.jsonl) checks that the theorems
   notice when they are changed.
4. The behaviour assumed of things outside /repo, each an argument or a step of
   the environment in the model:
   * protobuf: the wire format of the messages that the code scans by hand
     (Wire_Model.v), presence of optional fields, defaults.  Text format is an
     oracle (Cli_Model.v).
   * gRPC: a completion queue returns every tag once; an asynchronous call
     completes with a status; a server stops accepting after Shutdown, which returns
     when the server is through with every call; a request may be gone after
     Finish (Gsrv_Model.v).  A call reaches the server of its stub at most once and
     unchanged; it is completed once, with what this server answered to it or
     with an error of gRPC's own (Gnet_Model.v).
     Mercury and Homa: the calls may succeed or fail at any time (Merc_Model.v,
     Homa_Model.v), messages are delivered unchanged.  Mercury keeps a request's
     handle alive until its response is over, though the driver drops its own
     reference before it responds (Msrv_Model.v).  A request arrives at most once,
     at the server it is for; an RPC is called back once, with its own response
     or with an error and no output (Mnet_Model.v, Hnet_Model.v).
   * absl::Mutex critical sections are atomic steps; condition waits are
     enabled exactly when the condition holds; std::atomic operations are
     sequentially consistent.  Data races that the code has (findings) are
     therefore only covered where a model says so.
   * A blocking absl::Mutex wait times out only after its deadline; a thread uses
     no more CPU time than passes (Clock_Props.v).
   * Random numbers, clocks, getrusage, interface tables, fnmatch, hashes and
     the order of absl hash maps are universally quantified arguments.
   * The C++ standard library: std::sort, shuffle (some permutation), thread.
   * absl::Mutex: exclusive or shared, with readers kept out by waiting writers or
     not (C95 is for both); conditions awaited come true (C35-C37, C59 are about
     those conditions).
   * protobuf streams gather blocks and write one when it is full and more comes,
     their destructors flush without a check; std::filebuf holds at most its
     buffer (C97, both sizes are arguments).
   * Mercury's thread pool (C98): posted work waits in a queue; a worker takes
     the work at its front; hg_thread_pool_destroy lets the workers empty the
     queue and joins them; hg_thread_pool_init sets the pointer only when it
     succeeds. The allocator never gives out an address that is in use.
   * absl::StrFormat: %d is exact; %.Nf is the exact value of the double rounded
     to N decimals, ties to even.  Doubles are IEEE binary64, round to nearest.

## What is modelled

| source | model | functions not modelled |
|---|---|---|
| distbench_payload.cc | Wire_Model | - |
| distbench_engine.cc | Table, Peer, Deliver (tables, peers, sending), AList, Iter, Rpc, Fanout, Log, Replay, Sync, Dist, Report (GetLogs), Work (what an action list does), Slot (what is recorded about an RPC), Lock, Race (mutexes, shared fields), Engine (threads and destructor) | gRPC server set-up; LOG output |
| distbench_utils.cc | Grid, Canon, Place, Dist, Util, Cli, Usage, Save (result files), Copy (CopyRequestFields) | Hostname, credentials, InitLibs, text printing |
| distbench_test_sequencer.cc | Seq, Place, Cluster, Session, Cli, Usage, Life (Wait, Shutdown, destructor), Lock, Race (mutexes, shared fields) | gRPC plumbing, LOG output |
| distbench_node_manager.cc | Node, Driver, Cli, Cluster, Usage, Life (start, registration, end), Lock, Race (mutexes, shared fields) | gRPC server set-up, tracing of signals |
| distbench_busybox.cc | Cli, Life (run_test_sequencer with local nodes) | usage text, flag parsing library |
| distbench_summary.cc | Sum, Float, Text | - |
| distbench_thread_support.cc | Sync; Lock, Race (mutex and thread start) | - |
| distbench_threadpool.cc | Pool, Lock, Race (mutexes, shared fields), Mpool (MercuryThreadpool) | GetStats of MercuryThreadpool (returns nothing), RegisterThread |
| distbench_netutils.cc | Net | text form of addresses (inet_ntop) |
| activity.cc | Util, Log | the memory traffic itself |
| joint_distribution_sample_generator.cc | Dist, Float | random engines |
| protocol_driver*.cc, composable_rpc_counter.cc, protocol_driver_allocator.cc | Driver, Host (the resolver), Grpc, Gsrv (inline and handoff gRPC servers), Homa, Merc, Msrv (Mercury server), Mnet (Mercury end to end), Gnet (gRPC end to end), Hnet (Homa end to end), Comp (composites over gRPC clients), Res (what Homa and Mercury drivers acquire and release), Tree (the same for gRPC, and trees of drivers), Peer, Conn, Clock (RealClock) | contents of credentials, buffers of Homa, transport statistics |
| *_test.cc, benchmarks, analysis scripts | - | all |

## Findings

Statements one would expect to hold and that the unchanged code falsifies; each
is a theorem with a concrete witness (`_refuted`), except where said otherwise.

Wire format and drivers
* C04: fields after the payload break the metadata scan on fragments; a message
  without payload above 4096 bytes crashes the zero-copy Homa receiver; some
  bytes make the scan loop for ever.
* C46: one failed Finish makes the polling server deaf; a call accepted before a
  handler is set hangs ShutdownServer; the inline server answers OK for a handler
  that never answered; the handoff server allows a read of freed state.
* C47: RPCs initiated during or after ShutdownClient, or to an unconnected peer,
  crash.
* C48, C64: Mercury accepts unequal and truncated lengths, throws on a huge one,
  does not report encode errors; failures of HG_Create/HG_Forward/HG_Get_output
  never reach the caller, or count as success; an RPC started while shutting down
  makes the destructor spin.
* C65-C67: Homa messages above 1 MiB overrun the copying receiver, some cuts crash
  the other; a failed RPC never completes and hangs ShutdownClient; an unparsable
  response counts as success; ShutdownServer unmaps the buffer while other
  threads use it, and hangs if a handler never answers.
* C44: unknown driver options names are ignored silently; an alias loses the
  device of the service.
* C77: Homa starts as many server threads as client threads whatever
  server_threads says, and a negative number of threads throws; the protocol
  grpc_async_callback does not select the asynchronous client and server; the
  client's transport is read from the server settings; a gRPC client accepts an
  address that does not parse, and drivers of different kinds connect.

Configuration
* C06: '/' in a service name.  C07: large sizes overflow; a service without count
  and size is rejected when canonicalised again.  C08: '!' predicates; replay
  instance indices are off by one or negative; replay counts of grid services.
* C10: MODULO without modulus divides by zero.  C09: an instance that is bundled
  and constrained is placed twice; negative counts throw; the greedy search misses
  solutions.
* C19: a missing distance is accepted.  C38: NaN, negative, reversed bounds pass;
  intervals beyond 32 bits; 78 equal weights are rejected; two-dimensional size
  distributions crash.
* C52: duplicate names of services, RPCs or lists; an error path reads a wrong
  index; payload sizes truncated to int; unnamed payloads become defaults; unknown
  distributions accepted.
* C53, C54: empty addresses, unknown names abort; multi-server channel indices are
  mixed up when two called services have channels; selected instances unchecked;
  unused channels fail the test.
* C55: narrowing, overflow and INT64_MIN in timeouts.  C62: accepted activities
  that cannot be allocated.  C42: a setting with both values.
* C69, C70: check_test accepts tests that cannot run, and crashes on some;
  test_preview canonicalises twice and cannot preview constrained services.

Running tests
* C11: preassigned id 2^31-1 overflows.  C12: the newest request need not win.
  C43: loopback can win; only 169.254.255 counts as link local; 172.17 to 172.31
  do not count as private, 172.160 to 172.169 do.
* C15, C75: same_x towards a smaller grid reads beyond the peers, or reaches an
  instance with other coordinates.  C18: concurrent iterations break fairness;
  two of them in step never reach one of two peers (no peer gets more than k
  times its share with k iterations at once).  C21: stochastic fan-out always sends to instance 0.
* C22: a queued task without an idle thread.  C23: disarming races with firing.
* C24: actions given up hang the list; cycles spin; skipped actions still send and
  cancel.  C26: zero, negative and missing counts; zero parallel iterations (or a
  multiple of 2^32) never complete, 2^31 to 2^32-1 throw.  C27: cancelled open loops
  complete twice (never more) or never: when idle, or when the last iteration to
  end read the flag before it was set.
* C30: latency weight 0 reads back as 1.  C31: replay requests are never answered.
  C32: negative sizes ask for 2^64 bytes.  C34: trace counter wraps.  C40: warm-up
  RPCs are counted in the rate.
* C49-C51: replay hangs on distances with other timing modes, ignores the
  documented default distance and the later end, and aborts on accepted traces.
* C56, C74, C76: a refused or failed configuration or test leaves state and
  engines behind; an instance placed twice runs twice.
* C73: a stub that could not be created crashes Shutdown.
* C78: the reason why an engine was cancelled is dropped if the engine has no
  logs; a second GetTrafficResult gets blank replay logs.
* C79: the total time and the total rates use the longest time of one pair of
  instances, not the time of the test, so the printed total rate can be any
  multiple of the real one.
* C80: a test whose RPCs fail completes as usual with fewer RPCs; the RPCs that
  the failed ones would have caused are missing from the counts without a trace.
* C82: an action whose RPC the engine may not call is never finished, so a list
  with such an action that is not skipped never returns, not even when the
  traffic is canceled (C82_clients; the configuration is accepted, C24).
* C81: node managers in one process each report the usage of the whole process,
  so the usages of the nodes do not add up; the reported growth of the resident
  set is zero whenever an earlier test had the same peak; asked for results
  before the first RunTraffic a node reports an uninitialised struct
  (C81_before_run), and so does a process whose getrusage failed.
* C83: Wait does not tell a node that registers while it collects the answers of
  the others to shut down, only the destructor does; a node manager whose
  registration fails hangs for ever if a handler waits for its name, because
  Initialize holds the mutex while it shuts the server down; a node that gave up
  stays registered; ShutdownNode does not cancel the traffic of the node, which
  ends only when its handlers have returned (C83_waits).
* C84: node managers in one process (--local_nodes) share one alias resolver: the
  aliases of a test are looked up in the configuration of the node manager that
  was constructed last, which may be of an earlier test or not be there yet, and
  in none after one was destroyed.  The look-up holds no lock of that manager.
  The thread limit is shared as well.
* C85: an iteration of a list in the engine's thread pool that is not the last of
  its action may call FreeIterationState after iteration_state_cache_ and its
  mutex were destroyed, because they are declared after thread_pool_; GetLogs can
  miss the RPCs of a handler whose response was already sent, because a list
  merges its logs after it has sent the response; two overlapping RunTraffic
  requests terminate the node manager.
* C86: ShutdownServer of the Mercury driver joins the polling thread before it
  empties the thread pool, so a response sent by a task may never be progressed;
  result buffers that HG_Respond refused, or whose callback comes after that, are
  leaked; a request before SetHandler, or one whose length field is too large,
  ends the process; a second SendResponseIfSet is caught in debug builds only.
* C87: a spinning wait measures its timeout in CPU time of the thread, so on a
  busy machine it goes on spinning for any time after its deadline.  With no
  deadline it never blocks.
* C88: an RPC whose server was shut down before it looked at the request stays
  without a callback until Mercury reports an error, and ShutdownClient waits
  for it; the driver has no timeout of its own.
* C89: a call that reaches the inline or handoff server before SetHandler waits
  for handler_set_, which otherwise only the destructor of the service sets; so
  ShutdownServer, which waits for the call, never returns if SetHandler is never
  called, and the UNAVAILABLE branch for a missing handler cannot be reached.  A
  handoff handler that never sends a response blocks ShutdownServer forever; an
  inline one is answered OK with an empty message.
* C90: once one response of a polling server could not be sent, the server takes
  one more call and then none.  A later RPC has no callback until gRPC reports
  an error, and ShutdownClient waits for it.
* C91: a request that a server thread receives while the server shuts down is
  dropped without a response.  If the kernel tells the client by a negative
  length, or not at all, the RPC has no callback and ShutdownClient never
  returns.
* C92: below a double barrel, an RPC initiated from a callback while
  ShutdownClient has passed instance 1 and waits for instance 2 can go to
  instance 1, whose stubs are gone: a CHECK ends the process.  A single gRPC
  client allows such RPCs (C47_no_crash).
* C93: ShutdownServer of Homa unmaps server_buffer_ inside the loop that joins
  the server threads, so after the first join; with two or more threads (two
  is the default) the others may still read from it.  With none
  (client_threads 0, or a negative number, for which reserve throws) it is
  never unmapped.
* C93: Homa starts its threads before bind(); when bind or getsockname fails
  they have run, and the destructor ends them.
* C93: Mercury's Initialize does not free its own address when
  HG_Addr_to_string fails; HandleConnect for a peer that is connected already
  loses the old address, and so does a smaller SetNumPeers; in each case the
  class is finalised with an address outstanding.
* C93: the destructor of Mercury calls HG_Deregister without asking whether
  Initialize got to HG_Register_name: the id is then not initialised, and the
  class may be null.
* C94: HandleConnect of double_barrel stops at the first instance that fails
  and leaves what was connected before as it is: one instance has a stub for
  the peer, the other none (double_barrel.cc:85-90).
* C94: double_barrel and composable_rpc_counter do not override the functions
  for multi-server channels: SetupMultiserverChannel is Unimplemented through
  them (protocol_driver.cc:139-146) though every leaf may be gRPC over TCP.
* C95: the overload callback takes the mutex of each node manager for reading
  (busybox.cc:345-350). In ConfigureNode, which holds it exclusively, the polling
  server of gRPC waits for its thread to begin its function
  (protocol_driver_grpc.cc:813-814), but that thread runs the callback first
  (thread_support.cc:65-74): if it is the one thread too many, the node manager
  deadlocks with nothing failed. The 5 seconds of RunRegisteredThread do not
  help (`C95_overload_start_refuted`). Likewise any driver that fails after it
  started that thread, as it joins it (`C95_overload_join_refuted`).
* C95: RunTraffic of the test sequencer and of node managers holds its mutex for
  reading all the time, and CancelTraffic is to read it too. absl::Mutex admits
  no new readers while a writer waits, so a RegisterNode (or GetTrafficResult,
  ConfigureNode, IntroducePeers) that comes in between keeps the cancellation
  out until the traffic ends by itself (`C95_cancel_waits_refuted`), or for ever
  if a joined thread runs the overload callback (`C95_overload_writer_refuted`).
* C96: the new thread reads abort_callback without abort_mutex
  (thread_support.cc:69-71) while SetOverloadAbortThreshhold(0) may clear it
  (`C96_callback_refuted`).
* C96: GetLogs reads cancelation_reason_ (engine.cc:942-944) without
  cancelation_mutex_ and the activity logs (921-930) without
  cumulative_activity_log_mu_, while threads of the engine may still write them
  (`C96_reason_refuted`, `C96_activity_logs_refuted`).
* C96: once the packed samples are full, the callbacks of the RPCs of one iteration
  draw from iteration_state->rand_gen (engine.cc:1702, 2224) without a lock
  (`C96_generator_refuted`).
* C96: HandleFinishedActions writes next_iteration_time with action_mu (engine.cc:1566),
  FinishIteration reads it with iteration_mutex (2064); after a cancellation an open
  loop may finish while the iteration started meanwhile is under way
  (`C96_next_time_refuted`).
* C96: RunTraffic of the node manager writes rusage_start_test_ and
  engine_main_thread_ with its mutex only shared: two such RPCs race
  (`C96_run_traffic_refuted`).
* C96: ~NodeManager clears the engines without the mutex, Initialize writes the
  registration after it started the server (`C96_destroy_refuted`,
  `C96_initialize_refuted`).
* C97: SaveResultProtoToFile and its binary form check neither the last block
  nor closing (utils.cc:412-429): on a full device small results are reported as
  saved, run_tests exits with 0, and the file is empty (`C97_full_refuted`,
  `C97_exit_refuted`). The text form never closes its descriptor
  (`C97_descriptors_refuted`).
* C98: MercuryThreadpool only logs that hg_thread_pool_init failed, and keeps a
  pointer that was never set; AddTask and the destructor use it
  (`C98_init_refuted`).
* C99: CopyRequestFields (not called in this commit) copies rpc_index into
  response_payload_size (`C99_size_refuted`).
* C100: the state of an RPC is reused in a closed loop and not cleared.  With gRPC
  a failed RPC is recorded with request size 0, without its warmup mark and trace,
  with the previous answer's size; on a multi-server channel for the instance of
  the previous answer, not for 0 as the comment says
  (`C100_grpc_failed_refuted`).  With Homa and Mercury it gets the previous
  answer's error message, or none (`C100_other_failed_refuted`).
  A replayed RPC that fails there is logged like one that succeeded
  (`C100_replay_failed_refuted`); the server_instance of replay samples
  (distbench.proto:96-98) is never set.

Seen in the code but not modelled: ThreadSafeDictionary::GetValue returns a view that may dangle; RpcHandler sends
the cancelled reply while holding cancelation_mutex_;
RunTestSequence notifies before it clears the running context.
