(** The mutexes of the test sequencer, node managers, engines, thread pools and
    of thread creation: which function takes which while holding which, and
    threads that run such functions at once.  Definitions only.

    For each function only what it does with mutexes, threads it waits for and
    conditions is kept; loops and branches become "any number of" and "one of",
    so that the programs here include those of the code.  Waiting for replies of
    RPCs (all have deadlines), for completion queues and for gRPC servers to
    shut down is left out (Life_Model.v has the last). *)
From Coq Require Import List Bool Arith.
Import ListNotations.
Open Scope nat_scope.

(** ** Mutexes *)
(** canceled_ (distbench_engine.h:432), shutdown_requested_ of node managers and
    of the test sequencer: SafeNotification, each with a mutex. *)
Inductive note := NCanceled (e : nat) | NNode (n : nat) | NSeq (s : nat).
(** Numbers tell instances apart: [s] test sequencers, [n] node managers, [e]
    engines, [a] invocations of action lists, [p] thread pools, [r] replays, [t]
    threads.  [Thread t] is no mutex: thread [t] has it from the beginning to
    the end, and to join the thread is to take it; [Started t] likewise until
    the function that the thread was made for begins. *)
Inductive lock :=
  | SeqMu (s : nat)                      (* distbench_test_sequencer.h:103 *)
  | CancelMu (s : nat)                   (* 101 *)
  | NodeMu (n : nat)                     (* distbench_node_manager.h:101 *)
  | ConfigMu (n : nat)                   (* 112 *)
  | Thread (t : nat) | Started (t : nat)
  | Cancelation (e : nat)                (* distbench_engine.h:433 *)
  | ReplayLogs (e : nat)                 (* 417 *)
  | PeerMu (e i j : nat)                 (* 144 *)
  | ActivityLog (e : nat)                (* 413 *)
  | IterCache (e : nat)                  (* 443 *)
  | Bitgen (e : nat)                     (* 446 *)
  | Dict (e : nat)                       (* 45 *)
  | ActionMu (a : nat)                   (* 282 *)
  | Reservoir (a : nat)                  (* 291 *)
  | IterMu (a i : nat)                   (* 202 *)
  | RpcMu (r : nat)                      (* distbench_engine.cc:1085 *)
  | PoolMu (p : nat)                     (* distbench_threadpool.cc:44, 79, 142 *)
  | Abort                                (* distbench_thread_support.cc:31 *)
  | MercuryInit                          (* protocol_driver_mercury.cc:37 *)
  | Notified (k : note).                 (* distbench_utils.h:55 *)
Definition lock_eq_dec (a b : lock) : {a = b} + {a <> b}.
Proof. repeat decide equality. Defined.

(** ** Fields *)
(** What the mutexes are for.  Left out: what is only written before other
    threads know of it (tables of engines and drivers, options), atomics, the
    packed samples (each slot is claimed with an atomic counter), the states of
    actions that only the thread of the action list changes. *)
Inductive field :=
  | Registry (s : nat)                   (* registered_nodes_ and the two maps, distbench_test_sequencer.h:104-106 *)
  | Running (s : nat)                    (* the context and notification of the running sequence, 107-110 *)
  | Active (s : nat)                     (* 102 *)
  | TrafficConfig (n : nat)              (* distbench_node_manager.h:102 *)
  | Peers (n : nat)                      (* 103 *)
  | Engines (n : nat)                    (* 105 *)
  | NodeConf (n : nat)                   (* 113 *)
  | Registration (n : nat)               (* 110 *)
  | RusageStart (n : nat)                (* 115 *)
  | MainThread (e : nat)                 (* engine_main_thread_, traffic_start_time_ns_ *)
  | Reason (e : nat)                     (* distbench_engine.h:434-436 *)
  | Partial (e i j : nat)                (* 143 *)
  | ActivityLogs (e : nat)               (* 414 *)
  | ReplayLog (e : nat)                  (* 418 *)
  | Cache (e : nat)                      (* 441 *)
  | Gen (e : nat)                        (* 445 *)
  | Contents (e : nat)                   (* 43-44 *)
  | PeerLogs (a : nat)                   (* 285 *)
  | Override (a : nat)                   (* 276 *)
  | Finished (a : nat)                   (* 283 *)
  | IterCount (a i : nat)                (* 203-204 *)
  | NextTime (a i : nat)                 (* 205, next_iteration_time *)
  | IterGen (a i : nat)                  (* 192, rand_gen of an iteration *)
  | ReplayState (r : nat)                (* distbench_engine.cc:1083-1092 *)
  | Tasks (p : nat)                      (* distbench_threadpool.cc *)
  | AbortLimits                          (* distbench_thread_support.cc:32-33 *)
  | AbortCallback.                       (* 34 *)

(** ** Programs *)
Inductive mode := Excl | Shared.
(** [Take m l body]: a MutexLock or ReaderMutexLock and what happens in its
    scope, or Lock ... Unlock.  [Await l]: Await or LockWhen on the mutex held:
    it is given up and taken again when the condition holds, which is taken to
    happen.  [Touch w f]: field [f] is read, or written if [w]. *)
Inductive step := Take (m : mode) (l : lock) (body : list step) | Await (l : lock) | Touch (w : bool) (f : field).
Definition prog := list step -> Prop.
Definition none : prog := fun x => x = [].
Definition either (P Q : prog) : prog := fun x => P x \/ Q x.
Definition then_ (P Q : prog) : prog := fun x => exists a b, x = a ++ b /\ P a /\ Q b.
Inductive many (P : prog) : prog := many_nil : many P [] | many_cons a b : P a -> many P b -> many P (a ++ b).
Definition opt (P : prog) : prog := either none P.
Definition under (m : mode) (l : lock) (P : prog) : prog := fun x => exists b, x = [Take m l b] /\ P b.
Definition reads (f : field) : prog := fun x => x = [Touch false f].
Definition writes (f : field) : prog := fun x => x = [Touch true f].
Definition locked (l : lock) : prog := under Excl l none.
Definition await (l : lock) : prog := fun x => x = [Await l].
Definition some_ {A} (f : A -> prog) : prog := fun x => exists a, f a x.

(** ** Threads *)
(** distbench_thread_support.cc:38-49 and 55-64 (RunRegisteredThread up to the
    thread). *)
Definition set_overload : prog := under Excl Abort (then_ (opt (writes AbortLimits)) (opt (writes AbortCallback))).
Definition run_thread : prog := under Excl Abort (then_ (writes AbortLimits) (opt (reads AbortCallback))).
(** 75-76. *)
Definition thread_end : prog := under Excl Abort (writes AbortLimits).
(** std::thread::join; also, as if it were until the very end of the thread, the wait of a pool for its last thread
    (distbench_threadpool.cc:54, 118, 264), the wait for detached action lists
    (distbench_engine.cc:121-123). *)
Definition wait_for (t : nat) : prog := under Shared (Thread t) none.
(** handle_rpcs_started_ (protocol_driver_grpc.cc:813-814, 846). *)
Definition wait_start (t : nat) : prog := under Shared (Started t) none.
(** distbench_utils.h:39-50. *)
Definition try_notify (k : note) : prog := opt (locked (Notified k)).

(** ** Engine *)
(** distbench_engine.cc:66-92 ThreadSafeDictionary. *)
Definition dictionary (e : nat) : prog := under Excl (Dict e) (then_ (reads (Contents e)) (opt (writes (Contents e)))).
(** 904-912 CancelTraffic. *)
Definition cancel_engine (e : nat) : prog := under Excl (Cancelation e) (then_ (try_notify (NCanceled e)) (opt (writes (Reason e)))).
(** 977-988 RpcHandler; the drivers take no mutex to respond. *)
Definition refuse (e : nat) : prog := opt (under Excl (Cancelation e) (reads (Reason e))).
(** 932-938, 1833-1835. *)
Definition replay_logs (e : nat) : prog := under Excl (ReplayLogs e) (opt (writes (ReplayLog e))).
(** 947-962; also the copy of peers (distbench_engine.h:131-137). *)
Definition peer (e : nat) : prog := some_ (fun ij => under Excl (PeerMu e (fst ij) (snd ij)) (reads (Partial e (fst ij) (snd ij)))).
(** 940-971 GetLogs; 942-944 and AddActivityLogs (921-930) take no mutex. *)
Definition get_logs (e : nat) : prog := then_ (reads (Reason e)) (then_ (many (peer e)) (then_ (dictionary e) (then_ (reads (ActivityLogs e)) (replay_logs e)))).
(** 1099-1254: SetupDependencies, the activations, Run (1180-1205 with await,
    1252) and the callback (1209-1224). *)
Definition replay (e r : nat) : prog := either (under Excl (RpcMu r) (then_ (reads (ReplayState r)) (then_ (opt (await (RpcMu r))) (opt (writes (ReplayState r)))))) (dictionary e).
(** 1683-1791 RecordLatency, RecordPackedLatency: with packed samples no mutex;
    once they are full an index from the generator of the iteration (1702, 2224)
    and if it is among the samples reservoir_sample_lock_; without packed samples
    action_mu.  What else is drawn from this generator (2149-2171, 2434-2512) is
    drawn before the RPCs of the iteration start and is left out. *)
Definition record_latency (e a : nat) : prog :=
  either (opt (dictionary e)) (either (then_ (some_ (fun i => writes (IterGen a i))) (opt (under Excl (Reservoir a) (opt (dictionary e))))) (under Excl (ActionMu a) (then_ (writes (PeerLogs a)) (opt (dictionary e))))).
(** 1530-1552 ComputeResponseSize. *)
Definition response_size (e : nat) : prog := opt (under Excl (Bitgen e) (writes (Gen e))).
(** 1347-1351, 1518-1528 FinishAction, 1592-1595, 1645-1680, distbench_engine.h:271-274. *)
Definition action_mu (a : nat) : prog := under Excl (ActionMu a) (either (reads (Override a)) (either (writes (PeerLogs a)) (then_ (writes (Finished a)) (opt (writes (Override a)))))).
(** 1419-1449, all_done_callback. *)
Definition all_done (e a : nat) : prog := then_ (opt (then_ (opt (action_mu a)) (response_size e))) (then_ (opt (cancel_engine e)) (action_mu a)).
(** 1473-1480, 1554-1570, 1627-1643: waiting for actions; the condition is
    evaluated with the mutex; HandleFinishedActions also writes
    next_iteration_time of the actions (1566). *)
Definition wait_actions (a : nat) : prog :=
  under Excl (ActionMu a) (then_ (reads (Finished a)) (then_ (await (ActionMu a)) (then_ (writes (Finished a)) (many (some_ (fun i => writes (NextTime a i))))))).
(** 1502-1512, merging the logs. *)
Definition merge_logs (e a : nat) : prog := under Excl (ActionMu a) (then_ (writes (PeerLogs a)) (many (some_ (fun ij => under Excl (PeerMu e (fst ij) (snd ij)) (writes (Partial e (fst ij) (snd ij))))))).
(** 1514-1515. *)
Definition activity_logs (e : nat) : prog := under Excl (ActivityLog e) (writes (ActivityLogs e)).
(** 1393, 1462, 1927-1934, 1963-1965, 1977-1992, 2051-2074.  next_iteration_time is
    written by the thread of the action list only; what this thread reads of it
    without the mutex (1361, 1370) and writes before the action has iterations
    (1399, 1937-1957) is left out. *)
Definition iteration (a i : nat) : prog :=
  under Excl (IterMu a i) (then_ (opt (writes (IterCount a i))) (opt (either (reads (NextTime a i)) (writes (NextTime a i))))).
(** 2005-2010, 2031-2044. *)
Definition iteration_cache (e : nat) : prog := under Excl (IterCache e) (writes (Cache e)).
(** distbench_threadpool.cc:57-67, 121-124, 149-176 AddTask; 90-107, 197-246 the
    threads of a pool between tasks. *)
Definition add_task (p : nat) : prog := then_ (under Excl (PoolMu p) (then_ (reads (Tasks p)) (then_ (opt (await (PoolMu p))) (opt (writes (Tasks p)))))) (opt run_thread).
(** Everything that the threads of an engine, of its pools and of its driver do
    with mutexes: the main thread, handlers of RPCs, callbacks of RPCs, tasks. *)
Definition work (e : nat) : prog := many (either (refuse e) (either (dictionary e) (either (cancel_engine e) (either (replay_logs e)
  (either (some_ (replay e)) (either (some_ (record_latency e)) (either (response_size e) (either (some_ (all_done e)) (either (some_ wait_actions)
  (either (some_ (merge_logs e)) (either (activity_logs e) (either (some_ (fun ai => iteration (fst ai) (snd ai))) (either (iteration_cache e) (some_ add_task)))))))))))))).
(** 113-125 ~DistBenchEngine and the destructors of its pool
    (distbench_threadpool.cc:50-55, 113-119, 259-266) and driver
    (protocol_driver_mercury.cc:157-178, joins of all drivers). *)
Definition destroy_engine : prog := many (either (some_ wait_for) (either (locked MercuryInit) (some_ (fun p => under Excl (PoolMu p) (then_ (writes (Tasks p)) (await (PoolMu p))))))).
(** distbench_node_manager.cc:139-170 AllocService: driver
    (protocol_driver_mercury.cc:74-101, 205-213, threads), engine; what fails is
    destroyed. *)
Definition alloc_engine (e : nat) : prog := many (either run_thread (either (some_ wait_start) (either (locked MercuryInit) (either (dictionary e) (either (peer e) destroy_engine))))).

(** ** Node manager *)
(** distbench_node_manager.h:97-100 NodeAlias. *)
Definition node_alias (n : nat) : prog := under Excl (ConfigMu n) (reads (NodeConf n)).
(** distbench_node_manager.cc:55-119. *)
Definition configure_node (n : nat) : prog := under Excl (NodeMu n) (then_ (writes (TrafficConfig n)) (then_ (opt set_overload) (then_ (opt (writes (Engines n))) (then_ destroy_engine (many (then_ (reads (TrafficConfig n)) (then_ (some_ alloc_engine) (then_ (opt (writes (Engines n))) (opt (reads (Registration n))))))))))).
(** 172-186: peers are copied, no other mutex (ConfigurePeers 703-874). *)
Definition introduce_peers (n : nat) : prog := under Excl (NodeMu n) (then_ (writes (Peers n)) (then_ (reads (Engines n)) (many (some_ peer)))).
(** 188-206, with RunTraffic and FinishTraffic of the engines
    (distbench_engine.cc:876-902, 914-919). *)
Definition run_traffic_node (n : nat) : prog := under Shared (NodeMu n) (then_ (writes (RusageStart n)) (then_ (reads (Engines n)) (then_ (many (some_ (fun e => then_ (writes (MainThread e)) (opt run_thread)))) (many (then_ (some_ wait_for) (some_ (fun e => writes (MainThread e)))))))).
(** 208-233. *)
Definition get_traffic_result (n : nat) : prog := under Excl (NodeMu n) (then_ (reads (Engines n)) (then_ (many (some_ get_logs)) (then_ (opt (then_ (many (some_ cancel_engine)) (then_ (writes (Engines n)) destroy_engine))) (then_ (node_alias n) (reads (RusageStart n)))))).
(** 235-249. *)
Definition cancel_node (n : nat) : prog := then_ (node_alias n) (under Shared (NodeMu n) (then_ (reads (Engines n)) (then_ (many (some_ cancel_engine)) (node_alias n)))).
(** 251-258. *)
Definition shutdown_node (n : nat) : prog := then_ (try_notify (NNode n)) (opt (node_alias n)).
(** 285-367 Initialize; 260-265 Shutdown. *)
Definition init_node (n : nat) : prog := then_ (many (writes (Registration n))) (either (try_notify (NNode n)) (under Excl (ConfigMu n) (then_ (reads (Registration n)) (then_ (writes (NodeConf n)) (opt (try_notify (NNode n))))))).
(** 274-283: the engines are destroyed without the mutex. *)
Definition destroy_node (n : nat) : prog := then_ (try_notify (NNode n)) (then_ (writes (Engines n)) destroy_engine).

(** ** Test sequencer *)
(** distbench_test_sequencer.cc:41-92. *)
Definition register_node (s : nat) : prog := under Excl (SeqMu s) (then_ (reads (Registry s)) (opt (writes (Registry s)))).
(** distbench_test_sequencer.h:86-99. *)
Definition active_nodes (s : nat) : prog := under Excl (CancelMu s) (either (reads (Active s)) (writes (Active s))).
(** 138-179. *)
Definition cancel_sequencer (s : nat) : prog := under Shared (SeqMu s) (then_ (reads (Registry s)) (many (active_nodes s))).
(** 524-631 RunTraffic. *)
Definition run_traffic (s : nat) : prog := under Shared (SeqMu s) (then_ (reads (Registry s)) (many (active_nodes s))).
(** 181-222 with DoRunTest: 185, PlaceServices 227, ConfigureNodes 418,
    IntroducePeers 481, RunTraffic. *)
Definition run_tests (s : nat) : prog := many (either (under Excl (SeqMu s) (either (reads (Running s)) (reads (Registry s)))) (either (run_traffic s) (try_notify (NSeq s)))).
(** 94-136. *)
Definition run_sequence (s : nat) : prog := then_ (cancel_sequencer s) (then_ (many (under Excl (SeqMu s) (then_ (reads (Running s)) (opt (writes (Running s)))))) (then_ (run_tests s) (under Excl (SeqMu s) (writes (Running s))))).
(** 635-683 Shutdown. *)
Definition shutdown_sequencer (s : nat) : prog := then_ (under Excl (SeqMu s) (reads (Registry s))) (then_ (many (active_nodes s)) (try_notify (NSeq s))).

(** What a thread of gRPC or the main thread may run. *)
Definition entry : prog := either (some_ configure_node) (either (some_ introduce_peers) (either (some_ run_traffic_node) (either (some_ get_traffic_result)
  (either (some_ cancel_node) (either (some_ shutdown_node) (either (some_ init_node) (either (some_ destroy_node) (either (some_ register_node)
  (either (some_ run_sequence) (either (some_ shutdown_sequencer) (either (some_ work) set_overload))))))))))).
(** distbench_thread_support.cc:67-72: the overload callback is read without the
    mutex and called (distbench_busybox.cc:345-350, 412-415). *)
Definition callback : prog := then_ (reads AbortCallback) (many (some_ cancel_node)).

(** ** Execution *)
Inductive op := Acq (m : mode) (l : lock) | Rel (l : lock) | Tch (w : bool) (f : field).
Fixpoint ops (s : step) : list op :=
  match s with
  | Take m l b => Acq m l :: flat_map ops b ++ [Rel l]
  | Await l => [Rel l; Acq Excl l]
  | Touch w f => [Tch w f]
  end.
(** What a thread holds, whether it waits in the queue of the mutex that it is
    to take next, what it has to do. *)
Record thread := mkTh { t_held : list (lock * mode); t_wait : bool; t_todo : list op }.
(** A thread of gRPC, and a thread [t] made by RunRegisteredThread
    (distbench_thread_support.cc:65-77): [c] before the function, [w] the
    function. *)
Definition serving (x : list step) : thread := mkTh [] false (flat_map ops x).
Definition made (t : nat) (c w : list step) : thread :=
  mkTh [(Started t, Excl); (Thread t, Excl)] false (flat_map ops c ++ Rel (Started t) :: flat_map ops w ++ [Rel (Thread t)]).
Definition state := list thread.
Definition holds (l : lock) (m : mode) (h : thread) : bool := existsb (fun x => (if lock_eq_dec (fst x) l then true else false) && match snd x, m with Excl, Excl | Shared, Shared => true | _, _ => false end) (t_held h).
Definition wants_excl (l : lock) (h : thread) : bool :=
  t_wait h && match t_todo h with Acq Excl k :: _ => if lock_eq_dec k l then true else false | _ => false end.
(** absl::Mutex: a reader is admitted while only readers hold the mutex; [prefer]:
    unless a writer waits. *)
Definition blocks (prefer : bool) (m : mode) (l : lock) (h : thread) : bool :=
  holds l Excl h || match m with Excl => holds l Shared h | Shared => prefer && wants_excl l h end.
Definition free (prefer : bool) (m : mode) (l : lock) (s : state) : bool := negb (existsb (blocks prefer m l) s).
Fixpoint drop (l : lock) (h : list (lock * mode)) : list (lock * mode) :=
  match h with
  | [] => []
  | x :: r => if lock_eq_dec (fst x) l then r else x :: drop l r
  end.
Fixpoint put (i : nat) (h : thread) (s : state) : state :=
  match s, i with
  | [], _ => []
  | _ :: r, 0 => h :: r
  | x :: r, S k => x :: put k h r
  end.
(** One step of thread [i]; None: it is done, or waits. *)
Definition try (prefer : bool) (s : state) (i : nat) : option state :=
  match nth_error s i with
  | None => None
  | Some h =>
      match t_todo h with
      | [] => None
      | Rel l :: r => Some (put i (mkTh (drop l (t_held h)) false r) s)
      | Tch w f :: r => Some (put i (mkTh (t_held h) false r) s)
      | Acq m l :: r =>
          if free prefer m l s then Some (put i (mkTh ((l, m) :: t_held h) false r) s)
          else if t_wait h then None
          else Some (put i (mkTh (t_held h) true (t_todo h)) s)
      end
  end.
Fixpoint run (prefer : bool) (schedule : list nat) (s : state) : option state :=
  match schedule with
  | [] => Some s
  | i :: r => match try prefer s i with None => None | Some s' => run prefer r s' end
  end.
(** Thread [i] cannot take its next mutex because of thread [j]. *)
Definition waits_for (prefer : bool) (s : state) (i j : nat) : Prop := exists hi hj m l r,
  nth_error s i = Some hi /\ t_todo hi = Acq m l :: r /\ nth_error s j = Some hj /\ blocks prefer m l hj = true.
(** The threads at the beginning: any number that run any sequence of [serve],
    and any number made for engines, each with a number of its own and [before]
    ahead of its function. *)
Definition begins (serve before : prog) (s : state) : Prop :=
  (forall i h, nth_error s i = Some h -> (exists x, many serve x /\ h = serving x) \/ exists t e c w, h = made t c w /\ before c /\ then_ (work e) thread_end w) /\
  forall i j t c w c' w', nth_error s i = Some (made t c w) -> nth_error s j = Some (made t c' w') -> i = j.
(** What is awaited, with the mutexes held, the last taken first. *)
Fixpoint awaited (outer : list lock) (s : step) : list (lock * list lock) :=
  match s with
  | Take m l b => flat_map (awaited (l :: outer)) b
  | Await l => [(l, outer)]
  | Touch w f => []
  end.
