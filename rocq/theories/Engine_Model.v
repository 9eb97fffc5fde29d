(** The life of one engine: action lists and their iterations in many threads,
    the logs they leave, and the destructor.  Definitions only. *)
From Coq Require Import List Bool Arith.
Import ListNotations.

(** What runs an action list: the main thread (distbench_engine.cc 894-896), a
    driver thread inside RpcHandler (1039-1042), a task that RpcHandler returned
    to the driver (1044-1048), a task in thread_pool_ for the iteration [u] of
    an action of another list (1853-1858; a replay trace, 1809-1837, is shown as
    such a list). *)
Inductive origin := OMain | OInline | ODetached | ONested (u : nat).
(** Where RunActionList (1311-1516) is: not begun; in its loop, with whether the
    response was sent (1404-1421); after FreeStateIfSet (1490-1500); after the
    logs were merged (1501-1515); returned.  A list without RPCs merges an
    empty log here, nothing in the code. *)
Inductive rphase := RQueued | RRunning (sent : bool) | RFreed | RMerged | RGone.
Record runrec := mkRun { ru_origin : origin; ru_phase : rphase }.

(** An iteration of an action: of an RPC, ended by the done callback of the
    driver, or of a list in thread_pool_.  (Activities run in the loop itself.) *)
Inductive ukind := KRpc | KPool.
(** Where the iteration is: in progress; FinishIteration (2045-2091) has counted
    it but not as the last one and has released iteration_mutex, with
    FreeIterationState ahead (2087-2090); counted as the last one, with
    FreeIterationState and all_done_callback ahead (2075-2085); back in the
    driver or the pool, which touches the engine no more; over: the driver has
    decremented its count of RPCs, the pool its count of tasks. *)
Inductive uphase := UOpen | UTail | ULast | UBack | UGone.
Record unitrec := mkUnit { un_run : nat; un_action : nat; un_kind : ukind; un_phase : uphase }.

(** The destructor (113-127): not called; in FinishTraffic; in Shutdown and Wait
    of the engine's gRPC server; in ShutdownServer of the driver; waiting for
    detached_actionlist_threads_; in ShutdownClient; body over: the members
    declared after thread_pool_ (distbench_engine.h 439-446, among them
    iteration_state_cache_ and its mutex) are destroyed and ~thread_pool_ waits
    for its threads; over. *)
Inductive dphase := DNo | DJoin | DShut | DServer | DSpin | DClient | DMembers | DGone.
Definition rank (d : dphase) : nat :=
  match d with DNo => 0 | DJoin => 1 | DShut => 2 | DServer => 3 | DSpin => 4 | DClient => 5 | DMembers => 6 | DGone => 7 end.

(** The engine: [eg_main] is the run of a joinable engine_main_thread_;
    [eg_setups] the calls of SetupConnection (94-104) in progress;
    [eg_detached] is detached_actionlist_threads_; [eg_logs] the runs whose logs
    are in partial_logs; [eg_reports] what each GetLogs read; [eg_crashed]:
    std::terminate was called. *)
Record engine_state := mkEs {
  eg_runs : list runrec; eg_units : list unitrec; eg_main : option nat; eg_setups : nat; eg_detached : nat;
  eg_logs : list nat; eg_reports : list (list nat); eg_phase : dphase; eg_crashed : bool }.
Definition engine0 : engine_state := mkEs [] [] None 0 0 [] [] DNo false.

Fixpoint upd {A} (k : nat) (x : A) (l : list A) : list A :=
  match l, k with
  | [], _ => []
  | _ :: r, O => x :: r
  | y :: r, S j => y :: upd j x r
  end.
Definition with_runs (l : list runrec) (s : engine_state) : engine_state :=
  mkEs l (eg_units s) (eg_main s) (eg_setups s) (eg_detached s) (eg_logs s) (eg_reports s) (eg_phase s) (eg_crashed s).
Definition with_units (l : list unitrec) (s : engine_state) : engine_state :=
  mkEs (eg_runs s) l (eg_main s) (eg_setups s) (eg_detached s) (eg_logs s) (eg_reports s) (eg_phase s) (eg_crashed s).
Definition with_main (m : option nat) (s : engine_state) : engine_state :=
  mkEs (eg_runs s) (eg_units s) m (eg_setups s) (eg_detached s) (eg_logs s) (eg_reports s) (eg_phase s) (eg_crashed s).
Definition with_setups (n : nat) (s : engine_state) : engine_state :=
  mkEs (eg_runs s) (eg_units s) (eg_main s) n (eg_detached s) (eg_logs s) (eg_reports s) (eg_phase s) (eg_crashed s).
Definition with_detached (n : nat) (s : engine_state) : engine_state :=
  mkEs (eg_runs s) (eg_units s) (eg_main s) (eg_setups s) n (eg_logs s) (eg_reports s) (eg_phase s) (eg_crashed s).
Definition with_logs (l : list nat) (s : engine_state) : engine_state :=
  mkEs (eg_runs s) (eg_units s) (eg_main s) (eg_setups s) (eg_detached s) l (eg_reports s) (eg_phase s) (eg_crashed s).
Definition with_reports (l : list (list nat)) (s : engine_state) : engine_state :=
  mkEs (eg_runs s) (eg_units s) (eg_main s) (eg_setups s) (eg_detached s) (eg_logs s) l (eg_phase s) (eg_crashed s).
Definition with_phase (d : dphase) (s : engine_state) : engine_state :=
  mkEs (eg_runs s) (eg_units s) (eg_main s) (eg_setups s) (eg_detached s) (eg_logs s) (eg_reports s) d (eg_crashed s).
Definition with_crash (s : engine_state) : engine_state :=
  mkEs (eg_runs s) (eg_units s) (eg_main s) (eg_setups s) (eg_detached s) (eg_logs s) (eg_reports s) (eg_phase s) true.
Definition run_phase (r : nat) (p : rphase) (s : engine_state) : engine_state :=
  match nth_error (eg_runs s) r with
  | Some x => with_runs (upd r (mkRun (ru_origin x) p) (eg_runs s)) s
  | None => s
  end.
Definition unit_phase (u : nat) (p : uphase) (s : engine_state) : engine_state :=
  match nth_error (eg_units s) u with
  | Some x => with_units (upd u (mkUnit (un_run x) (un_action x) (un_kind x) p) (eg_units s)) s
  | None => s
  end.

Definition gone (x : runrec) : bool := match ru_phase x with RGone => true | _ => false end.
Definition over (x : unitrec) : bool := match un_phase x with UGone => true | _ => false end.
Definition is_inline (x : runrec) : bool := match ru_origin x with OInline => true | _ => false end.
Definition is_rpc (x : unitrec) : bool := match un_kind x with KRpc => true | KPool => false end.
(** The iteration keeps its list from returning. *)
Definition holds (r : nat) (x : unitrec) : bool :=
  (un_run x =? r) && match un_phase x with UOpen | ULast => true | _ => false end.
Definition open_in (r a : nat) (x : unitrec) : bool :=
  (un_run x =? r) && (un_action x =? a) && match un_phase x with UOpen => true | _ => false end.
Definition for_unit (u : nat) (x : runrec) : bool := match ru_origin x with ONested v => u =? v | _ => false end.

Inductive eevent :=
  | EMain                              (* RunTraffic starts the main list *)
  | EJoin                              (* FinishTraffic after RunTraffic *)
  | ESetup | ESetupEnd                 (* SetupConnection *)
  | EArrive (dedicated : bool)         (* RpcHandler for an RPC with an action list *)
  | EStart (r : nat)                   (* a task begins RunActionList *)
  | ECall (r a : nat) (k : ukind)      (* the list starts an iteration of action [a] *)
  | ECount (u : nat) (done : bool)     (* FinishIteration counts the iteration *)
  | EFree (u : nat)                    (* FreeIterationState after a count that was not the last *)
  | ECallback (u : nat)                (* FreeIterationState and all_done_callback *)
  | ERelease (u : nat)                 (* the driver or the pool is done with it *)
  | ESend (r : nat)                    (* the response is sent before the list ends *)
  | EFinish (r : nat)                  (* the loop ends; response, FreeStateIfSet *)
  | EMerge (r : nat) | EReturn (r : nat)
  | EGetLogs
  | EDelete | EDtor.                   (* the destructor is called; its next step *)

(** 113-127: one wait of the destructor.  The drivers wait in ShutdownServer for
    the threads in RpcHandler (C46, C67, C25) and in ShutdownClient for the RPCs
    whose done callback has not returned (C47, C64, C66); a pool waits for its
    tasks (C22). *)
Definition destructor_step (s : engine_state) : option engine_state :=
  match eg_phase s with
  | DNo | DGone => None
  | DJoin =>
      match eg_main s with
      | None => Some (with_phase DShut s)
      | Some r => match nth_error (eg_runs s) r with
                  | Some x => if gone x then Some (with_phase DShut (with_main None s)) else None
                  | None => None
                  end
      end
  | DShut => if eg_setups s =? 0 then Some (with_phase DServer s) else None
  | DServer => if existsb (fun x => is_inline x && negb (gone x)) (eg_runs s) then None else Some (with_phase DSpin s)
  | DSpin => if eg_detached s =? 0 then Some (with_phase DClient s) else None
  | DClient => if existsb (fun x => is_rpc x && negb (over x)) (eg_units s) then None else Some (with_phase DMembers s)
  | DMembers => if existsb (fun x => negb (is_rpc x) && negb (over x)) (eg_units s) then None else Some (with_phase DGone s)
  end.

Definition engine_step (e : eevent) (s : engine_state) : option engine_state :=
  if eg_crashed s then None
  else
  match e with
  (** 876-902.  The node manager has the engine while it handles RunTraffic and
      GetTrafficResult, so the destructor is not called meanwhile.  Assigning
      over a joinable thread terminates the process (two RunTraffic can overlap:
      distbench_node_manager.cc 188-206 takes the lock shared). *)
  | EMain =>
      match eg_phase s, eg_main s with
      | DNo, None => Some (with_main (Some (length (eg_runs s))) (with_runs (eg_runs s ++ [mkRun OMain (RRunning false)]) s))
      | DNo, Some _ => Some (with_crash s)
      | _, _ => None
      end
  (** 914-919 *)
  | EJoin =>
      match eg_phase s, eg_main s with
      | DNo, Some r => match nth_error (eg_runs s) r with
                       | Some x => if gone x then Some (with_main None s) else None
                       | None => None
                       end
      | _, _ => None
      end
  (** 94-104; accepted until Shutdown of the server. *)
  | ESetup => if rank (eg_phase s) <=? 1 then Some (with_setups (S (eg_setups s)) s) else None
  | ESetupEnd => match eg_setups s with S n => Some (with_setups n s) | O => None end
  (** 1038-1048; accepted until ShutdownServer has returned. *)
  | EArrive dedicated =>
      if rank (eg_phase s) <=? 3
      then if dedicated then Some (with_runs (eg_runs s ++ [mkRun OInline (RRunning false)]) s)
           else Some (with_detached (S (eg_detached s)) (with_runs (eg_runs s ++ [mkRun ODetached RQueued]) s))
      else None
  | EStart r =>
      match nth_error (eg_runs s) r with
      | Some (mkRun _ RQueued) => Some (run_phase r (RRunning false) s)
      | _ => None
      end
  (** 1794-1865, 2000-2018.  No action is prevented from starting again; the
      real ones do not once they are finished (C24, C26). *)
  | ECall r a k =>
      match nth_error (eg_runs s) r with
      | Some (mkRun _ (RRunning _)) =>
          let s' := with_units (eg_units s ++ [mkUnit r a k UOpen]) s in
          Some (match k with
                | KRpc => s'
                | KPool => with_runs (eg_runs s ++ [mkRun (ONested (length (eg_units s))) RQueued]) s'
                end)
      | _ => None
      end
  (** 2045-2074.  [done]: no further iteration is due. *)
  | ECount u done =>
      match nth_error (eg_units s) u with
      | Some (mkUnit r a k UOpen) =>
          if forallb (fun x => negb (for_unit u x) || gone x) (eg_runs s)
          then let others := existsb (open_in r a) (eg_units (unit_phase u UTail s)) in
               Some (unit_phase u (if done && negb others then ULast else UTail) s)
          else None
      | _ => None
      end
  (** 2087-2090, 2031-2043 *)
  | EFree u =>
      match nth_error (eg_units s) u with
      | Some (mkUnit _ _ _ UTail) => Some (unit_phase u UBack s)
      | _ => None
      end
  (** 2075-2085 *)
  | ECallback u =>
      match nth_error (eg_units s) u with
      | Some (mkUnit _ _ _ ULast) => Some (unit_phase u UBack s)
      | _ => None
      end
  | ERelease u =>
      match nth_error (eg_units s) u with
      | Some (mkUnit _ _ _ UBack) => Some (unit_phase u UGone s)
      | _ => None
      end
  (** 1404-1421 *)
  | ESend r =>
      match nth_error (eg_runs s) r with
      | Some (mkRun _ (RRunning false)) => Some (run_phase r (RRunning true) s)
      | _ => None
      end
  (** 1462-1500.  The loop ends when every action it started is finished (C24). *)
  | EFinish r =>
      match nth_error (eg_runs s) r with
      | Some (mkRun _ (RRunning _)) =>
          if existsb (holds r) (eg_units s) then None else Some (run_phase r RFreed s)
      | _ => None
      end
  (** 1501-1515, shown as one step; a GetLogs in the middle sees a part. *)
  | EMerge r =>
      match nth_error (eg_runs s) r with
      | Some (mkRun _ RFreed) => Some (with_logs (eg_logs s ++ [r]) (run_phase r RMerged s))
      | _ => None
      end
  (** 1516; 1046-1047 *)
  | EReturn r =>
      match nth_error (eg_runs s) r with
      | Some (mkRun o RMerged) =>
          let s' := run_phase r RGone s in
          Some (match o with ODetached => with_detached (pred (eg_detached s)) s' | _ => s' end)
      | _ => None
      end
  (** 940-970 *)
  | EGetLogs => match eg_phase s with DNo => Some (with_reports (eg_reports s ++ [eg_logs s]) s) | _ => None end
  | EDelete => match eg_phase s with DNo => Some (with_phase DJoin s) | _ => None end
  | EDtor => destructor_step s
  end.
Fixpoint engine_run_all (l : list eevent) (s : engine_state) : option engine_state :=
  match l with
  | [] => Some s
  | e :: r => match engine_step e s with Some s' => engine_run_all r s' | None => None end
  end.
