(** Which mutex is for which field, and data races among the threads of
    Lock_Model.v.  Definitions only. *)
From Coq Require Import List Bool.
From Verif Require Import Lock_Model.
Import ListNotations.

(** ABSL_GUARDED_BY, or where there is no such annotation the mutex that most
    functions take (distbench_engine.h:43, 283, 445, distbench_thread_support.cc:31-33).
    None: there is no one mutex that all functions take. *)
Definition guard (f : field) : option lock :=
  match f with
  | Registry s | Running s => Some (SeqMu s)
  | Active s => Some (CancelMu s)
  | TrafficConfig n | Peers n => Some (NodeMu n)
  | NodeConf n => Some (ConfigMu n)
  | Partial e i j => Some (PeerMu e i j)
  | ReplayLog e => Some (ReplayLogs e)
  | Cache e => Some (IterCache e)
  | Gen e => Some (Bitgen e)
  | Contents e => Some (Dict e)
  | PeerLogs a | Override a | Finished a => Some (ActionMu a)
  | IterCount a i => Some (IterMu a i)
  | ReplayState r => Some (RpcMu r)
  | Tasks p => Some (PoolMu p)
  | AbortLimits => Some Abort
  | Engines _ | Registration _ | RusageStart _ | MainThread _ | Reason _ | ActivityLogs _ | NextTime _ _ | IterGen _ _ | AbortCallback => None
  end.
(** Two threads are about to touch the field, one of them to write it. *)
Definition race (s : state) (f : field) : Prop := exists i j hi hj w w' ri rj,
  i <> j /\ nth_error s i = Some hi /\ nth_error s j = Some hj /\ t_todo hi = Tch w f :: ri /\ t_todo hj = Tch w' f :: rj /\ w || w' = true.
(** What threads run while no node manager is being initialised or destroyed
    ([entry] of Lock_Model.v without init_node and destroy_node). *)
Definition living : prog := either (some_ configure_node) (either (some_ introduce_peers) (either (some_ run_traffic_node) (either (some_ get_traffic_result)
  (either (some_ cancel_node) (either (some_ shutdown_node) (either (some_ register_node)
  (either (some_ run_sequence) (either (some_ shutdown_sequencer) (either (some_ work) set_overload))))))))).
