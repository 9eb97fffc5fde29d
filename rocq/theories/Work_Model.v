(** What an engine does with an action list of the compiled configuration: the
    parts of RunActionList and InitiateAction that the models of the list
    (AList_Model.v), of the iterations (Iter_Model.v) and of an RPC
    (Deliver_Model.v) leave open (distbench_engine.cc).  Definitions only. *)
From Coq Require Import Ascii String List NArith ZArith Bool.
From Verif Require Import Base_Model Iter_Model AList_Model.
From Verif Require Rpc_Model Log_Model.
From Verif Require Import Table_Model Peer_Model Deliver_Model.
Import ListNotations.
Open Scope Z_scope.

(** traffic_config.proto 128-137 (Iterations; the distribution of the intervals
    is in the schedule) and 196, 205-207 (Action): the fields of an action that
    are read when it is run.  InitializeTables copies them unchanged, so the
    tables (Table_Model.v) do not have them; they are given by the name of the
    action (of two actions of one name the tables use the last, C52). *)
Record run_options := mkOptions {
  ro_iterations : bool;          (* has_iterations() *)
  ro_count : option Z;           (* max_iteration_count *)
  ro_duration : option Z;        (* max_duration_us *)
  ro_parallel : Z;               (* max_parallel_iterations, 1 when absent *)
  ro_interval : option Z;        (* open_loop_interval_ns *)
  ro_warmup : Z;                 (* warmup_iterations *)
  ro_send : bool; ro_cancel : bool; ro_predicates : list str }.
(** An action without any of them. *)
Definition options0 : run_options := mkOptions false None None 1 None 0 false false [].

(** distbench_engine.cc 1896-1911 and 1928-1967: the iterations of an action
    that is initiated at the time [now], in nanoseconds; [warmup] is warmup_ of
    its list. *)
Definition iterations_of (x : run_options) (now : Z) (warmup : bool) : iter_cfg :=
  mkIter (iteration_limit (ro_iterations x) (ro_count x)) (ro_parallel x)
    (if ro_iterations x then option_map (fun us => now + us * 1000) (ro_duration x) else None)
    (if ro_iterations x then ro_interval x else None) (ro_warmup x) warmup.

(** 1796-1909: an action whose RPC this engine may not call, or whose service
    has no instances, is given up (1863-1866, 1872). *)
Definition given_up (e : ready) (a : entry) : bool :=
  match an_kind (en_action a) with
  | KRpc _ =>
      match vec_at (tb_clients (rd_tables e)) (en_rpc a) with
      | Some b => negb (de_allowed (cr_def b)) || match vec_at (sc_peers (rd_scan e)) (en_rpc_service a) with Some [] => true | _ => false end
      | None => false
      end
  | _ => false
  end.
Definition is_nop (k : action_kind) : bool := match k with KNop => true | _ => false end.
Definition is_activity (k : action_kind) : bool := match k with KActivity _ => true | _ => false end.
(** distbench_engine.h 162-175: the action table entry as RunActionList reads it
    (AList_Model.v); 1896-1909: an action that does nothing else overrides the
    payload of the response, or is fatal. *)
Definition list_action (e : ready) (x : run_options) (a : entry) : al_action :=
  let k := an_kind (en_action a) in
  mkAA (map Z.to_nat (en_deps a)) (negb (en_delay a =? -1)) (ro_send x) (ro_cancel x) (ro_predicates x)
    (if is_nop k then en_response a else -1) (is_activity k)
    (is_activity k || (ro_iterations x && match ro_interval x with Some _ => true | None => false end))
    (given_up e a) (is_nop k && (en_response a <? 0)).

(** The action lists that an RPC makes its server run (1018-1044). *)
Definition lists_started (h : Rpc_Model.h_result) : list Z :=
  (flat_map (fun x => match x with Rpc_Model.HList i _ => [i] | _ => [] end) (Rpc_Model.hr_events h) ++
   match Rpc_Model.hr_work h with Rpc_Model.WList i _ => [i] | _ => [] end)%list.

(** ** A record of what happened *)
(** An RPC: what its client records (C39), and the action lists its server runs
    for it, with the name of the server's instance. *)
Record rpc_run := mkRpcRun { rr_entry : Log_Model.entry; rr_lists : list (str * Z) }.
(** An iteration: what it draws, the incoming request of its list, the rest of
    its requests, its RPCs, and the action lists it runs itself. *)
Record iteration_run := mkIterationRun {
  ir_draws : draws; ir_scalar : Rpc_Model.scalar_draw; ir_joint : Rpc_Model.joint_draw; ir_incoming : Rpc_Model.request; ir_hop : Rpc_Model.hop;
  ir_rpcs : list rpc_run; ir_lists : list Z }.
(** An action: when it is initiated, the first start of an open loop, warmup_ of
    the list, the schedule of the iterations, and the iterations. *)
Record action_run := mkActionRun { ar_now : Z; ar_first : Z; ar_warmup : bool; ar_schedule : list it_action; ar_iterations : list iteration_run }.
(** An action list: its index, the predicates and the schedule, the actions. *)
Record list_run := mkListRun { lr_instance : str; lr_list : Z; lr_predicates : list str; lr_schedule : list al_action_; lr_actions : list action_run }.
