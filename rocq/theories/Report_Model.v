(** From the engines to the reported result of a test: GetLogs, what the node
    manager keeps of it, and what is summarized (distbench_engine.cc,
    distbench_node_manager.cc, distbench_test_sequencer.cc).  Definitions only. *)
From Coq Require Import Ascii String List ZArith Bool.
From Verif Require Import Base_Model Log_Model Sum_Model Table_Model Cluster_Model.
Import ListNotations.
Open Scope Z_scope.

(** distbench_engine.h: what GetLogs reads: cancelation_reason_, peers_
    (log_name and partial_logs), actionlist_error_dictionary_,
    cumulative_activity_logs_ and replay_logs_ (opaque; [None]: a message that
    was moved from). *)
Record engine_state := mkES {
  es_reason : str; es_peers : list (list (str * list peer_log)); es_errors : list str; es_activities : act_logs; es_replays : list (option Z) }.
(** distbench.proto 149-161: ServicePerformanceLog; [lo_error] None: not set. *)
Record engine_log := mkLog {
  lo_error : option str; lo_peers : out_logs; lo_errors : list str; lo_activities : act_logs; lo_replays : list (option Z) }.
(** distbench_engine.cc 932-938: AddRpcReplayTraceLogs moves the logs out, but
    keeps their places. *)
Definition moved_out (l : list (option Z)) : list (option Z) := map (fun _ => None) l.
(** distbench_engine.cc 921-930 AddActivityLogs, 932-938 and 940-969 GetLogs. *)
Definition get_logs (s : engine_state) : engine_log * engine_state :=
  (mkLog (match es_reason s with [] => None | r => Some r end) (get_peer_logs (es_peers s)) (es_errors s) (es_activities s) (es_replays s),
   mkES (es_reason s) (es_peers s) (es_errors s) (es_activities s) (moved_out (es_replays s))).
(** distbench_node_manager.cc 216-222: whether the log of an engine is put into
    the answer. *)
Definition kept_log (l : engine_log) : option engine_log :=
  match lo_peers l, lo_activities l, lo_replays l with
  | [], [], [] => None
  | _, _, _ => Some l
  end.

(** distbench_test_sequencer.cc 401-404: service_logs of the result; the logs
    themselves are [content] of the opaque values of Node_Model. *)
Definition result_logs (content : Z -> engine_log) (res : test_result) : result_log :=
  map (fun x => (fst x, lo_peers (content (snd x)))) (tr_logs res).
(** distbench_test_sequencer.cc 196-198 and distbench_summary.cc 148-153: the
    summary of the result; names are those of rpc_descriptions of the traffic
    configuration in the result. *)
Definition test_summary (content : Z -> engine_log) (res : test_result) : option sum_result :=
  summarize (map rp_name (cf_rpcs (config_of (tr_test res)))) (result_logs content res).
