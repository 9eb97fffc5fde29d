(** One ClientRpcState that the iterations of a closed loop use one after the
    other (distbench_engine.cc:2073-2090 starts the next iteration with the same
    ActionIterationState, so 2112 keeps its rpc_states): what the drivers leave
    in it and what is recorded.  Definitions only. *)
From Coq Require Import Ascii String List NArith ZArith Bool.
From Verif Require Import Wire_Model.
Import ListNotations.

(** protocol_driver.h:28-35 ClientRpcState without the times (Log_Model.v). *)
Record slot := mkSlot { sl_request : grr; sl_response : grr; sl_success : bool }.
(** distbench_engine.cc:2112: a new one; success is not initialised, and not
    read before a driver sets it. *)
Definition new_slot (garbage : bool) : slot := mkSlot empty_grr empty_grr garbage.

(** response.set_error_message. *)
Definition set_error (m : grr) (e : bytes) : grr :=
  mkGrr (rpc_index m) (trace_ctx m) (warmup m) (response_payload_size m)
        (server_processing_time_ns m) (Some e) (server_instance m)
        (before_payload32 m) (before_payload64 m) (trim m) (payload m)
        (after_payload32 m) (after_payload64 m).
(** Accessors of absent fields return the default. *)
Definition error_of (m : grr) : bytes := match error_message m with Some e => e | None => [] end.
Definition instance_of (m : grr) : Z := match server_instance m with Some i => i | None => 0%Z end.
Definition warmup_of (m : grr) : bool := match warmup m with Some b => b | None => false end.

Definition text (s : string) : bytes := map N_of_ascii (list_ascii_of_string s).
Fixpoint starts (p b : bytes) : bool :=
  match p, b with
  | [], _ => true
  | x :: p', y :: b' => N.eqb x y && starts p' b'
  | _ :: _, [] => false
  end.

(** What happens to an RPC: an answer that can be decoded, or not (a gRPC status
    with its message; an answer that Mercury cannot decode; homa_sendv or the
    kernel reports an error).  An answer that Homa cannot decode is an answer
    with whatever was decoded.  RPCs for which Mercury never calls back are in
    Merc_Model.v. *)
Inductive outcome := Answer (m : grr) | Failure (status : bytes).
Inductive pdriver := DGrpc | DMercury | DHoma.

(** protocol_driver.cc:148-156 *)
Definition no_multi : bytes := text "This protocol driver does not support multi-server channels.".
(** protocol_driver_grpc.cc:193, 209-222, 245, 260-268, 544-557: the request is
    moved out of the state, and back after a success only.
    protocol_driver_mercury.cc:248, 436-443.  protocol_driver_homa.cc:386,
    404-411, 519-528: the request stays.  protocol_driver.cc:148-156: drivers
    without multi-server channels.  SetupMultiServerChannel of those fails, so
    the engine does not get there (Peer_Model.v). *)
Definition complete (d : pdriver) (multi : bool) (o : outcome) (s : slot) : slot :=
  match d, multi, o with
  | DGrpc, _, Answer m => mkSlot (sl_request s) m true
  | DGrpc, _, Failure e => mkSlot empty_grr (set_error (sl_response s) e) false
  | _, true, _ => mkSlot (sl_request s) (set_error (sl_response s) no_multi) false
  | DMercury, false, Answer m => mkSlot (sl_request s) m true
  | DMercury, false, Failure _ => mkSlot empty_grr (sl_response s) false
  | DHoma, false, Answer m => mkSlot (sl_request s) m true
  | DHoma, false, Failure _ => mkSlot (sl_request s) (sl_response s) false
  end.

(** What RecordLatency (distbench_engine.cc:1735-1758) and RecordPackedLatency
    (1761-1792) take from the state, besides the times; [rc_error]: the message
    looked up in the dictionary, None if it is empty. *)
Record rpc_record := mkRc {
  rc_instance : Z; rc_success : bool; rc_request_size : Z; rc_response_size : Z;
  rc_warmup : bool; rc_trace : option trace_context; rc_error : option bytes }.
Definition exhausted_prefix : bytes := text "Traffic cancelled: RESOURCE_EXHAUSTED:".
(** distbench_engine.cc:2205-2224: the callback; the last component is whether
    it cancels the traffic. *)
Definition finished (multi : bool) (peer : Z) (s : slot) : slot * rpc_record * bool :=
  let ok := match error_of (sl_response s) with [] => sl_success s | _ => false end in
  (mkSlot (sl_request s) (sl_response s) ok,
   mkRc (if multi then instance_of (sl_response s) else peer) ok
        (byte_size (sl_request s)) (byte_size (sl_response s)) (warmup_of (sl_request s)) (trace_ctx (sl_request s))
        (match error_of (sl_response s) with [] => None | e => Some e end),
   starts exhausted_prefix (error_of (sl_response s))).

(** One RPC through the slot: 2184-2188 put the padded request there. *)
Record round := mkRound { ro_request : grr; ro_multi : bool; ro_peer : Z; ro_outcome : outcome }.
Definition one_rpc (d : pdriver) (r : round) (s : slot) : slot * rpc_record * bool :=
  finished (ro_multi r) (ro_peer r)
    (complete d (ro_multi r) (ro_outcome r) (mkSlot (ro_request r) (sl_response s) (sl_success s))).
Fixpoint through (d : pdriver) (l : list round) (s : slot) : slot * list (rpc_record * bool) :=
  match l with
  | [] => (s, [])
  | r :: l' => let '(s1, rec, c) := one_rpc d r s in
               let '(s2, recs) := through d l' s1 in (s2, (rec, c) :: recs)
  end.

(** The times of the state: protocol_driver.h:31-32 prior_start_time and
    start_time, None is InfinitePast.  distbench_engine.cc:2203-2204. *)
Definition start_at (now : Z) (t : option Z * option Z) : option Z * option Z := (snd t, Some now).
(** distbench_engine.cc:1742-1745: latency_weight of the sample, when set. *)
Definition weight_of (t : option Z * option Z) : option Z :=
  match t with (Some p, Some s) => Some (s - p)%Z | _ => None end.
(** The weights of RPCs that start at these times in one state. *)
Fixpoint weights (starts : list Z) (t : option Z * option Z) : list (option Z) :=
  match starts with
  | [] => []
  | now :: r => weight_of (start_at now t) :: weights r (start_at now t)
  end.

(** distbench_engine.cc:2107-2112, 2180-2240: one iteration of a closed loop with
    an RPC to each target; the states of the iteration before it that are still
    needed stay, and all of them when there is no target.  The callbacks of the
    RPCs may come in any order; each uses its own state only.  Without the
    cancellation of overloads (Rpc_Model.v). *)
Definition resize (garbage : bool) (n : nat) (slots : list slot) : list slot :=
  firstn n slots ++ repeat (new_slot garbage) (n - length slots).
Definition iteration (d : pdriver) (garbage : bool) (rpcs : list round) (slots : list slot) : list slot * list (rpc_record * bool) :=
  match rpcs with
  | [] => (slots, [])
  | _ => let out := map (fun rs => one_rpc d (fst rs) (snd rs)) (combine rpcs (resize garbage (length rpcs) slots)) in
         (map (fun x => fst (fst x)) out, map (fun x => (snd (fst x), snd x)) out)
  end.
Fixpoint iterations (d : pdriver) (garbage : bool) (l : list (list round)) (slots : list slot) : list slot * list (list (rpc_record * bool)) :=
  match l with
  | [] => (slots, [])
  | rpcs :: l' => let '(s1, recs) := iteration d garbage rpcs slots in
                  let '(s2, rest) := iterations d garbage l' s1 in (s2, recs :: rest)
  end.

(** distbench_engine.cc:1208-1250: a replayed RPC has a state of its own.  Its
    sample keeps the error message only (1221-1224); 1160-1174 put it in the log. *)
Definition replayed (d : pdriver) (garbage : bool) (r : round) : option bytes :=
  match error_of (sl_response (complete d (ro_multi r) (ro_outcome r) (mkSlot (ro_request r) empty_grr garbage))) with
  | [] => None
  | e => Some e
  end.
