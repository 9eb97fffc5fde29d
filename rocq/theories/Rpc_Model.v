(** Model of request construction, request dispatch and payload sizes in
    distbench_engine.cc.  Definitions only. *)
From Coq Require Import Ascii String List ZArith Bool.
From Verif Require Import Base_Model Iter_Model.
Import ListNotations.
Open Scope Z_scope.

(** distbench.proto:38-66 TraceContext, without the obsolete field. *)
Record trace := mkTrace {
  tr_engines : list Z; tr_invocations : list Z; tr_lists : list Z;
  tr_actions : list Z; tr_iterations : list Z; tr_fanout : list Z }.
Definition empty_trace : trace := mkTrace [] [] [] [] [] [].

(** distbench.proto:287-335 GenericRequestResponse, request fields.  Padding
    (C01) is kept apart as a size. *)
Record request := mkReq {
  rq_index : option Z; rq_trace : option trace; rq_warmup : option bool;
  rq_resp_size : option Z; rq_proc_ns : option Z }.
Record response := mkResp { rs_error : str; rs_instance : option Z; rs_pad : Z }.

(** static_cast<size_t> of a signed 64-bit value. *)
Definition to_size_t (z : Z) : Z := z mod 18446744073709551616.

(** distbench_engine.h:103-127 RpcDefinition, payload part. *)
Record rpc_def := mkDef {
  df_joint : Z; df_req_index : Z; df_resp_index : Z; df_req_size : Z; df_resp_size : Z;
  df_multi : bool }.

(** Random draws: [scalar i] is the value size_distribution_generators_[i]
    yields for this draw, None if the index is out of range (undefined
    behaviour) or the distribution is not one-dimensional (CHECK,
    joint_distribution_sample_generator.cc:122). *)
Definition scalar_draw := Z -> option Z.
(** [joint i] is the vector rpc_distribution_generators_[i] yields. *)
Definition joint_draw := Z -> option (list Z).

(** ** distbench_engine.cc:1530-1552 ComputeResponseSize.  None: abort. *)
Definition compute_response_size (scalar : scalar_draw) (rq : request) (d : rpc_def) (override : Z) : option Z :=
  match rq_resp_size rq with
  | Some n => Some (to_size_t n)
  | None =>
      let fixed := if (override =? -1) && (df_resp_index d >=? 0) then 0
                   else if df_resp_size d >=? 0 then df_resp_size d else 0 in
      let override' := if (override =? -1) && (df_resp_index d >=? 0) then df_resp_index d else override in
      if override' =? -1 then Some fixed
      else match scalar override' with Some n => Some (to_size_t n) | None => None end
  end.

(** ** distbench_engine.cc:977-1049 RpcHandler *)
(** distbench_engine.h:147-152 SimulatedServerRpc *)
Record server_rpc := mkSrv { sv_allowed : bool; sv_handler : Z; sv_def : rpc_def }.
Inductive h_event :=
| HSend (r : response)            (* SendResponseIfSet *)
| HFree                           (* FreeStateIfSet *)
| HList (index : Z) (inst : option Z).   (* RunActionList(index, state); [inst]: server_instance already in the response *)
(** What the driver is handed to run elsewhere. *)
Inductive h_work := WNone | WSleep (ns : Z) (inst : option Z) | WList (index : Z) (inst : option Z).
Record h_result := mkHR { hr_events : list h_event; hr_work : h_work; hr_detached : Z }.

Definition reply (r : response) : option h_result := Some (mkHR [HSend r; HFree] WNone 0).

(** [canceled]: reason and deadline once CancelTraffic ran.  [hr_detached] is
    what is added to detached_actionlist_threads_.  None: abort. *)
Definition rpc_handler (scalar : scalar_draw) (canceled : option (str * Z)) (now : Z) (table : list server_rpc)
    (instance : Z) (dedicated : bool) (rq : request) : option h_result :=
  let cancel_reply :=
    match canceled with
    | Some (reason, deadline) => if now >? deadline then Some reason else None
    | None => None
    end in
  match cancel_reply with
  | Some reason => reply (mkResp (s_ "Traffic cancelled: "%string ++ reason)%list None 0)
  | None =>
    match rq_index rq with
    | None =>
        match rq_resp_size rq with
        | None => reply (mkResp (s_ "rpc has no index, and no response size: "%string) None 0)
        | Some _ => Some (mkHR [] (WSleep (match rq_proc_ns rq with Some n => n | None => 0 end) (Some instance)) 0)
        end
    | Some i =>
        if to_size_t i >=? Z.of_nat (length table)
        then reply (mkResp (s_ "rpc_index out of range: "%string ++ dec_of_Z i)%list None 0)
        else match nth_error table (Z.to_nat (to_size_t i)) with
        | None => None
        | Some srv =>
            if negb (sv_allowed srv)
            then reply (mkResp (s_ "rpc_index should never be sent to this service: "%string ++ dec_of_Z i)%list None 0)
            else
              let inst := if df_multi (sv_def srv) then Some instance else None in
              if sv_handler srv =? -1
              then match compute_response_size scalar rq (sv_def srv) (df_resp_index (sv_def srv)) with
                   | None => None
                   | Some n => reply (mkResp [] inst n)
                   end
              else if dedicated then Some (mkHR [HList (sv_handler srv) inst] WNone 0)
              else Some (mkHR [] (WList (sv_handler srv) inst) 1)
        end
    end
  end.

(** ** Warmup *)
(** distbench_engine.cc:1322 *)
Definition list_warmup (force : bool) (rq : request) : bool :=
  force || match rq_warmup rq with Some b => b | None => false end.
(** distbench_engine.cc:2096-2099 is [is_warmup] of Iter_Model. *)
Definition iteration_warmup (list_wu : bool) (number warmup_iterations : Z) : bool :=
  list_wu || (number <? warmup_iterations).
(** distbench_engine.cc:885-886: the request of the top level action list. *)
Definition fake_request : request := mkReq None None None (Some 0) None.

(** ** distbench_engine.cc:2104-2194 RunRpcActionIterationCommon, requests *)
(** What one action iteration knows. *)
Record hop := mkHop {
  hp_engine : Z; hp_invocation : Z; hp_list : Z; hp_action : Z; hp_iteration : Z; (* trace fields *)
  hp_warmup_iterations : Z;
  hp_count : Z;                    (* rpc_tracing_counter before the increment *)
  hp_interval : Z;                 (* tracing_interval *)
  hp_rpc : Z;                      (* rpc_index *)
  hp_override : Z;                 (* request_payload_override_index *)
  hp_def : rpc_def }.

(** distbench_engine.cc:2119-2121; trace_count is an int. *)
Definition trace_due (count interval : Z) : bool :=
  (interval >? 0) && (Z.rem (to_int32 count) interval =? 0).
(** distbench_engine.cc:2131-2142 *)
Definition extend_trace (t : trace) (h : hop) : trace :=
  mkTrace (tr_engines t ++ [hp_engine h]) (tr_invocations t ++ [hp_invocation h]) (tr_lists t ++ [hp_list h])
          (tr_actions t ++ [hp_action h]) (tr_iterations t ++ [hp_iteration h]) (tr_fanout t).
(** distbench_engine.cc:2125-2142: trace context shared by the requests. *)
Definition common_trace (incoming : request) (h : hop) : option trace :=
  let '(do_trace, t) :=
    match rq_trace incoming with
    | Some t => (true, t)
    | None => (trace_due (hp_count h) (hp_interval h), empty_trace)
    end in
  if do_trace then Some (extend_trace t h) else None.
(** distbench_engine.cc:2187-2189 *)
Definition add_fanout (i : Z) (t : option trace) : option trace :=
  match t with
  | Some t => Some (mkTrace (tr_engines t) (tr_invocations t) (tr_lists t) (tr_actions t) (tr_iterations t) (tr_fanout t ++ [i]))
  | None => None
  end.

(** distbench_engine.cc:2146-2177: padding of the request and, with a joint
    distribution, the response size written into it.  None: abort. *)
Definition request_sizes (scalar : scalar_draw) (joint : joint_draw) (d : rpc_def) (override : Z) : option (Z * option Z) :=
  if df_joint d >=? 0 then
    match joint (df_joint d) with
    | Some [] => None                     (* sample[0] of an empty vector *)
    | Some (q :: r) => Some (to_size_t q, Some match r with p :: _ => p | [] => q end)
    | None => None
    end
  else if negb (override =? -1) then
    match scalar override with Some n => Some (to_size_t n, None) | None => None end
  else if df_req_index d >=? 0 then
    match scalar (df_req_index d) with Some n => Some (to_size_t n, None) | None => None end
  else Some (if df_req_size d >=? 0 then df_req_size d else 0, None).

(** The requests sent: one per target, in order, with the size each is padded
    to.  [warmup] is iteration_state->warmup. *)
Fixpoint fan_requests (i : Z) (base : request) (size : Z) (targets : list Z) : list (Z * request * Z) :=
  match targets with
  | [] => []
  | t :: r => (t, mkReq (rq_index base) (add_fanout i (rq_trace base)) (rq_warmup base) (rq_resp_size base) (rq_proc_ns base), size)
              :: fan_requests (i + 1) base size r
  end.
Definition send_requests (scalar : scalar_draw) (joint : joint_draw) (incoming : request) (warmup : bool) (h : hop)
    (targets : list Z) : option (list (Z * request * Z)) :=
  match targets with
  | [] => Some []                         (* 2107-2110: nothing drawn, nothing counted *)
  | _ =>
      match request_sizes scalar joint (hp_def h) (hp_override h) with
      | None => None
      | Some (size, resp) =>
          Some (fan_requests 0 (mkReq (Some (hp_rpc h)) (common_trace incoming h) (Some warmup) resp None) size targets)
      end
  end.

(** ** Chains of calls: how the incoming request and force_warmup of an action
    list follow from the iteration that caused it. *)
Inductive cause :=
| ByRpc (h : hop) (targets : list Z) (k : nat)   (* the k-th request of an RPC iteration, RpcHandler: force_warmup = false *)
| ByList (h : hop).                              (* a nested action list: distbench_engine.cc:1838-1860 *)
(** None: aborted, or the k-th request does not exist. *)
Definition caused (scalar : scalar_draw) (joint : joint_draw) (c : cause) (st : request * bool) : option (request * bool) :=
  let '(rq, force) := st in
  match c with
  | ByRpc h targets k =>
      let w := iteration_warmup (list_warmup force rq) (hp_iteration h) (hp_warmup_iterations h) in
      match send_requests scalar joint rq w h targets with
      | None => None
      | Some l => match nth_error l k with Some (_, q, _) => Some (q, false) | None => None end
      end
  | ByList h => Some (rq, iteration_warmup (list_warmup force rq) (hp_iteration h) (hp_warmup_iterations h))
  end.
(** Each link of the chain makes its own draws. *)
Fixpoint chain (l : list (cause * scalar_draw * joint_draw)) (st : request * bool) : option (request * bool) :=
  match l with
  | [] => Some st
  | (c, sc, jo) :: r => match caused sc jo c st with Some st' => chain r st' | None => None end
  end.

(** ** distbench_engine.cc:2178-2239 and 2045-2091: RPCs in flight.
    An iteration (identified by a number) sends its RPCs one after the other;
    drivers complete them from any thread. *)
Inductive cancel_reason := TooManyRpcs | PeerReported | OtherReason.
Inductive send_phase := SIdle | SCounted | SInitiated.
Inductive rpc_phase := RNone | RCounted | RFlying | RRecorded | RCounted2 | RDone.
Inductive e_event :=
| EvStart (i n : nat)         (* iteration i begins with n targets *)
| EvSent (i k : nat)          (* ++pending_rpcs_ *)
| EvRecorded (i k : nat)      (* RecordLatency *)
| EvLeft (i k : nat)          (* --remaining_rpcs *)
| EvFinish (i : nat)          (* FinishIteration *)
| EvCompleted (i k : nat)     (* --pending_rpcs_ *)
| EvCancel (r : cancel_reason).
Record fly_iter := mkFly {
  fl_targets : option nat;    (* None: not started *)
  fl_next : nat; fl_phase : send_phase; fl_remaining : Z }.
Record fly := mkF {
  fy_pending : Z;
  fy_canceled : option cancel_reason;
  fy_iter : nat -> fly_iter;
  fy_rpc : nat -> nat -> rpc_phase;
  fy_log : list e_event }.      (* newest first; ghost *)
Definition fly0 : fly := mkF 0 None (fun _ => mkFly None 0 SIdle 0) (fun _ _ => RNone) [].

(** distbench_engine.cc:904-912: only the first call has an effect. *)
Definition cancel_traffic (r : cancel_reason) (s : fly) : fly :=
  match fy_canceled s with
  | Some _ => s
  | None => mkF (fy_pending s) (Some r) (fy_iter s) (fy_rpc s) (EvCancel r :: fy_log s)
  end.
Definition set_iter (f : nat -> fly_iter) (i : nat) (x : fly_iter) : nat -> fly_iter :=
  fun j => if Nat.eqb j i then x else f j.
Definition set_rpc (f : nat -> nat -> rpc_phase) (i k : nat) (p : rpc_phase) : nat -> nat -> rpc_phase :=
  fun j l => if Nat.eqb j i && Nat.eqb l k then p else f j l.

Inductive fly_action :=
| AStart (i n : nat)                 (* iteration i with n targets *)
| ASend (i : nat)                    (* next step of its sending loop *)
| AReply (i k : nat) (exhausted : bool)  (* driver calls back; error starts with "Traffic cancelled: RESOURCE_EXHAUSTED:" *)
| ALeave (i k : nat)
| AComplete (i k : nat)
| ACancelOther.

(** None: not possible in this state. *)
Definition fly_step (max_pending : Z) (a : fly_action) (s : fly) : option fly :=
  match a with
  | AStart i n =>
      match fl_targets (fy_iter s i) with
      | Some _ => None
      | None => Some (mkF (fy_pending s) (fy_canceled s)
                        (set_iter (fy_iter s) i (mkFly (Some n) 0 SIdle (Z.of_nat n))) (fy_rpc s)
                        (if Nat.eqb n 0 then EvFinish i :: EvStart i n :: fy_log s else EvStart i n :: fy_log s))      (* 2107-2110 *)
      end
  | ASend i =>
      let it := fy_iter s i in
      match fl_targets it with
      | None => None
      | Some n =>
          match fl_phase it with
          | SIdle =>
              if Nat.ltb (fl_next it) n
              then Some (mkF (fy_pending s + 1) (fy_canceled s)                          (* 2181 *)
                           (set_iter (fy_iter s) i (mkFly (fl_targets it) (fl_next it) SCounted (fl_remaining it)))
                           (set_rpc (fy_rpc s) i (fl_next it) RCounted) (EvSent i (fl_next it) :: fy_log s))
              else None
          | SCounted =>                                                                  (* 2230-2235 *)
              Some (mkF (fy_pending s) (fy_canceled s)
                      (set_iter (fy_iter s) i (mkFly (fl_targets it) (fl_next it) SInitiated (fl_remaining it)))
                      (set_rpc (fy_rpc s) i (fl_next it) RFlying) (fy_log s))
          | SInitiated =>                                                                (* 2236-2238 *)
              let s' := mkF (fy_pending s) (fy_canceled s)
                          (set_iter (fy_iter s) i (mkFly (fl_targets it) (S (fl_next it)) SIdle (fl_remaining it)))
                          (fy_rpc s) (fy_log s) in
              Some (if fy_pending s >? max_pending then cancel_traffic TooManyRpcs s' else s')
          end
      end
  | AReply i k exhausted =>
      match fy_rpc s i k with
      | RFlying =>                                                                       (* 2208-2224 *)
          let s' := if exhausted then cancel_traffic PeerReported s else s in
          Some (mkF (fy_pending s') (fy_canceled s') (fy_iter s') (set_rpc (fy_rpc s') i k RRecorded)
                  (EvRecorded i k :: fy_log s'))
      | _ => None
      end
  | ALeave i k =>
      match fy_rpc s i k with
      | RRecorded =>                                                                     (* 2225-2227 *)
          let it := fy_iter s i in
          let left := fl_remaining it - 1 in
          Some (mkF (fy_pending s) (fy_canceled s)
                  (set_iter (fy_iter s) i (mkFly (fl_targets it) (fl_next it) (fl_phase it) left))
                  (set_rpc (fy_rpc s) i k RCounted2)
                  (if left =? 0 then EvFinish i :: EvLeft i k :: fy_log s else EvLeft i k :: fy_log s))
      | _ => None
      end
  | AComplete i k =>
      match fy_rpc s i k with
      | RCounted2 => Some (mkF (fy_pending s - 1) (fy_canceled s) (fy_iter s) (set_rpc (fy_rpc s) i k RDone)
                             (EvCompleted i k :: fy_log s))                              (* 2228 *)
      | _ => None
      end
  | ACancelOther => Some (cancel_traffic OtherReason s)
  end.
Fixpoint fly_run (max_pending : Z) (l : list fly_action) (s : fly) : fly :=
  match l with
  | [] => s
  | a :: r => fly_run max_pending r (match fly_step max_pending a s with Some s' => s' | None => s end)
  end.
