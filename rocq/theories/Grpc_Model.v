(** The gRPC protocol driver (protocol_driver_grpc.cc): its clients and servers
    as transition systems.  The gRPC library is outside: the comments say what
    is assumed of it.  Definitions only. *)
From Coq Require Import Ascii String List NArith ZArith Bool Arith.
From Verif Require Import Base_Model.
Import ListNotations.
Open Scope nat_scope.

Fixpoint lset {A} (i : nat) (x : A) (l : list A) : list A :=
  match l, i with
  | [], _ => []
  | _ :: r, O => x :: r
  | y :: r, S j => y :: lset j x r
  end.

(** ** Clients *)
(** GrpcPollingClientDriver or GrpcCallbackClientDriver. *)
Inductive kind := Polling | Callback.
(** Progress of one RPC.  [status] is [None] for OK, otherwise the message. *)
Inductive phase :=
  | Entered                      (* index checked, pending_rpcs_ not yet incremented *)
  | Counted                      (* PendingRpc built, not yet handed to gRPC *)
  | InFlight
  | Finished (status : option str) (response : str)   (* tag in the queue, or callback about to run *)
  | Calling                      (* results stored, inside done_callback *)
  | Returned                     (* done_callback has returned *)
  | Deleted                      (* PendingRpc deleted *)
  | Released.                    (* pending_rpcs_ decremented *)
(** protocol_driver.h 28-35: the fields of ClientRpcState that are used; [None]
    in [cs_request] is a moved-from message. *)
Record cstate := mkCs { cs_request : option str; cs_response : str; cs_error : option str; cs_success : option bool }.
(** An InitiateRpc: the peer, the RPC inside whose callback it was made (if
    any), the request inside PendingRpc, the caller's ClientRpcState; and for
    the statements, what each call of done_callback found there (newest first),
    the request as given and the result gRPC delivered. *)
Record rpc := mkRpc {
  r_peer : nat; r_parent : option nat; r_request : option str; r_state : cstate; r_phase : phase;
  r_calls : list cstate; r_given : str; r_wire : option (option str * str) }.
Inductive poller := PoTest | PoNext | PoServe (i : nat) | PoExited.
Inductive shut := ShNot | ShSpin | ShNotify | ShCq | ShJoin | ShClear | ShDone.
(** [c_stubs]: grpc_client_stubs_, [false] is a null pointer. *)
Record client := mkClient {
  c_stubs : list bool; c_pending : Z; c_rpcs : list rpc;
  c_poller : poller; c_notified : bool; c_cq_shut : bool; c_shut : shut }.
Inductive crash := IndexCheck | NullStub | QueueShut | FreedStub.
Inductive result (A : Type) := Next (s : A) | Crash (c : crash) | Stuck.
Arguments Next {A}. Arguments Crash {A}. Arguments Stuck {A}.
Inductive caction :=
  | Initiate (peer : nat) (request : str) (parent : option nat)
  | Advance (i : nat)                                  (* the thread working on RPC i *)
  | Wire (i : nat) (status : option str) (response : str)   (* gRPC completes the call *)
  | Poll (i : option nat)                              (* the completion thread; which tag Next yields *)
  | Shutdown.                                          (* the thread in ShutdownClient *)

Definition with_phase (p : phase) (r : rpc) : rpc :=
  mkRpc (r_peer r) (r_parent r) (r_request r) (r_state r) p (r_calls r) (r_given r) (r_wire r).
Definition set_rpc (i : nat) (r : rpc) (s : client) : client :=
  mkClient (c_stubs s) (c_pending s) (lset i r (c_rpcs s)) (c_poller s) (c_notified s) (c_cq_shut s) (c_shut s).
Definition set_pending (z : Z) (s : client) : client :=
  mkClient (c_stubs s) z (c_rpcs s) (c_poller s) (c_notified s) (c_cq_shut s) (c_shut s).
Definition set_poller (p : poller) (s : client) : client :=
  mkClient (c_stubs s) (c_pending s) (c_rpcs s) p (c_notified s) (c_cq_shut s) (c_shut s).
Definition set_shut (p : shut) (s : client) : client :=
  mkClient (c_stubs s) (c_pending s) (c_rpcs s) (c_poller s) (c_notified s) (c_cq_shut s) p.

(** Still before the point where the call returns to its caller. *)
Definition starting (r : rpc) : bool := match r_phase r with Entered | Counted => true | _ => false end.
Definition child_of (i : nat) (r : rpc) : bool := match r_parent r with Some j => Nat.eqb j i | None => false end.
(** The callback of RPC [i] is inside InitiateRpc. *)
Definition busy (i : nat) (l : list rpc) : bool := existsb (fun r => child_of i r && starting r) l.

(** protocol_driver_grpc.cc 238-239 and 537-538: the checks at the start of
    InitiateRpc (CHECK_LT; the index is not negative here). *)
Definition initiate (peer : nat) (request : str) (parent : option nat) (s : client) : result client :=
  let ok := match parent with
            | None => true
            | Some j => match nth_error (c_rpcs s) j with
                        | Some r => match r_phase r with Calling => negb (busy j (c_rpcs s)) | _ => false end
                        | None => false
                        end
            end in
  if negb ok then Stuck
  else if peer <? length (c_stubs s) then
    Next (mkClient (c_stubs s) (c_pending s)
            (c_rpcs s ++ [mkRpc peer parent None (mkCs (Some request) [] None None) Entered [] request None])
            (c_poller s) (c_notified s) (c_cq_shut s) (c_shut s))
  else Crash IndexCheck.
(** 241-245 and 540-544: the counter and the PendingRpc. *)
Definition count (i : nat) (r : rpc) (s : client) : client :=
  set_pending (c_pending s + 1)
    (set_rpc i (mkRpc (r_peer r) (r_parent r) (cs_request (r_state r))
                  (mkCs None (cs_response (r_state r)) (cs_error (r_state r)) (cs_success (r_state r))) Counted (r_calls r)
                  (r_given r) (r_wire r)) s).
(** 246-248 and 565-567: handing the call to gRPC.  gRPC aborts when an
    operation is started on a queue that was shut down. *)
Definition post (k : kind) (i : nat) (r : rpc) (s : client) : result client :=
  match nth_error (c_stubs s) (r_peer r) with
  | None => Crash FreedStub
  | Some false => Crash NullStub
  | Some true =>
      match k, c_cq_shut s with
      | Polling, true => Crash QueueShut
      | _, _ => Next (set_rpc i (with_phase InFlight r) s)
      end
  end.
(** 260-269 and 548-557: storing the results; then done_callback is called. *)
Definition deliver (status : option str) (response : str) (r : rpc) : rpc :=
  let st := match status with
            | None => mkCs (r_request r) response (cs_error (r_state r)) (Some true)
            | Some m => mkCs (cs_request (r_state r)) (cs_response (r_state r)) (Some m) (Some false)
            end in
  mkRpc (r_peer r) (r_parent r) (match status with None => None | Some _ => r_request r end) st Calling (st :: r_calls r)
    (r_given r) (r_wire r).
(** 260-274 and 548-562: the steps after the call completed; [None]: the
    callback cannot return yet, or the RPC is in another phase. *)
Definition complete (i : nat) (r : rpc) (s : client) : option client :=
  match r_phase r with
  | Finished status response => Some (set_rpc i (deliver status response r) s)
  | Calling => if busy i (c_rpcs s) then None else Some (set_rpc i (with_phase Returned r) s)
  | Returned => Some (set_rpc i (with_phase Deleted r) s)
  | Deleted => Some (set_pending (c_pending s - 1) (set_rpc i (with_phase Released r) s))
  | _ => None
  end.
Definition advance (k : kind) (i : nat) (s : client) : result client :=
  match nth_error (c_rpcs s) i with
  | None => Stuck
  | Some r =>
      match r_phase r with
      | Entered => Next (count i r s)
      | Counted => post k i r s
      | _ =>
          match k with
          | Polling => Stuck
          | Callback => match complete i r s with Some s' => Next s' | None => Stuck end
          end
      end
  end.
(** gRPC completes every call it was given exactly once (for the polling client
    the tag of Finish is returned with ok = true, as gRPC documents). *)
Definition wire (i : nat) (status : option str) (response : str) (s : client) : result client :=
  match nth_error (c_rpcs s) i with
  | Some r => match r_phase r with
              | InFlight => Next (set_rpc i (mkRpc (r_peer r) (r_parent r) (r_request r) (r_state r) (Finished status response)
                                               (r_calls r) (r_given r) (Some (status, response))) s)
              | _ => Stuck
              end
  | None => Stuck
  end.
Definition outstanding (r : rpc) : bool := match r_phase r with InFlight | Finished _ _ => true | _ => false end.
(** 251-277: RpcCompletionThread. *)
Definition poll (k : kind) (tag : option nat) (s : client) : result client :=
  match k with
  | Callback => Stuck
  | Polling =>
      match c_poller s with
      | PoTest => Next (set_poller (if c_notified s then PoExited else PoNext) s)
      | PoNext =>
          match tag with
          | Some i =>
              match nth_error (c_rpcs s) i with
              | Some r => match r_phase r with Finished _ _ => Next (set_poller (PoServe i) s) | _ => Stuck end
              | None => Stuck
              end
          | None => if c_cq_shut s && negb (existsb outstanding (c_rpcs s)) then Next (set_poller PoTest s) else Stuck
          end
      | PoServe i =>
          match nth_error (c_rpcs s) i with
          | None => Stuck
          | Some r =>
              match complete i r s with
              | None => Stuck
              | Some s' => Next (match r_phase r with Deleted => set_poller PoTest s' | _ => s' end)
              end
          end
      | PoExited => Stuck
      end
  end.
(** 281-292 and 572-576: ShutdownClient (possibly repeated, by one thread at a
    time).  While it spins it has no effect. *)
Definition shutdown (k : kind) (s : client) : result client :=
  match c_shut s with
  | ShNot | ShDone => Next (set_shut ShSpin s)
  | ShSpin =>
      if Z.eqb (c_pending s) 0
      then Next (set_shut (match k with Polling => if c_notified s then ShClear else ShNotify | Callback => ShClear end) s)
      else Stuck
  | ShNotify => Next (mkClient (c_stubs s) (c_pending s) (c_rpcs s) (c_poller s) true (c_cq_shut s) ShCq)
  | ShCq => Next (mkClient (c_stubs s) (c_pending s) (c_rpcs s) (c_poller s) (c_notified s) true ShJoin)
  | ShJoin => match c_poller s with PoExited => Next (set_shut ShClear s) | _ => Stuck end
  | ShClear => Next (mkClient [] (c_pending s) (c_rpcs s) (c_poller s) (c_notified s) (c_cq_shut s) ShDone)
  end.
(** One step of a client: any of the threads above, or gRPC. *)
Definition cstep (k : kind) (a : caction) (s : client) : result client :=
  match a with
  | Initiate p q o => initiate p q o s
  | Advance i => advance k i s
  | Wire i st r => wire i st r s
  | Poll t => poll k t s
  | Shutdown => shutdown k s
  end.
Fixpoint crun (k : kind) (l : list caction) (s : client) : result client :=
  match l with
  | [] => Next s
  | a :: r => match cstep k a s with Next s' => crun k r s' | Crash c => Crash c | Stuck => crun k r s end
  end.
(** A client after SetNumPeers and HandleConnect (115-133); the completion
    thread was started by Initialize (107-113). *)
Definition start_client (stubs : list bool) : client := mkClient stubs 0 [] PoTest false false ShNot.

(** ** The polling server *)
Inductive fstate := AwaitingRequest | ProcessingRequest | FinishedSending.
(** What the handler does with the ServerRpcState: read the request, send the
    response, free the state. *)
Inductive hop := HRead | HSend | HFree.
Inductive op := OpRequest | OpFinish.
(** 687-772: a PollingRpcHandlerFsm: its state, its reference count, how often it was
    deleted, what its handler has still to do ([None]: not called), how often
    Finish was called on it, and whether its call was accepted and the finish
    of it completed. *)
Record fsm := mkFsm {
  f_state : fstate; f_ref : Z; f_deleted : nat; f_ops : option (list hop); f_finish : nat;
  f_accepted : bool; f_closed : bool }.
Inductive spoller := SpWait | SpNext | SpIn (i : nat) | SpExited.
Inductive sshut := SsNot | SsNotified | SsShutting | SsReturned | SsDetected | SsQueue | SsJoined.
Record server := mkServer {
  v_fsms : list fsm; v_ops : list (nat * op); v_events : list (nat * bool);
  v_poller : spoller; v_post_new : bool; v_detected : bool;
  v_handler : bool; v_handler_set : bool; v_shut : sshut }.
Inductive saction :=
  | SetHandler
  | Accept (n : nat)                  (* a client call meets the n-th outstanding operation *)
  | Reject (n : nat)                  (* the server is shutting down *)
  | Sent (n : nat) (ok : bool)        (* the response is on the wire, or the call is dead *)
  | PollServer (n : nat)              (* the polling thread; Next yields the n-th event *)
  | Handle (i : nat)                  (* the handler of FSM i makes its next move, on any thread *)
  | ShutdownServer.
(** UseAfterFree: an access to a deleted FSM; PostShut: an operation started on
    a queue that was shut down (gRPC aborts). *)
Inductive scrash := UseAfterFree (i : nat) | PostShut.
Inductive sresult := SNext (s : server) | SCrash (c : scrash) | SStuck.

Fixpoint ldel {A} (n : nat) (l : list A) : list A :=
  match l, n with
  | [], _ => []
  | _ :: r, O => r
  | x :: r, S m => x :: ldel m r
  end.
Definition queue_shut (s : server) : bool := match v_shut s with SsQueue | SsJoined => true | _ => false end.
Definition shutting (s : server) : bool := match v_shut s with SsNot | SsNotified => false | _ => true end.
Definition set_fsm (i : nat) (f : fsm) (s : server) : server :=
  mkServer (lset i f (v_fsms s)) (v_ops s) (v_events s) (v_poller s) (v_post_new s) (v_detected s) (v_handler s) (v_handler_set s) (v_shut s).
Definition set_spoller (p : spoller) (s : server) : server :=
  mkServer (v_fsms s) (v_ops s) (v_events s) p (v_post_new s) (v_detected s) (v_handler s) (v_handler_set s) (v_shut s).
Definition set_queue (ops : list (nat * op)) (evs : list (nat * bool)) (s : server) : server :=
  mkServer (v_fsms s) ops evs (v_poller s) (v_post_new s) (v_detected s) (v_handler s) (v_handler_set s) (v_shut s).
Definition set_sshut (p : sshut) (s : server) : server :=
  mkServer (v_fsms s) (v_ops s) (v_events s) (v_poller s) (v_post_new s) (v_detected s) (v_handler s) (v_handler_set s) p.
(** An access to FSM [i]. *)
Definition access (i : nat) (s : server) (k : fsm -> sresult) : sresult :=
  match nth_error (v_fsms s) i with
  | None => SStuck
  | Some f => match f_deleted f with O => k f | S _ => SCrash (UseAfterFree i) end
  end.
(** 709-714: DecRefAndMaybeDelete. *)
Definition dec_ref (f : fsm) : fsm :=
  mkFsm (f_state f) (f_ref f - 1) (if Z.eqb (f_ref f) 1 then S (f_deleted f) else f_deleted f)
        (f_ops f) (f_finish f) (f_accepted f) (f_closed f).
(** 689-701 and 735-738: the constructor; it asks gRPC for a request. *)
Definition new_fsm (s : server) : sresult :=
  if queue_shut s then SCrash PostShut
  else SNext (mkServer (v_fsms s ++ [mkFsm ProcessingRequest 1 0 None 0 false false])
                (v_ops s ++ [(length (v_fsms s), OpRequest)]) (v_events s) (v_poller s) (v_post_new s) (v_detected s)
                (v_handler s) (v_handler_set s) (v_shut s)).
(** 716-731: HandleRpc, up to the call of the handler, whose moves are separate
    actions; [prog] is what the handler will do for FSM [i]. *)
Definition call_handler (prog : nat -> list hop) (i : nat) (f : fsm) (s : server) : server :=
  set_spoller (SpIn i)
    (set_fsm i (mkFsm (f_state f) (f_ref f + 1) (f_deleted f) (Some (if v_handler s then prog i else []))
                  (f_finish f) (f_accepted f) (f_closed f)) s).
(** 733-752 RpcHandlerFsm and 842-862 HandleRpcs.  The handler returns (SpIn)
    at any time; what it left for other threads it still does later. *)
Definition poll_server (prog : nat -> list hop) (n : nat) (s : server) : sresult :=
  match v_poller s with
  | SpWait => if v_handler_set s then SNext (set_spoller SpNext s) else SStuck
  | SpNext =>
      match nth_error (v_events s) n with
      | None =>
          match v_events s, v_ops s with
          | [], [] => if queue_shut s then SNext (set_spoller SpExited s) else SStuck
          | _, _ => SStuck
          end
      | Some (i, ok) =>
          let s1 := set_queue (v_ops s) (ldel n (v_events s)) s in
          access i s1 (fun f =>
            if ok then
              match f_state f with
              | AwaitingRequest =>
                  if queue_shut s then SCrash PostShut
                  else SNext (set_fsm i (mkFsm ProcessingRequest (f_ref f) (f_deleted f) (f_ops f) (f_finish f) (f_accepted f) (f_closed f))
                                (set_queue (v_ops s1 ++ [(i, OpRequest)]) (v_events s1) s1))
              | ProcessingRequest =>
                  if v_post_new s then
                    match new_fsm s1 with
                    | SNext s2 => SNext (call_handler prog i f s2)
                    | r => r
                    end
                  else SNext (call_handler prog i f s1)
              | FinishedSending => SNext (set_fsm i (dec_ref f) s1)
              end
            else
              SNext (set_fsm i (dec_ref f)
                (mkServer (v_fsms s1) (v_ops s1) (v_events s1) (v_poller s1) false true (v_handler s1) (v_handler_set s1) (v_shut s1))))
      end
  | SpIn i =>
      access i s (fun f =>
        SNext (set_spoller SpNext
          (set_fsm i (mkFsm FinishedSending (f_ref f) (f_deleted f) (f_ops f) (f_finish f) (f_accepted f) (f_closed f)) s)))
  | SpExited => SStuck
  end.
(** The handler's next move: 719-724 and protocol_driver.cc 36-65. *)
Definition handle_op (i : nat) (s : server) : sresult :=
  match nth_error (v_fsms s) i with
  | None => SStuck
  | Some f =>
      match f_ops f with
      | Some (o :: rest) =>
          access i s (fun f =>
            let f1 := mkFsm (f_state f) (f_ref f) (f_deleted f) (Some rest) (f_finish f) (f_accepted f) (f_closed f) in
            match o with
            | HRead => SNext (set_fsm i f1 s)
            | HSend =>
                if queue_shut s then SCrash PostShut
                else SNext (set_fsm i (mkFsm (f_state f) (f_ref f) (f_deleted f) (Some rest) (S (f_finish f)) (f_accepted f) (f_closed f))
                              (set_queue (v_ops s ++ [(i, OpFinish)]) (v_events s) s))
            | HFree => SNext (set_fsm i (dec_ref f1) s)
            end)
      | _ => SStuck
      end
  end.
(** gRPC: an outstanding request operation completes with ok when a call
    arrives, without when the server is shutting down; an outstanding finish
    completes without ok when the call is already dead. *)
Definition complete_op (want : op) (n : nat) (ok : bool) (s : server) : sresult :=
  match nth_error (v_ops s) n with
  | None => SStuck
  | Some (i, o) =>
      match o, want with
      | OpRequest, OpRequest | OpFinish, OpFinish =>
          match nth_error (v_fsms s) i with
          | None => SStuck
          | Some f =>
              let f1 := mkFsm (f_state f) (f_ref f) (f_deleted f) (f_ops f) (f_finish f)
                          (match want with OpRequest => ok | OpFinish => f_accepted f end)
                          (match want with OpRequest => f_closed f | OpFinish => true end) in
              SNext (set_fsm i f1 (set_queue (ldel n (v_ops s)) (v_events s ++ [(i, ok)]) s))
          end
      | _, _ => SStuck
      end
  end.
(** 824-836: ShutdownServer.  grpc::Server::Shutdown returns when every
    accepted call has been finished. *)
Definition shutdown_server (s : server) : sresult :=
  match v_shut s with
  | SsNot => SNext (mkServer (v_fsms s) (v_ops s) (v_events s) (v_poller s) (v_post_new s) (v_detected s) (v_handler s) true SsNotified)
  | SsNotified => SNext (set_sshut SsShutting s)
  | SsShutting => if forallb (fun f => implb (f_accepted f) (f_closed f)) (v_fsms s) then SNext (set_sshut SsReturned s) else SStuck
  | SsReturned => if v_detected s then SNext (set_sshut SsDetected s) else SStuck
  | SsDetected => SNext (set_sshut SsQueue s)
  | SsQueue => match v_poller s with SpExited => SNext (set_sshut SsJoined s) | _ => SStuck end
  | SsJoined => SStuck
  end.
(** One step of the server: SetHandler (818-822), gRPC, the polling thread, a
    handler or ShutdownServer. *)
Definition sstep (prog : nat -> list hop) (a : saction) (s : server) : sresult :=
  match a with
  | SetHandler =>
      SNext (mkServer (v_fsms s) (v_ops s) (v_events s) (v_poller s) (v_post_new s) (v_detected s) true true (v_shut s))
  | Accept n => if shutting s then SStuck else complete_op OpRequest n true s
  | Reject n => if shutting s then complete_op OpRequest n false s else SStuck
  | Sent n ok => complete_op OpFinish n ok s
  | PollServer n => poll_server prog n s
  | Handle i => handle_op i s
  | ShutdownServer => shutdown_server s
  end.
Fixpoint srun (prog : nat -> list hop) (l : list saction) (s : server) : sresult :=
  match l with
  | [] => SNext s
  | a :: r => match sstep prog a s with SNext s' => srun prog r s' | SCrash c => SCrash c | SStuck => srun prog r s end
  end.
(** 842-849: the server after Initialize: one FSM waits for a request. *)
Definition start_server : server :=
  mkServer [mkFsm ProcessingRequest 1 0 None 0 false false] [(0, OpRequest)] [] SpWait true false false false SsNot.

(** ** The inline and the handoff server *)
(** 306-324: TrafficService::GenericRpc once a handler is set or the service is
    going away: the reply ([inr]: UNAVAILABLE).  The handler runs to its end
    here; [sent] is the response it sent, if it did (the last one). *)
Definition inline_rpc (handler : option (str -> option str)) (request : str) : str + str :=
  match handler with
  | None => inr (s_ "No rpc handler set.")
  | Some h => inl (match h request with Some r => r | None => [] end)
  end.
(** 593-613: TrafficServiceAsyncCallback::GenericRpc and what its handler does:
    gRPC frees the request after Finish, the handler frees the state. *)
Record handoff := mkHo { ho_finished : nat; ho_deleted : nat }.
Inductive ho_result := HoOk (h : handoff) | HoUseAfterFree.
Definition handoff_op (o : hop) (h : handoff) : ho_result :=
  if negb (Nat.eqb (ho_deleted h) 0) then HoUseAfterFree
  else match o with
       | HRead => if Nat.eqb (ho_finished h) 0 then HoOk h else HoUseAfterFree
       | HSend => HoOk (mkHo (S (ho_finished h)) 0)
       | HFree => HoOk (mkHo (ho_finished h) 1)
       end.
Fixpoint handoff_run (l : list hop) (h : handoff) : ho_result :=
  match l with
  | [] => HoOk h
  | o :: r => match handoff_op o h with HoOk h1 => handoff_run r h1 | HoUseAfterFree => HoUseAfterFree end
  end.
