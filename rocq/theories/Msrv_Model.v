(** The server half of the Mercury driver (protocol_driver_mercury.cc) and the
    two functions of a ServerRpcState (protocol_driver.cc), as a transition
    system.  Definitions only.

    Mercury is outside.  Assumed: HG_Trigger calls at most one callback
    (max_count is 1), a request callback for a new handle or the callback of a
    response that was sent; HG_Respond accepts or refuses; only an accepted
    response is called back, once.  HG_Destroy in the request callback drops
    the reference of the driver, the handle stays usable until the response is
    over (the library holds its own reference while a request is processed). *)
From Coq Require Import List NArith ZArith Bool Arith.
From Verif Require Import Wire_Model Grpc_Model Merc_Model.
Import ListNotations.
Open Scope nat_scope.

(** protocol_driver.cc:39-46, 58-64: with NDEBUG the functions are called as
    often as asked for, otherwise the second call is LOG(FATAL). *)
Inductive build := Release | Debug.

(** What a handler does with a ServerRpcState: fill in the response and call
    SendResponseIfSet, or call FreeStateIfSet. *)
Inductive srv_op := OSend (m : grr) | OFree.
(** protocol_driver_mercury.cc:406: the handler acts at once and may return
    more work. *)
Record hscript := mkHs { hs_inline : list srv_op; hs_work : option (list srv_op) }.

Inductive lib_call := LGetInput | LFreeInput | LDestroy | LRespond (ok : bool).

(** One request: what was received, what the handler was given ([None]: a
    message that could not be parsed), the calls of Mercury for its handle
    (newest first), how often its state was freed. *)
Record mreq := mkMreq { rq_wire : bytes; rq_seen : option grr; rq_lib : list lib_call; rq_freed : nat }.

(** One result buffer allocated by a send: refused by HG_Respond (never
    deleted), accepted, sent, or deleted by the done callback.  [rp_at]: the
    number of HG_Progress calls at that time. *)
Inductive rphase := RRefused | RPosted | RSent | RFreed.
Record mresp := mkMresp { rp_req : nat; rp_msg : grr; rp_at : nat; rp_phase : rphase }.

Inductive spoller :=
  | SpTest                                                    (* 307 *)
  | SpTrigger                                                 (* 312 *)
  | SpIn (i : nat) (ops : list srv_op) (work : option (list srv_op))  (* inside handler_, 406 *)
  | SpProgress                                                (* 320 *)
  | SpExited.
Inductive sshut := ShNot | ShJoin | ShPool | ShDone.
Record msrv := mkMsrv {
  sv_set : bool;                               (* handler_ is not empty *)
  sv_reqs : list mreq;
  sv_resps : list mresp;
  sv_tasks : list (nat * list srv_op);         (* thread_pool_: queued or running *)
  sv_poller : spoller;
  sv_progress : nat;                           (* calls of HG_Progress *)
  sv_notified : bool;                          (* server_shutdown_ *)
  sv_shut : sshut }.

Inductive trigger := TNone | TRequest (wire : bytes) | TDone (k : nat).
Inductive saction :=
  | SSet                             (* SetHandler *)
  | SPoll                            (* the polling thread tests server_shutdown_ *)
  | STrigger (t : trigger)           (* HG_Trigger *)
  | SOp (ok : bool)                  (* next operation of the handler; result of HG_Respond *)
  | SProgress (sent : list nat)      (* HG_Progress; which responses it completes *)
  | STask (n : nat) (ok : bool)      (* next operation of a task of the pool *)
  | SShut.                           (* the thread in ShutdownServer *)
Inductive sresult := SvNext (s : msrv) | SvFatal | SvUB | SvTerminate | SvStuck.

Definition sset_poller (p : spoller) (s : msrv) : msrv :=
  mkMsrv (sv_set s) (sv_reqs s) (sv_resps s) (sv_tasks s) p (sv_progress s) (sv_notified s) (sv_shut s).
Definition sset_shut (h : sshut) (s : msrv) : msrv :=
  mkMsrv (sv_set s) (sv_reqs s) (sv_resps s) (sv_tasks s) (sv_poller s) (sv_progress s) (sv_notified s) h.
Definition sset_tasks (t : list (nat * list srv_op)) (s : msrv) : msrv :=
  mkMsrv (sv_set s) (sv_reqs s) (sv_resps s) t (sv_poller s) (sv_progress s) (sv_notified s) (sv_shut s).
Definition sset_resps (l : list mresp) (s : msrv) : msrv :=
  mkMsrv (sv_set s) (sv_reqs s) l (sv_tasks s) (sv_poller s) (sv_progress s) (sv_notified s) (sv_shut s).

Definition responds (l : list lib_call) : nat :=
  length (filter (fun c => match c with LRespond _ => true | _ => false end) l).

(** protocol_driver_mercury.cc:389-404 and protocol_driver.cc:37-66: one
    operation on the state of request [i]; using a deleted state is undefined. *)
Definition use_state (b : build) (i : nat) (o : srv_op) (ok : bool) (s : msrv) : sresult :=
  match nth_error (sv_reqs s) i with
  | None => SvStuck
  | Some r =>
      if negb (Nat.eqb (rq_freed r) 0) then SvUB
      else match o with
      | OSend m =>
          if (match b with Debug => true | Release => false end) && negb (Nat.eqb (responds (rq_lib r)) 0) then SvFatal
          else SvNext (mkMsrv (sv_set s)
                 (lset i (mkMreq (rq_wire r) (rq_seen r) (LRespond ok :: rq_lib r) (rq_freed r)) (sv_reqs s))
                 (sv_resps s ++ [mkMresp i m (sv_progress s) (if ok then RPosted else RRefused)])
                 (sv_tasks s) (sv_poller s) (sv_progress s) (sv_notified s) (sv_shut s))
      | OFree =>
          SvNext (mkMsrv (sv_set s) (lset i (mkMreq (rq_wire r) (rq_seen r) (rq_lib r) (S (rq_freed r))) (sv_reqs s))
                 (sv_resps s) (sv_tasks s) (sv_poller s) (sv_progress s) (sv_notified s) (sv_shut s))
      end
  end.

(** protocol_driver_mercury.cc:354-406: the request callback up to the call of
    handler_.  A string that cannot be allocated throws out of the C callback,
    an empty handler_ throws std::bad_function_call; both end the process. *)
Definition request_callback (mem : N) (h : nat -> option grr -> hscript) (wire : bytes) (s : msrv) : sresult :=
  match server_request mem wire with
  | SrvThrow => SvTerminate
  | SrvRequest m =>
      if negb (sv_set s) then SvTerminate
      else let i := length (sv_reqs s) in
           let hs := h i m in
           SvNext (mkMsrv (sv_set s) (sv_reqs s ++ [mkMreq wire m [LDestroy; LFreeInput; LGetInput] 0]) (sv_resps s)
                     (sv_tasks s) (SpIn i (hs_inline hs) (hs_work hs)) (sv_progress s) (sv_notified s) (sv_shut s))
  end.

(** protocol_driver_mercury.cc:312-316: HG_Trigger; 413-422: the done callback
    deletes the buffer. *)
Definition do_trigger (mem : N) (h : nat -> option grr -> hscript) (t : trigger) (s : msrv) : sresult :=
  match t with
  | TNone => SvNext (sset_poller SpProgress s)
  | TRequest wire => request_callback mem h wire s
  | TDone k =>
      match nth_error (sv_resps s) k with
      | Some r => match rp_phase r with
                  | RSent => SvNext (sset_poller SpProgress
                               (sset_resps (lset k (mkMresp (rp_req r) (rp_msg r) (rp_at r) RFreed) (sv_resps s)) s))
                  | _ => SvStuck
                  end
      | None => SvStuck
      end
  end.

(** HG_Progress: the chosen ones of the accepted responses are sent. *)
Fixpoint send_some (sent : list nat) (k : nat) (l : list mresp) : list mresp :=
  match l with
  | [] => []
  | r :: rest =>
      (match rp_phase r with
       | RPosted => if existsb (Nat.eqb k) sent then mkMresp (rp_req r) (rp_msg r) (rp_at r) RSent else r
       | _ => r
       end) :: send_some sent (S k) rest
  end.

(** distbench_threadpool.h: the task at place [n]; done when it has no
    operations left. *)
Fixpoint ldrop {A} (n : nat) (l : list A) : list A :=
  match l, n with
  | [], _ => []
  | _ :: r, O => r
  | x :: r, S m => x :: ldrop m r
  end.

Definition sstep (b : build) (mem : N) (h : nat -> option grr -> hscript) (a : saction) (s : msrv) : sresult :=
  match a with
  | SSet =>                          (* 148-151; before ShutdownServer *)
      match sv_shut s with
      | ShNot => SvNext (mkMsrv true (sv_reqs s) (sv_resps s) (sv_tasks s) (sv_poller s) (sv_progress s) (sv_notified s) ShNot)
      | _ => SvStuck
      end
  | SPoll =>                         (* 307 *)
      match sv_poller s with
      | SpTest => SvNext (sset_poller (if sv_notified s then SpExited else SpTrigger) s)
      | _ => SvStuck
      end
  | STrigger t =>
      match sv_poller s with
      | SpTrigger => do_trigger mem h t s
      | _ => SvStuck
      end
  | SOp ok =>
      match sv_poller s with
      | SpIn i [] None => SvNext (sset_poller SpProgress s)                                   (* 410 *)
      | SpIn i [] (Some w) => SvNext (sset_poller SpProgress (sset_tasks (sv_tasks s ++ [(i, w)]) s))  (* 407-409 *)
      | SpIn i (o :: ops) work => use_state b i o ok (sset_poller (SpIn i ops work) s)
      | _ => SvStuck
      end
  | SProgress sent =>                (* 319-324 *)
      match sv_poller s with
      | SpProgress =>
          SvNext (mkMsrv (sv_set s) (sv_reqs s) (send_some sent 0 (sv_resps s)) (sv_tasks s) SpTest (S (sv_progress s))
                    (sv_notified s) (sv_shut s))
      | _ => SvStuck
      end
  | STask n ok =>
      match nth_error (sv_tasks s) n with
      | Some (i, []) => SvNext (sset_tasks (ldrop n (sv_tasks s)) s)
      | Some (i, o :: ops) => use_state b i o ok (sset_tasks (lset n (i, ops) (sv_tasks s)) s)
      | None => SvStuck
      end
  | SShut =>                         (* 264-271 *)
      match sv_shut s with
      | ShNot => SvNext (mkMsrv (sv_set s) (sv_reqs s) (sv_resps s) (sv_tasks s) (sv_poller s) (sv_progress s) true ShJoin)
      | ShJoin => match sv_poller s with SpExited => SvNext (sset_shut ShPool s) | _ => SvStuck end
      | ShPool => match sv_tasks s with [] => SvNext (sset_shut ShDone s) | _ => SvStuck end
      | ShDone => SvNext s           (* notified already, no pool *)
      end
  end.
(** Runs a schedule; impossible actions are skipped. *)
Fixpoint srun (b : build) (mem : N) (h : nat -> option grr -> hscript) (l : list saction) (s : msrv) : sresult :=
  match l with
  | [] => SvNext s
  | a :: r => match sstep b mem h a s with
              | SvNext s' => srun b mem h r s'
              | SvStuck => srun b mem h r s
              | bad => bad
              end
  end.
(** 141-144: Initialize ends by starting the polling thread. *)
Definition sstart : msrv := mkMsrv false [] [] [] SpTest 0 false ShNot.
