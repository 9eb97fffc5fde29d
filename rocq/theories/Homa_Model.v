(** The Homa protocol driver (protocol_driver_homa.cc): how messages are put on
    the wire and read back, its client and its server threads as transition
    systems.  The Homa library and kernel module are outside: the comments say
    what is assumed of them.  Definitions only. *)
From Coq Require Import List NArith ZArith Bool Arith.
From Verif Require Import Wire_Model Grpc_Model.
Import ListNotations.
Open Scope nat_scope.

(** ** Messages *)
(** 40: empty_message_placeholder *)
Definition placeholder : bytes := [7%N].
(** 386-392: what InitiateRpc sends; [None]: the CHECK_EQ failed. *)
Definition request_on_wire (nocopy : bool) (m : grr) : option bytes :=
  let c := serialize_to_cord m nocopy in
  if (Z.of_nat (length c) =? byte_size m)%Z then Some (match c with [] => placeholder | _ => c end) else None.
(** 470-480: what a response is sent as.  Cord2Iovectors (distbench_payload.cc
    216-232) gives one entry per chunk of the Cord, none when it is empty. *)
Definition response_on_wire (nocopy : bool) (m : grr) : bytes :=
  match serialize_to_cord m nocopy with [] => placeholder | c => c end.
(** ParseFromArray ended normally ([ok], the message as far as it is set), or
    the process crashed or read outside a buffer. *)
Inductive hp_result := HpCrash | HpRet (ok : bool) (m : grr).
Definition rx_buf_size : N := 1048576.
(** 46-54: SlowParse.  receiver::copy_out copies no more than the message. *)
Definition slow_parse (msg : bytes) : hp_result :=
  let m := match msg with [7%N] => [] | _ => msg end in
  if (rx_buf_size <? N.of_nat (length m))%N then HpCrash
  else match parse m with Some g => HpRet true g | None => HpRet false empty_grr end.
(** 92-99: Parse; 88-89: the fall back of FastParse. *)
Definition homa_parse (nocopy : bool) (msg : bytes) (contiguous : nat -> nat) : hp_result :=
  if nocopy then
    match fast_parse msg contiguous with
    | FpCrash => HpCrash
    | FpSlow => slow_parse msg
    | FpRet ok m => HpRet ok m
    end
  else slow_parse msg.
(** 441-457: a ping-pong server sends the chunks of the request back. *)
Inductive pp_result := PpFatal | PpReply (msg : bytes).
Definition ping_pong (msg : bytes) (contiguous : nat -> nat) : pp_result :=
  match collect_chunks homa_max_bpages msg contiguous 0 [] with Some r => PpReply r | None => PpFatal end.

(** ** The client *)
(** What the kernel makes of an RPC: a response ([errno] reported with it, and
    how its bytes lie in the receive buffer), or an error (receive returns a
    negative length). *)
Inductive outcome := OReply (msg : bytes) (contiguous : nat -> nat) (errno : bool) | OError.
Inductive hphase :=
  | HCounted                     (* pending_rpcs_ incremented, homa_sendv not returned *)
  | HFlying
  | HArrived (o : outcome)
  | HServing                     (* inside done_callback on a completion thread *)
  | HSendFailed                  (* deleted and uncounted, done_callback not called yet *)
  | HOver
  | HForgotten.                  (* receive returned its error, nothing was done *)
(** The fields of ClientRpcState that are written ([hs_response]: [None] until a
    response was parsed; [ok] says whether it could be). *)
Record hstate := mkHs { hs_response : option (bool * grr); hs_success : option bool }.
(** An RPC; [h_calls]: what each call of done_callback found, newest first;
    [h_wire]: what the kernel made of it; [h_late]: ShutdownClient had already
    seen no pending RPC. *)
Record hrpc := mkHrpc { h_phase : hphase; h_state : hstate; h_calls : list hstate; h_wire : option outcome; h_late : bool }.
Inductive hthread := HtTest | HtReceive | HtServe (i : nat) | HtExited.
Inductive hshut := HsNot | HsWake (left : nat) | HsJoin (k : nat) | HsSpin | HsClosed.
(** [hc_wake]: the cancelled RPCs (338-360) no thread has received yet. *)
Record hclient := mkHclient {
  hc_pending : Z; hc_rpcs : list hrpc; hc_threads : list hthread; hc_wake : nat; hc_notified : bool; hc_shut : hshut }.
Inductive haction :=
  | HInitiate
  | HSend (i : nat) (ok : bool)                     (* homa_sendv returns *)
  | HFail (i : nat)                                 (* the caller of a failed send goes on *)
  | HKernel (i : nat) (o : outcome)
  | HThread (t : nat) (i : option nat)              (* a completion thread; which RPC receive returns, None: a cancelled one *)
  | HShutdown.
Inductive hresult := HNext (s : hclient) | HCrash | HStuck.

Definition hset_rpc (i : nat) (r : hrpc) (s : hclient) : hclient :=
  mkHclient (hc_pending s) (lset i r (hc_rpcs s)) (hc_threads s) (hc_wake s) (hc_notified s) (hc_shut s).
Definition hset_pending (z : Z) (s : hclient) : hclient :=
  mkHclient z (hc_rpcs s) (hc_threads s) (hc_wake s) (hc_notified s) (hc_shut s).
Definition hset_thread (t : nat) (h : hthread) (s : hclient) : hclient :=
  mkHclient (hc_pending s) (hc_rpcs s) (lset t h (hc_threads s)) (hc_wake s) (hc_notified s) (hc_shut s).
Definition hset_wake (n : nat) (s : hclient) : hclient :=
  mkHclient (hc_pending s) (hc_rpcs s) (hc_threads s) n (hc_notified s) (hc_shut s).
Definition hset_shut (p : hshut) (s : hclient) : hclient :=
  mkHclient (hc_pending s) (hc_rpcs s) (hc_threads s) (hc_wake s) (hc_notified s) p.
Definition hset_phase (p : hphase) (r : hrpc) : hrpc := mkHrpc p (h_state r) (h_calls r) (h_wire r) (h_late r).

Definition hpassed (s : hclient) : bool := match hc_shut s with HsClosed => true | _ => false end.
(** 382-397.  The index into peer_addresses_ is not checked by the code; it is
    assumed to be in range. *)
Definition hinitiate (s : hclient) : hresult :=
  HNext (mkHclient (hc_pending s + 1) (hc_rpcs s ++ [mkHrpc HCounted (mkHs None None) [] None (hpassed s)])
           (hc_threads s) (hc_wake s) (hc_notified s) (hc_shut s)).
(** 400-408 *)
Definition hsend (i : nat) (ok : bool) (s : hclient) : hresult :=
  match nth_error (hc_rpcs s) i with
  | Some r =>
      match h_phase r with
      | HCounted =>
          HNext (if ok then hset_rpc i (hset_phase HFlying r) s
                 else hset_pending (hc_pending s - 1) (hset_rpc i (hset_phase HSendFailed r) s))
      | _ => HStuck
      end
  | None => HStuck
  end.
(** 409-410 *)
Definition hfail (i : nat) (s : hclient) : hresult :=
  match nth_error (hc_rpcs s) i with
  | Some r =>
      match h_phase r with
      | HSendFailed =>
          let st := mkHs (hs_response (h_state r)) (Some false) in
          HNext (hset_rpc i (mkHrpc HOver st (st :: h_calls r) (h_wire r) (h_late r)) s)
      | _ => HStuck
      end
  | None => HStuck
  end.
(** Homa completes every RPC that was sent, once. *)
Definition hkernel (i : nat) (o : outcome) (s : hclient) : hresult :=
  match nth_error (hc_rpcs s) i with
  | Some r => match h_phase r with
              | HFlying => HNext (hset_rpc i (mkHrpc (HArrived o) (h_state r) (h_calls r) (Some o) (h_late r)) s)
              | _ => HStuck
              end
  | None => HStuck
  end.
(** 504-529: receive has returned this RPC. *)
Definition hreceived (nocopy : bool) (t i : nat) (o : outcome) (r : hrpc) (s : hclient) : hresult :=
  match o with
  | OError => HNext (hset_thread t HtTest (hset_rpc i (hset_phase HForgotten r) s))
  | OReply msg contiguous errno =>
      let serve st := HNext (hset_thread t (HtServe i) (hset_rpc i (mkHrpc HServing st (st :: h_calls r) (h_wire r) (h_late r)) s)) in
      if errno || Nat.eqb (length msg) 0 then serve (mkHs (hs_response (h_state r)) (Some false))
      else match homa_parse nocopy msg contiguous with
           | HpCrash => HCrash
           | HpRet ok m => serve (mkHs (Some (ok, m)) (Some true))
           end
  end.
(** 499-533: ClientCompletionThread *)
Definition hthread_step (nocopy : bool) (t : nat) (choice : option nat) (s : hclient) : hresult :=
  match nth_error (hc_threads s) t with
  | Some HtTest =>
      HNext (hset_thread t (if negb (hc_notified s) || (negb (Z.eqb (hc_pending s) 0) && Nat.eqb t 0) then HtReceive else HtExited) s)
  | Some HtReceive =>
      match choice with
      | None => match hc_wake s with
                | O => HStuck
                | S n => HNext (hset_thread t HtTest (hset_wake n s))
                end
      | Some i =>
          match nth_error (hc_rpcs s) i with
          | Some r => match h_phase r with HArrived o => hreceived nocopy t i o r s | _ => HStuck end
          | None => HStuck
          end
      end
  | Some (HtServe i) =>
      match nth_error (hc_rpcs s) i with
      | Some r => HNext (hset_thread t HtTest (hset_pending (hc_pending s - 1) (hset_rpc i (hset_phase HOver r) s)))
      | None => HStuck
      end
  | _ => HStuck
  end.
(** 335-378: ShutdownClient; a second call does nothing.  The RPCs sent to
    itself are assumed to be sent and cancelled successfully. *)
Definition hshutdown (s : hclient) : hresult :=
  match hc_shut s with
  | HsNot => HNext (mkHclient (hc_pending s) (hc_rpcs s) (hc_threads s) (hc_wake s) true (HsWake (length (hc_threads s))))
  | HsWake (S n) => HNext (hset_shut (HsWake n) (hset_wake (S (hc_wake s)) s))
  | HsWake O => HNext (hset_shut (HsJoin 0) s)
  | HsJoin k =>
      match nth_error (hc_threads s) k with
      | None => HNext (hset_shut HsSpin s)
      | Some HtExited => HNext (hset_shut (HsJoin (S k)) s)
      | Some _ => HStuck
      end
  | HsSpin => if Z.eqb (hc_pending s) 0 then HNext (hset_shut HsClosed s) else HStuck
  | HsClosed => HStuck
  end.
Definition hstep (nocopy : bool) (a : haction) (s : hclient) : hresult :=
  match a with
  | HInitiate => hinitiate s
  | HSend i ok => hsend i ok s
  | HFail i => hfail i s
  | HKernel i o => hkernel i o s
  | HThread t c => hthread_step nocopy t c s
  | HShutdown => hshutdown s
  end.
Fixpoint hrun (nocopy : bool) (l : list haction) (s : hclient) : hresult :=
  match l with
  | [] => HNext s
  | a :: r => match hstep nocopy a s with HNext s' => hrun nocopy r s' | HCrash => HCrash | HStuck => hrun nocopy r s end
  end.
(** 174-177: a client with [n] completion threads. *)
Definition hstart (n : nat) : hclient := mkHclient 0 [] (repeat HtTest n) 0 false HsNot.

(** ** The server *)
(** A request that a server thread has handed to the handler (463-488): still
    without response, or answered. *)
Inductive qphase := QHandling | QAnswered.
(** [q_thread]: the thread whose pending_responses counts it (487); [q_parsed]:
    the request the handler got ([fst]: could be parsed); [q_msg], for the
    statements: the message it was parsed from. *)
Record hreq := mkHreq { q_thread : nat; q_parsed : bool * grr; q_phase : qphase; q_msg : bytes * (nat -> nat) }.
Inductive vthread := VtWait | VtReceive | VtGot (msg : bytes) (contiguous : nat -> nat) | VtDrain | VtGone.
(** A thread with its own counter (415). *)
Record vserver := mkVserver {
  vs_threads : list (vthread * Z); vs_reqs : list hreq; vs_set : bool; vs_down : bool; vs_mapped : bool; vs_join : option nat }.
Inductive vaction :=
  | VSetHandler
  | VThread (t : nat) (m : option (bytes * (nat -> nat)))   (* what receive returns; None: an error, or a zero length *)
  | VAnswer (i : nat)                                       (* the handler of request i sends its response *)
  | VShutdown.
(** [VDangling]: a response decrements the counter of a thread that has ended;
    [VUnmapped]: a message is read from a buffer that was unmapped. *)
Inductive vcrash := VParse | VDangling | VUnmapped.
Inductive vresult := VNext (s : vserver) | VCrash (c : vcrash) | VStuck.
Definition vset_thread (t : nat) (h : vthread) (n : Z) (s : vserver) : vserver :=
  mkVserver (lset t (h, n) (vs_threads s)) (vs_reqs s) (vs_set s) (vs_down s) (vs_mapped s) (vs_join s).
(** 414-497: ServerThread (not ping-pong). *)
Definition vthread_step (nocopy : bool) (t : nat) (m : option (bytes * (nat -> nat))) (s : vserver) : vresult :=
  match nth_error (vs_threads s) t with
  | Some (VtWait, n) => if vs_set s then VNext (vset_thread t VtReceive n s) else VStuck
  | Some (VtReceive, n) =>
      if vs_down s then VNext (vset_thread t VtDrain n s)
      else match m with
           | Some (msg, contiguous) => if Nat.eqb (length msg) 0 then VNext s else VNext (vset_thread t (VtGot msg contiguous) n s)
           | None => VNext s
           end
  | Some (VtGot msg contiguous, n) =>
      if vs_mapped s then
        match homa_parse nocopy msg contiguous with
        | HpCrash => VCrash VParse
        | HpRet ok g =>
            VNext (mkVserver (lset t (VtReceive, n + 1)%Z (vs_threads s)) (vs_reqs s ++ [mkHreq t (ok, g) QHandling (msg, contiguous)])
                     (vs_set s) (vs_down s) (vs_mapped s) (vs_join s))
        end
      else VCrash VUnmapped
  | Some (VtDrain, n) => if Z.eqb n 0 then VNext (vset_thread t VtGone n s) else VStuck
  | _ => VStuck
  end.
(** 469-486: the handler sends its response; it does so at most once. *)
Definition vanswer (i : nat) (s : vserver) : vresult :=
  match nth_error (vs_reqs s) i with
  | Some q =>
      match q_phase q with
      | QHandling =>
          match nth_error (vs_threads s) (q_thread q) with
          | Some (VtGone, _) => VCrash VDangling
          | Some (h, n) =>
              VNext (mkVserver (lset (q_thread q) (h, n - 1)%Z (vs_threads s)) (lset i (mkHreq (q_thread q) (q_parsed q) QAnswered (q_msg q)) (vs_reqs s))
                       (vs_set s) (vs_down s) (vs_mapped s) (vs_join s))
          | None => VStuck
          end
      | QAnswered => VStuck
      end
  | None => VStuck
  end.
(** 295-333: ShutdownServer; [vs_join]: the thread it is joining.  The messages
    that wake the threads up (299-319) always arrive: see the case [vs_down] above. *)
Definition vshutdown (s : vserver) : vresult :=
  match vs_join s with
  | None => if vs_down s then VStuck
            else VNext (mkVserver (vs_threads s) (vs_reqs s) true true (vs_mapped s) (Some 0))
  | Some k =>
      match nth_error (vs_threads s) k with
      | Some (VtGone, _) => VNext (mkVserver (vs_threads s) (vs_reqs s) (vs_set s) (vs_down s) false (Some (S k)))
      | Some _ => VStuck
      | None => VNext (mkVserver (vs_threads s) (vs_reqs s) (vs_set s) (vs_down s) (vs_mapped s) None)
      end
  end.
Definition vstep (nocopy : bool) (a : vaction) (s : vserver) : vresult :=
  match a with
  | VSetHandler => VNext (mkVserver (vs_threads s) (vs_reqs s) true (vs_down s) (vs_mapped s) (vs_join s))
  | VThread t m => vthread_step nocopy t m s
  | VAnswer i => vanswer i s
  | VShutdown => vshutdown s
  end.
Fixpoint vrun (nocopy : bool) (l : list vaction) (s : vserver) : vresult :=
  match l with
  | [] => VNext s
  | a :: r => match vstep nocopy a s with VNext s' => vrun nocopy r s' | VCrash c => VCrash c | VStuck => vrun nocopy r s end
  end.
(** 171-181: the number of server threads is client_threads. *)
Definition vstart (client_threads : nat) : vserver := mkVserver (repeat (VtWait, 0%Z) client_threads) [] false false true None.
