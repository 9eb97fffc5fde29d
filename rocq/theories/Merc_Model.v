(** The Mercury protocol driver (protocol_driver_mercury.cc): its serializer,
    what its server does with a request, and its client as a transition
    system.  The Mercury library is outside: the comments say what is assumed
    of it.  Definitions only. *)
From Coq Require Import List NArith ZArith Bool Arith.
From Verif Require Import Wire_Model Grpc_Model.
Import ListNotations.
Open Scope nat_scope.

(** ** The serializer *)
(** Mercury: an hg_proc_t is an operation and a buffer.  Encoding: [p_buf] is
    what was written, [p_room] how many more bytes the buffer can be grown by.
    Decoding: [p_buf] is what was not read yet. *)
Inductive hg_op := HgEncode | HgDecode | HgFree.
Record hg_proc := mkProc { p_op : hg_op; p_buf : bytes; p_room : N }.
(** Mercury: hg_proc_hg_int64_t and hg_proc_bytes copy that many bytes to or
    from the buffer, or fail (HG_OVERFLOW) and then touch neither the buffer nor
    the variable; freeing does nothing.  The int64_t is stored little-endian
    (the hosts distbench runs on).  [true] is HG_SUCCESS. *)
Definition hg_proc_bytes (p : hg_proc) (data : bytes) : bool * bytes * hg_proc :=
  match p_op p with
  | HgEncode =>
      if (N.of_nat (length data) <=? p_room p)%N
      then (true, data, mkProc HgEncode (p_buf p ++ data) (p_room p - N.of_nat (length data))%N)
      else (false, data, p)
  | HgDecode =>
      if length data <=? length (p_buf p)
      then (true, firstn (length data) (p_buf p), mkProc HgDecode (skipn (length data) (p_buf p)) (p_room p))
      else (false, data, p)
  | HgFree => (true, data, p)
  end.
Definition hg_proc_int64 (p : hg_proc) (v : N) : bool * N * hg_proc :=
  match hg_proc_bytes p (le_bytes 8 v) with (ok, d, p') => (ok, le_value d, p') end.
(** std::string::resize *)
Definition resize (n : nat) (s : bytes) : bytes := firstn n s ++ repeat 0%N (n - length s).
(** The serializer returned, or resize threw (std::length_error, std::bad_alloc). *)
Inductive ser_result := SerThrow | SerRet (ok : bool) (s : bytes) (p : hg_proc).
(** protocol_driver_mercury.cc 336-353: GenericRpcSerializer.  [mem]: the
    longest string that can be allocated. *)
Definition generic_rpc_serializer (mem : N) (p : hg_proc) (s : bytes) : ser_result :=
  match hg_proc_int64 p (N.of_nat (length s)) with (_, slen1, p1) =>
  match hg_proc_int64 p1 slen1 with (_, slen2, p2) =>
  if (mem <? slen2)%N then SerThrow
  else match hg_proc_bytes p2 (resize (N.to_nat slen2) s) with (ok, s', p3) => SerRet ok s' p3 end
  end end.

(** ** The server *)
(** 362-378: HG_Get_input decodes into a new string; whatever it returns, the
    string is parsed.  The handler gets the message, [None]: one that could not
    be parsed (its contents, partially filled by protobuf, are not modelled). *)
Inductive srv_result := SrvThrow | SrvRequest (m : option grr).
Definition server_request (mem : N) (wire : bytes) : srv_result :=
  match generic_rpc_serializer mem (mkProc HgDecode wire 0%N) [] with
  | SerThrow => SrvThrow
  | SerRet _ s _ => SrvRequest (parse s)
  end.
(** 252-255 (request) and 391-395 (response): SerializeToString and what
    HG_Forward or HG_Respond put on the wire; [None]: the encoding failed. *)
Definition put_on_wire (mem room : N) (m : grr) : option bytes :=
  match generic_rpc_serializer mem (mkProc HgEncode [] room) (serialize m) with
  | SerRet true _ p => Some (p_buf p)
  | _ => None
  end.
(** 428-429: HG_Get_output decodes into a new string. *)
Definition get_output (mem : N) (wire : bytes) : option bytes :=
  match generic_rpc_serializer mem (mkProc HgDecode wire 0%N) [] with
  | SerRet true s _ => Some s
  | _ => None
  end.

(** ** The client *)
(** Progress of one RPC.  [MLost]: InitiateRpc or RpcClientCallback returned
    without calling done_callback. *)
Inductive mphase :=
  | MStarted                     (* pending_rpcs_ incremented *)
  | MCreated                     (* HG_Create succeeded, request moved into the PendingRpc *)
  | MFlying                      (* HG_Forward succeeded *)
  | MCalling                     (* inside done_callback *)
  | MReleased                    (* PendingRpc deleted, pending_rpcs_ decremented *)
  | MLost.
(** protocol_driver.h 28-35: the fields of ClientRpcState that are used; a
    moved-from message is empty (protobuf swaps). *)
Record mstate := mkMs { ms_request : grr; ms_response : grr; ms_success : option bool }.
(** An InitiateRpc: peer, the RPC inside whose callback it was made, the request
    in the PendingRpc, the caller's ClientRpcState; for the statements, what each
    call of done_callback found there (newest first), the request as given, the
    ret and output Mercury delivered, and whether ShutdownClient had already
    seen no pending RPC. *)
Record mrpc := mkMrpc {
  m_peer : nat; m_parent : option nat; m_inner : grr; m_state : mstate; m_phase : mphase;
  m_calls : list mstate; m_given : grr; m_wire : option (Z * option bytes); m_late : bool }.
Inductive mpoller := MpTest | MpTrigger | MpIn (i : nat) | MpExited.
Inductive mshut := MsNot | MsSpin | MsNotify | MsJoin | MsDone.
Record mclient := mkMclient {
  m_peers : nat; m_pending : Z; m_rpcs : list mrpc; m_poller : mpoller; m_notified : bool; m_shut : mshut }.
Inductive maction :=
  | MInitiate (peer : Z) (request : grr) (parent : option nat)
  | MCreate (i : nat) (ok : bool)                      (* result of HG_Create *)
  | MForward (i : nat) (ok : bool)                     (* result of HG_Forward *)
  | MPoll (c : option (nat * Z * option bytes))        (* the polling thread; which callback HG_Trigger calls, its ret, the output *)
  | MShutdown.
Inductive mresult := MNext (s : mclient) | MAbort | MStuck.

Definition mset_phase (p : mphase) (r : mrpc) : mrpc :=
  mkMrpc (m_peer r) (m_parent r) (m_inner r) (m_state r) p (m_calls r) (m_given r) (m_wire r) (m_late r).
Definition mset_rpc (i : nat) (r : mrpc) (s : mclient) : mclient :=
  mkMclient (m_peers s) (m_pending s) (lset i r (m_rpcs s)) (m_poller s) (m_notified s) (m_shut s).
Definition mset_pending (z : Z) (s : mclient) : mclient :=
  mkMclient (m_peers s) z (m_rpcs s) (m_poller s) (m_notified s) (m_shut s).
Definition mset_poller (p : mpoller) (s : mclient) : mclient :=
  mkMclient (m_peers s) (m_pending s) (m_rpcs s) p (m_notified s) (m_shut s).
Definition mset_shut (p : mshut) (s : mclient) : mclient :=
  mkMclient (m_peers s) (m_pending s) (m_rpcs s) (m_poller s) (m_notified s) p.

(** The callback of RPC [i] is inside InitiateRpc. *)
Definition mbusy (i : nat) (l : list mrpc) : bool :=
  existsb (fun r => match m_parent r with Some j => Nat.eqb j i | None => false end &&
                    match m_phase r with MStarted | MCreated => true | _ => false end) l.
(** A ShutdownClient has left its loop (274-276). *)
Definition passed (s : mclient) : bool := m_notified s || match m_shut s with MsNotify => true | _ => false end.
(** protocol_driver_mercury.cc 230-233. *)
Definition minitiate (peer : Z) (request : grr) (parent : option nat) (s : mclient) : mresult :=
  let ok := match parent with
            | None => true
            | Some j => match nth_error (m_rpcs s) j with
                        | Some r => match m_phase r with MCalling => negb (mbusy j (m_rpcs s)) | _ => false end
                        | None => false
                        end
            end in
  if negb ok then MStuck
  else if (peer <? 0)%Z then MAbort
  else if (Z.of_nat (m_peers s) <=? peer)%Z then MAbort
  else MNext (mkMclient (m_peers s) (m_pending s + 1)
         (m_rpcs s ++ [mkMrpc (Z.to_nat peer) parent empty_grr (mkMs request empty_grr None) MStarted [] request None (passed s)])
         (m_poller s) (m_notified s) (m_shut s)).
(** 235-252: HG_Create, then the PendingRpc. *)
Definition mcreate (i : nat) (ok : bool) (s : mclient) : mresult :=
  match nth_error (m_rpcs s) i with
  | Some r =>
      match m_phase r with
      | MStarted =>
          MNext (if ok then
            mset_rpc i (mkMrpc (m_peer r) (m_parent r) (ms_request (m_state r))
                          (mkMs empty_grr (ms_response (m_state r)) (ms_success (m_state r))) MCreated (m_calls r) (m_given r)
                          (m_wire r) (m_late r)) s
          else mset_pending (m_pending s - 1) (mset_rpc i (mset_phase MLost r) s))
      | _ => MStuck
      end
  | None => MStuck
  end.
(** 254-259: HG_Forward.  Mercury calls back only when it succeeded. *)
Definition mforward (i : nat) (ok : bool) (s : mclient) : mresult :=
  match nth_error (m_rpcs s) i with
  | Some r =>
      match m_phase r with
      | MCreated =>
          MNext (if ok then mset_rpc i (mset_phase MFlying r) s
                 else mset_pending (m_pending s - 1) (mset_rpc i (mset_phase MLost r) s))
      | _ => MStuck
      end
  | None => MStuck
  end.
(** 424-444: RpcClientCallback, up to and including the call of done_callback. *)
Definition mcallback (i : nat) (ret : Z) (out : option bytes) (r : mrpc) (s : mclient) : mclient :=
  let st := m_state r in
  let st1 := mkMs (ms_request st) (ms_response st) (Some (ret =? 0)%Z) in
  match out with
  | None =>
      mset_pending (m_pending s - 1)
        (mset_rpc i (mkMrpc (m_peer r) (m_parent r) (m_inner r) st1 MLost (m_calls r) (m_given r) (Some (ret, out)) (m_late r)) s)
  | Some str =>
      let st2 := match parse str with
                 | None => mkMs (ms_request st1) (ms_response st1) (Some false)
                 | Some m => mkMs (m_inner r) m (Some true)
                 end in
      let inner := match parse str with None => m_inner r | Some _ => empty_grr end in
      mset_poller (MpIn i)
        (mset_rpc i (mkMrpc (m_peer r) (m_parent r) inner st2 MCalling (st2 :: m_calls r) (m_given r) (Some (ret, out)) (m_late r)) s)
  end.
(** 284-304: ClientPollingThread.  HG_Trigger calls at most one callback, of an
    RPC that was forwarded; every forwarded RPC is called back once. *)
Definition mpoll (c : option (nat * Z * option bytes)) (s : mclient) : mresult :=
  match m_poller s with
  | MpTest => MNext (mset_poller (if m_notified s then MpExited else MpTrigger) s)
  | MpTrigger =>
      match c with
      | None => MNext (mset_poller MpTest s)
      | Some (i, ret, out) =>
          match nth_error (m_rpcs s) i with
          | Some r => match m_phase r with MFlying => MNext (mcallback i ret out r (mset_poller MpTest s)) | _ => MStuck end
          | None => MStuck
          end
      end
  (** 446-458: done_callback returned *)
  | MpIn i =>
      match nth_error (m_rpcs s) i with
      | Some r =>
          if mbusy i (m_rpcs s) then MStuck
          else MNext (mset_poller MpTest (mset_pending (m_pending s - 1) (mset_rpc i (mset_phase MReleased r) s)))
      | None => MStuck
      end
  | MpExited => MStuck
  end.
(** 273-282: ShutdownClient (possibly repeated, by one thread at a time: the
    destructor calls it again). *)
Definition mshutdown (s : mclient) : mresult :=
  match m_shut s with
  | MsNot | MsDone => MNext (mset_shut MsSpin s)
  | MsSpin =>
      if Z.eqb (m_pending s) 0 then MNext (mset_shut (if m_notified s then MsDone else MsNotify) s) else MStuck
  | MsNotify => MNext (mkMclient (m_peers s) (m_pending s) (m_rpcs s) (m_poller s) true MsJoin)
  | MsJoin => match m_poller s with MpExited => MNext (mset_shut MsDone s) | _ => MStuck end
  end.
Definition mstep (a : maction) (s : mclient) : mresult :=
  match a with
  | MInitiate p q o => minitiate p q o s
  | MCreate i ok => mcreate i ok s
  | MForward i ok => mforward i ok s
  | MPoll c => mpoll c s
  | MShutdown => mshutdown s
  end.
Fixpoint mrun (l : list maction) (s : mclient) : mresult :=
  match l with
  | [] => MNext s
  | a :: r => match mstep a s with MNext s' => mrun r s' | MAbort => MAbort | MStuck => mrun r s end
  end.
(** 141-142, 153-155: a client after Initialize and SetNumPeers. *)
Definition mstart (peers : nat) : mclient := mkMclient peers 0 [] MpTest false MsNot.
