(** Homa clients and servers together: the clients and servers of Homa_Model.v
    and the messages between them.  Definitions only.

    The kernel module is outside.  Assumed: a request that homa_sendv accepted is
    received at most once, unchanged, by a thread of the server it is addressed
    to; an RPC is completed once, with the response that this server gave to
    it, unchanged, or with a failure.  How a message lies in the receive buffer
    is part of an action. *)
From Coq Require Import List NArith ZArith Bool Arith.
From Verif Require Import Wire_Model Grpc_Model Homa_Model.
Import ListNotations.
Open Scope nat_scope.

(** The option nocopy of each client and of each server
    (protocol_driver_homa.cc:128), which server a client reaches as which peer
    (242-274, HandleConnect), and the response of the handler of server [j] to
    its request [k], given what the request was parsed to (462-464). *)
Record hworld := mkHw {
  hw_client_nocopy : nat -> bool; hw_server_nocopy : nat -> bool;
  hw_route : nat -> nat -> nat; hw_h : nat -> nat -> bool * grr -> grr }.
(** A client with the peer and the request of each InitiateRpc. *)
Record hend := mkHend { e_client : hclient; e_asked : list (nat * grr) }.
(** A server with the messages its threads received: the thread and the RPC
    (client, number); [v_from]: which of them each request was parsed from. *)
Record hserver := mkHv { v_server : vserver; v_arrivals : list (nat * (nat * nat)); v_from : list nat }.
Record hnet := mkHn { y_clients : list hend; y_servers : list hserver }.
Inductive yaction :=
  | YInitiate (c peer : nat) (request : grr)
  | YClient (c : nat) (a : haction)                          (* a thread of client [c] *)
  | YServer (j : nat) (a : vaction)                          (* a thread or handler of server [j] *)
  | YDeliver (c i t : nat) (contiguous : nat -> nat)         (* thread [t] of the server receives RPC [i] of client [c] *)
  | YReply (c i k : nat) (contiguous : nat -> nat)           (* the response to request [k] reaches RPC [i] of client [c] *)
  | YFail (c i : nat) (o : outcome).                         (* the kernel reports a failure *)
(** A process ended or read outside a buffer. *)
Inductive yresult := YNext (y : hnet) | YCrash | YStuck.

Definition on_client (w : hworld) (c : nat) (a : haction) (asked : list (nat * grr)) (y : hnet) : yresult :=
  match nth_error (y_clients y) c with
  | None => YStuck
  | Some e => match hstep (hw_client_nocopy w c) a (e_client e) with
              | HNext s => YNext (mkHn (lset c (mkHend s (e_asked e ++ asked)) (y_clients y)) (y_servers y))
              | HCrash => YCrash
              | HStuck => YStuck
              end
  end.
(** The message that thread [t] received last. *)
Fixpoint last_of (t n : nat) (l : list (nat * (nat * nat))) : list nat :=
  match l with
  | [] => []
  | (u, _) :: r => match last_of t (S n) r with [] => if Nat.eqb u t then [n] else [] | a => a end
  end.
(** The message a thread of a server is about to parse (459-464). *)
Definition parsing (a : vaction) (v : hserver) : list nat :=
  match a with
  | VThread t _ => match nth_error (vs_threads (v_server v)) t with
                   | Some (VtGot _ _, _) => last_of t 0 (v_arrivals v)
                   | _ => []
                   end
  | _ => []
  end.
Definition on_server (w : hworld) (j : nat) (a : vaction) (arrival : list (nat * (nat * nat))) (y : hnet) : yresult :=
  match nth_error (y_servers y) j with
  | None => YStuck
  | Some v => match vstep (hw_server_nocopy w j) a (v_server v) with
              | VNext s => YNext (mkHn (y_clients y) (lset j (mkHv s (v_arrivals v ++ arrival) (v_from v ++ parsing a v)) (y_servers y)))
              | VCrash _ => YCrash
              | VStuck => YStuck
              end
  end.
Definition is_rpc (a b : nat * nat) : bool := Nat.eqb (fst a) (fst b) && Nat.eqb (snd a) (snd b).
(** Peer and request of an RPC that the kernel has and has not completed. *)
Definition flying (c i : nat) (y : hnet) : option (nat * grr) :=
  match nth_error (y_clients y) c with
  | None => None
  | Some e => match nth_error (hc_rpcs (e_client e)) i with
              | Some r => match h_phase r with HFlying => nth_error (e_asked e) i | _ => None end
              | None => None
              end
  end.
(** The RPC that request [k] of a server came from. *)
Definition origin (v : hserver) (k : nat) : option (nat * nat) :=
  match nth_error (v_from v) k with
  | Some a => option_map snd (nth_error (v_arrivals v) a)
  | None => None
  end.
(** A completion without response: a negative length, an error number or a
    length of zero (504-518). *)
Definition failing (o : outcome) : bool :=
  match o with OError => true | OReply msg _ errno => errno || Nat.eqb (length msg) 0 end.
Definition ystep (w : hworld) (a : yaction) (y : hnet) : yresult :=
  match a with
  | YInitiate c peer m =>                 (* 380-397 *)
      match request_on_wire (hw_client_nocopy w c) m with
      | None => YCrash
      | Some _ => on_client w c HInitiate [(peer, m)] y
      end
  | YClient _ HInitiate | YClient _ (HKernel _ _) => YStuck
  | YClient c a => on_client w c a [] y
  | YServer _ (VThread _ (Some _)) => YStuck
  | YServer j a => on_server w j a [] y
  | YDeliver c i t contiguous =>          (* 398-401, 421 *)
      match flying c i y with
      | None => YStuck
      | Some (peer, m) =>
          match nth_error (y_servers y) (hw_route w c peer), request_on_wire (hw_client_nocopy w c) m with
          | Some v, Some wire =>
              if existsb (fun p => is_rpc (c, i) (snd p)) (v_arrivals v) then YStuck
              else match nth_error (vs_threads (v_server v)) t with
                   | Some (VtReceive, _) => on_server w (hw_route w c peer) (VThread t (Some (wire, contiguous))) [(t, (c, i))] y
                   | _ => YStuck
                   end
          | _, _ => YStuck
          end
      end
  | YReply c i k contiguous =>            (* 470-480, 503 *)
      match flying c i y with
      | None => YStuck
      | Some (peer, _) =>
          match nth_error (y_servers y) (hw_route w c peer) with
          | None => YStuck
          | Some v =>
              match nth_error (vs_reqs (v_server v)) k, origin v k with
              | Some q, Some o =>
                  match q_phase q with
                  | QAnswered =>
                      if is_rpc (c, i) o
                      then on_client w c (HKernel i (OReply (response_on_wire (hw_server_nocopy w (hw_route w c peer))
                                                               (hw_h w (hw_route w c peer) k (q_parsed q))) contiguous false)) [] y
                      else YStuck
                  | QHandling => YStuck
                  end
              | _, _ => YStuck
              end
          end
      end
  | YFail c i o => if failing o then on_client w c (HKernel i o) [] y else YStuck
  end.
(** Runs a schedule; impossible actions are skipped. *)
Fixpoint yrun (w : hworld) (l : list yaction) (y : hnet) : yresult :=
  match l with
  | [] => YNext y
  | a :: r => match ystep w a y with
              | YNext y' => yrun w r y'
              | YStuck => yrun w r y
              | YCrash => YCrash
              end
  end.
(** Clients and servers with so many threads each; the handler is set (the
    engine sets it, distbench_engine.cc:704, before it connects). *)
Definition hserving (threads : nat) : hserver := mkHv (mkVserver (repeat (VtWait, 0%Z) threads) [] true false true None) [] [].
Definition ystart (clients servers : list nat) : hnet := mkHn (map (fun n => mkHend (hstart n) []) clients) (map hserving servers).
