(** gRPC clients and servers together: the clients and the polling server of
    Grpc_Model.v, the inline and handoff servers of Gsrv_Model.v, and the
    messages between them.  Definitions only.

    gRPC is outside.  Assumed: a call that was started reaches the server its
    stub is connected to at most once and unchanged; it is completed once, with
    the status and response that the server gave to this call, or with an error
    status of gRPC's own. *)
From Coq Require Import Ascii String List NArith ZArith Bool Arith.
From Verif Require Import Base_Model Grpc_Model Gsrv_Model.
Import ListNotations.
Open Scope nat_scope.

(** Which server a client reaches as which peer (protocol_driver_grpc.cc:115-133,
    HandleConnect), and what the handler of server [j] does with its call [k]
    and responds, given the request. *)
Record gworld := mkGw { gw_route : nat -> nat -> nat; gw_h : nat -> nat -> str -> list hop * str }.
(** A server; the polling one with the request_ of each PollingRpcHandlerFsm
    (761) whose call has arrived. *)
Inductive gserver := GDirect (k : skind) (s : gsrv) | GPolled (s : server) (reqs : list (nat * str)).
(** [x_from]: for each server, which RPC (client, number) each of its calls
    (GenericRpc or FSM) came from. *)
Record gnet := mkGn { x_clients : list (kind * client); x_servers : list gserver; x_from : list (list (nat * (nat * nat))) }.
Inductive xaction :=
  | XClient (c : nat) (a : caction)      (* a thread of client [c] *)
  | XDirect (j : nat) (a : gaction)      (* a thread of the inline or handoff server [j] *)
  | XPolled (j : nat) (a : saction)      (* a thread of the polling server [j] *)
  | XDeliver (c i n : nat)               (* RPC [i] of client [c] arrives, at the [n]-th operation of a polling server *)
  | XReply (c i k : nat)                 (* what call [k] of the server was answered arrives *)
  | XFail (c i : nat) (message : str).   (* gRPC reports an error *)
(** A process ended or used memory that was freed. *)
Inductive xresult := XNext (x : gnet) | XCrash | XStuck.

Fixpoint lookup {A} (k : nat) (l : list (nat * A)) : option A :=
  match l with
  | [] => None
  | (i, a) :: r => if Nat.eqb i k then Some a else lookup k r
  end.
(** The moves of the handlers of a polling server; the empty request stands for
    an FSM without one, whose handler is not called. *)
Definition polled_prog (h : nat -> str -> list hop * str) (reqs : list (nat * str)) (i : nat) : list hop :=
  fst (h i (match lookup i reqs with Some q => q | None => [] end)).
Definition on_client (c : nat) (a : caction) (x : gnet) : xresult :=
  match nth_error (x_clients x) c with
  | None => XStuck
  | Some (k, s) => match cstep k a s with
                   | Next s' => XNext (mkGn (lset c (k, s') (x_clients x)) (x_servers x) (x_from x))
                   | Crash _ => XCrash
                   | Stuck => XStuck
                   end
  end.
(** [o]: the RPC that the call which arrives with [a] belongs to. *)
Definition on_direct (w : gworld) (j : nat) (a : gaction) (o : list (nat * nat)) (x : gnet) : xresult :=
  match nth_error (x_servers x) j, nth_error (x_from x) j with
  | Some (GDirect k s), Some f =>
      match gstep k (gw_h w j) a s with
      | GNext s' => XNext (mkGn (x_clients x) (lset j (GDirect k s') (x_servers x))
                             (lset j (f ++ map (pair (length (g_calls s))) o) (x_from x)))
      | GCrash => XCrash
      | GStuck => XStuck
      end
  | _, _ => XStuck
  end.
(** [o]: the FSM at which a call arrives, its request and its RPC. *)
Definition on_polled (w : gworld) (j : nat) (a : saction) (o : list (nat * (str * (nat * nat)))) (x : gnet) : xresult :=
  match nth_error (x_servers x) j, nth_error (x_from x) j with
  | Some (GPolled s reqs), Some f =>
      match sstep (polled_prog (gw_h w j) reqs) a s with
      | SNext s' => XNext (mkGn (x_clients x)
                             (lset j (GPolled s' (reqs ++ map (fun p => (fst p, fst (snd p))) o)) (x_servers x))
                             (lset j (f ++ map (fun p => (fst p, snd (snd p))) o) (x_from x)))
      | SCrash _ => XCrash
      | SStuck => XStuck
      end
  | _, _ => XStuck
  end.
Definition is_rpc (a b : nat * nat) : bool := Nat.eqb (fst a) (fst b) && Nat.eqb (snd a) (snd b).
(** An RPC that gRPC has and has not completed. *)
Definition flying (c i : nat) (x : gnet) : option rpc :=
  match nth_error (x_clients x) c with
  | None => None
  | Some (_, s) => match nth_error (c_rpcs s) i with
                   | Some r => match r_phase r with InFlight => Some r | _ => None end
                   | None => None
                   end
  end.
(** What gRPC was given as the answer to a call: by the return or Finish of
    GenericRpc, or by Finish of the FSM (719-722). *)
Definition reply_of (h : nat -> str -> list hop * str) (v : gserver) (k : nat) : option (option str * str) :=
  match v with
  | GDirect _ s => match nth_error (g_calls s) k with Some c => k_reply c | None => None end
  | GPolled s reqs =>
      match nth_error (v_fsms s) k, lookup k reqs with
      | Some f, Some q => if 0 <? f_finish f then Some (None, snd (h k q)) else None
      | _, _ => None
      end
  end.
Definition xstep (w : gworld) (a : xaction) (x : gnet) : xresult :=
  match a with
  | XClient _ (Wire _ _ _) => XStuck
  | XClient c a => on_client c a x
  | XDirect _ (GArrive _) => XStuck
  | XDirect j a => on_direct w j a [] x
  | XPolled _ (Accept _) => XStuck
  | XPolled j a => on_polled w j a [] x
  | XDeliver c i n =>                     (* 246-247, 565-567; 306, 593, 737 *)
      match flying c i x with
      | None => XStuck
      | Some r =>
          if existsb (fun p => is_rpc (c, i) (snd p)) (concat (x_from x)) then XStuck
          else match r_request r, nth_error (x_servers x) (gw_route w c (r_peer r)) with
               | Some q, Some (GDirect _ _) => on_direct w (gw_route w c (r_peer r)) (GArrive q) [(c, i)] x
               | Some q, Some (GPolled s _) =>
                   match nth_error (v_ops s) n with
                   | Some (f, _) => on_polled w (gw_route w c (r_peer r)) (Accept n) [(f, (q, (c, i)))] x
                   | None => XStuck
                   end
               | _, _ => XStuck
               end
      end
  | XReply c i k =>                       (* 248, 257, 546 *)
      match flying c i x with
      | None => XStuck
      | Some r =>
          match nth_error (x_servers x) (gw_route w c (r_peer r)), nth_error (x_from x) (gw_route w c (r_peer r)) with
          | Some v, Some f =>
              match lookup k f with
              | Some o =>
                  if is_rpc (c, i) o
                  then match reply_of (gw_h w (gw_route w c (r_peer r))) v k with
                       | Some (status, response) => on_client c (Wire i status response) x
                       | None => XStuck
                       end
                  else XStuck
              | None => XStuck
              end
          | _, _ => XStuck
          end
      end
  | XFail c i message => on_client c (Wire i (Some message) []) x
  end.
(** Runs a schedule; impossible actions are skipped. *)
Fixpoint xrun (w : gworld) (l : list xaction) (x : gnet) : xresult :=
  match l with
  | [] => XNext x
  | a :: r => match xstep w a x with
              | XNext x' => xrun w r x'
              | XStuck => xrun w r x
              | XCrash => XCrash
              end
  end.
(** Clients of a kind with their stubs, and servers of a kind whose handler is
    set (the engine sets it, distbench_engine.cc:704, before it connects). *)
Definition gserving (k : option skind) : gserver :=
  match k with
  | Some k => GDirect k (mkGs [] true true GsNot)
  | None => GPolled (mkServer [mkFsm ProcessingRequest 1 0 None 0 false false] [(0, OpRequest)] [] SpWait true false true true SsNot) []
  end.
Definition xstart (clients : list (kind * list bool)) (servers : list (option skind)) : gnet :=
  mkGn (map (fun p => (fst p, start_client (snd p))) clients) (map gserving servers) (map (fun _ => []) servers).
