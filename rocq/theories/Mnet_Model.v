(** Mercury clients and servers together: the clients of Merc_Model.v, the
    servers of Msrv_Model.v and the messages between them.  Definitions only.

    Mercury is outside.  Assumed: a request that HG_Forward accepted reaches the
    server it is addressed to at most once and unchanged; a response that
    HG_Progress of the server has sent reaches the RPC it answers unchanged;
    each accepted RPC is called back once, with such a response and ret = 0, or
    with an error and no output. *)
From Coq Require Import List NArith ZArith Bool Arith.
From Verif Require Import Wire_Model Grpc_Model Merc_Model Msrv_Model.
Import ListNotations.
Open Scope nat_scope.

(** The build, the limits of C48, which server a client reaches as which peer
    (protocol_driver_mercury.cc:185-198, HandleConnect), the handlers. *)
Record mworld := mkWorld {
  w_build : build; w_mem : N; w_room : N;
  w_route : nat -> nat -> nat;
  w_h : nat -> nat -> option grr -> hscript }.

(** [x_from]: for each server, which RPC (client, number) each of its requests
    came from; Mercury keeps this in the handle. *)
Record mnet := mkNet { x_clients : list mclient; x_servers : list msrv; x_from : list (list (nat * nat)) }.

Inductive naction :=
  | NClient (c : nat) (a : maction)     (* a thread of client [c]; no callback *)
  | NServer (j : nat) (a : saction)     (* a thread of server [j]; no request *)
  | NDeliver (c i : nat)                (* HG_Trigger of the server finds the request of RPC [i] of client [c] *)
  | NReply (c i k : nat)                (* HG_Trigger of client [c] finds response [k] of its server for RPC [i] *)
  | NFail (c i : nat) (ret : Z).        (* HG_Trigger of client [c] reports an error *)
(** A process ended. *)
Inductive nresult := NNext (x : mnet) | NCrash | NStuck.

Definition on_client (c : nat) (a : maction) (x : mnet) : nresult :=
  match nth_error (x_clients x) c with
  | None => NStuck
  | Some s => match mstep a s with
              | MNext s' => NNext (mkNet (lset c s' (x_clients x)) (x_servers x) (x_from x))
              | MAbort => NCrash
              | MStuck => NStuck
              end
  end.
(** [o]: the RPC that the request of [a] belongs to. *)
Definition on_server (w : mworld) (j : nat) (a : saction) (o : list (nat * nat)) (x : mnet) : nresult :=
  match nth_error (x_servers x) j, nth_error (x_from x) j with
  | Some s, Some f =>
      match sstep (w_build w) (w_mem w) (w_h w j) a s with
      | SvNext s' => NNext (mkNet (x_clients x) (lset j s' (x_servers x)) (lset j (f ++ o) (x_from x)))
      | SvStuck => NStuck
      | SvFatal | SvUB | SvTerminate => NCrash
      end
  | _, _ => NStuck
  end.
Definition is_rpc (a b : nat * nat) : bool := Nat.eqb (fst a) (fst b) && Nat.eqb (snd a) (snd b).
(** An RPC whose callback is outstanding. *)
Definition flying (c i : nat) (x : mnet) : option mrpc :=
  match nth_error (x_clients x) c with
  | None => None
  | Some s => match nth_error (m_rpcs s) i with
              | Some r => match m_phase r with MFlying => Some r | _ => None end
              | None => None
              end
  end.
(** The client's polling thread is about to call HG_Trigger
    (protocol_driver_mercury.cc:290). *)
Definition triggers (c : nat) (x : mnet) : bool :=
  match nth_error (x_clients x) c with
  | Some s => match m_poller s with MpTrigger => true | _ => false end
  | None => false
  end.
Definition nstep (w : mworld) (a : naction) (x : mnet) : nresult :=
  match a with
  | NClient _ (MPoll (Some _)) => NStuck
  | NClient c a => on_client c a x
  | NServer _ (STrigger (TRequest _)) => NStuck
  | NServer j a => on_server w j a [] x
  | NDeliver c i =>                       (* 254-255, 312, 354-378 *)
      match flying c i x with
      | None => NStuck
      | Some r =>
          if existsb (is_rpc (c, i)) (concat (x_from x)) then NStuck
          else match put_on_wire (w_mem w) (w_room w) (m_inner r) with
               | None => NStuck
               | Some wire => on_server w (w_route w c (m_peer r)) (STrigger (TRequest wire)) [(c, i)] x
               end
      end
  | NReply c i k =>                       (* 391-395, 320, 290, 424-444 *)
      match flying c i x with
      | None => NStuck
      | Some r =>
          match nth_error (x_servers x) (w_route w c (m_peer r)), nth_error (x_from x) (w_route w c (m_peer r)) with
          | Some s, Some f =>
              match nth_error (sv_resps s) k with
              | None => NStuck
              | Some p =>
                  match nth_error f (rp_req p) with
                  | None => NStuck
                  | Some o =>
                      if negb (is_rpc (c, i) o) then NStuck
                      else if negb (triggers c x) then NStuck
                      else match rp_phase p with
                           | RSent | RFreed =>
                               match put_on_wire (w_mem w) (w_room w) (rp_msg p) with
                               | None => NStuck
                               | Some wire => on_client c (MPoll (Some (i, 0%Z, get_output (w_mem w) wire))) x
                               end
                           | RPosted | RRefused => NStuck
                           end
                  end
              end
          | _, _ => NStuck
          end
      end
  | NFail c i ret =>                      (* 290, 424-433 *)
      if (ret =? 0)%Z then NStuck
      else if negb (triggers c x) then NStuck
      else on_client c (MPoll (Some (i, ret, None))) x
  end.
(** Runs a schedule; impossible actions are skipped. *)
Fixpoint nrun (w : mworld) (l : list naction) (x : mnet) : nresult :=
  match l with
  | [] => NNext x
  | a :: r => match nstep w a x with
              | NNext x' => nrun w r x'
              | NStuck => nrun w r x
              | NCrash => NCrash
              end
  end.
(** Clients that know so many peers each, and so many servers whose handler is
    set (the engine sets it before it connects). *)
Definition serving : msrv := mkMsrv true [] [] [] SpTest 0 false ShNot.
Definition nstart (peers : list nat) (servers : nat) : mnet :=
  mkNet (map mstart peers) (repeat serving servers) (repeat [] servers).
