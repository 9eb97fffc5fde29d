(** What the Homa and Mercury drivers acquire and release: sockets, buffers,
    Mercury classes, contexts and addresses, threads and the thread pool, from
    Initialize to the destructor.  Definitions only.

    The order of the calls only: what the threads do is in Homa_Model.v,
    Merc_Model.v and Msrv_Model.v, and join is taken to return (C66, C67, C86
    say when it does).  mmap, setsockopt and HG_Register_name are taken to
    succeed: the code does not look at what they return. *)
From Coq Require Import Ascii String List NArith ZArith Bool Arith.
From Verif Require Import Base_Model Util_Model Net_Model Pool_Model Driver_Model Grpc_Model Conn_Model.
Import ListNotations.
Open Scope nat_scope.

Inductive thing :=
  | Pool | ClientSock | ClientBuf | ServerSock | ServerBuf
  | ClientThread (i : nat) | ServerThread (i : nat)
  | ServerClass | ClientClass | ClientContext | ServerContext | SelfAddr
  | Addr (k : nat)                     (* what the k-th HG_Addr_lookup2 gave *)
  | ClientCq | ServerCq | Service | Listening    (* gRPC, see Tree_Model.v *)
  | Stub (k : nat).                    (* what the k-th call of NewStub gave *)
(** [Deregister cls id]: HG_Deregister, [cls]: the class is not null, [id]: the
    id was set. *)
Inductive event := Made (x : thing) | Unmade (x : thing) | Deregister (cls id : bool).
Definition made_if (b : bool) (x : thing) : list event := if b then [Made x] else [].
Definition unmade_if (b : bool) (x : thing) : list event := if b then [Unmade x] else [].

(** ** Homa *)
(** The members that hold something (protocol_driver_homa.h:69-95): pool,
    sockets (not -1), buffers (not null), the number of threads in each vector,
    and the two notifications of shutdown. *)
Record hmembers := mkHm {
  m_pool : bool; m_csock : bool; m_cbuf : bool; m_ssock : bool; m_sbuf : bool;
  m_cthreads : nat; m_sthreads : nat; m_sdown : bool; m_cdown : bool }.
Definition hempty : hmembers := mkHm false false false false false 0 0 false false.
(** protocol_driver_homa.cc:109-225: Initialize, as far as it gets; what it
    returns is [homa_init] of Conn_Model.v.  An exception at 172-173 leaves the
    members as they are. *)
Definition homa_make (le : leaf_env) (o : driver_opts) : list event * hmembers :=
  match unknown_setting (po_server o) with
  | Some _ => ([], hempty)                                    (* 115-120 *)
  | None =>                                                   (* 121-136 *)
      match get_pool le o (s_ "elastic") with
      | InitOk _ =>
          match get_ip le (opt_str (po_netdev o)) (po_ip_version o) with
          | InitOk _ =>
              match hs_client (le_homa le), hs_server (le_homa le) with
              | Some _, _ => ([Made Pool], mkHm true false false false false 0 0 false false)   (* 148-151 *)
              | None, Some _ =>                                (* 147-153, 160-163 *)
                  ([Made Pool; Made ClientSock; Made ClientBuf], mkHm true true true false false 0 0 false false)
              | None, None =>                                  (* 159, 164-165 *)
                  let base := [Made Pool; Made ClientSock; Made ClientBuf; Made ServerSock; Made ServerBuf] in
                  let clients := narrow (server_int o (s_ "client_threads") 2) in
                  let servers := narrow (server_int o (s_ "server_threads") 3) in
                  if (clients <? 0)%Z || (servers <? 0)%Z then (base, mkHm true true true true true 0 0 false false)
                  else                                         (* 174-181 *)
                    (base ++ map (fun i => Made (ClientThread i)) (seq 0 (Z.to_nat clients))
                          ++ map (fun i => Made (ServerThread i)) (seq 0 (Z.to_nat clients)),
                     mkHm true true true true true (Z.to_nat clients) (Z.to_nat clients) false false)
              end
          | _ => ([Made Pool], mkHm true false false false false 0 0 false false)     (* 143 *)
          end
      | _ => ([], hempty)                                      (* 133-135 *)
      end
  end.
(** 321-329: join a thread, then unmap the buffer if that was not done yet. *)
Fixpoint join_servers (l : list nat) (buf : bool) : list event :=
  match l with
  | [] => []
  | i :: r => Unmade (ServerThread i) :: unmade_if buf ServerBuf ++ join_servers r false
  end.
(** 295-332: ShutdownServer.  close(-1) does nothing. *)
Definition hshut_server (m : hmembers) : list event * hmembers :=
  if m_sdown m then ([], m)
  else (join_servers (seq 0 (m_sthreads m)) (m_sbuf m) ++ unmade_if (m_ssock m) ServerSock,
        mkHm (m_pool m) (m_csock m) (m_cbuf m) false (match m_sthreads m with O => m_sbuf m | S _ => false end)
             (m_cthreads m) (m_sthreads m) true (m_cdown m)).
(** 334-378: ShutdownClient. *)
Definition hshut_client (m : hmembers) : list event * hmembers :=
  if m_cdown m then ([], m)
  else (map (fun i => Unmade (ClientThread i)) (seq 0 (m_cthreads m)) ++ unmade_if (m_cbuf m) ClientBuf ++ unmade_if (m_csock m) ClientSock,
        mkHm (m_pool m) false false (m_ssock m) (m_sbuf m) (m_cthreads m) (m_sthreads m) (m_sdown m) true).
(** 227-230, then the members: the pool. *)
Definition homa_destroy (m : hmembers) : list event :=
  let '(e1, m1) := hshut_server m in let '(e2, m2) := hshut_client m1 in e1 ++ e2 ++ unmade_if (m_pool m2) Pool.
(** Calls of ShutdownServer and ShutdownClient before the destructor. *)
Inductive hcall := CallServer | CallClient.
Fixpoint homa_calls (l : list hcall) (m : hmembers) : list event * hmembers :=
  match l with
  | [] => ([], m)
  | c :: r => let '(e1, m1) := match c with CallServer => hshut_server m | CallClient => hshut_client m end in
              let '(e2, m2) := homa_calls r m1 in (e1 ++ e2, m2)
  end.
(** protocol_driver_allocator.cc:77-82: a driver whose Initialize fails is
    destroyed at once (also by an exception); another is used and destroyed
    later. *)
Definition homa_life (le : leaf_env) (o : driver_opts) (port : Z) (l : list hcall) : list event :=
  let '(e1, m1) := homa_make le o in
  match homa_init le o port with
  | InitOk _ => let '(e2, m2) := homa_calls l m1 in e1 ++ e2 ++ homa_destroy m2
  | _ => e1 ++ homa_destroy m1
  end.

(** ** Mercury *)
(** protocol_driver_mercury.h:77-96: pool, classes and contexts (not null),
    whether mercury_server_generic_rpc_id_ was set and the threads were started, the address of each peer (null: None), the
    two notifications. *)
Record mmembers := mkMm {
  n_pool : bool; n_sclass : bool; n_cclass : bool; n_ccontext : bool; n_scontext : bool; n_id : bool; n_threads : bool;
  n_addrs : list (option nat); n_sdown : bool; n_cdown : bool }.
Definition mempty : mmembers := mkMm false false false false false false false [] false false.
(** protocol_driver_mercury.cc:73-134: the calls in order until one fails. *)
Definition mercury_steps (works : hg_call -> bool) : list event * mmembers :=
  if negb (works HgInitServer) then ([], mkMm true false false false false false false [] false false)
  else if negb (works HgInitClient) then ([Made ServerClass], mkMm true true false false false false false [] false false)
  else if negb (works HgContextClient) then ([Made ServerClass; Made ClientClass], mkMm true true true false false false false [] false false)
  else if negb (works HgContextServer) then
    ([Made ServerClass; Made ClientClass; Made ClientContext], mkMm true true true true false false false [] false false)
  else
    let e := [Made ServerClass; Made ClientClass; Made ClientContext; Made ServerContext] in
    let m := mkMm true true true true true true false [] false false in
    if negb (works HgRegister) || negb (works HgSelf) then (e, m)
    else if negb (works HgToString) || negb (works HgFree) then (e ++ [Made SelfAddr], m)    (* 120-132 *)
    else (e ++ [Made SelfAddr; Unmade SelfAddr; Made (ClientThread 0); Made (ServerThread 0)],   (* 130, 141-144 *)
          mkMm true true true true true true true [] false false).
(** 44-146: Initialize; what it returns is [mercury_init] of Conn_Model.v. *)
Definition mercury_make (le : leaf_env) (o : driver_opts) (port : Z) : list event * mmembers :=
  if negb (po_ip_version o =? 0)%Z && negb (po_ip_version o =? 4)%Z then ([], mempty)
  else match get_pool le o [] with
       | InitOk _ =>
           match get_ip le (opt_str (po_netdev o)) 4 with
           | InitOk ip => let '(e, m) := mercury_steps (fun c => hg_works (le_hg le) c (info_string o ip port)) in (Made Pool :: e, m)
           | _ => ([Made Pool], mkMm true false false false false false false [] false false)
           end
       | _ => ([], mempty)
       end.
(** 264-271: ShutdownServer; the pool is destroyed whenever there is one. *)
Definition mshut_server (m : mmembers) : list event * mmembers :=
  ((if n_sdown m then [] else unmade_if (n_threads m) (ServerThread 0)) ++ unmade_if (n_pool m) Pool,
   mkMm false (n_sclass m) (n_cclass m) (n_ccontext m) (n_scontext m) (n_id m) (n_threads m) (n_addrs m) true (n_cdown m)).
(** 273-283: ShutdownClient. *)
Definition mshut_client (m : mmembers) : list event * mmembers :=
  ((if n_cdown m then [] else unmade_if (n_threads m) (ClientThread 0)),
   mkMm (n_pool m) (n_sclass m) (n_cclass m) (n_ccontext m) (n_scontext m) (n_id m) (n_threads m) (n_addrs m) (n_sdown m) true).
Definition free_addrs (l : list (option nat)) : list event := flat_map (fun a => match a with Some k => [Unmade (Addr k)] | None => [] end) l.
(** 157-178: the destructor.  HG_Addr_free of a null address does nothing. *)
Definition mercury_destroy (m : mmembers) : list event :=
  let '(e1, m1) := mshut_server m in let '(e2, m2) := mshut_client m1 in
  e1 ++ e2 ++ free_addrs (n_addrs m2) ++ [Deregister (n_sclass m2) (n_id m2)]
  ++ unmade_if (n_scontext m2) ServerContext ++ unmade_if (n_sclass m2) ServerClass
  ++ unmade_if (n_ccontext m2) ClientContext ++ unmade_if (n_cclass m2) ClientClass.
(** SetNumPeers (153-155), HandleConnect (185-199; [works]: HG_Addr_lookup2
    succeeds, otherwise it leaves the address as it was) and shutdown. *)
Inductive mcall := SetPeers (n : nat) | Connect (peer : nat) (works : bool) | MServer | MClient.
Fixpoint resize {A} (n : nat) (d : A) (l : list A) : list A :=
  match n with O => [] | S k => match l with [] => d :: resize k d [] | x :: r => x :: resize k d r end end.
Definition with_addrs (l : list (option nat)) (m : mmembers) : mmembers :=
  mkMm (n_pool m) (n_sclass m) (n_cclass m) (n_ccontext m) (n_scontext m) (n_id m) (n_threads m) l (n_sdown m) (n_cdown m).
(** None: the CHECK of the peer (187-188) ends the process.  [k]: lookups so far. *)
Definition mercury_call (k : nat) (c : mcall) (m : mmembers) : option (list event * mmembers) :=
  match c with
  | SetPeers n => Some ([], with_addrs (resize n None (n_addrs m)) m)
  | Connect p works =>
      if p <? length (n_addrs m)
      then Some (if works then ([Made (Addr k)], with_addrs (lset p (Some k) (n_addrs m)) m) else ([], m))
      else None
  | MServer => Some (mshut_server m)
  | MClient => Some (mshut_client m)
  end.
Fixpoint mercury_calls (k : nat) (l : list mcall) (m : mmembers) : option (list event * mmembers) :=
  match l with
  | [] => Some ([], m)
  | c :: r =>
      match mercury_call k c m with
      | None => None
      | Some (e1, m1) => match mercury_calls (S k) r m1 with
                         | None => None
                         | Some (e2, m2) => Some (e1 ++ e2, m2)
                         end
      end
  end.
Definition mercury_life (le : leaf_env) (o : driver_opts) (port : Z) (l : list mcall) : option (list event) :=
  let '(e1, m1) := mercury_make le o port in
  match mercury_init le o port with
  | InitOk _ => match mercury_calls 0 l m1 with
                | Some (e2, m2) => Some (e1 ++ e2 ++ mercury_destroy m2)
                | None => None
                end
  | _ => Some (e1 ++ mercury_destroy m1)
  end.
