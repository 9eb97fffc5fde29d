(** What a gRPC driver acquires and releases, and the calls made on a tree of
    drivers as its leaves see them: allocation, set-up, shutdown, destruction.
    Definitions only.

    As in Res_Model.v the order of the calls only: [ClientThread 0] and
    [ServerThread 0] are cq_poller_ and handle_rpcs_, whose join is taken to
    return (C46, C47, C89 say when it does); ShutdownClient waits for pending
    RPCs first. *)
From Coq Require Import Ascii String List NArith ZArith Bool Arith.
From Verif Require Import Base_Model Util_Model Net_Model Pool_Model Driver_Model Grpc_Model Conn_Model Res_Model.
Import ListNotations.
Open Scope nat_scope.

(** ** gRPC *)
(** The members of the server that hold something (protocol_driver_grpc.h:
    GrpcCommonServerDriver and the three drivers derived from it): pool (of the
    service for hand-off), service, completion queue, a server that was started
    and not shut down, the thread. *)
Inductive server_type := TInline | THandoff | TPolling.
Record gserver := mkGs { s_type : server_type; s_pool : bool; s_service : bool; s_cq : bool; s_listening : bool; s_thread : bool }.
(** ProtocolDriverGrpc: client_ (null: None), whether shutdown_ was notified,
    the stub of each peer and of each channel (null: None), server_ (null: None). *)
Record gmembers := mkGm {
  g_client : option client_kind; g_cdown : bool; g_stubs : list (option nat); g_mstubs : list (option nat); g_server : option gserver }.
Definition gempty : gmembers := mkGm None false [] [] None.
(** 346-365, 644-666, 793-819: what follows the service.  Only the polling
    server has a completion queue and a thread; a thread is made only if the
    server started. *)
Definition serve (le : leaf_env) (o : driver_opts) (port : Z) (ip : addr) (t : server_type) (pool : bool) : list event * gserver :=
  let transport := server_string o (s_ "transport") (s_ "tcp") in
  match transport_error (le_homa_grpc le) transport with
  | Some _ => ([Made Service], mkGs t pool true false false false)
  | None =>
      let cq := match t with TPolling => true | _ => false end in
      match le_start le transport (socket_address ip port) with
      | None => (Made Service :: made_if cq ServerCq, mkGs t pool true cq false false)
      | Some _ => (Made Service :: made_if cq ServerCq ++ [Made Listening] ++ made_if cq (ServerThread 0), mkGs t pool true cq true cq)
      end
  end.
(** 334-366, 624-667, 782-819 Initialize of the servers, and 420-442 (the pool
    of a polling server is made before the server). *)
Definition gserver_make (le : leaf_env) (o : driver_opts) (port : Z) (t : server_type) : list event * option gserver :=
  let ip := get_ip le (opt_str (po_netdev o)) (po_ip_version o) in
  let none := mkGs t false false false false false in
  match t with
  | TInline =>
      match ip with
      | InitOk a => let '(e, s) := serve le o port a t false in (e, Some s)
      | _ => ([], Some none)
      end
  | THandoff =>
      match ip with
      | InitOk a => match get_pool le o [] with
                    | InitOk _ => let '(e, s) := serve le o port a t true in (Made Pool :: e, Some s)
                    | _ => ([], Some none)
                    end
      | _ => ([], Some none)
      end
  | TPolling =>
      match get_pool le o [] with
      | InitOk _ => match ip with
                    | InitOk a => let '(e, s) := serve le o port a t true in (Made Pool :: e, Some s)
                    | _ => ([Made Pool], Some (mkGs t true false false false false))
                    end
      | _ => ([], None)
      end
  end.
(** 397-442: Initialize as far as it gets; what it returns is [grpc_init] of
    Conn_Model.v.  The polling client has its queue from the constructor and its
    thread from Initialize (107-114); the callback client has neither (523-528). *)
Definition grpc_make (le : leaf_env) (o : driver_opts) (port : Z) : list event * gmembers :=
  let is_async := str_eqb (opt_str (po_name o)) (s_ "grpc_async") in
  let client_type := client_string o (s_ "client_type") (if is_async then s_ "callback" else s_ "polling") in
  let server_type := server_string o (s_ "server_type") (if is_async then s_ "handoff" else s_ "inline") in
  let server (e0 : list event) (c : client_kind) :=
    match (if str_eqb server_type (s_ "inline") then Some TInline else if str_eqb server_type (s_ "handoff") then Some THandoff
           else if str_eqb server_type (s_ "polling") then Some TPolling else None) with
    | Some t => let '(e, s) := gserver_make le o port t in (e0 ++ e, mkGm (Some c) false [] [] s)
    | None => (e0, mkGm (Some c) false [] [] None)                    (* 438-440 *)
    end in
  if str_eqb client_type (s_ "polling") then server [Made ClientCq; Made (ClientThread 0)] ClientPolling
  else if str_eqb client_type (s_ "callback") then server [] ClientCallback
  else ([], gempty).                                                  (* 411-414 *)

Definition free_stubs (l : list (option nat)) : list event := flat_map (fun a => match a with Some k => [Unmade (Stub k)] | None => [] end) l.
(** 281-291, 572-576 (polling, callback) and 506-510. *)
Definition gshut_client (m : gmembers) : list event * gmembers :=
  match g_client m with
  | None => ([], m)
  | Some k => let polls := match k with ClientPolling => true | ClientCallback => false end in
              ((if polls && negb (g_cdown m) then [Unmade (ClientThread 0)] else []) ++ free_stubs (g_stubs m),
               mkGm (g_client m) (polls || g_cdown m) [] (g_mstubs m) (g_server m))
  end.
(** 386-388, 674-678, 824-836 and 512-516.  A server that is shut down already
    does nothing; server_cq_->Shutdown() leaves the queue there. *)
Definition gshut_server (m : gmembers) : list event * gmembers :=
  match g_server m with
  | None => ([], m)
  | Some s => (unmade_if (s_listening s) Listening ++ unmade_if (s_thread s) (ServerThread 0),
               mkGm (g_client m) (g_cdown m) (g_stubs m) (g_mstubs m)
                    (Some (mkGs (s_type s) (s_pool s) (s_service s) (s_cq s) false false)))
  end.
(** The members of a server that was shut down, last declared first
    (protocol_driver_grpc.h); the pool of the hand-off server belongs to its
    service (618), and goes with it. *)
Definition gserver_destroy (s : gserver) : list event :=
  unmade_if (s_pool s) Pool ++ unmade_if (s_service s) Service ++ unmade_if (s_cq s) ServerCq.
(** 463-466, then server_, then client_: their destructors call ShutdownServer
    (780; polling only) and ShutdownClient (105, 521) again, then the members
    go: cq_ of the polling client, multiserver_stubs_, grpc_client_stubs_. *)
Definition grpc_destroy (m : gmembers) : list event :=
  let '(e1, m1) := gshut_client m in
  let '(e2, m2) := gshut_server m1 in
  let '(e3, m3) := gshut_client m2 in
  e1 ++ e2 ++ match g_server m2 with Some s => gserver_destroy s | None => [] end
  ++ e3 ++ match g_client m3 with Some ClientPolling => [Unmade ClientCq] | _ => [] end ++ free_stubs (g_mstubs m3) ++ free_stubs (g_stubs m3).

(** Calls on an initialised driver.  [works]: the channel could be made (57-76),
    for [Setup]: transport_ is tcp (156-158). *)
Inductive gcall := GPeers (n : nat) | GConnect (peer : nat) (works : bool) | GChannels (n : nat) | GSetup (channel : nat) (peers : list nat) (works : bool) | GServer | GClient.
(** Storing a new stub deletes the old one. *)
Definition store (k p : nat) (l : list (option nat)) : list event := Made (Stub k) :: free_stubs (match nth_error l p with Some a => [a] | None => [] end).
(** 115-118 SetNumPeers, 120-133 HandleConnect, 176-178, 151-174; None: a CHECK
    ends the process.  [k]: the number of the call.  peer_connection_info_ has
    [known] entries: it is resized with the stubs but not cleared with them. *)
Record gstate := mkGst { gs_known : nat; gs_members : gmembers }.
Definition grpc_call (k : nat) (c : gcall) (s : gstate) : option (list event * gstate) :=
  let m := gs_members s in
  match c with
  | GPeers n => Some (free_stubs (skipn n (g_stubs m)), mkGst n (mkGm (g_client m) (g_cdown m) (resize n None (g_stubs m)) (g_mstubs m) (g_server m)))
  | GConnect p works =>
      if p <? length (g_stubs m)
      then Some (if works then (store k p (g_stubs m), mkGst (gs_known s) (mkGm (g_client m) (g_cdown m) (lset p (Some k) (g_stubs m)) (g_mstubs m) (g_server m)))
                 else ([], s))
      else None
  | GChannels n => Some (free_stubs (skipn n (g_mstubs m)), mkGst (gs_known s) (mkGm (g_client m) (g_cdown m) (g_stubs m) (resize n None (g_mstubs m)) (g_server m)))
  | GSetup p peers works =>
      if p <? length (g_mstubs m)
      then if works
           then if forallb (fun q => q <? gs_known s) peers
                then Some (store k p (g_mstubs m), mkGst (gs_known s) (mkGm (g_client m) (g_cdown m) (g_stubs m) (lset p (Some k) (g_mstubs m)) (g_server m)))
                else None
           else Some ([], s)
      else None
  | GServer => let '(e, m') := gshut_server m in Some (e, mkGst (gs_known s) m')
  | GClient => let '(e, m') := gshut_client m in Some (e, mkGst (gs_known s) m')
  end.
Fixpoint grpc_calls (k : nat) (l : list gcall) (s : gstate) : option (list event * gstate) :=
  match l with
  | [] => Some ([], s)
  | c :: r =>
      match grpc_call k c s with
      | None => None
      | Some (e1, s1) => match grpc_calls (S k) r s1 with
                         | None => None
                         | Some (e2, s2) => Some (e1 ++ e2, s2)
                         end
      end
  end.
Definition grpc_life (le : leaf_env) (o : driver_opts) (port : Z) (l : list gcall) : option (list event) :=
  let '(e1, m1) := grpc_make le o port in
  match grpc_init le o port with
  | InitOk _ => match grpc_calls 0 l (mkGst 0 m1) with
                | Some (e2, s2) => Some (e1 ++ e2 ++ grpc_destroy (gs_members s2))
                | None => None
                end
  | _ => Some (e1 ++ grpc_destroy m1)
  end.

(** ** Trees *)
(** A tree of initialised drivers; [k]: calls made on a leaf so far; Homa
    drivers have the number of peers besides (peer_addresses_). *)
Inductive mtree :=
  | MGrpc (k : nat) (s : gstate) | MHoma (peers : nat) (m : hmembers) | MMercury (k : nat) (m : mmembers)
  | MDouble (t1 t2 : mtree) | MCounter (t : mtree).
(** What happens where: the path of a leaf and an event. *)
Definition log := list (list nat * event).
Definition at_ (path : list nat) (l : list event) : log := map (pair path) l.
(** Destructors: protocol_driver_double_barrel.h:51-52 and
    composable_rpc_counter.h:51: the members, instance_2_ first. *)
Fixpoint tree_destroy (path : list nat) (t : mtree) : log :=
  match t with
  | MGrpc _ s => at_ path (grpc_destroy (gs_members s))
  | MHoma _ m => at_ path (homa_destroy m)
  | MMercury _ m => at_ path (mercury_destroy m)
  | MDouble t1 t2 => tree_destroy (path ++ [2]) t2 ++ tree_destroy (path ++ [1]) t1
  | MCounter t => tree_destroy (path ++ [1]) t
  end.
(** protocol_driver_allocator.cc:45-84 with protocol_driver_double_barrel.cc:38-64
    and composable_rpc_counter.cc:37-57, like [allocate] of Driver_Model.v: what
    is made, and the tree if there is one.  Whatever fails destroys what its
    parent has made so far.  A leaf begins at port 0 (as in Conn_Model.v). *)
Definition leaf_log {A} (path : list nat) (r : init_result A) (e : list event) (t : mtree) : log * option mtree :=
  match r with
  | InitOk _ => (at_ path e, Some t)
  | _ => (at_ path e ++ tree_destroy path t, None)
  end.
Fixpoint grow (fuel : nat) (homa mercury : bool) (res : option (str -> option driver_opts)) (les : list nat -> leaf_env)
    (o : driver_opts) (depth : nat) (path : list nat) : log * option mtree :=
  match fuel with
  | O => ([], None)
  | S f =>
      if depth =? max_depth then ([], None)
      else
        let p := protocol_name o in
        if str_eqb p (s_ "grpc") || str_eqb p (s_ "grpc_async_callback") then
          leaf_log path (grpc_init (les path) o 0) (fst (grpc_make (les path) o 0)) (MGrpc 0 (mkGst 0 (snd (grpc_make (les path) o 0))))
        else if str_eqb p (s_ "double_barrel") then
          let o' := next_opts (s_ "next_protocol_driver") o in
          match grow f homa mercury res les o' (depth + 1) (path ++ [1]) with
          | (e1, None) => (e1, None)
          | (e1, Some t1) =>
              match grow f homa mercury res les o' (depth + 1) (path ++ [2]) with
              | (e2, None) => (e1 ++ e2 ++ tree_destroy (path ++ [1]) t1, None)
              | (e2, Some t2) => (e1 ++ e2, Some (MDouble t1 t2))
              end
          end
        else if str_eqb p (s_ "composable_rpc_counter") then
          match grow f homa mercury res les (next_opts (s_ "driver_under_test") o) (depth + 1) (path ++ [1]) with
          | (e1, t1) => (e1, option_map MCounter t1)
          end
        else if homa && str_eqb p (s_ "homa") then
          leaf_log path (homa_init (les path) o 0) (fst (homa_make (les path) o)) (MHoma 0 (snd (homa_make (les path) o)))
        else if mercury && str_eqb p (s_ "mercury") then
          leaf_log path (mercury_init (les path) o 0) (fst (mercury_make (les path) o 0)) (MMercury 0 (snd (mercury_make (les path) o 0)))
        else
          match res with
          | None => ([], None)
          | Some res' => match res' p with None => ([], None) | Some o' => grow f homa mercury res les o' (depth + 1) path end
          end
  end.

(** Calls on the root.  [works q]: HandleConnect of the leaf at [q] succeeds (see
    [connect] of Conn_Model.v); [works] of [TSetup]: the transport is tcp. *)
Inductive tcall :=
  | TPeers (n : nat) | TConnect (peer : nat) (works : list nat -> bool) | TChannels (n : nat)
  | TSetup (channel : nat) (peers : list nat) (works : bool) | TServer | TClient.
Definition gcall_of (path : list nat) (c : tcall) : gcall :=
  match c with
  | TPeers n => GPeers n | TConnect p w => GConnect p (w path) | TChannels n => GChannels n | TSetup c p w => GSetup c p w
  | TServer => GServer | TClient => GClient
  end.
(** Homa and Mercury do not override the calls for channels: protocol_driver.cc
    139-146, nothing and an error. *)
Definition mcall_of (path : list nat) (c : tcall) : option mcall :=
  match c with
  | TPeers n => Some (SetPeers n) | TConnect p w => Some (Connect p (w path)) | TServer => Some MServer | TClient => Some MClient
  | TChannels _ | TSetup _ _ _ => None
  end.
(** Whether a leaf reports success. *)
Definition says (path : list nat) (channels : bool) (c : tcall) : bool :=
  match c with TConnect _ w => w path | TSetup _ _ w => channels && w | _ => true end.
(** protocol_driver_homa.cc:238-246 (SetNumPeers, the CHECK of HandleConnect). *)
Definition homa_call (c : tcall) (peers : nat) (m : hmembers) : option (list event * nat * hmembers) :=
  match c with
  | TPeers n => Some ([], n, m)
  | TConnect p _ => if p <? peers then Some ([], peers, m) else None
  | TChannels _ | TSetup _ _ _ => Some ([], peers, m)
  | TServer => let '(e, m') := hshut_server m in Some (e, peers, m')
  | TClient => let '(e, m') := hshut_client m in Some (e, peers, m')
  end.
(** protocol_driver_double_barrel.cc:72-75, 85-90, 135-143,
    composable_rpc_counter.cc:69-71, 80-83, 110-112; the calls for channels are
    not overridden (protocol_driver.cc:139-146).  None: a CHECK ends the
    process.  The last component: the call reports success. *)
Fixpoint tree_call (c : tcall) (path : list nat) (t : mtree) : option (log * mtree * bool) :=
  match t with
  | MGrpc k s => match grpc_call k (gcall_of path c) s with
                 | Some (e, s') => Some (at_ path e, MGrpc (S k) s', says path true c)
                 | None => None
                 end
  | MHoma n m => match homa_call c n m with
                 | Some (e, n', m') => Some (at_ path e, MHoma n' m', says path false c)
                 | None => None
                 end
  | MMercury k m => match mcall_of path c with
                    | None => Some ([], t, says path false c)
                    | Some mc => match mercury_call k mc m with
                                 | Some (e, m') => Some (at_ path e, MMercury (S k) m', says path false c)
                                 | None => None
                                 end
                    end
  | MDouble t1 t2 =>
      match c with
      | TChannels _ => Some ([], t, true)
      | TSetup _ _ _ => Some ([], t, false)
      | _ =>
          match tree_call c (path ++ [1]) t1 with
          | None => None
          | Some (e1, t1', false) => Some (e1, MDouble t1' t2, false)
          | Some (e1, t1', true) =>
              match tree_call c (path ++ [2]) t2 with
              | None => None
              | Some (e2, t2', ok) => Some (e1 ++ e2, MDouble t1' t2', ok)
              end
          end
      end
  | MCounter t1 =>
      match c with
      | TChannels _ => Some ([], t, true)
      | TSetup _ _ _ => Some ([], t, false)
      | _ => match tree_call c (path ++ [1]) t1 with
             | None => None
             | Some (e1, t1', ok) => Some (e1, MCounter t1', ok)
             end
      end
  end.
Fixpoint tree_calls (l : list tcall) (t : mtree) : option (log * mtree * list bool) :=
  match l with
  | [] => Some ([], t, [])
  | c :: r =>
      match tree_call c [] t with
      | None => None
      | Some (e1, t1, ok) => match tree_calls r t1 with
                             | None => None
                             | Some (e2, t2, oks) => Some (e1 ++ e2, t2, ok :: oks)
                             end
      end
  end.
(** Allocation as by distbench_node_manager.cc:152-170, calls, destruction. *)
Definition tree_life (homa mercury : bool) (res : option (str -> option driver_opts)) (les : list nat -> leaf_env) (o : driver_opts) (l : list tcall) : option log :=
  match grow 5 homa mercury res les o 0 [] with
  | (e, None) => Some e
  | (e, Some t) => match tree_calls l t with
                   | None => None
                   | Some (e2, t2, _) => Some (e ++ e2 ++ tree_destroy [] t2)
                   end
  end.
