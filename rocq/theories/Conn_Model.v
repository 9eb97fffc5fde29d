(** Initialisation of the protocol drivers and the connection handshake:
    protocol_driver_grpc.cc, protocol_driver_homa.cc, protocol_driver_mercury.cc,
    protocol_driver_double_barrel.cc and composable_rpc_counter.cc.  Definitions
    only. *)
From Coq Require Import Ascii String List NArith ZArith Bool.
From Verif Require Import Base_Model Util_Model Net_Model Pool_Model Driver_Model Peer_Model.
From Verif Require Wire_Model Node_Model.
Import ListNotations.
Open Scope Z_scope.

(** ** The message ServerAddress *)
(** distbench.proto 337-341.  All three fields are set by the code that sends
    it; the accessor of an unset field gives the empty string or 0. *)
Record server_address := mkSA { sa_ip : option str; sa_port : option Z; sa_socket : option str }.
Definition empty_sa : server_address := mkSA None None None.
(** std::string is a sequence of bytes. *)
Definition bytes_of (s : str) : Wire_Model.bytes := map N_of_ascii s.
Definition text_of (b : Wire_Model.bytes) : str := map ascii_of_N b.
(** AppendToString: fields in the order of their numbers. *)
Definition sa_fields (m : server_address) : list Wire_Model.wfield :=
  Wire_Model.opt_field 1%N (fun s => Wire_Model.WLen (bytes_of s)) (sa_ip m)
  ++ Wire_Model.opt_field 2%N Wire_Model.w_int (sa_port m)
  ++ Wire_Model.opt_field 3%N (fun s => Wire_Model.WLen (bytes_of s)) (sa_socket m).
Definition sa_serialize (m : server_address) : str := text_of (Wire_Model.enc_fields (sa_fields m)).
(** ParseFromString: a known field with another wire type is unknown and
    unknown fields are skipped; field number 0 is an error.  As in
    Wire_Model.parse_field, groups are rejected and a field number of more than
    29 bits is not. *)
Definition sa_add (m : server_address) (f : Wire_Model.wfield) : option server_address :=
  match f with
  | (0%N, _) => None
  | (1%N, Wire_Model.WLen b) => Some (mkSA (Some (text_of b)) (sa_port m) (sa_socket m))
  | (2%N, Wire_Model.WVarint v) => Some (mkSA (sa_ip m) (Some (Wire_Model.to_int32 v)) (sa_socket m))
  | (3%N, Wire_Model.WLen b) => Some (mkSA (sa_ip m) (sa_port m) (Some (text_of b)))
  | _ => Some m
  end.
Fixpoint sa_add_all (m : server_address) (l : list Wire_Model.wfield) : option server_address :=
  match l with
  | [] => Some m
  | f :: r => match sa_add m f with Some m' => sa_add_all m' r | None => None end
  end.
Definition sa_parse (s : str) : option server_address :=
  let b := bytes_of s in
  match Wire_Model.parse_fields (S (length b)) b with Some fs => sa_add_all empty_sa fs | None => None end.

(** ** Initialisation *)
(** [InitThrows]: an exception leaves Initialize. *)
Inductive init_result (A : Type) := InitOk (a : A) | InitError (code : Z) (message : str) | InitThrows.
Arguments InitOk {A}. Arguments InitError {A}. Arguments InitThrows {A}.
Definition ibind {A B} (r : init_result A) (f : A -> init_result B) : init_result B :=
  match r with InitOk a => f a | InitError c m => InitError c m | InitThrows => InitThrows end.
Notation "'ido' x <- r ; f" := (ibind r (fun x => f)) (at level 60, x pattern, right associativity).
(** absl::StatusCode. *)
Definition unknown : Z := 2.
Definition invalid_argument : Z := 3.
Definition not_found : Z := 5.
Definition unimplemented : Z := 12.

(** The kernel as seen by Homa: socket() twice and bind() fail with the text of
    errno, getsockname() fails or gives a family (2: AF_INET, 10: AF_INET6) and
    a port. *)
Record homa_sys := mkHomaSys {
  hs_client : option str; hs_server : option str; hs_bind : bool -> Z -> option str; hs_name : str + (Z * Z) }.
(** Mercury: whether each call succeeds, and the address that
    HG_Addr_to_string gives for an instance made with an info string. *)
Inductive hg_call := HgInitServer | HgInitClient | HgContextClient | HgContextServer | HgRegister | HgSelf | HgToString | HgFree.
Record hg_sys := mkHgSys { hg_works : hg_call -> str -> bool; hg_address : str -> str }.
(** What the initialisation of a leaf depends on: the interface table and the
    --prefer_ipv4 flag, NumCPUs(), the switch WITH_HOMA_GRPC, and the outside.
    [le_start transport address]: the port the gRPC server got, None if
    BuildAndStart returned null. *)
Record leaf_env := mkLeafEnv {
  le_ifs : list if_entry; le_flag : bool; le_cpus : Z; le_homa_grpc : bool;
  le_start : str -> str -> option Z; le_homa : homa_sys; le_hg : hg_sys }.

(** distbench_netutils.cc 83-134: the error of GetBestAddress. *)
Definition best_error (netdev : str) (prefer_ipv4 : bool) : str :=
  let p := if prefer_ipv4 then s_ "1)" else s_ "0)" in
  if is_empty netdev then s_ "No address found for any netdev (prefer_ipv4=" ++ p
  else s_ "No address found for netdev '" ++ netdev ++ s_ "' (prefer_ipv4=" ++ p.
(** distbench_netutils.cc 198-217: the error of IpAddressForDevice. *)
Definition ip_error (tbl : list if_entry) (flag : bool) (netdev : str) (version : Z) : str :=
  if version =? 4 then match best_address tbl netdev true with
                       | Some _ => s_ "No IPv4 address found for netdev '" ++ netdev ++ s_ "'"
                       | None => best_error netdev true end
  else if version =? 6 then match best_address tbl netdev false with
                       | Some _ => s_ "No IPv6 address found for netdev '" ++ netdev ++ s_ "'"
                       | None => best_error netdev false end
  else best_error netdev flag.
Definition get_ip (le : leaf_env) (netdev : str) (version : Z) : init_result addr :=
  match ip_for_device (le_ifs le) (le_flag le) netdev version with
  | Some a => InitOk a
  | None => InitError not_found (ip_error (le_ifs le) (le_flag le) netdev version)
  end.
(** The settings threadpool_size (an int64 passed as int) and threadpool_type:
    protocol_driver_grpc.cc 425-432 and 635-643, protocol_driver_homa.cc
    121-124 and 131-135, protocol_driver_mercury.cc 50-57. *)
Definition get_pool (le : leaf_env) (o : driver_opts) (default_type : str) : init_result pool_kind :=
  match create_threadpool (server_string o (s_ "threadpool_type") default_type) (narrow (server_int o (s_ "threadpool_size") (le_cpus le))) with
  | PoolOk k => InitOk k
  | PoolError m => InitError invalid_argument m
  end.

(** *** gRPC *)
(** protocol_driver_grpc.cc 78-95 CreateServerCreds and 57-76
    CreateClientChannel fail for the same transports and with the same status;
    None: no error. *)
Definition transport_error (homa_grpc : bool) (transport : str) : option (Z * str) :=
  if str_eqb transport (s_ "homa") then if homa_grpc then None else Some (unimplemented, s_ "Homa transport not compiled in")
  else if str_eqb transport (s_ "tcp") then None
  else Some (unimplemented, s_ "unknown transport: " ++ transport).
Inductive client_kind := ClientPolling | ClientCallback.
Inductive server_kind := ServerInline | ServerHandoff (pool : pool_kind) | ServerPolling (pool : pool_kind).
(** ProtocolDriverGrpc: its client and server, the transport both read (111,
    339, 526, 629, 786), server_ip_address_, server_port_ and
    server_socket_address_. *)
Record grpc_driver := mkGrpc {
  gd_client : client_kind; gd_server : server_kind; gd_transport : str; gd_ip : addr; gd_port : Z; gd_socket : str }.
(** 335-365, 625-666, 782-816: Initialize of the servers.  They differ in the
    thread pool of the hand-off server, made between the address and the
    credentials, and in the message for a server that does not start.  The
    settings of the builder are in Util_Model.v. *)
Definition server_init (le : leaf_env) (o : driver_opts) (port : Z) (make : init_result server_kind) (message : str)
    : init_result (server_kind * addr * Z) :=
  ido ip <- get_ip le (opt_str (po_netdev o)) (po_ip_version o);
  ido kind <- make;
  let transport := server_string o (s_ "transport") (s_ "tcp") in
  match transport_error (le_homa_grpc le) transport with
  | Some (c, m) => InitError c m
  | None =>
      match le_start le transport (socket_address ip port) with
      | None => InitError unknown message
      | Some assigned => InitOk (kind, ip, assigned)
      end
  end.
(** 397-442: ProtocolDriverGrpc::Initialize; 107-114 and 523-528 are the
    clients, whose Initialize cannot fail. *)
Definition grpc_init (le : leaf_env) (o : driver_opts) (port : Z) : init_result grpc_driver :=
  let is_async := str_eqb (opt_str (po_name o)) (s_ "grpc_async") in
  let client_type := client_string o (s_ "client_type") (if is_async then s_ "callback" else s_ "polling") in
  ido client <- (if str_eqb client_type (s_ "polling") then InitOk ClientPolling
                 else if str_eqb client_type (s_ "callback") then InitOk ClientCallback
                 else InitError invalid_argument (s_ "Invalid GRPC client_type (" ++ client_type ++ s_ ")"));
  let server_type := server_string o (s_ "server_type") (if is_async then s_ "handoff" else s_ "inline") in
  ido (kind, ip, assigned) <-
    (if str_eqb server_type (s_ "inline") then server_init le o port (InitOk ServerInline) (s_ "Grpc Traffic service failed to start")
     else if str_eqb server_type (s_ "handoff") then
       server_init le o port (ido p <- get_pool le o []; InitOk (ServerHandoff p)) (s_ "Grpc Async Callback Traffic service failed to start")
     else if str_eqb server_type (s_ "polling") then
       ido p <- get_pool le o []; server_init le o port (InitOk (ServerPolling p)) (s_ "Grpc Traffic service failed to start")
     else InitError invalid_argument (s_ "Invalid GRPC server_type"));
  InitOk (mkGrpc client kind (server_string o (s_ "transport") (s_ "tcp")) ip assigned (socket_address ip assigned)).

(** *** Homa *)
Record homa_driver := mkHoma {
  hd_pool : pool_kind; hd_ping_pong : bool; hd_nocopy : bool; hd_clients : nat; hd_servers : nat;
  hd_ip : addr; hd_port : Z; hd_socket : str }.
(** protocol_driver_homa.cc 111-113. *)
Definition known_settings : list str :=
  map s_ ["threadpool_type"; "threadpool_size"; "ping_pong"; "nocopy"; "client_threads"; "server_threads"]%string.
(** 115-120; the name of an unset field is empty. *)
Fixpoint unknown_setting (l : list setting) : option str :=
  match l with
  | [] => None
  | s :: r => let n := opt_str (st_name s) in if existsb (str_eqb n) known_settings then unknown_setting r else Some n
  end.
Definition af_inet : Z := 2.
Definition af_inet6 : Z := 10.
(** 109-225: ProtocolDriverHoma::Initialize.  The buffers (156-162, 168-173)
    are not modelled.  reserve() of a negative number throws; both loops count
    to client_threads (179-186). *)
Definition homa_init (le : leaf_env) (o : driver_opts) (port : Z) : init_result homa_driver :=
  match unknown_setting (po_server o) with
  | Some n => InitError invalid_argument (s_ "unknown protocol driver option: " ++ n)
  | None =>
      let clients := narrow (server_int o (s_ "client_threads") 2) in
      let servers := narrow (server_int o (s_ "server_threads") 3) in
      ido pool <- get_pool le o (s_ "elastic");
      ido ip <- get_ip le (opt_str (po_netdev o)) (po_ip_version o);
      match hs_client (le_homa le), hs_server (le_homa le) with
      | Some e, _ => InitError unknown (e ++ s_ " creating client homa socket")
      | None, Some e => InitError unknown (e ++ s_ " creating server homa socket")
      | None, None =>
          if (clients <? 0) || (servers <? 0) then InitThrows
          else match hs_bind (le_homa le) (ad_v4 ip) port with
               | Some e => InitError unknown (e ++ s_ " family:" ++ dec_of_Z (if ad_v4 ip then af_inet else af_inet6)
                                                ++ s_ " binding server socket to port " ++ dec_of_Z port)
               | None =>
                   match hs_name (le_homa le) with
                   | inl e => InitError unknown (e ++ s_ " getting sockname from server socket")
                   | inr (family, p) =>
                       let made s := InitOk (mkHoma pool (negb (server_int o (s_ "ping_pong") 0 =? 0)) (negb (server_int o (s_ "nocopy") 1 =? 0))
                                               (Z.to_nat clients) (Z.to_nat clients) ip p s) in
                       if family =? af_inet then made (ad_ip ip ++ s_ ":" ++ dec_of_Z p)
                       else if family =? af_inet6 then made (s_ "[" ++ ad_ip ip ++ s_ "]:" ++ dec_of_Z p)
                       else InitError unknown (s_ "Unknown address family for homa socket: " ++ dec_of_Z family)
                   end
               end
      end
  end.

(** *** Mercury *)
(** absl::StrReplaceAll with one replacement: leftmost first, without looking
    again at what was inserted.  [skip]: characters of a match still to drop. *)
Fixpoint starts_with (p s : str) : bool :=
  match p, s with
  | [], _ => true
  | a :: p', b :: s' => Ascii.eqb a b && starts_with p' s'
  | _ :: _, [] => false
  end.
Fixpoint replace_from (p by_ : str) (skip : nat) (s : str) : str :=
  match s with
  | [] => []
  | c :: r =>
      match skip with
      | S k => replace_from p by_ k r
      | O => if starts_with p s then by_ ++ replace_from p by_ (length p - 1) r else c :: replace_from p by_ 0 r
      end
  end.
Definition replace_all (p by_ s : str) : str := replace_from p by_ 0 s.
Record mercury_driver := mkMercury { md_pool : pool_kind; md_ip : addr; md_info : str; md_address : str }.
(** protocol_driver_mercury.cc 68-72. *)
Definition info_string (o : driver_opts) (ip : addr) (port : Z) : str :=
  replace_all (s_ "__SERVER_IP__") (socket_address ip port)
    (replace_all (s_ "__DEVICE__") (opt_str (po_netdev o))
      (server_string o (s_ "hg_init_info_string") (s_ "ofi+tcp://__SERVER_IP__"))).
(** 73-134: the calls in order and the messages of their errors. *)
Definition hg_calls : list (hg_call * str) :=
  [(HgInitServer, s_ "HG_Init for server failed"); (HgInitClient, s_ "HG_Init for client failed");
   (HgContextClient, s_ "HG_Context_create for client failed"); (HgContextServer, s_ "HG_Context_create for server failed");
   (HgRegister, s_ "HG_Register_data: failed"); (HgSelf, s_ "HG_Addr_self: failed");
   (HgToString, s_ "HG_Addr_to_string: failed"); (HgFree, s_ "HG_Addr_free: failed")].
(** 44-146: ProtocolDriverMercury::Initialize; mercury_ipv4_only_ is true
    (protocol_driver_mercury.h 89). *)
Definition mercury_init (le : leaf_env) (o : driver_opts) (port : Z) : init_result mercury_driver :=
  if negb (po_ip_version o =? 0) && negb (po_ip_version o =? 4) then
    InitError unimplemented (s_ "The compiled-in version of mercury only supports IPv4")
  else
    ido pool <- get_pool le o [];
    ido ip <- get_ip le (opt_str (po_netdev o)) 4;
    let info := info_string o ip port in
    match find (fun c => negb (hg_works (le_hg le) (fst c) info)) hg_calls with
    | Some (_, m) => InitError unknown m
    | None => InitOk (mkMercury pool ip info (hg_address (le_hg le) info))
    end.

(** *** The tree of drivers *)
(** protocol_driver_allocator.cc 45-84: which driver a leaf is made of, by the
    protocol name; the outcome of its Initialize for [ev_init] of
    Driver_Model.  The port starts at 0: distbench_node_manager.cc 158,
    protocol_driver_double_barrel.h 53-54.  An exception leaves AllocService
    like an error, with a text chosen here. *)
Definition failure {A} (r : init_result A) : option str :=
  match r with InitOk _ => None | InitError _ m => Some m | InitThrows => Some (s_ "exception") end.
Definition leaf_failure (le : leaf_env) (o : driver_opts) : option str :=
  let p := protocol_name o in
  if str_eqb p (s_ "grpc") || str_eqb p (s_ "grpc_async_callback") then failure (grpc_init le o 0)
  else if str_eqb p (s_ "homa") then failure (homa_init le o 0)
  else failure (mercury_init le o 0).
Inductive live :=
  | LGrpc (g : grpc_driver) | LHoma (h : homa_driver) | LMercury (m : mercury_driver)
  | LDouble (d1 d2 : live) | LCounter (d : live).
Definition ok_of {A} (r : init_result A) : option A := match r with InitOk a => Some a | _ => None end.
(** The drivers that the allocated tree consists of; [les] at each position. *)
Fixpoint boot (les : list nat -> leaf_env) (path : list nat) (d : driver) : option live :=
  match d with
  | DGrpc o => option_map LGrpc (ok_of (grpc_init (les path) o 0))
  | DHoma o => option_map LHoma (ok_of (homa_init (les path) o 0))
  | DMercury o => option_map LMercury (ok_of (mercury_init (les path) o 0))
  | DDouble d1 d2 =>
      match boot les (path ++ [1%nat]) d1, boot les (path ++ [2%nat]) d2 with
      | Some l1, Some l2 => Some (LDouble l1 l2)
      | _, _ => None
      end
  | DCounter d => option_map LCounter (boot les (path ++ [1%nat]) d)
  end.

(** ** The handshake *)
(** HandlePreConnect: protocol_driver_grpc.cc 372-381 and 468-471,
    protocol_driver_homa.cc 276-285, protocol_driver_mercury.cc 180-183,
    protocol_driver_double_barrel.cc 79-83 (instance 1 only),
    composable_rpc_counter.cc 75-78.  None of them looks at its arguments. *)
Fixpoint announce (l : live) : str :=
  match l with
  | LGrpc g => sa_serialize (mkSA (Some (ad_ip (gd_ip g))) (Some (gd_port g)) (Some (gd_socket g)))
  | LHoma h => sa_serialize (mkSA (Some (ad_ip (hd_ip h))) (Some (hd_port h)) (Some (hd_socket h)))
  | LMercury m => md_address m
  | LDouble d1 _ => announce d1
  | LCounter d => announce d
  end.
(** Where a leaf sends RPCs after HandleConnect. *)
Inductive target := ToGrpc (transport address : str) | ToHoma (v4 : bool) (port : Z) (address : str) | ToMercury (address : Z).
(** The outside of HandleConnect: what a ServerAddress contains after a failed
    parse, inet_pton (None: it returned 0), HG_Addr_lookup2. *)
Record conn_env := mkConn {
  ce_partial : str -> server_address; ce_pton : bool -> str -> option str; ce_lookup : str -> option Z }.
(** protocol_driver_grpc.cc 124-125: the result of the parse is ignored. *)
Definition address_in (ce : conn_env) (info : str) : str :=
  opt_str (sa_socket (match sa_parse info with Some m => m | None => ce_partial ce info end)).
(** protocol_driver_grpc.cc 119-133 with 57-76. *)
Definition grpc_connect (homa_grpc : bool) (ce : conn_env) (transport info : str) : init_result target :=
  match transport_error homa_grpc transport with
  | Some (c, m) => InitError c m
  | None => InitOk (ToGrpc transport (if str_eqb transport (s_ "homa") then address_in ce info else add_protocol (address_in ce info)))
  end.
(** protocol_driver_homa.cc 242-274; htons takes the low 16 bits. *)
Definition homa_connect (ce : conn_env) (info : str) : init_result target :=
  match sa_parse info with
  | None => InitError unknown (s_ "remote_connection_info did not parse: " ++ info)
  | Some m =>
      let ip := opt_str (sa_ip m) in
      let port := match sa_port m with Some p => p mod 65536 | None => 0 end in
      let v4 := negb (existsb (Ascii.eqb colon) ip) in
      match ce_pton ce v4 ip with
      | Some a => InitOk (ToHoma v4 port a)
      | None => InitError unknown (s_ "Peer address did not parse: " ++ ip)
      end
  end.
(** protocol_driver_mercury.cc 185-199. *)
Definition mercury_connect (ce : conn_env) (info : str) : init_result target :=
  match ce_lookup ce info with Some a => InitOk (ToMercury a) | None => InitError unknown (s_ "HG_Addr_lookup: failed") end.
(** HandleConnect of a tree: protocol_driver_double_barrel.cc 85-90,
    composable_rpc_counter.cc 80-83; the targets of its leaves in order. *)
Fixpoint connect (homa_grpc : bool) (ce : conn_env) (info : str) (l : live) : init_result (list target) :=
  match l with
  | LGrpc g => ido t <- grpc_connect homa_grpc ce (gd_transport g) info; InitOk [t]
  | LHoma _ => ido t <- homa_connect ce info; InitOk [t]
  | LMercury _ => ido t <- mercury_connect ce info; InitOk [t]
  | LDouble d1 d2 => ido t1 <- connect homa_grpc ce info d1; ido t2 <- connect homa_grpc ce info d2; InitOk (t1 ++ t2)
  | LCounter d => connect homa_grpc ce info d
  end.

(** The driver of an engine: distbench_node_manager.cc 152-170 (AllocService)
    with the initialisation above; [les]: at each position of the tree. *)
Definition alloc_env_of (ne : Node_Model.node_env) (t : Node_Model.traffic) (les : list nat -> leaf_env) : alloc_env :=
  mkEnv (Node_Model.ne_homa ne) (Node_Model.ne_mercury ne) (Some (resolve_alias (Node_Model.tc_options t))) (fun path o => leaf_failure (les path) o).
Definition engine_driver (ne : Node_Model.node_env) (t : Node_Model.traffic) (les : list nat -> leaf_env) (type : str) : option live :=
  match options_for (Node_Model.tc_services t) (Node_Model.tc_options t) type (Node_Model.tc_protocol t) (Node_Model.ne_data ne) with
  | None => None
  | Some o => match allocate 5 (alloc_env_of ne t les) o 0 [] with DrvOk d => boot les [] d | _ => None end
  end.
