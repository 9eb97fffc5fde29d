(** Connecting an engine to its peers (distbench_engine.cc, ConnectToPeers) and
    the part of the gRPC client that receives the connections
    (protocol_driver_grpc.cc).  Definitions only. *)
From Coq Require Import Ascii String List NArith ZArith QArith Bool Arith.
From Verif Require Import Base_Model Grid_Model Place_Model Util_Model Table_Model.
Import ListNotations.
Open Scope Z_scope.

(** distbench.proto 217-228: ServiceEndpoint and ServiceEndpointMap; the map is
    a list in iteration order with distinct keys. *)
Record endpoint := mkEp { ep_address : str; ep_attributes : list attribute }.
Definition endpoints := list (str * endpoint).
(** distbench_engine.h 129-145: PeerMetadata without the logs.  [pe_trace]:
    None while the int has not been written. *)
Record peer := mkPeer { pe_name : str; pe_trace : option Z; pe_address : str; pe_pd : Z }.
Definition blank_peer : peer := mkPeer [] None [] (-1).

(** [PUndefined]: a CHECK failed, an exception escaped or the behaviour is
    undefined. *)
Inductive perror := PNoPeers | PConnect | PSelected | PNoMembers | PChannel.
Inductive pres (A : Type) := POk (a : A) | PErr (e : perror) | PUndefined.
Arguments POk {A}. Arguments PErr {A}. Arguments PUndefined {A}.
Definition pbind {A B} (r : pres A) (f : A -> pres B) : pres B :=
  match r with POk a => f a | PErr e => PErr e | PUndefined => PUndefined end.
Notation "'pdo' x <- r ; f" := (pbind r (fun x => f)) (at level 60, x pattern, right associativity).
(** A partial operation whose failure is undefined. *)
Definition must {A} (o : option A) : pres A := match o with Some a => POk a | None => PUndefined end.

(** distbench_utils.cc 116-127: EnumerateServiceInstanceIds. *)
Fixpoint add_names (l : list (option str)) (m : list (str * Z)) : option (list (str * Z)) :=
  match l with
  | [] => Some m
  | Some n :: r => add_names r (map_set n (Z.of_nat (length m)) m)
  | None :: _ => None
  end.
Definition instance_ids (c : config) : option (list (str * Z)) := add_names (all_instance_names (map sv_spec (cf_services c))) [].

(** 717-720: the table of peers; resize throws for a negative count. *)
Definition blank_peers (c : config) : option (list (list peer)) :=
  if forallb (fun s => 0 <=? svc_count s) (cf_services c)
  then Some (map (fun s => repeat blank_peer (Z.to_nat (svc_count s))) (cf_services c)) else None.

(** The part of the name before the first slash; None if there is none
    (730-733: CHECK_GE(service_and_instance.size(), 2)). *)
Fixpoint before_slash (s : str) : option str :=
  match s with
  | [] => None
  | a :: r => if Ascii.eqb a slash then Some [] else option_map (cons a) (before_slash r)
  end.
(** std::map::operator[]. *)
Definition index_or_insert (n : str) (m : list (str * Z)) : Z * list (str * Z) :=
  match map_find n m with Some z => (z, m) | None => (0, map_set n 0 m) end.
(** An element of a vector; None: out of range. *)
Definition vec_at {A} (l : list A) (z : Z) : option A := if z <? 0 then None else nth_error l (Z.to_nat z).
Definition vec_set {A} (l : list A) (z : Z) (a : A) : list A := firstn (Z.to_nat z) l ++ a :: skipn (S (Z.to_nat z)) l.

(** What the first loop has computed: service_index_map_, trace_id_, peers_ and
    num_targets. *)
Record scan := mkScan { sc_types : list (str * Z); sc_trace : Z; sc_peers : list (list peer); sc_targets : Z }.
(** 726-751: one endpoint.  int arithmetic is exact here: see
    instance_from_grid. *)
Definition scan_endpoint (c : config) (ids : list (str * Z)) (my_name : str) (dependent : list str) (s : scan) (x : str * endpoint) : pres scan :=
  let (name, ep) := x in
  pdo id <- must (map_find name ids);
  pdo type <- must (before_slash name);
  let (k, types) := index_or_insert type (sc_types s) in
  pdo spec <- must (vec_at (cf_services c) k);
  pdo g <- must (grid_index_from_name name);
  let instance := instance_from_grid (sv_spec spec) g in
  let tid := if str_eqb name my_name then id else sc_trace s in
  pdo row <- must (vec_at (sc_peers s) k);
  pdo old <- must (vec_at row instance);
  if set_mem type dependent then
    let new := mkPeer name (Some id) (ep_address ep) (sc_targets s) in
    POk (mkScan types tid (vec_set (sc_peers s) k (vec_set row instance new)) (sc_targets s + 1))
  else
    let new := mkPeer name (Some id) (pe_address old) (pe_pd old) in
    POk (mkScan types tid (vec_set (sc_peers s) k (vec_set row instance new)) (sc_targets s)).
Fixpoint scan_all (c : config) (ids : list (str * Z)) (my_name : str) (dependent : list str) (s : scan) (l : endpoints) : pres scan :=
  match l with
  | [] => POk s
  | x :: r => pdo s' <- scan_endpoint c ids my_name dependent s x; scan_all c ids my_name dependent s' r
  end.

(** 769-793: the connection requests, in the order they are sent: the slot of
    pending_rpcs and the address. *)
Definition requests (peers : list (list peer)) : list (Z * str) :=
  flat_map (fun p => match pe_address p with [] => [] | _ => [(pe_pd p, pe_address p)] end) (concat peers).

(** What the driver is asked to do (protocol_driver.h).  The response of a peer
    is the string its HandlePreConnect returned (94-104), None if the RPC
    failed.  Preconnect always succeeds (protocol_driver.cc 134, no driver
    overrides it). *)
Inductive driver_call :=
  | CSetNumPeers (n : Z) | CHandleConnect (info : str) (peer : nat) | CSetNumChannels (n : Z)
  | CSetupChannel (settings : list setting) (members : list Z) (channel : Z).
(** 795-821: the answers are read in any order; every slot whose RPC succeeded is
    handed to the driver, which may refuse it ([accept]).  [slots]: for every
    slot the address written there. *)
Fixpoint handle_connects (answer : nat -> str -> option str) (accept : nat -> str -> bool) (i : nat) (slots : list str) : list driver_call * bool :=
  match slots with
  | [] => ([], true)
  | a :: r =>
      let (calls, ok) := handle_connects answer accept (S i) r in
      match answer i a with
      | Some info => (CHandleConnect info i :: calls, accept i info && ok)
      | None => (calls, false)
      end
  end.
(** pending_rpcs after 769-793; None: a request was written outside of it. *)
Fixpoint fill_slots (slots : list str) (l : list (Z * str)) : option (list str) :=
  match l with
  | [] => Some slots
  | (k, a) :: r => match vec_at slots k with Some _ => fill_slots (vec_set slots k a) r | None => None end
  end.

(** 839-855: the members of a channel. *)
Fixpoint selected_members (s : service_desc) (row : list peer) (l : list Z) : pres (list Z) :=
  match l with
  | [] => POk []
  | i :: r => if svc_count s <=? i then PErr PSelected
              else pdo p <- must (vec_at row i); pdo ps <- selected_members s row r; POk (pe_pd p :: ps)
  end.
Fixpoint constraint_members (s : service_desc) (cl : constraint_list) (eps : endpoints) (row : list peer) (l : list Z) : pres (list Z) :=
  match l with
  | [] => POk []
  | i :: r =>
      pdo n <- must (instance_name (sv_spec s) i);
      pdo ep <- must (map_find n eps);
      pdo b <- must (check_list cl (ep_attributes ep));
      pdo p <- must (vec_at row i);
      pdo ps <- constraint_members s cl eps row r;
      POk (if b then pe_pd p :: ps else ps)
  end.
(** std::sort followed by std::unique: insertion without duplicates. *)
Fixpoint insert_id (z : Z) (l : list Z) : list Z :=
  match l with
  | [] => [z]
  | x :: r => if z <? x then z :: l else if z =? x then l else x :: insert_id z r
  end.
Definition sorted_unique (l : list Z) : list Z := fold_right insert_id [] l.
Definition channel_members (s : service_desc) (eps : endpoints) (row : list peer) (ch : channel_desc) : pres (list Z) :=
  pdo a <- selected_members s row (ch_selected ch);
  pdo b <- match ch_constraints ch with
           | Some cl => constraint_members s cl eps row (zseq (svc_count s))
           | None => POk []
           end;
  match sorted_unique (a ++ b) with [] => PErr PNoMembers | l => POk l end.
(** 832-872: the channels of all services in [dependent]; [setup]: the driver
    accepted the channel. *)
Fixpoint channels_of (setup : list Z -> bool) (s : service_desc) (eps : endpoints) (row : list peer) (msc : Z) (l : list channel_desc) : list driver_call * pres Z :=
  match l with
  | [] => ([], POk msc)
  | ch :: r =>
      match channel_members s eps row ch with
      | POk members =>
          let call := CSetupChannel (ch_settings ch) members msc in
          if setup members then let (calls, e) := channels_of setup s eps row (msc + 1) r in (call :: calls, e)
          else ([call], PErr PChannel)
      | PErr e => ([], PErr e)
      | PUndefined => ([], PUndefined)
      end
  end.
Fixpoint all_channels (setup : list Z -> bool) (types : list (str * Z)) (peers : list (list peer)) (dependent : list str) (eps : endpoints) (msc : Z) (l : list service_desc) : list driver_call * pres Z :=
  match l with
  | [] => ([], POk msc)
  | s :: r =>
      if set_mem (svc_name s) dependent then
        match sv_channels s with
        | [] => all_channels setup types peers dependent eps msc r
        | _ =>
            match vec_at peers (fst (index_or_insert (svc_name s) types)) with
            | None => ([], PUndefined)
            | Some row =>
                match channels_of setup s eps row msc (sv_channels s) with
                | (calls, POk msc') => let (calls', e) := all_channels setup types peers dependent eps msc' r in (calls ++ calls', e)
                | bad => bad
                end
            end
        end
      else all_channels setup types peers dependent eps msc r
  end.
(** 825-831 *)
Definition channel_count (dependent : list str) (l : list service_desc) : Z :=
  fold_left (fun n s => if set_mem (svc_name s) dependent then n + Z.of_nat (length (sv_channels s)) else n) l 0.

(** 703-874: ConfigurePeers and ConnectToPeers of instance [inst] of service
    [me]; the calls made to the driver in order, and the outcome.  An error of a
    connection is reported after all of them have been handled (822-824). *)
Definition connect_to_peers (answer : nat -> str -> option str) (accept : nat -> str -> bool) (setup : list Z -> bool)
    (c : config) (t : tables) (me : str) (inst : Z) (eps : endpoints) : list driver_call * pres scan :=
  match eps with
  | [] => ([], PErr PNoPeers)
  | _ =>
      let first :=
        pdo ids <- must (instance_ids c);
        pdo peers <- must (blank_peers c);
        let (k, types) := index_or_insert me (tb_types t) in
        pdo spec <- must (vec_at (cf_services c) k);
        pdo my_name <- must (instance_name (sv_spec spec) inst);
        scan_all c ids my_name (tb_dependent t) (mkScan types (-1) peers 0) eps in
      match first with
      | PErr e => ([], PErr e)
      | PUndefined => ([], PUndefined)
      | POk s =>
          let reqs := requests (sc_peers s) in
          match fill_slots (repeat [] (Z.to_nat (sc_targets s))) reqs with
          | None => ([CSetNumPeers (sc_targets s)], PUndefined)
          | Some slots =>
              if negb (Z.of_nat (length reqs) =? sc_targets s) then ([CSetNumPeers (sc_targets s)], PUndefined)
              else
                let (calls, ok) := handle_connects answer accept 0 slots in
                let before := CSetNumPeers (sc_targets s) :: calls in
                if ok then
                  let (calls', e) := all_channels setup (sc_types s) (sc_peers s) (tb_dependent t) eps 0 (cf_services c) in
                  (before ++ CSetNumChannels (channel_count (tb_dependent t) (cf_services c)) :: calls', pdo _ <- e; POk s)
                else (before, PErr PConnect)
          end
      end
  end.

(** ** The gRPC client *)
(** protocol_driver_grpc.h: grpc_client_stubs_, peer_connection_info_ and
    multiserver_stubs_.  A stub is the address it connects to, None while null. *)
Record stubs := mkStubs { gs_stubs : list (option str); gs_info : list str; gs_channels : list (option str) }.
Definition resize {A} (l : list A) (n : nat) (d : A) : list A := firstn n l ++ repeat d (n - length l).
(** 44-55: AddGrpcProtocol. *)
Definition add_protocol (s : str) : str :=
  match s with
  | [] => []
  | a :: _ => (if Ascii.eqb a "["%char then s_ "ipv6:" else s_ "ipv4:") ++ s
  end.
(** 160-169: the addresses joined with commas. *)
Definition join_addresses (l : list str) : str :=
  fold_left (fun acc a => (match acc with [] => acc | _ => acc ++ s_ "," end) ++ a) l [].
(** 115-118 SetNumPeers, 120-133 HandleConnect (with the transport tcp, the
    stub connects to [address info], the socket address in the message, see
    ServerAddress in Net_Model.v), 151-177 SetupMultiServerChannel (the policy is
    not modelled), 179-181 SetNumMultiServerChannels.  None: a CHECK failed or a
    vector was read out of range. *)
Definition driver_step (address : str -> str) (g : stubs) (d : driver_call) : option stubs :=
  match d with
  | CSetNumPeers n => if n <? 0 then None else Some (mkStubs (resize (gs_stubs g) (Z.to_nat n) None) (resize (gs_info g) (Z.to_nat n) []) (gs_channels g))
  | CHandleConnect info p =>
      if (length (gs_stubs g) <=? p)%nat then None
      else Some (mkStubs (vec_set (gs_stubs g) (Z.of_nat p) (Some (add_protocol (address info)))) (vec_set (gs_info g) (Z.of_nat p) info) (gs_channels g))
  | CSetNumChannels n => if n <? 0 then None else Some (mkStubs (gs_stubs g) (gs_info g) (resize (gs_channels g) (Z.to_nat n) None))
  | CSetupChannel _ members ch =>
      match vec_at (gs_channels g) ch with
      | None => None
      | Some _ =>
          if forallb (fun p => match vec_at (gs_info g) p with Some _ => true | None => false end) members
          then Some (mkStubs (gs_stubs g) (gs_info g)
                       (vec_set (gs_channels g) ch (Some (add_protocol (join_addresses
                          (map (fun p => match vec_at (gs_info g) p with Some info => address info | None => [] end) members))))))
          else None
      end
  end.
Fixpoint drive (address : str -> str) (g : stubs) (l : list driver_call) : option stubs :=
  match l with [] => Some g | d :: r => match driver_step address g d with Some g' => drive address g' r | None => None end end.
(** 185-187, 235-240: the address an RPC goes to; None: a CHECK failed. *)
Definition rpc_target (g : stubs) (pd : Z) : option str := match vec_at (gs_stubs g) pd with Some (Some a) => Some a | _ => None end.
Definition channel_target (g : stubs) (ch : Z) : option str := match vec_at (gs_channels g) ch with Some (Some a) => Some a | _ => None end.
