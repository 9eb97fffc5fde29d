(** The node manager (distbench_node_manager.cc) and the parts of the engine it
    calls.  Definitions only. *)
From Coq Require Import Ascii String List NArith ZArith Bool Arith.
From Verif Require Import Base_Model Grid_Model Util_Model Net_Model Driver_Model.
Import ListNotations.
Open Scope nat_scope.

(** std::map<std::string, V>: iteration is in key order, so the association
    list is kept sorted. *)
Fixpoint omap_set {V} (k : str) (v : V) (m : list (str * V)) : list (str * V) :=
  match m with
  | [] => [(k, v)]
  | (k', v') :: r =>
      if str_eqb k k' then (k', v) :: r
      else if str_ltb k k' then (k, v) :: m
      else (k', v') :: omap_set k v r
  end.

(** The parts of DistributedSystemDescription (traffic_config.proto) read here. *)
Record traffic := mkTraffic {
  tc_max_threads : Z; tc_services : list service_driver; tc_options : list driver_opts;
  tc_protocol : str; tc_lists : list str }.
(** distbench.proto ServiceEndpoint. *)
Record endpoint := mkEp { ep_address : str; ep_hostname : str; ep_attributes : list (str * str) }.
(** A DistBenchEngine as seen by its node manager: identity, service type and
    index, the port of its service, the peers it was given ([None]: none or an
    empty map), whether its main thread is joinable, and the reason of the
    first cancellation. *)
Record engine := mkEngine {
  en_id : nat; en_type : str; en_index : grid_index; en_port : Z;
  en_peers : option (list (str * endpoint)); en_main : bool; en_cancel : option str }.
(** What happened to engines, newest first. *)
Inductive event :=
  | EvCreate (id : nat) | EvDestroy (id : nat) | EvPeers (id : nat)
  | EvRun (id : nat) | EvMain (id : nat) | EvJoin (id : nat) | EvCancel (id : nat) | EvLogs (id : nat).
Record node := mkNode {
  nd_traffic : traffic; nd_threshold : Z; nd_peers : list (str * endpoint);
  nd_engines : list (str * engine); nd_next : nat; nd_log : list event }.
(** Fixed properties of the node and of its process: the interface table and
    the --prefer_ipv4 flag (SocketAddressForDevice), the devices, the host name
    and the attributes it registered with. *)
Record node_env := mkNE {
  ne_ifs : list if_entry; ne_flag : bool; ne_control : str; ne_data : str;
  ne_hostname : str; ne_attributes : list (str * str); ne_homa : bool; ne_mercury : bool }.
(** Outcomes of the calls that are not modelled, by the number of the engine
    being created or addressed: initialisation of transport drivers,
    DistBenchEngine::Initialize (the port, or an error), ConnectToPeers, and
    the logs ([None]: no peer, activity or replay logs). *)
Record externals := mkExt {
  ex_driver : nat -> list nat -> driver_opts -> option str;
  ex_engine : nat -> Z + str;
  ex_connect : nat -> option str;
  ex_logs : nat -> option Z }.

(** absl::StrSplit(name, '/'). *)
Fixpoint split_slash (s : str) : list str :=
  match s with
  | [] => [[]]
  | c :: r =>
      if Ascii.eqb c slash then [] :: split_slash r
      else match split_slash r with
           | x :: l => (c :: x) :: l
           | [] => [[c]]          (* unreachable: the result is never empty *)
           end
  end.
Definition count_slash (s : str) : nat := length (filter (fun c => Ascii.eqb c slash) s).

Inductive reply := ROk | RInvalid | RUnknown (m : str).
Inductive outcome (A : Type) := Replied (s : node) (r : reply) (a : A) | Crashed.
Arguments Replied {A}. Arguments Crashed {A}.

Definition log (ev : event) (s : node) : node :=
  mkNode (nd_traffic s) (nd_threshold s) (nd_peers s) (nd_engines s) (nd_next s) (ev :: nd_log s).
Definition logs (evs : list event) (s : node) : node :=
  mkNode (nd_traffic s) (nd_threshold s) (nd_peers s) (nd_engines s) (nd_next s) (evs ++ nd_log s).
Definition set_engines (l : list (str * engine)) (s : node) : node :=
  mkNode (nd_traffic s) (nd_threshold s) (nd_peers s) l (nd_next s) (nd_log s).
Definition fresh_id (s : node) : node :=
  mkNode (nd_traffic s) (nd_threshold s) (nd_peers s) (nd_engines s) (S (nd_next s)) (nd_log s).

(** distbench_engine.cc 113-126: the destructor joins the main thread
    (FinishTraffic 914-919); the shutdown of its server and driver is not
    modelled. *)
Definition destroy_events (e : engine) : list event :=
  EvDestroy (en_id e) :: if en_main e then [EvJoin (en_id e)] else [].
(** distbench_node_manager.cc 121: ClearServices. *)
Definition clear_services (s : node) : node :=
  set_engines [] (logs (rev (flat_map (fun ke => rev (destroy_events (snd ke))) (nd_engines s))) s).

Inductive alloc_outcome := AllocDone (s : node) (port : Z) | AllocFailed (s : node) (m : str) | AllocCrash.
(** distbench_node_manager.cc 152-170: AllocService.  The protocol driver and
    its own port are not kept.  Replacing an engine of the same name destroys
    the old one.  Aliases are resolved by the node's own configuration, as when
    it is the only node manager of its process; for others see Host_Model.v. *)
Definition alloc_service (ne : node_env) (ex : externals) (name ty : str) (g : grid_index) (s : node) : alloc_outcome :=
  match options_for (tc_services (nd_traffic s)) (tc_options (nd_traffic s)) ty (tc_protocol (nd_traffic s)) (ne_data ne) with
  | None => AllocFailed s (s_ "options")
  | Some o =>
      let ev := mkEnv (ne_homa ne) (ne_mercury ne) (Some (resolve_alias (tc_options (nd_traffic s)))) (ex_driver ex (nd_next s)) in
      match allocate 5 ev o 0 [] with
      | DrvDiverges => AllocCrash
      | DrvError _ => AllocFailed s (s_ "driver")
      | DrvOk _ =>
          let id := nd_next s in
          let s1 := log (EvCreate id) (fresh_id s) in
          match ex_engine ex id with
          | inr m => AllocFailed (log (EvDestroy id) s1) m
          | inl port =>
              let e := mkEngine id ty g port None false None in
              let s2 := match map_find name (nd_engines s) with
                        | Some old => logs (destroy_events old) s1
                        | None => s1
                        end in
              AllocDone (set_engines (omap_set name e (nd_engines s)) s2) port
          end
      end
  end.

(** distbench_node_manager.cc 96-114: the attributes of an endpoint. *)
Definition grid_attributes (name : str) (g : grid_index) : list (str * str) :=
  let n := count_slash name in
  (if n =? 1 then [(s_ "index", nth 1 (split_slash name) [])] else [])
  ++ (if 1 <? n then [(s_ "x_index", dec_of_Z (gx g)); (s_ "y_index", dec_of_Z (gy g))] else [])
  ++ (if 2 <? n then [(s_ "z_index", dec_of_Z (gz g))] else []).
(** distbench_node_manager.cc 67-117: the loop of ConfigureNode. *)
Fixpoint configure_loop (ne : node_env) (ex : externals) (names : list str) (s : node) (eps : list (str * endpoint))
  : outcome (list (str * endpoint)) :=
  match names with
  | [] => Replied s ROk eps
  | name :: r =>
      let parts := split_slash name in
      if length parts <? 2 then Crashed
      else match grid_index_from_name name with
           | None => Crashed
           | Some g =>
               match alloc_service ne ex name (nth 0 parts []) g s with
               | AllocCrash => Crashed
               | AllocFailed s' m => Replied s' (RUnknown m) []
               | AllocDone s' port =>
                   match socket_for_device (ne_ifs ne) (ne_flag ne) (ne_control ne) port with
                   | None => Replied s' (RUnknown (s_ "address")) []
                   | Some a =>
                       configure_loop ne ex r s'
                         (map_set name (mkEp a (ne_hostname ne) (ne_attributes ne ++ grid_attributes name g)) eps)
                   end
               end
           end
  end.
(** distbench_node_manager.cc 55-119: ConfigureNode.  On an error gRPC sends no
    response message. *)
Definition configure (ne : node_env) (ex : externals) (t : traffic) (names : list str) (s : node)
  : outcome (list (str * endpoint)) :=
  let s1 := mkNode t (nd_threshold s) (nd_peers s) (nd_engines s) (nd_next s) (nd_log s) in
  if (tc_max_threads t <=? 0)%Z then Replied s1 RInvalid []
  else
    let s2 := mkNode t (tc_max_threads t) (nd_peers s) (nd_engines s) (nd_next s) (nd_log s) in
    configure_loop ne ex names (clear_services s2) [].

(** distbench_engine.cc 703-711: ConfigurePeers; the map is stored before
    connecting. *)
Definition engine_peers (ex : externals) (peers : list (str * endpoint)) (e : engine) : engine * option str :=
  let set p := mkEngine (en_id e) (en_type e) (en_index e) (en_port e) p (en_main e) (en_cancel e) in
  match peers with
  | [] => (set None, Some (s_ "No peers configured."))
  | _ => (set (Some peers), ex_connect ex (en_id e))
  end.
(** distbench_node_manager.cc 172-186: IntroducePeers. *)
Fixpoint peers_loop (ex : externals) (peers : list (str * endpoint)) (l : list (str * engine))
  : list (str * engine) * reply * list event :=
  match l with
  | [] => ([], ROk, [])
  | (k, e) :: r =>
      match engine_peers ex peers e with
      | (e', Some m) => ((k, e') :: r, RUnknown m, [EvPeers (en_id e)])
      | (e', None) =>
          let '(r', o, evs) := peers_loop ex peers r in ((k, e') :: r', o, evs ++ [EvPeers (en_id e)])
      end
  end.
Definition introduce_peers (ex : externals) (peers : list (str * endpoint)) (s : node) : node * reply :=
  let '(l, r, evs) := peers_loop ex peers (nd_engines s) in
  (mkNode (nd_traffic s) (nd_threshold s) peers l (nd_next s) (evs ++ nd_log s), r).

(** distbench_engine.cc 876-902: RunTraffic.  The main thread is started if an
    action list has the name of the service; assigning a thread over a
    joinable one calls std::terminate.  The engine was initialised with the
    same configuration as its node. *)
Inductive run_result := RunStarted (e : engine) (evs : list event) | RunError (e : engine) | RunTerminate.
Definition engine_run (lists : list str) (e : engine) : run_result :=
  match en_peers e with
  | None => RunError e
  | Some _ =>
      if existsb (str_eqb (en_type e)) lists then
        if en_main e then RunTerminate
        else RunStarted (mkEngine (en_id e) (en_type e) (en_index e) (en_port e) (en_peers e) true (en_cancel e))
                        [EvMain (en_id e); EvRun (en_id e)]
      else RunStarted e [EvRun (en_id e)]
  end.
Inductive run_all_result :=
  | RAOk (l : list (str * engine)) (evs : list event) | RAError (l : list (str * engine)) (evs : list event) | RATerminate.
(** distbench_node_manager.cc 195-200. *)
Fixpoint run_all (lists : list str) (l : list (str * engine)) : run_all_result :=
  match l with
  | [] => RAOk [] []
  | (k, e) :: r =>
      match engine_run lists e with
      | RunTerminate => RATerminate
      | RunError e' => RAError ((k, e') :: r) [EvRun (en_id e)]
      | RunStarted e' evs =>
          match run_all lists r with
          | RAOk r' evs' => RAOk ((k, e') :: r') (evs' ++ evs)
          | RAError r' evs' => RAError ((k, e') :: r') (evs' ++ evs)
          | RATerminate => RATerminate
          end
      end
  end.
(** distbench_engine.cc 914-919: FinishTraffic (returns once the main thread
    has; that it does is the subject of other files). *)
Definition engine_finish (e : engine) : engine * list event :=
  if en_main e
  then (mkEngine (en_id e) (en_type e) (en_index e) (en_port e) (en_peers e) false (en_cancel e), [EvJoin (en_id e)])
  else (e, []).
(** distbench_node_manager.cc 202-203. *)
Definition finish_all (l : list (str * engine)) : list (str * engine) * list event :=
  (map (fun ke => (fst ke, fst (engine_finish (snd ke)))) l,
   rev (flat_map (fun ke => snd (engine_finish (snd ke))) l)).
(** distbench_node_manager.cc 188-206: RunTraffic.  It holds the lock shared,
    so only CancelTraffic and another RunTraffic can overlap with it; the first
    changes nothing RunTraffic reads, the second is not shown here (an engine
    with a main list terminates the process then, Engine_Model.v). *)
Definition run_traffic (s : node) : outcome unit :=
  match run_all (tc_lists (nd_traffic s)) (nd_engines s) with
  | RATerminate => Crashed
  | RAError l evs => Replied (logs evs (set_engines l s)) (RUnknown (s_ "RunTraffic failure")) tt
  | RAOk l evs =>
      let '(l', evs') := finish_all l in Replied (logs (evs' ++ evs) (set_engines l' s)) ROk tt
  end.

(** distbench_engine.cc 904-912: CancelTraffic. *)
Definition engine_cancel (why : str) (e : engine) : engine :=
  match en_cancel e with
  | Some _ => e
  | None => mkEngine (en_id e) (en_type e) (en_index e) (en_port e) (en_peers e) (en_main e) (Some why)
  end.
(** distbench_node_manager.cc 235-249. *)
Definition cancel_traffic (why : str) (s : node) : node :=
  logs (rev (map (fun ke => EvCancel (en_id (snd ke))) (nd_engines s)))
       (set_engines (map (fun ke => (fst ke, engine_cancel why (snd ke))) (nd_engines s)) s).
(** distbench_node_manager.cc 208-233: GetTrafficResult (resource usage not
    modelled): the logs by instance name. *)
Definition traffic_result (ex : externals) (clear : bool) (s : node) : node * list (str * Z) :=
  let out := flat_map (fun ke => match ex_logs ex (en_id (snd ke)) with Some v => [(fst ke, v)] | None => [] end) (nd_engines s) in
  let s1 := logs (rev (map (fun ke => EvLogs (en_id (snd ke))) (nd_engines s))) s in
  ((if clear then clear_services (cancel_traffic (s_ "OK") s1) else s1), out).

(** Requests, each handled under the node's mutex. *)
Inductive request :=
  | QConfigure (t : traffic) (names : list str) | QPeers (p : list (str * endpoint)) | QRun | QCancel | QResult (clear : bool).
Definition handle (ne : node_env) (ex : externals) (q : request) (s : node) : option (node * reply) :=
  match q with
  | QConfigure t names => match configure ne ex t names s with Replied s' r _ => Some (s', r) | Crashed => None end
  | QPeers p => Some (introduce_peers ex p s)
  | QRun => match run_traffic s with Replied s' r _ => Some (s', r) | Crashed => None end
  | QCancel => Some (cancel_traffic (s_ "cancelled by test_sequencer") s, ROk)
  | QResult clear => Some (fst (traffic_result ex clear s), ROk)
  end.
(** A history of requests, each with its own external outcomes. *)
Fixpoint history (ne : node_env) (l : list (externals * request)) (s : node) : option (node * list reply) :=
  match l with
  | [] => Some (s, [])
  | (ex, q) :: r =>
      match handle ne ex q s with
      | None => None
      | Some (s', o) => match history ne r s' with Some (s2, os) => Some (s2, o :: os) | None => None end
      end
  end.
Definition start_node : node := mkNode (mkTraffic 0 [] [] [] []) 0 [] [] 0 [].
