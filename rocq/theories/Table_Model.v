(** Compiling a traffic configuration into the tables of an engine
    (distbench_engine.cc, InitializeConfig).  Definitions only. *)
From Coq Require Import Ascii String List NArith ZArith QArith Bool Arith.
From Verif Require Import Base_Model Grid_Model Canon_Model Place_Model Fanout_Model Dist_Model Util_Model Replay_Model.
Import ListNotations.
Open Scope Z_scope.

(** ** The configuration *)
(** traffic_config.proto 56-67: MultiServerChannel. *)
Record channel_desc := mkChan {
  ch_name : str; ch_settings : list setting; ch_selected : list Z; ch_constraints : option constraint_list }.
(** traffic_config.proto 40-53: ServiceSpec with its channels. *)
Record service_desc := mkSvc { sv_spec : service_spec; sv_channels : list channel_desc }.
(** traffic_config.proto 107-112: PayloadSpec (attributes are not read). *)
Record payload_desc := mkPay { py_name : str; py_dist : option str; py_size : option Z }.
(** traffic_config.proto 114-127: RpcSpec (tracing_interval is not read here). *)
Record rpc_desc := mkRpcD {
  rp_name : str; rp_clients : list str; rp_server : str; rp_request : option str; rp_response : option str;
  rp_fanout : option str; rp_dist : option str; rp_channel : option str }.
(** traffic_config.proto 192-215: Action (iterations, send_response_when_done,
    cancel_traffic_when_done and predicates are kept in the protobuf and read
    elsewhere). *)
Inductive action_kind := KRpc (n : str) | KList (n : str) | KActivity (n : str) | KReplay (n : str) | KNop.
Record action_d := mkActD {
  an_name : str; an_deps : list str; an_delay : option str; an_kind : action_kind;
  an_request : option str; an_response : option str }.
(** traffic_config.proto 217-236: ActionList. *)
Record list_d := mkListD { li_name : str; li_actions : list str }.
(** traffic_config.proto 257-294: DistributedSystemDescription. *)
Record config := mkConf {
  cf_services : list service_desc; cf_payloads : list payload_desc; cf_rpcs : list rpc_desc;
  cf_activities : list activity_config; cf_actions : list action_d; cf_lists : list list_d;
  cf_rpc_dists : list dist_config; cf_delay_dists : list dist_config; cf_size_dists : list dist_config;
  cf_traces : list (str * trace) }.
Definition svc_name (s : service_desc) : str := sp_name (sv_spec s).
Definition svc_count (s : service_desc) : Z := get_count (sv_spec s).

(** [TUndefined]: a CHECK failed, an exception escaped or the behaviour is
    undefined. *)
Inductive terror :=
  | TDist (e : dist_error) | TPayloadTwice (n : str) | TPayloadDist (n : str) | TServerUnknown (n : str)
  | TChannelUnknown | TClientUnknown (n : str) | TFanout | TActivity (e : activity_error) | TActivityTwice (n : str)
  | TTraceTwice (n : str) | TTrace (e : verr) | TActionUnknown (n : str) | TOverride (n : str) | TDelay (n : str)
  | TRpcUnknown (n : str) | TListUnknown (n : str) | TActivityUnknown (n : str) | TReplayUnknown (n : str)
  | TDepUnknown (n : str) | TDepLater | TNoClient (n : str) | TNoServer (n : str) | TNoHandler (n : str) | TNoService.
Inductive tres (A : Type) := TOk (a : A) | TErr (e : terror) | TUndefined.
Arguments TOk {A}. Arguments TErr {A}. Arguments TUndefined {A}.
Definition tbind {A B} (r : tres A) (f : A -> tres B) : tres B :=
  match r with TOk a => f a | TErr e => TErr e | TUndefined => TUndefined end.
Notation "'tdo' x <- r ; f" := (tbind r (fun x => f)) (at level 60, x pattern, right associativity).
Fixpoint tmap {A B} (f : A -> tres B) (l : list A) : tres (list B) :=
  match l with
  | [] => TOk []
  | a :: r => tdo b <- f a; tdo bs <- tmap f r; TOk (b :: bs)
  end.
(** The same with the index. *)
Fixpoint tmapi {A B} (f : nat -> A -> tres B) (i : nat) (l : list A) : tres (list B) :=
  match l with
  | [] => TOk []
  | a :: r => tdo b <- f i a; tdo bs <- tmapi f (S i) r; TOk (b :: bs)
  end.

(** ** Names to indices *)
(** distbench_utils.cc 87-95 (EnumerateServiceTypes) and 107-114
    (EnumerateRpcs): ret[name] = ret.size(), where the size is taken before the
    name is inserted (the right operand of = is evaluated first). *)
Definition enumerate (l : list str) : list (str * Z) :=
  fold_left (fun m n => map_set n (Z.of_nat (length m)) m) l [].
Definition enumerate_types (c : config) : list (str * Z) := enumerate (map svc_name (cf_services c)).
Definition enumerate_rpcs (c : config) : list (str * Z) := enumerate (map rp_name (cf_rpcs c)).
(** 461-468: actionlist_index_map[name] = i; 453-456: action_map. *)
Fixpoint index_lists (i : nat) (l : list list_d) (m : list (str * Z)) : list (str * Z) :=
  match l with [] => m | d :: r => index_lists (S i) r (map_set (li_name d) (Z.of_nat i) m) end.
Definition index_actions (l : list action_d) : list (str * action_d) :=
  fold_left (fun m a => map_set (an_name a) a m) l [].

(** ** Payloads *)
(** 2555-2640: the three tables of generators; only the names are needed here. *)
Record indices := mkIndices { ix_rpc : list (str * nat); ix_delay : list (str * nat); ix_size : list (str * nat) }.
Definition gens (canon : dist_config -> canon_result) (l : list dist_config) : tres (list (str * nat)) :=
  match make_generators canon l [] [] with
  | GensOk _ index => TOk index
  | GensError e => TErr (TDist e)
  | GensUndefined => TUndefined
  end.
Definition sample_generators (c : config) : tres indices :=
  tdo r <- gens canonical_sizes (cf_rpc_dists c);
  tdo d <- gens canonical_delay (cf_delay_dists c);
  tdo s <- gens canonical_sizes (cf_size_dists c);
  TOk (mkIndices r d s).
(** 129-155: InitializePayloadsMap. *)
Fixpoint payloads_map (sizes : list (str * nat)) (l : list payload_desc) (m : list (str * payload_desc)) : tres (list (str * payload_desc)) :=
  match l with
  | [] => TOk m
  | p :: r =>
      match map_find (py_name p) m with
      | Some _ => TErr (TPayloadTwice (py_name p))
      | None =>
          match py_dist p with
          | Some d => if generator_index d sizes =? -1 then TErr (TPayloadDist (py_name p))
                      else payloads_map sizes r (map_set (py_name p) p m)
          | None => payloads_map sizes r (map_set (py_name p) p m)
          end
      end
  end.
(** 157-172: GetPayloadSize; the int64 size is returned as an int. *)
Definition payload_size (m : list (str * payload_desc)) (n : str) : Z :=
  match map_find n m with
  | Some p => match py_size p with Some z => to_int32 z | None => -1 end
  | None => -1
  end.
(** 174-183: GetPayloadSizeIndex. *)
Definition payload_index (sizes : list (str * nat)) (m : list (str * payload_desc)) (n : str) : Z :=
  match map_find n m with
  | Some p => match py_dist p with Some d => generator_index d sizes | None => -1 end
  | None => -1
  end.

(** ** RPC definitions *)
(** distbench_engine.h 103-127: RpcDefinition. *)
Record rpc_definition := mkRpcDef {
  de_spec : rpc_desc; de_server : service_desc; de_fanout : fanout; de_joint : Z;
  de_request_index : Z; de_response_index : Z; de_request_size : Z; de_response_size : Z;
  de_allowed : bool; de_channel : Z }.
(** 399-424: the size and distribution of one direction. *)
Definition rpc_payload (sizes : list (str * nat)) (pm : list (str * payload_desc)) (n : option str) (dflt : Z) : Z * Z :=
  let (size, index) := match n with
                       | Some p => (payload_size pm p, payload_index sizes pm p)
                       | None => (-1, -1)
                       end in
  ((if (size =? -1) && (index =? -1) then dflt else size), index).
(** 372-383: the first channel of that name; the error path reads the channel
    numbered like the RPC. *)
Definition rpc_channel (i : nat) (r : rpc_desc) (s : service_desc) : tres Z :=
  match rp_channel r with
  | None => TOk (-1)
  | Some n => match channel_index n (map ch_name (sv_channels s)) 0 with
              | Some k => TOk k
              | None => if (length (sv_channels s) <=? i)%nat then TUndefined else TErr TChannelUnknown
              end
  end.
(** 385-394. *)
Fixpoint check_clients (types : list (str * Z)) (l : list str) : tres unit :=
  match l with
  | [] => TOk tt
  | n :: r => match map_find n types with Some _ => check_clients types r | None => TErr (TClientUnknown n) end
  end.
(** 358-435: one turn of the loop of InitializeRpcDefinitionsMap.  [stochastic]:
    see parse_filter (Fanout_Model.v). *)
Definition rpc_definition_of (stochastic : str -> option (list (Q * Z))) (c : config) (me : str) (types : list (str * Z))
    (ix : indices) (pm : list (str * payload_desc)) (i : nat) (r : rpc_desc) : tres rpc_definition :=
  match map_find (rp_server r) types with
  | None => TErr (TServerUnknown (rp_server r))
  | Some k =>
      match nth_error (cf_services c) (Z.to_nat k) with
      | None => TUndefined
      | Some server =>
          tdo channel <- rpc_channel i r server;
          tdo _ <- check_clients types (rp_clients r);
          let joint := match rp_dist r with Some n => generator_index n (ix_rpc ix) | None => -1 end in
          let request := match rp_dist r with Some _ => (-1, -1) | None => rpc_payload (ix_size ix) pm (rp_request r) 16 end in
          let response := match rp_dist r with Some _ => (-1, -1) | None => rpc_payload (ix_size ix) pm (rp_response r) 32 end in
          match parse_filter stochastic (match rp_fanout r with Some f => f | None => s_ "all" end) with
          | None => TErr TFanout
          | Some f => TOk (mkRpcDef r server f joint (snd request) (snd response) (fst request) (fst response)
                             (set_mem me (rp_clients r)) channel)
          end
      end
  end.
Fixpoint definitions_map (stochastic : str -> option (list (Q * Z))) (c : config) (me : str) (types : list (str * Z))
    (ix : indices) (pm : list (str * payload_desc)) (i : nat) (l : list rpc_desc) (m : list (str * rpc_definition))
    : tres (list (str * rpc_definition)) :=
  match l with
  | [] => TOk m
  | r :: l' => tdo d <- rpc_definition_of stochastic c me types ix pm i r;
               definitions_map stochastic c me types ix pm (S i) l' (map_set (rp_name r) d m)
  end.

(** ** Activities and traces *)
(** 319-337: InitializeActivityConfigMap; the configurations stored and the map. *)
Fixpoint activity_map (l : list activity_config) (stored : list parsed) (m : list (str * Z)) : tres (list parsed * list (str * Z)) :=
  match l with
  | [] => TOk (stored, m)
  | a :: r =>
      match map_find (ac_name a) m with
      | Some _ => TErr (TActivityTwice (ac_name a))
      | None => match parse_activity a with
                | ParseError e => TErr (TActivity e)
                | ParseOk p => activity_map r (stored ++ [p]) (map_set (pa_name p) (Z.of_nat (length stored)) m)
                end
      end
  end.
(** 339-356: InitializeRpcTraceMap. *)
Fixpoint trace_map (sizes : list (str * Z)) (i : nat) (l : list (str * trace)) (m : list (str * Z)) : tres (list (str * Z)) :=
  match l with
  | [] => TOk m
  | (n, t) :: r =>
      match map_find n m with
      | Some _ => TErr (TTraceTwice n)
      | None => match validate_trace sizes (validated_part t) with
                | Some e => TErr (TTrace e)
                | None => trace_map sizes (S i) r (map_set n (Z.of_nat i) m)
                end
      end
  end.

(** ** Action lists *)
(** distbench_engine.h 162-175: ActionTableEntry. *)
Record entry := mkEnt {
  en_action : action_d; en_rpc_service : Z; en_rpc : Z; en_trace : Z; en_list : Z; en_activity : Z;
  en_delay : Z; en_deps : list Z; en_request : Z; en_response : Z }.
(** distbench_engine.h 177-185: ActionListTableEntry. *)
Record table_list := mkTL { tl_proto : list_d; tl_entries : list entry; tl_has_rpcs : bool }.
(** Everything InitializeTables has computed before it reaches the lists. *)
Record tcontext := mkCtx {
  cx_types : list (str * Z); cx_indices : indices; cx_payloads : list (str * payload_desc);
  cx_defs : list (str * rpc_definition); cx_activities : list (str * Z); cx_traces : list (str * Z);
  cx_actions : list (str * action_d); cx_rpcs : list (str * Z); cx_lists : list (str * Z) }.
(** 473-505: the action of a name, and the payloads that override its RPC's. *)
Definition first_pass (cx : tcontext) (n : str) : tres (action_d * Z * Z) :=
  match map_find n (cx_actions cx) with
  | None => TErr (TActionUnknown n)
  | Some a =>
      let index o := payload_index (ix_size (cx_indices cx)) (cx_payloads cx) (match o with Some p => p | None => [] end) in
      let bad o := match o with Some _ => index o =? -1 | None => false end in
      if bad (an_request a) then TErr (TOverride n)
      else if bad (an_response a) then TErr (TOverride n)
      else TOk (a, index (an_request a), index (an_response a))
  end.
(** 473-475: list_action_indices[action_name] = j; later positions win. *)
Fixpoint positions (j : nat) (l : list str) (m : list (str * Z)) : list (str * Z) :=
  match l with [] => m | n :: r => positions (S j) r (map_set n (Z.of_nat j) m) end.
(** 556-568: the dependencies of action [j]. *)
Definition resolve_dep (pos : list (str * Z)) (j : nat) (n : str) : tres Z :=
  match map_find n pos with
  | None => TErr (TDepUnknown n)
  | Some k => if Z.of_nat j <=? k then TErr TDepLater else TOk k
  end.
(** 518-555: the indices of what the action refers to: RPC service, RPC, trace,
    list, activity. *)
Definition resolve_target (c : config) (cx : tcontext) (k : action_kind) : tres (Z * Z * Z * Z * Z) :=
  match k with
  | KRpc n =>
      match map_find n (cx_rpcs cx) with
      | None => TErr (TRpcUnknown n)
      | Some i =>
          match nth_error (cf_rpcs c) (Z.to_nat i) with
          | None => TUndefined
          | Some r => match map_find (rp_server r) (cx_types cx) with
                      | None => TErr (TServerUnknown (rp_server r))
                      | Some s => TOk (s, i, -1, -1, -1)
                      end
          end
      end
  | KList n => match map_find n (cx_lists cx) with None => TErr (TListUnknown n) | Some i => TOk (-1, -1, -1, i, -1) end
  | KActivity n => match map_find n (cx_activities cx) with None => TErr (TActivityUnknown n) | Some i => TOk (-1, -1, -1, -1, i) end
  | KReplay n => match map_find n (cx_traces cx) with None => TErr (TReplayUnknown n) | Some i => TOk (-1, -1, i, -1, -1) end
  | KNop => TOk (-1, -1, -1, -1, -1)
  end.
(** 508-517 *)
Definition resolve_delay (cx : tcontext) (o : option str) : tres Z :=
  match o with
  | Some n => let i := generator_index n (ix_delay (cx_indices cx)) in if i =? -1 then TErr (TDelay n) else TOk i
  | None => TOk (-1)
  end.
(** 507-570: the second pass over one action. *)
Definition second_pass (c : config) (cx : tcontext) (pos : list (str * Z)) (j : nat) (x : action_d * Z * Z) : tres entry :=
  match x with (a, request, response) =>
    tdo delay <- resolve_delay cx (an_delay a);
    tdo target <- resolve_target c cx (an_kind a);
    tdo deps <- tmap (resolve_dep pos j) (an_deps a);
    match target with (service, rpc, trc, lst, act) =>
      TOk (mkEnt a service rpc trc lst act delay deps request response)
    end
  end.
(** 470-571 *)
Definition compile_list (c : config) (cx : tcontext) (d : list_d) : tres table_list :=
  tdo xs <- tmap (first_pass cx) (li_actions d);
  tdo es <- tmapi (second_pass c cx (positions 0 (li_actions d) [])) 0 xs;
  TOk (mkTL d es (existsb (fun e => match an_kind (en_action e) with KRpc _ => true | _ => false end) es)).

(** ** RPC tables *)
(** distbench_engine.h 147-160: SimulatedServerRpc and SimulatedClientRpc
    ([cr_pending]: the size of pending_requests_per_peer). *)
Record server_rpc := mkSR { sr_handler : Z; sr_def : rpc_definition; sr_allowed : bool }.
Record client_rpc := mkCR { cr_service : Z; cr_def : rpc_definition; cr_pending : Z }.
(** 585-638: one turn of the loop, except dependent_services_. *)
Definition rpc_row (c : config) (cx : tcontext) (me : str) (r : rpc_desc) : tres (server_rpc * client_rpc) :=
  match rp_clients r with
  | [] => TErr (TNoClient (rp_name r))
  | _ =>
      match rp_server r with
      | [] => TErr (TNoServer (rp_name r))
      | _ =>
          tdo _ <- check_clients (cx_types cx) (filter (fun n => negb (str_eqb n me)) (rp_clients r));
          match map_find (rp_name r) (cx_lists cx) with
          | None => TErr (TNoHandler (rp_name r))
          | Some k =>
              match nth_error (cf_lists c) (Z.to_nat k), map_find (rp_name r) (cx_defs cx) with
              | Some d, Some def =>
                  match map_find (rp_server r) (cx_types cx) with
                  | None => TErr (TServerUnknown (rp_server r))
                  | Some s =>
                      match nth_error (cf_services c) (Z.to_nat s) with
                      | None => TUndefined
                      | Some svc =>
                          if svc_count svc <? 0 then TUndefined
                          else TOk (mkSR (match li_actions d with [] => -1 | _ => k end) def (str_eqb (rp_server r) me),
                                    mkCR s def (svc_count svc))
                      end
                  end
              | _, _ => TUndefined
              end
          end
      end
  end.
(** 579-583, 602-604: dependent_services_. *)
Definition dependent (c : config) (me : str) : list str :=
  fold_left (fun l r => if set_mem me (rp_clients r) then set_add (rp_server r) l else l) (cf_rpcs c)
    (fold_left (fun l t => if str_eqb (match t_client (snd t) with Some n => n | None => [] end) me
                           then set_add (match t_server (snd t) with Some n => n | None => [] end) l else l) (cf_traces c) []).

Record tables := mkTables {
  tb_types : list (str * Z); tb_lists : list table_list; tb_servers : list server_rpc; tb_clients : list client_rpc;
  tb_dependent : list str; tb_activities : list parsed }.
(** 437-642: InitializeTables of an engine of service [me]. *)
Definition initialize_tables (stochastic : str -> option (list (Q * Z))) (c : config) (me : str) : tres tables :=
  let types := enumerate_types c in
  tdo ix <- sample_generators c;
  tdo pm <- payloads_map (ix_size ix) (cf_payloads c) [];
  tdo defs <- definitions_map stochastic c me types ix pm 0 (cf_rpcs c) [];
  tdo acts <- activity_map (cf_activities c) [] [];
  tdo traces <- trace_map (enumerate_sizes (map sv_spec (cf_services c))) 0 (cf_traces c) [];
  let cx := mkCtx types ix pm defs (snd acts) traces (index_actions (cf_actions c)) (enumerate_rpcs c) (index_lists 0 (cf_lists c) []) in
  tdo lists <- tmap (compile_list c cx) (cf_lists c);
  tdo rows <- tmap (rpc_row c cx me) (cf_rpcs c);
  TOk (mkTables types lists (map fst rows) (map snd rows) (dependent c me) (fst acts)).

(** 644-658: InitializeConfig; distbench_utils.cc 129-137: GetServiceSpec. *)
Definition initialize_config (stochastic : str -> option (list (Q * Z))) (c : config) (me : str) (g : grid_index) : tres tables :=
  match me with
  | [] => TUndefined
  | _ =>
      match find (fun s => str_eqb (svc_name s) me) (cf_services c) with
      | None => TErr TNoService
      | Some s => match instance_name (sv_spec s) (instance_from_grid (sv_spec s) g) with
                  | None => TUndefined
                  | Some _ => initialize_tables stochastic c me
                  end
      end
  end.
(** 2642-2657: ValidateTrafficConfig. *)
Fixpoint validate_services (stochastic : str -> option (list (Q * Z))) (c : config) (l : list service_desc) : tres unit :=
  match l with
  | [] => TOk tt
  | s :: r => tdo _ <- initialize_config stochastic c (svc_name s) (mkGI 1 1 1); validate_services stochastic c r
  end.
Definition validate_traffic_config (stochastic : str -> option (list (Q * Z))) (c : config) : tres unit :=
  validate_services stochastic c (cf_services c).
(** 882-898: the action list RunTraffic starts, the first named like the service. *)
Fixpoint main_list (me : str) (i : nat) (l : list list_d) : option nat :=
  match l with [] => None | d :: r => if str_eqb me (li_name d) then Some i else main_list me (S i) r end.
