(** An engine of a running test sends the RPCs of an action: from the compiled
    tables and the connected peers to the addresses the driver is given
    (distbench_engine.cc).  Definitions only. *)
From Coq Require Import Ascii String List NArith ZArith QArith Bool Arith.
From Verif Require Import Base_Model Grid_Model Place_Model Fanout_Model Util_Model Table_Model.
From Verif Require Node_Model Rpc_Model.
From Verif Require Import Peer_Model.
Import ListNotations.
Open Scope Z_scope.

(** distbench.proto 217-228: the endpoints the node managers hand out, as the
    engine reads them; the host name is not looked at. *)
Definition peer_endpoint (x : str * Node_Model.endpoint) : str * endpoint :=
  (fst x, mkEp (Node_Model.ep_address (snd x)) (map (fun a => mkAttr (fst a) (snd a)) (Node_Model.ep_attributes (snd x)))).

(** distbench_engine.h: an engine that is connected: service_name_,
    service_instance_, grid_index_, service_index_, the tables, the peers and
    the client of its (gRPC) driver. *)
Record ready := mkReady {
  rd_type : str; rd_instance : Z; rd_index : grid_index; rd_service : Z; rd_tables : tables; rd_scan : scan; rd_stubs : stubs }.
(** distbench_engine.cc 644-676 Initialize (the server is not modelled) and
    703-874 ConnectToPeers with the gRPC driver; the endpoints are visited in
    the order of [eps].  None: no such engine. *)
Definition prepare (stochastic : str -> option (list (Q * Z))) (answer : nat -> str -> option str) (accept : nat -> str -> bool)
    (setup : list Z -> bool) (address : str -> str) (c : config) (me : str) (g : grid_index) (eps : endpoints) : option ready :=
  match initialize_config stochastic c me g, find (fun s => str_eqb (svc_name s) me) (cf_services c) with
  | TOk t, Some s =>
      let inst := instance_from_grid (sv_spec s) g in
      match connect_to_peers answer accept setup c t me inst eps with
      | (calls, POk sc) =>
          match drive address (mkStubs [] [] []) calls with
          | Some st => Some (mkReady me inst g (fst (index_or_insert me (tb_types t))) t sc st)
          | None => None
          end
      | _ => None
      end
  | _, _ => None
  end.

(** What an iteration draws at random, and the counter of the RPC. *)
Record draws := mkDraws { dw_counter : Z; dw_draw : Z -> Z -> Z; dw_rv : Q; dw_shuffle : list Z -> list Z }.
(** 2381-2391: what PickRpcFanoutTargets reads. *)
Definition fanout_env_of (e : ready) (service : Z) (row : list peer) (b : client_rpc) (d : draws) : fanout_env :=
  mkEnv (service =? rd_service e) (rd_instance e) (rd_index e) (sv_spec (de_server (cr_def b))) (Z.of_nat (length row))
    (dw_counter d) (dw_draw d) (dw_rv d) (dw_shuffle d).

(** [NotInitiated]: 1863-1866 and 1872, InitiateAction returns without an
    iteration function.  [Broken]: a CHECK failed or a vector was read out of
    range.  [ToPeers]: the instances and addresses of the RPCs of an iteration,
    in order.  [ToChannel]: the address of the only RPC. *)
Inductive sending := NotInitiated | Broken | ToPeers (l : list (Z * str)) | ToChannel (address : str).
(** 2178-2182, 2234-2239: servers[peer_instance].pd_id, and where the driver
    sends it. *)
Fixpoint send_all (g : stubs) (row : list peer) (targets : list Z) : option (list (Z * str)) :=
  match targets with
  | [] => Some []
  | v :: r =>
      match vec_at row v with
      | None => None
      | Some p => match rpc_target g (pe_pd p), send_all g row r with Some a, Some l => Some ((v, a) :: l) | _, _ => None end
      end
  end.
(** 1861-1890, 2104-2110, 2178-2254: an iteration of an RPC action. *)
Definition send_rpcs (e : ready) (a : entry) (d : draws) : sending :=
  match vec_at (tb_clients (rd_tables e)) (en_rpc a) with
  | None => Broken
  | Some b =>
      if negb (de_allowed (cr_def b)) then NotInitiated
      else
        match vec_at (sc_peers (rd_scan e)) (en_rpc_service a) with
        | None => Broken
        | Some [] => NotInitiated
        | Some row =>
            if de_channel (cr_def b) =? -1 then
              match pick_targets (fanout_env_of e (en_rpc_service a) row b d) (de_fanout (cr_def b)) with
              | PickUB => Broken
              | PickOk targets => match send_all (rd_stubs e) row targets with Some l => ToPeers l | None => Broken end
              end
            else match channel_target (rd_stubs e) (de_channel (cr_def b)) with Some x => ToChannel x | None => Broken end
        end
  end.

(** The rows of server_rpc_table_ as RpcHandler reads them (Rpc_Model.v). *)
Definition definition_part (d : rpc_definition) : Rpc_Model.rpc_def :=
  Rpc_Model.mkDef (de_joint d) (de_request_index d) (de_response_index d) (de_request_size d) (de_response_size d)
    (match rp_channel (de_spec d) with Some _ => true | None => false end).
Definition server_part (s : server_rpc) : Rpc_Model.server_rpc :=
  Rpc_Model.mkSrv (sr_allowed s) (sr_handler s) (definition_part (sr_def s)).
(** 977-1049: a ready engine handles an RPC; it is not cancelled. *)
Definition receive (scalar : Rpc_Model.scalar_draw) (e : ready) (dedicated : bool) (rq : Rpc_Model.request) : option Rpc_Model.h_result :=
  Rpc_Model.rpc_handler scalar None 0 (map server_part (tb_servers (rd_tables e))) (rd_instance e) dedicated rq.
(** 2112-2189: the requests of an iteration, one for each of [targets] (2256:
    the only one of a multi-server channel is its index).  [h] has the fields of
    the trace; the RPC, its definition and the action's size are the tables'. *)
Definition requests_of (scalar : Rpc_Model.scalar_draw) (joint : Rpc_Model.joint_draw) (incoming : Rpc_Model.request) (warmup : bool) (h : Rpc_Model.hop)
    (e : ready) (a : entry) (targets : list Z) : option (list (Z * Rpc_Model.request * Z)) :=
  match vec_at (tb_clients (rd_tables e)) (en_rpc a) with
  | None => None
  | Some b =>
      Rpc_Model.send_requests scalar joint incoming warmup
        (Rpc_Model.mkHop (Rpc_Model.hp_engine h) (Rpc_Model.hp_invocation h) (Rpc_Model.hp_list h) (Rpc_Model.hp_action h) (Rpc_Model.hp_iteration h)
           (Rpc_Model.hp_warmup_iterations h) (Rpc_Model.hp_count h) (Rpc_Model.hp_interval h) (en_rpc a) (en_request a) (definition_part (cr_def b))) targets
  end.
