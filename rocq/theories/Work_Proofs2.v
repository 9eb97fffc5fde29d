(** Counting the RPCs of a test. *)
From Coq Require Import Ascii String List NArith ZArith QArith Bool Arith Lia Permutation.
From Verif Require Import Base_Model Base_Proofs Grid_Model Grid_Proofs Place_Model Util_Model Net_Model Fanout_Model Table_Model Table_Proofs Table_Proofs2 Table_Props Cli_Model.
From Verif Require Seq_Model Sync_Model Rpc_Model Rpc_Proofs.
From Verif Require Import Seq_Proofs Node_Model Node_Proofs Node_Props Cluster_Model Cluster_Proofs Cluster_Props.
From Verif Require Import Iter_Model Iter_Proofs AList_Model AList_Proofs.
From Verif Require Import Peer_Model Peer_Proofs Peer_Props Deliver_Model Deliver_Proofs Deliver_Props.
From Verif Require Import Log_Model Sum_Model Sum_Proofs Sum_Proofs2 Report_Model Report_Proofs Report_Proofs2 Report_Props.
From Verif Require Import Work_Model Work_Proofs.
Import ListNotations.
Open Scope Z_scope.

(** ** What the configuration prescribes *)
Fixpoint find_last {A} (name : A -> str) (l : list A) (n : str) : option (nat * A) :=
  match l with
  | [] => None
  | x :: r => match find_last name r n with Some (i, y) => Some (S i, y) | None => if str_eqb (name x) n then Some (0%nat, x) else None end
  end.
(** The instances of a service. *)
Definition instances (s : service_desc) : list str := somes (service_names (sv_spec s)).
(** Each instance runs the first action list that is named like its service. *)
Definition main_lists (c : config) : list (str * Z) :=
  flat_map (fun s => match main_list (svc_name s) 0 (cf_lists c) with Some i => map (fun n => (n, Z.of_nat i)) (instances s) | None => [] end) (cf_services c).
(** [n] is an instance of the service that serves the RPC number [z]. *)
Definition serves (c : config) (n : str) (z : nat) : bool :=
  match nth_error (cf_rpcs c) z with
  | Some r => existsb (fun s => str_eqb (svc_name s) (rp_server r) && existsb (str_eqb n) (instances s)) (cf_services c)
  | None => false
  end.
(** The RPC number [z] makes its server run the list number [h]. *)
Definition runs_list (c : config) (z : nat) (h : nat) : bool :=
  match nth_error (cf_rpcs c) z with
  | Some r => match find_last li_name (cf_lists c) (rp_name r) with Some (i, d) => Nat.eqb i h && negb (length (li_actions d) =? 0)%nat | None => false end
  | None => false
  end.
(** The iterations of an action. *)
Definition times (x : run_options) : Z := iteration_limit (ro_iterations x) (ro_count x).
Section Prescribed.
  Variables (c : config) (opts : str -> run_options).
  Definition action_calls (z : nat) (n : str) : Z :=
    match find_last an_name (cf_actions c) n, nth_error (cf_rpcs c) z with
    | Some (_, a), Some r => match an_kind a with KRpc m => if str_eqb m (rp_name r) then times (opts n) else 0 | _ => 0 end
    | _, _ => 0
    end.
  Definition action_nests (h : nat) (n : str) : Z :=
    match find_last an_name (cf_actions c) n with
    | Some (_, a) => match an_kind a with
                     | KList m => match find_last li_name (cf_lists c) m with Some (i, _) => if Nat.eqb i h then times (opts n) else 0 | None => 0 end
                     | _ => 0
                     end
    | None => 0
    end.
  (** How often the list number [j], run once, calls the RPC [z] for each of its
      targets, and runs the list [h]. *)
  Definition list_calls (j z : nat) : Z := match nth_error (cf_lists c) j with Some d => zsum (map (action_calls z) (li_actions d)) | None => 0 end.
  Definition list_nests (j h : nat) : Z := match nth_error (cf_lists c) j with Some d => zsum (map (action_nests h) (li_actions d)) | None => 0 end.
  Definition list_numbers : list nat := seq 0 (length (cf_lists c)).
  (** Every RPC goes to all instances of its server but the client itself. *)
  Definition reached_by (n n' : str) (z : nat) : bool := serves c n' z && negb (str_eqb n n').
  Definition key_is (n : str) (h : nat) (x : str * Z) : bool := str_eqb (fst x) n && (snd x =? Z.of_nat h).
  (** How often the instance [n] runs the list [h], counting chains of at most
      [k] lists that start one another. *)
  Fixpoint expected_runs (k : nat) (n : str) (h : nat) : Z :=
    match k with
    | O => 0
    | S k =>
        len (filter (key_is n h) (main_lists c)) +
        zsum (map (fun j => expected_runs k n j * list_nests j h) list_numbers) +
        zsum (map (fun z => if runs_list c z h
                            then zsum (map (fun m => if reached_by m n z then zsum (map (fun j => expected_runs k m j * list_calls j z) list_numbers) else 0) (names c))
                            else 0) (seq 0 (length (cf_rpcs c))))
    end.
  (** How often [n] calls the RPC [z] of [n']. *)
  Definition expected_rpcs (k : nat) (n n' : str) (z : nat) : Z :=
    if reached_by n n' z then zsum (map (fun j => expected_runs k n j * list_calls j z) list_numbers) else 0.
  (** The lists that start one another can be ordered: chains have fewer than [k] lists. *)
  Definition layered (k : nat) : Prop := exists depth : nat -> nat, (forall j, (j < length (cf_lists c))%nat -> (depth j < k)%nat) /\
    forall j h, (list_nests j h <> 0 \/ exists z, runs_list c z h = true /\ list_calls j z <> 0) -> (depth j < depth h)%nat.
End Prescribed.

(** ** What happens *)
Definition made_by_action (x : action_run) : list entry := flat_map (fun i => map rr_entry (ir_rpcs i)) (ar_iterations x).
Definition made_by_list (x : list_run) : list entry := flat_map made_by_action (lr_actions x).
(** The RPCs made, with the instance that made them. *)
Definition made (l : list list_run) : list (str * entry) := flat_map (fun x => map (pair (lr_instance x)) (made_by_list x)) l.
(** The action lists that were started by others. *)
Definition starts_by_iteration (n : str) (i : iteration_run) : list (str * Z) := map (pair n) (ir_lists i) ++ flat_map rr_lists (ir_rpcs i).
Definition starts_by_action (n : str) (x : action_run) : list (str * Z) := flat_map (starts_by_iteration n) (ar_iterations x).
Definition starts_by_list (x : list_run) : list (str * Z) := flat_map (starts_by_action (lr_instance x)) (lr_actions x).
Definition list_key (x : list_run) : str * Z := (lr_instance x, lr_list x).

Section Execution.
  Variables (o : outside) (r : Seq_Model.registry) (t : whole) (res : test_result) (ws : worlds) (info : Z -> str -> engine -> str) (opts : str -> run_options).
  (** The engine that listens at [x] has handled the request [rq], and runs these lists. *)
  Definition handled (x : str) (rq : Rpc_Model.request) (lists : list (str * Z)) : Prop :=
    exists id n e rd scalar dedicated out, ready_at o r t res ws id n e rd /\ x = add_protocol (ou_address o (info id n e)) /\
      (forall v, scalar v <> None) /\ receive scalar rd dedicated rq = Some out /\ lists = map (pair n) (lists_started out).
  (** distbench_engine.cc 2178-2254: an RPC is recorded with its target; one
      that succeeded was handled, another may have been. *)
  Record rpc_ok (a : Table_Model.entry) (sent : Z * str) (rq : Z * Rpc_Model.request * Z) (x : rpc_run) : Prop := mkRpcOk {
    rk_service : en_service (rr_entry x) = Z.to_nat (en_rpc_service a);
    rk_instance : en_instance (rr_entry x) = Z.to_nat (fst sent);
    rk_rpc : en_rpc (rr_entry x) = Z.to_nat (Table_Model.en_rpc a);
    rk_handled : handled (snd sent) (snd (fst rq)) (rr_lists x) \/ (en_ok (rr_entry x) = false /\ rr_lists x = []) }.
  (** 1846-1895: what an iteration does; replays and activities are not looked
      at, they start neither lists nor recorded RPCs. *)
  Definition iteration_ok (rd : ready) (a : Table_Model.entry) (i : iteration_run) : Prop :=
    match an_kind (en_action a) with
    | KRpc _ => ir_lists i = [] /\ exists sent l warmup, draws_ok (ir_draws i) /\ send_rpcs rd a (ir_draws i) = ToPeers sent /\
        requests_of (ir_scalar i) (ir_joint i) (ir_incoming i) warmup (ir_hop i) rd a (map fst sent) = Some l /\
        length (ir_rpcs i) = length sent /\
        forall q s rq x, nth_error sent q = Some s -> nth_error l q = Some rq -> nth_error (ir_rpcs i) q = Some x -> rpc_ok a s rq x
    | KList _ => ir_lists i = [en_list a] /\ ir_rpcs i = []
    | _ => ir_lists i = [] /\ ir_rpcs i = []
    end.
  (** 1912-2091: the iterations of an action, closed or open loop. *)
  Definition iterated (x : run_options) (ar : action_run) (its : it_state) : Prop :=
    let cfg := iterations_of x (ar_now ar) (ar_warmup ar) in
    closed_run cfg (ar_now ar) (ar_schedule ar) its \/ exists per, open_run cfg per (ar_first ar) (ar_schedule ar) its.
  (** An action that is started and not skipped is iterated, unless it is given
      up; its list learns of its completion from its last iteration; a
      cancellation seen by an iteration is seen by the list. *)
  Record action_ok (rd : ready) (x : run_options) (a : Table_Model.entry) (i : nat) (s : al_state) (ar : action_run) : Prop := mkActionOk {
    ak_none : (forall now, ~ In (LStart i false now) (al_log s)) \/ given_up rd a = true -> ar_iterations ar = [];
    ak_some : is_activity (an_kind (en_action a)) = false -> given_up rd a = false -> forall now, In (LStart i false now) (al_log s) ->
      exists its, iterated x ar its /\ length (ar_iterations ar) = length (starts (it_log its)) /\
        (In (LCall i) (al_log s) -> In ICall (it_log its)) /\ (In ICancel (it_log its) -> In LCancel (al_log s));
    ak_each : forall x, In x (ar_iterations ar) -> iteration_ok rd a x }.
  (** 1311-1516: an engine of the test runs the list, and [s] is reached. *)
  Definition list_run_ok (x : list_run) (s : al_state) : Prop :=
    exists id e rd tl, ready_at o r t res ws id (lr_instance x) e rd /\ vec_at (tb_lists (rd_tables rd)) (lr_list x) = Some tl /\
      al_run (map (fun a => list_action rd (opts (an_name (en_action a))) a) (tl_entries tl)) (lr_predicates x) (lr_schedule x) al_init = AlNext s /\
      length (lr_actions x) = length (tl_entries tl) /\
      forall i a ar, nth_error (tl_entries tl) i = Some a -> nth_error (lr_actions x) i = Some ar -> action_ok rd (opts (an_name (en_action a))) a i s ar.
  (** The lists that are run are those of RunTraffic (876-902) and those that
      are started by an iteration or an RPC, each as often as it is started. *)
  Record execution (P : al_state -> Prop) (l : list list_run) : Prop := mkExecution {
    xe_each : forall x, In x l -> exists s, list_run_ok x s /\ P s;
    xe_all : Permutation (map list_key l) (main_lists (config_of t) ++ flat_map starts_by_list l) }.
End Execution.
(** No two engines listen at the same address. *)
Definition apart (o : outside) (r : Seq_Model.registry) (ws : worlds) (info : Z -> str -> engine -> str) : Prop :=
  forall id n e id' n' e', occupied r id -> occupied r id' -> engine_at (wo_introduced ws) id n e -> engine_at (wo_introduced ws) id' n' e' ->
    add_protocol (ou_address o (info id n e)) = add_protocol (ou_address o (info id' n' e')) -> n = n'.
