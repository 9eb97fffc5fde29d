(** Protocol driver allocation (protocol_driver_allocator.cc), the two
    composite drivers (protocol_driver_double_barrel.cc,
    composable_rpc_counter.cc) and the option lookup of
    distbench_node_manager.cc.  Definitions only. *)
From Coq Require Import Ascii String List NArith ZArith Bool Arith.
From Verif Require Import Base_Model Util_Model.
Import ListNotations.
Open Scope nat_scope.

Definition protocol_name (o : driver_opts) : str := opt_str (po_protocol o).
Definition set_protocol (p : str) (o : driver_opts) : driver_opts :=
  mkOpts (po_name o) (Some p) (po_netdev o) (po_server o) (po_client o) (po_ip_version o).
Definition set_server (l : list setting) (o : driver_opts) : driver_opts :=
  mkOpts (po_name o) (po_protocol o) (po_netdev o) l (po_client o) (po_ip_version o).

(** A successfully initialised driver.  Leaves remember their options. *)
Inductive driver :=
  | DGrpc (o : driver_opts)
  | DHoma (o : driver_opts)
  | DMercury (o : driver_opts)
  | DDouble (d1 d2 : driver)
  | DCounter (d : driver).
Inductive alloc_error :=
  | EDepth                       (* FailedPrecondition: tree too deep *)
  | ENoResolver                  (* InvalidArgument *)
  | EUnresolved (name : str)     (* NotFound from the resolver *)
  | EInit (e : str).             (* error of a leaf's Initialize *)
Inductive driver_result := DrvOk (d : driver) | DrvError (e : alloc_error) | DrvDiverges.

(** The environment of an allocation: compile-time switches, the resolver (none
    if not set) and the outcome of each leaf's Initialize, which may depend on
    where in the tree it is (gRPC, Homa and Mercury initialisation is external
    to this model). *)
Record alloc_env := mkEnv {
  ev_homa : bool; ev_mercury : bool;
  ev_resolver : option (str -> option driver_opts);
  ev_init : list nat -> driver_opts -> option str }.

(** protocol_driver_double_barrel.cc 44-51, composable_rpc_counter.cc 43-50:
    the last server setting with the key gives the protocol name and is
    removed.  Note that [name()] and [string_value()] of an unset field are
    empty. *)
Fixpoint last_with (k : str) (l : list setting) : option (list setting * setting * list setting) :=
  match l with
  | [] => None
  | s :: r =>
      match last_with k r with
      | Some (a, x, b) => Some (s :: a, x, b)
      | None => if str_eqb (opt_str (st_name s)) k then Some ([], s, r) else None
      end
  end.
Definition next_opts (k : str) (o : driver_opts) : driver_opts :=
  match last_with k (po_server o) with
  | Some (a, x, b) => set_server (a ++ b) (set_protocol (opt_str (st_str x)) o)
  | None => o
  end.

(** protocol_driver_allocator.cc 34. *)
Definition max_depth : nat := 4.
Definition leaf (mk : driver_opts -> driver) (e : option str) (o : driver_opts) : driver_result :=
  match e with None => DrvOk (mk o) | Some m => DrvError (EInit m) end.
(** protocol_driver_allocator.cc 45-84: AllocateProtocolDriver, with
    protocol_driver_double_barrel.cc 38-64 and composable_rpc_counter.cc 37-57
    (Initialize).  The C++ recursion has no other bound than the depth test, so
    the model carries fuel and reports running out of it as divergence.
    [path] only names the position for [ev_init]. *)
Fixpoint allocate (fuel : nat) (ev : alloc_env) (o : driver_opts) (depth : nat) (path : list nat) : driver_result :=
  match fuel with
  | O => DrvDiverges
  | S f =>
      if depth =? max_depth then DrvError EDepth
      else
        let p := protocol_name o in
        if str_eqb p (s_ "grpc") || str_eqb p (s_ "grpc_async_callback") then leaf DGrpc (ev_init ev path o) o
        else if str_eqb p (s_ "double_barrel") then
          let o' := next_opts (s_ "next_protocol_driver") o in
          match allocate f ev o' (depth + 1) (path ++ [1]) with
          | DrvOk d1 =>
              match allocate f ev o' (depth + 1) (path ++ [2]) with
              | DrvOk d2 => DrvOk (DDouble d1 d2)
              | r => r
              end
          | r => r
          end
        else if str_eqb p (s_ "composable_rpc_counter") then
          match allocate f ev (next_opts (s_ "driver_under_test") o) (depth + 1) (path ++ [1]) with
          | DrvOk d => DrvOk (DCounter d)
          | r => r
          end
        else if ev_homa ev && str_eqb p (s_ "homa") then leaf DHoma (ev_init ev path o) o
        else if ev_mercury ev && str_eqb p (s_ "mercury") then leaf DMercury (ev_init ev path o) o
        else
          match ev_resolver ev with
          | None => DrvError ENoResolver
          | Some res =>
              match res p with
              | None => DrvError (EUnresolved p)
              | Some o' => allocate f ev o' (depth + 1) path
              end
          end
  end.

(** distbench_node_manager.cc 34-45: ResolveProtocolDriverAlias. *)
Fixpoint resolve_alias (table : list driver_opts) (p : str) : option driver_opts :=
  match table with
  | [] => None
  | o :: r =>
      if str_eqb (opt_str (po_name o)) p
         || (match p with [] => true | _ => false end
             && str_eqb (opt_str (po_name o)) (s_ "default_protocol_driver_options"))
      then Some o else resolve_alias r p
  end.
(** The fields of a ServiceSpec this file reads. *)
Record service_driver := mkSD { sd_name : str; sd_options : option str }.
(** distbench_node_manager.cc 128-137: the options name of a service type;
    [None] is the error for an empty name. *)
Fixpoint options_name (services : list service_driver) (ty : str) (cur : str) : option str :=
  match services with
  | [] => Some cur
  | s :: r =>
      if negb (str_eqb (sd_name s) ty) then options_name r ty cur
      else match sd_options s with
           | None => options_name r ty cur
           | Some [] => None
           | Some n => options_name r ty n
           end
  end.
Definition set_name (n : str) (o : driver_opts) : driver_opts :=
  mkOpts (Some n) (po_protocol o) (po_netdev o) (po_server o) (po_client o) (po_ip_version o).
Definition set_netdev (n : str) (o : driver_opts) : driver_opts :=
  mkOpts (po_name o) (po_protocol o) (Some n) (po_server o) (po_client o) (po_ip_version o).
Definition empty_opts : driver_opts := mkOpts None None None [] [] 0%Z.
(** distbench_node_manager.cc 123-150: GetProtocolDriverOptionsFor. *)
Definition options_for (services : list service_driver) (table : list driver_opts) (ty default_protocol netdev : str)
  : option driver_opts :=
  match options_name services ty [] with
  | None => None
  | Some n =>
      let o0 := match resolve_alias table n with Some o => o | None => empty_opts end in
      let o1 := match n with [] => set_name (s_ "generated_default") o0 | _ => o0 end in
      let o2 := match po_protocol o1 with None => set_protocol default_protocol o1 | Some _ => o1 end in
      Some (match po_netdev o2 with None => set_netdev netdev o2 | Some _ => o2 end)
  end.

(** ** Use of the composite drivers *)
(** Statistics by driver, with the counters of every ComposableRpcCounter.
    A running tree: leaves count the RPCs they were asked to initiate. *)
Inductive tree :=
  | TLeaf (initiated : nat)
  | TDouble (use_instance_1 : Z) (t1 t2 : tree)
  | TCounter (client server : Z) (t : tree).
(** The 64-bit counters of ComposableRpcCounter are unbounded integers here.
    A freshly allocated tree (protocol_driver_double_barrel.h: the atomic
    use_instance_1_ starts at 1; composable_rpc_counter.h: both counters at 0). *)
Fixpoint fresh (d : driver) : tree :=
  match d with
  | DGrpc _ | DHoma _ | DMercury _ => TLeaf 0
  | DDouble d1 d2 => TDouble 1 (fresh d1) (fresh d2)
  | DCounter d => TCounter 0 0 (fresh d)
  end.
(** fetch_add on std::atomic<int> wraps around. *)
Definition fetch_add (z : Z) : Z := narrow (z + 1).

(** Threads calling InitiateRpc concurrently.  A call walks down the tree; its
    position is the list of instances chosen so far.  One atomic step per
    visited node: protocol_driver_double_barrel.cc 119-128 picks the instance
    and counts, composable_rpc_counter.cc 98-104 passes through and counts
    afterwards on the way back, a leaf receives the RPC. *)
Inductive call_state :=
  | CDown (path : list nat)           (* about to enter the node at path *)
  | CUp (path : list nat)             (* returning from the node at path *)
  | CDone.
Inductive step_result := Stepped (t : tree) (c : call_state) | Stuck.
(** What a call does at the node where it is. *)
Inductive local_result :=
  | LGo (t : tree) (ext : list nat)   (* moved down: extension of the position *)
  | LBack (t : tree)                  (* finished this node, going up *)
  | LBad.
(** The step at the node the call is about to enter. *)
Definition enter (t : tree) : local_result :=
  match t with
  | TLeaf n => LBack (TLeaf (S n))
  | TDouble c t1 t2 => LGo (TDouble (fetch_add c) t1 t2) [if Z.odd c then 1 else 2]
  | TCounter a b t' => LGo t [1]
  end.
(** The step at a node whose callee returned. *)
Definition leave (t : tree) : local_result :=
  match t with
  | TLeaf _ => LBad
  | TDouble _ _ _ => LBack t
  | TCounter a b t' => LBack (TCounter (a + 1) b t')
  end.
(** Apply [f] at the node at [path]. *)
Fixpoint at_path (f : tree -> local_result) (path : list nat) (t : tree) : local_result :=
  match path with
  | [] => f t
  | i :: r =>
      match t with
      | TLeaf _ => LBad
      | TDouble c t1 t2 =>
          if i =? 1 then match at_path f r t1 with
                         | LGo t' e => LGo (TDouble c t' t2) e
                         | LBack t' => LBack (TDouble c t' t2)
                         | LBad => LBad end
          else if i =? 2 then match at_path f r t2 with
                         | LGo t' e => LGo (TDouble c t1 t') e
                         | LBack t' => LBack (TDouble c t1 t')
                         | LBad => LBad end
          else LBad
      | TCounter a b t1 =>
          if i =? 1 then match at_path f r t1 with
                         | LGo t' e => LGo (TCounter a b t') e
                         | LBack t' => LBack (TCounter a b t')
                         | LBad => LBad end
          else LBad
      end
  end.
(** A call at [CUp path] has completed the node at [path]: its caller is the
    node at [removelast path]. *)
Definition call_step (t : tree) (c : call_state) : step_result :=
  match c with
  | CDone => Stuck
  | CDown path =>
      match at_path enter path t with
      | LGo t' e => Stepped t' (CDown (path ++ e))
      | LBack t' => Stepped t' (CUp path)
      | LBad => Stuck
      end
  | CUp [] => Stepped t CDone
  | CUp path =>
      let caller := removelast path in
      match at_path leave caller t with
      | LBack t' => Stepped t' (CUp caller)
      | _ => Stuck
      end
  end.
(** A system: the shared tree and the state of each call made so far; calls
    start at the root and any of them may take the next step. *)
Record system := mkSys { sy_tree : tree; sy_calls : list call_state }.
Inductive action := ANew | AStep (i : nat).
Fixpoint set_nth {A} (i : nat) (x : A) (l : list A) : list A :=
  match l, i with
  | [], _ => []
  | _ :: r, O => x :: r
  | y :: r, S i' => y :: set_nth i' x r
  end.
Definition sys_step (s : system) (a : action) : option system :=
  match a with
  | ANew => Some (mkSys (sy_tree s) (sy_calls s ++ [CDown []]))
  | AStep i =>
      match nth_error (sy_calls s) i with
      | None => None
      | Some c => match call_step (sy_tree s) c with
                  | Stepped t c' => Some (mkSys t (set_nth i c' (sy_calls s)))
                  | Stuck => None
                  end
      end
  end.
Fixpoint sys_run (s : system) (l : list action) : option system :=
  match l with
  | [] => Some s
  | a :: r => match sys_step s a with Some s' => sys_run s' r | None => None end
  end.

(** composable_rpc_counter.cc 59-67: the wrapped handler of a counter counts
    each RPC it is given; a double barrel hands the same handler to both
    instances (protocol_driver_double_barrel.cc 66-70), so an RPC arriving at
    the leaf at [path] is counted by every counter above it. *)
Fixpoint arrive (path : list nat) (t : tree) : option tree :=
  match t, path with
  | TLeaf _, [] => Some t
  | TDouble c t1 t2, i :: r =>
      if i =? 1 then option_map (fun t' => TDouble c t' t2) (arrive r t1)
      else if i =? 2 then option_map (fun t' => TDouble c t1 t') (arrive r t2) else None
  | TCounter a b t1, 1 :: r => option_map (TCounter a (b + 1)) (arrive r t1)
  | _, _ => None
  end.
(** GetTransportStats: protocol_driver_double_barrel.cc 98-117,
    composable_rpc_counter.cc 90-96.  [leaf_stats path] are the statistics the
    leaf drivers report themselves. *)
Fixpoint stats (leaf_stats : list nat -> list (str * Z)) (path : list nat) (t : tree) : list (str * Z) :=
  match t with
  | TLeaf _ => leaf_stats path
  | TDouble _ t1 t2 =>
      map (fun x => (s_ "instance_1/" ++ fst x, snd x)) (stats leaf_stats (path ++ [1]) t1)
      ++ map (fun x => (s_ "instance_2/" ++ fst x, snd x)) (stats leaf_stats (path ++ [2]) t2)
  | TCounter a b t1 =>
      stats leaf_stats (path ++ [1]) t1 ++ [(s_ "client_rpc_cnt", a); (s_ "server_rpc_cnt", b)]
  end.
(** HandlePreConnect of double barrel uses instance 1 only
    (protocol_driver_double_barrel.cc 79-83): the leaf whose server address a
    client is given. *)
Fixpoint server_leaf (t : tree) : list nat :=
  match t with
  | TLeaf _ => []
  | TDouble _ t1 _ => 1 :: server_leaf t1
  | TCounter _ _ t1 => 1 :: server_leaf t1
  end.
