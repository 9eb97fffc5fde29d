(** Several node managers in one process: --local_nodes (distbench_busybox.cc
    325-343) and the tester.  They share the resolver of protocol driver aliases
    and the thread limit.  Definitions only. *)
From Coq Require Import Ascii String List NArith ZArith Bool Arith.
From Verif Require Import Base_Model Grid_Model Place_Model Util_Model Net_Model Driver_Model Node_Model.
Import ListNotations.
Open Scope nat_scope.

(** distbench_node_manager.cc 152-170: AllocService as in Node_Model.v, with the
    resolver that is set in the process. *)
Definition alloc_in (res : option (str -> option driver_opts)) (ne : node_env) (ex : externals) (name ty : str) (g : grid_index) (s : node) : alloc_outcome :=
  match options_for (tc_services (nd_traffic s)) (tc_options (nd_traffic s)) ty (tc_protocol (nd_traffic s)) (ne_data ne) with
  | None => AllocFailed s (s_ "options")
  | Some o =>
      match allocate 5 (mkEnv (ne_homa ne) (ne_mercury ne) res (ex_driver ex (nd_next s))) o 0 [] with
      | DrvDiverges => AllocCrash
      | DrvError _ => AllocFailed s (s_ "driver")
      | DrvOk _ =>
          let id := nd_next s in
          let s1 := log (EvCreate id) (fresh_id s) in
          match ex_engine ex id with
          | inr m => AllocFailed (log (EvDestroy id) s1) m
          | inl port =>
              let e := mkEngine id ty g port None false None in
              let s2 := match map_find name (nd_engines s) with
                        | Some old => logs (destroy_events old) s1
                        | None => s1
                        end in
              AllocDone (set_engines (omap_set name e (nd_engines s)) s2) port
          end
      end
  end.

(** One ConfigureNode in progress: the instances left and the endpoints so far. *)
Record job := mkJob { jb_names : list str; jb_eps : list (str * endpoint) }.
(** A node manager: fixed properties, the outcomes of what is not modelled, its
    state, the ConfigureNode that has its mutex_, and the replies it gave. *)
Record manager := mkManager {
  hm_env : node_env; hm_ext : externals; hm_node : node; hm_job : option job;
  hm_replies : list (reply * list (str * endpoint)) }.
(** The process: node managers by the order of construction ([None]: destroyed);
    alias_resolver_ (protocol_driver_allocator.cc 36-37) by the node manager it
    was set by; abort_max_threads (distbench_thread_support.cc 32); whether a
    CHECK failed or the stack overflowed. *)
Record host := mkHost { ho_managers : list (option manager); ho_resolver : option nat; ho_threads : Z; ho_crashed : bool }.
Definition host0 : host := mkHost [] None 0 false.

Fixpoint replace_at {A} (k : nat) (x : A) (l : list A) : list A :=
  match l, k with
  | [], _ => []
  | _ :: r, O => x :: r
  | y :: r, S j => y :: replace_at j x r
  end.
Definition manager_at (s : host) (k : nat) : option manager :=
  match nth_error (ho_managers s) k with Some (Some m) => Some m | _ => None end.
Definition set_manager (k : nat) (m : option manager) (s : host) : host :=
  mkHost (replace_at k m (ho_managers s)) (ho_resolver s) (ho_threads s) (ho_crashed s).
(** The function alias_resolver_ holds: it reads traffic_config_ of the node
    manager that set it, as it is now and without its mutex_ (47-53, 34-45).
    A node manager that is destroyed resets it, so it never refers to one that
    is not there. *)
Definition resolver_of (s : host) : option (str -> option driver_opts) :=
  match ho_resolver s with
  | None => None
  | Some j => match manager_at s j with
              | Some m => Some (resolve_alias (tc_options (nd_traffic (hm_node m))))
              | None => None
              end
  end.

Inductive hevent :=
  | HNew (ne : node_env) (ex : externals) (nd : node)  (* NodeManager(); [nd]: its initial state *)
  | HDelete (k : nat)                                  (* ~NodeManager() *)
  | HBegin (k : nat) (t : traffic) (names : list str)  (* ConfigureNode has mutex_ *)
  | HNext (k : nat).                                   (* its loop: next instance, or return *)

Definition finish (r : reply) (eps : list (str * endpoint)) (nd : node) (m : manager) : manager :=
  mkManager (hm_env m) (hm_ext m) nd None (hm_replies m ++ [(r, eps)]).
Definition host_step (e : hevent) (s : host) : option host :=
  if ho_crashed s then None
  else
  match e with
  (** distbench_node_manager.cc 47-53. *)
  | HNew ne ex nd => Some (mkHost (ho_managers s ++ [Some (mkManager ne ex nd None [])]) (Some (length (ho_managers s))) (ho_threads s) false)
  (** 275-285: after the resolver is reset the server is shut down, which waits
      for ConfigureNode; shown as one step once it has returned. *)
  | HDelete k =>
      match manager_at s k with
      | Some m => match hm_job m with
                  | None => let s' := set_manager k None s in Some (mkHost (ho_managers s') None (ho_threads s') false)
                  | Some _ => None
                  end
      | None => None
      end
  (** 55-65. *)
  | HBegin k t names =>
      match manager_at s k with
      | Some m =>
          match hm_job m with
          | Some _ => None
          | None =>
              let nd := hm_node m in
              let nd1 := mkNode t (nd_threshold nd) (nd_peers nd) (nd_engines nd) (nd_next nd) (nd_log nd) in
              if (tc_max_threads t <=? 0)%Z then Some (set_manager k (Some (finish RInvalid [] nd1 m)) s)
              else
                let nd2 := clear_services (mkNode t (tc_max_threads t) (nd_peers nd) (nd_engines nd) (nd_next nd) (nd_log nd)) in
                let s' := set_manager k (Some (mkManager (hm_env m) (hm_ext m) nd2 (Some (mkJob names [])) (hm_replies m))) s in
                Some (mkHost (ho_managers s') (ho_resolver s') (tc_max_threads t) false)
          end
      | None => None
      end
  (** 67-118. *)
  | HNext k =>
      match manager_at s k with
      | Some m =>
          match hm_job m with
          | None => None
          | Some (mkJob [] eps) => Some (set_manager k (Some (finish ROk eps (hm_node m) m)) s)
          | Some (mkJob (name :: r) eps) =>
              let parts := split_slash name in
              let crash := mkHost (ho_managers s) (ho_resolver s) (ho_threads s) true in
              if length parts <? 2 then Some crash
              else match grid_index_from_name name with
                   | None => Some crash
                   | Some g =>
                       match alloc_in (resolver_of s) (hm_env m) (hm_ext m) name (nth 0 parts []) g (hm_node m) with
                       | AllocCrash => Some crash
                       | AllocFailed nd msg => Some (set_manager k (Some (finish (RUnknown msg) [] nd m)) s)
                       | AllocDone nd port =>
                           match socket_for_device (ne_ifs (hm_env m)) (ne_flag (hm_env m)) (ne_control (hm_env m)) port with
                           | None => Some (set_manager k (Some (finish (RUnknown (s_ "address")) [] nd m)) s)
                           | Some a =>
                               Some (set_manager k (Some (mkManager (hm_env m) (hm_ext m) nd
                                 (Some (mkJob r (map_set name (mkEp a (ne_hostname (hm_env m)) (ne_attributes (hm_env m) ++ grid_attributes name g)) eps))) (hm_replies m))) s)
                           end
                       end
                   end
          end
      | None => None
      end
  end.
Fixpoint host_run (l : list hevent) (s : host) : option host :=
  match l with
  | [] => Some s
  | e :: r => match host_step e s with Some s' => host_run r s' | None => None end
  end.
