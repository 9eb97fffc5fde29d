(** Composite drivers with the gRPC clients below them: double barrels and RPC
    counters (the tree of Driver_Model.v) whose leaves are the clients of
    Grpc_Model.v, calls of InitiateRpc by many threads and from callbacks, and
    ShutdownClient.  Definitions only.

    All leaves are gRPC drivers; connections and servers are not part of this
    (Conn_Model.v, Gsrv_Model.v). *)
From Coq Require Import Ascii String List NArith ZArith Bool Arith.
From Verif Require Import Base_Model Driver_Model Grpc_Model.
Import ListNotations.
Open Scope nat_scope.

(** A call of InitiateRpc on the composite: its arguments, the call inside whose
    done_callback it is made (if any), and which RPC of which client it became. *)
Record cinfo := mkCi { ci_peer : nat; ci_request : str; ci_parent : option nat; ci_rpc : option (list nat * nat) }.
(** The thread in ShutdownClient: protocol_driver_double_barrel.cc:135-138,
    composable_rpc_counter.cc:110, protocol_driver_grpc.cc:506-510; [KAt entered
    p rest]: at the client at [p] (inside its ShutdownClient or about to enter
    it), [rest] still to come. *)
Inductive kshut := KNot | KAt (entered : bool) (p : list nat) (rest : list (list nat)) | KDone.
(** [p_sys]: the tree and where each call is in it; [p_leaf]: the clients.
    done_callback is handed down unchanged
    (protocol_driver_double_barrel.cc:119-128, composable_rpc_counter.cc:98-104,
    protocol_driver_grpc.cc:491-494), so the calls of it are those of the client. *)
Record comp := mkComp { p_sys : system; p_info : list cinfo; p_leaf : list nat -> option (kind * client); p_shut : kshut }.
Inductive kaction :=
  | KInitiate (peer : nat) (request : str) (parent : option nat)
  | KThread (j : nat)                  (* the thread in call [j] *)
  | KClient (p : list nat) (a : caction)   (* gRPC and the threads of the client at [p] *)
  | KShutdown.
Inductive kresult := KNext (x : comp) | KCrash (c : crash) | KStuck.

Definition path_eqb (p q : list nat) : bool := if list_eq_dec Nat.eq_dec p q then true else false.
(** The transports of a tree, in the order in which a call that is passed to
    instance_1_ and then to instance_2_ reaches them. *)
Fixpoint leaf_paths (p : list nat) (t : tree) : list (list nat) :=
  match t with
  | TLeaf _ => [p]
  | TDouble _ t1 t2 => leaf_paths (p ++ [1]) t1 ++ leaf_paths (p ++ [2]) t2
  | TCounter _ _ t1 => leaf_paths (p ++ [1]) t1
  end.
Definition set_leaf (p : list nat) (k : kind) (s : client) (x : comp) : comp :=
  mkComp (p_sys x) (p_info x) (fun q => if path_eqb q p then Some (k, s) else p_leaf x q) (p_shut x).
Definition set_info (j : nat) (i : cinfo) (x : comp) : comp := mkComp (p_sys x) (lset j i (p_info x)) (p_leaf x) (p_shut x).
Definition set_kshut (s : kshut) (x : comp) : comp := mkComp (p_sys x) (p_info x) (p_leaf x) s.
(** The RPC of a client. *)
Definition rpc_at (x : comp) (p : list nat) (i : nat) : option rpc :=
  match p_leaf x p with Some (_, s) => nth_error (c_rpcs s) i | None => None end.
(** Call [j] is inside done_callback. *)
Definition in_done (x : comp) (j : nat) : bool :=
  match nth_error (p_info x) j with
  | Some (mkCi _ _ _ (Some (p, i))) =>
      match rpc_at x p i with Some r => match r_phase r with Calling => true | _ => false end | None => false end
  | _ => false
  end.
(** A call made inside the done_callback of call [j] has not returned. *)
Definition calls_below (x : comp) (j : nat) : bool :=
  existsb (fun e => match e with
                    | (CDone, _) => false
                    | (_, i) => match ci_parent i with Some j' => Nat.eqb j' j | None => false end
                    end) (combine (sy_calls (p_sys x)) (p_info x)).
(** The call that became RPC [i] of the client at [p]. *)
Definition is_call (p : list nat) (i : nat) (c : cinfo) : bool :=
  match ci_rpc c with Some (q, n) => path_eqb q p && Nat.eqb n i | None => false end.
(** The done_callback of this RPC may not return yet. *)
Definition held_up (x : comp) (p : list nat) (i : nat) : bool :=
  match rpc_at x p i with
  | Some r => match r_phase r with
              | Calling => existsb (fun j => match nth_error (p_info x) j with Some c => is_call p i c && calls_below x j | None => false end)
                             (seq 0 (length (p_info x)))
              | _ => false
              end
  | None => false
  end.
Definition tree_step (j : nat) (x : comp) : kresult :=
  match sys_step (p_sys x) (AStep j) with
  | Some s => KNext (mkComp s (p_info x) (p_leaf x) (p_shut x))
  | None => KStuck
  end.
(** A step of the client at [p]. *)
Definition client_step (p : list nat) (a : caction) (x : comp) : kresult :=
  match p_leaf x p with
  | None => KStuck
  | Some (k, s) => match cstep k a s with
                   | Next s' => KNext (set_leaf p k s' x)
                   | Crash c => KCrash c
                   | Stuck => KStuck
                   end
  end.
(** The thread in call [j]: down the tree (protocol_driver_double_barrel.cc:122-126,
    composable_rpc_counter.cc:101), through InitiateRpc of the client, and back
    (composable_rpc_counter.cc:102-103). *)
Definition thread_step (j : nat) (x : comp) : kresult :=
  match nth_error (sy_calls (p_sys x)) j, nth_error (p_info x) j with
  | Some (CDown p), Some ci =>
      match p_leaf x p with
      | None => tree_step j x
      | Some (k, s) =>
          match client_step p (Initiate (ci_peer ci) (ci_request ci) None) x with
          | KNext x' => tree_step j (set_info j (mkCi (ci_peer ci) (ci_request ci) (ci_parent ci) (Some (p, length (c_rpcs s)))) x')
          | e => e
          end
      end
  | Some (CUp p), Some ci =>
      match ci_rpc ci with
      | Some (q, i) =>
          match rpc_at x q i with
          | Some r => if starting r then client_step q (Advance i) x else tree_step j x
          | None => KStuck
          end
      | None => KStuck
      end
  | _, _ => KStuck
  end.
(** Other threads of a client; a done_callback returns only when the calls it
    made have. *)
Definition background (x : comp) (p : list nat) (a : caction) : bool :=
  match p_leaf x p with
  | None => false
  | Some (_, s) =>
      match a with
      | Wire _ _ _ => true
      | Advance i => match nth_error (c_rpcs s) i with Some r => negb (starting r) && negb (held_up x p i) | None => false end
      | Poll _ => match c_poller s with PoServe i => negb (held_up x p i) | _ => true end
      | Initiate _ _ _ | Shutdown => false
      end
  end.
Definition shutdown_step (x : comp) : kresult :=
  match p_shut x with
  | KNot | KDone =>
      match leaf_paths [] (sy_tree (p_sys x)) with
      | p :: rest => KNext (set_kshut (KAt false p rest) x)
      | [] => KStuck
      end
  | KAt entered p rest =>
      match p_leaf x p with
      | None => KStuck
      | Some (k, s) =>
          match entered, c_shut s with
          | true, ShDone => KNext (set_kshut (match rest with [] => KDone | q :: r => KAt false q r end) x)
          | _, _ => match client_step p Shutdown x with KNext x' => KNext (set_kshut (KAt true p rest) x') | e => e end
          end
      end
  end.
Definition kstep (a : kaction) (x : comp) : kresult :=
  match a with
  | KInitiate peer request parent =>
      let ok := match parent with None => true | Some j => in_done x j && negb (calls_below x j) end in
      if ok then match sys_step (p_sys x) ANew with
                 | Some s => KNext (mkComp s (p_info x ++ [mkCi peer request parent None]) (p_leaf x) (p_shut x))
                 | None => KStuck
                 end
      else KStuck
  | KThread j => thread_step j x
  | KClient p a => if background x p a then client_step p a x else KStuck
  | KShutdown => shutdown_step x
  end.
(** Runs a schedule; impossible actions are skipped. *)
Fixpoint krun (l : list kaction) (x : comp) : kresult :=
  match l with
  | [] => KNext x
  | a :: r => match kstep a x with KNext x' => krun r x' | KCrash c => KCrash c | KStuck => krun r x end
  end.
(** A tree of clients of some kinds, each with its stubs. *)
Definition kstart (d : driver) (kinds : list nat -> kind) (stubs : list nat -> list bool) : comp :=
  mkComp (mkSys (fresh d) []) []
    (fun p => if existsb (path_eqb p) (leaf_paths [] (fresh d)) then Some (kinds p, start_client (stubs p)) else None) KNot.
