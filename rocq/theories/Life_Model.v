(** The life of a sequencer and of its node managers: start, registration,
    shutdown.  Definitions only.
    - Threads: the main thread of the sequencer's process, one main thread per
      node manager that is not local to it, the handlers of RegisterNode and
      RunTestSequence in the sequencer, and the handlers of each node manager.
    - grpc::Server::Shutdown() (no deadline) refuses further calls and returns
      when no handler is running; Wait() then returns at once.
    - ClientContext deadlines: an RPC may fail at any time, whether or not its
      handler has run; its request may reach the server later.
    - mutex_ of the sequencer is held for one step; what runs under it while
      waiting (CancelTraffic) only delays the others. *)
From Coq Require Import Ascii String List NArith ZArith Bool Arith.
From Verif Require Import Base_Model Place_Model Seq_Model Cli_Model.
Import ListNotations.
Open Scope nat_scope.

(** ** Node managers *)
(** distbench_node_manager.cc 287-367, 267-285: where the thread that owns the
    node manager is.
    - [NNew]: before Initialize started the server.
    - [NRegistering]: RegisterNode sent, under config_mutex_ (346-353).
    - [NServing]: Initialize returned OK.
    - [NFailing]: registration failed, in grpc_server_->Shutdown() under
      config_mutex_ (354-358).
    - [NClosing]: in grpc_server_->Shutdown() of Wait or Shutdown.
    - [NGone]: the server is down (or was never started) and shutdown_requested_
      notified. *)
Inductive nphase := NNew | NRegistering | NServing | NFailing | NClosing | NGone.
(** An RPC ShutdownNode: which of the two calls of TestSequencer::Shutdown sent
    it, and the index in registered_nodes_. *)
Definition tag : Type := nat * Z.
(** A handler in progress.  [HStop t b]: ShutdownNode; [b]: it notified, so it
    calls NodeAlias() (251-258).  [HCall b]: another handler; [b]: it has yet to
    call NodeAlias() (CancelTraffic 236 and 241, GetTrafficResult 229). *)
Inductive handler := HStop (t : tag) (named : bool) | HCall (named : bool).
Record lnode := mkLN {
  ln_req : reg_request;         (* what it registers with *)
  ln_phase : nphase;
  ln_told : bool;               (* shutdown_requested_ *)
  ln_handlers : list handler }.
Definition set_phase (p : nphase) (n : lnode) : lnode := mkLN (ln_req n) p (ln_told n) (ln_handlers n).
Definition set_told (n : lnode) : lnode := mkLN (ln_req n) (ln_phase n) true (ln_handlers n).
Definition set_handlers (l : list handler) (n : lnode) : lnode := mkLN (ln_req n) (ln_phase n) (ln_told n) l.

(** The server is up: started by Initialize (306), not yet shut down. *)
Definition accepting (n : lnode) : bool :=
  match ln_phase n with NRegistering | NServing => true | _ => false end.
(** config_mutex_ is held by Initialize (346 up to its return). *)
Definition config_locked (n : lnode) : bool :=
  match ln_phase n with NRegistering | NFailing => true | _ => false end.
Definition needs_name (h : handler) : bool := match h with HStop _ b => b | HCall b => b end.
Definition idle (n : lnode) : bool := match ln_handlers n with [] => true | _ => false end.

(** distbench_node_manager.cc 251-258: ShutdownNode starts. *)
Definition begin_stop (t : tag) (n : lnode) : lnode :=
  set_told (set_handlers (ln_handlers n ++ [HStop t (negb (ln_told n))]) n).
(** 267-273, 354-358: the next step of the thread that owns the node manager,
    in Wait or in the failing branch of Initialize; [None]: it is blocked. *)
Definition owner_step (n : lnode) : option lnode :=
  match ln_phase n with
  | NServing => if ln_told n then Some (set_phase NClosing n) else None
  | NClosing => if idle n then Some (set_phase NGone n) else None
  | NFailing => if idle n then Some (set_told (set_phase NGone n)) else None
  | _ => None
  end.

(** ** The sequencer *)
(** Where the main thread is (distbench_busybox.cc 313-355, MainTestSequencer;
    distbench_test_sequencer.cc 636-699).
    - [MStart j]: starting the j-th local node manager.
    - [MWait]: shutdown_requested_.WaitForNotification() of Wait.
    - [MSend r]: the r-th call of Shutdown, before it sends (r = 1: from Wait,
      r = 2: from the destructor).
    - [MCollect r]: in its loop over the completion queue (665-677).
    - [MClose r]: in grpc_server_->Shutdown() (680).
    - [MLocal j]: Wait returned; stopping the j-th local node manager.
    - [MDone]: the destructor returned.  [MCrash]: a null stub was
      called, or RegisterNode had undefined behaviour (C11). *)
Inductive mphase := MStart (j : nat) | MWait | MSend (r : nat) | MCollect (r : nat) | MClose (r : nat)
  | MLocal (j : nat) | MDone | MCrash.
Record life := mkLife {
  lf_nodes : list lnode;
  lf_reg : registry;
  lf_asked : bool;               (* shutdown_requested_ of the sequencer *)
  lf_up : bool;                  (* its server accepts calls *)
  lf_sequences : nat;            (* RunTestSequence handlers in progress *)
  lf_registering : list nat;     (* nodes whose RegisterNode has been accepted and has not run *)
  lf_replies : list (nat * reg_result);  (* replies to RegisterNode *)
  lf_main : mphase;
  lf_sent : list tag;            (* ShutdownNode RPCs ever sent *)
  lf_delivered : list tag;       (* those that reached a handler *)
  lf_returned : list tag;        (* those whose handler returned *)
  lf_wait : list tag }.          (* those whose completion is waited for *)

Definition with_nodes (l : list lnode) (s : life) : life :=
  mkLife l (lf_reg s) (lf_asked s) (lf_up s) (lf_sequences s) (lf_registering s) (lf_replies s) (lf_main s) (lf_sent s) (lf_delivered s) (lf_returned s) (lf_wait s).
Definition with_main (m : mphase) (s : life) : life :=
  mkLife (lf_nodes s) (lf_reg s) (lf_asked s) (lf_up s) (lf_sequences s) (lf_registering s) (lf_replies s) m (lf_sent s) (lf_delivered s) (lf_returned s) (lf_wait s).
Definition with_asked (b : bool) (s : life) : life :=
  mkLife (lf_nodes s) (lf_reg s) (lf_asked s || b) (lf_up s) (lf_sequences s) (lf_registering s) (lf_replies s) (lf_main s) (lf_sent s) (lf_delivered s) (lf_returned s) (lf_wait s).
Definition with_sequences (n : nat) (s : life) : life :=
  mkLife (lf_nodes s) (lf_reg s) (lf_asked s) (lf_up s) n (lf_registering s) (lf_replies s) (lf_main s) (lf_sent s) (lf_delivered s) (lf_returned s) (lf_wait s).
Definition with_down (s : life) : life :=
  mkLife (lf_nodes s) (lf_reg s) (lf_asked s) false (lf_sequences s) (lf_registering s) (lf_replies s) (lf_main s) (lf_sent s) (lf_delivered s) (lf_returned s) (lf_wait s).
Definition with_registering (l : list nat) (s : life) : life :=
  mkLife (lf_nodes s) (lf_reg s) (lf_asked s) (lf_up s) (lf_sequences s) l (lf_replies s) (lf_main s) (lf_sent s) (lf_delivered s) (lf_returned s) (lf_wait s).
Definition with_registry (r : registry) (k : nat) (res : reg_result) (s : life) : life :=
  mkLife (lf_nodes s) r (lf_asked s) (lf_up s) (lf_sequences s) (lf_registering s) (lf_replies s ++ [(k, res)]) (lf_main s) (lf_sent s) (lf_delivered s) (lf_returned s) (lf_wait s).
Definition with_sent (l : list tag) (s : life) : life :=
  mkLife (lf_nodes s) (lf_reg s) (lf_asked s) (lf_up s) (lf_sequences s) (lf_registering s) (lf_replies s) (lf_main s) (lf_sent s ++ l) (lf_delivered s) (lf_returned s) l.
Definition with_delivered (t : tag) (s : life) : life :=
  mkLife (lf_nodes s) (lf_reg s) (lf_asked s) (lf_up s) (lf_sequences s) (lf_registering s) (lf_replies s) (lf_main s) (lf_sent s) (lf_delivered s ++ [t]) (lf_returned s) (lf_wait s).
Definition with_returned (t : tag) (s : life) : life :=
  mkLife (lf_nodes s) (lf_reg s) (lf_asked s) (lf_up s) (lf_sequences s) (lf_registering s) (lf_replies s) (lf_main s) (lf_sent s) (lf_delivered s) (lf_returned s ++ [t]) (lf_wait s).
Definition with_wait (l : list tag) (s : life) : life :=
  mkLife (lf_nodes s) (lf_reg s) (lf_asked s) (lf_up s) (lf_sequences s) (lf_registering s) (lf_replies s) (lf_main s) (lf_sent s) (lf_delivered s) (lf_returned s) l.

Definition tag_eqb (a b : tag) : bool := (fst a =? fst b) && (snd a =? snd b)%Z.
Definition has_tag (t : tag) (l : list tag) : bool := existsb (tag_eqb t) l.
Definition drop_tag (t : tag) (l : list tag) : list tag := filter (fun u => negb (tag_eqb t u)) l.
Fixpoint node_set (k : nat) (n : lnode) (l : list lnode) : list lnode :=
  match l, k with
  | [], _ => []
  | _ :: r, O => n :: r
  | x :: r, S j => x :: node_set j n r
  end.
(** The node manager the stub of a slot leads to: the one that registered with
    that text (node managers are taken to register with different texts: they
    contain host name, port and address). *)
Fixpoint reached_from (k : nat) (text : str) (l : list lnode) : option nat :=
  match l with
  | [] => None
  | n :: r => if str_eqb (rq_text (ln_req n)) text then Some k else reached_from (S k) text r
  end.
Definition reached (s : life) (id : Z) : option nat :=
  match slot_get id (rg_nodes (lf_reg s)) with
  | Some n => match ns_reg n with Some q => reached_from 0 (rq_text q) (lf_nodes s) | None => None end
  | None => None
  end.

(** ** Steps *)
Inductive levent :=
  | EMain                               (* the main thread of the sequencer *)
  | EStart (k : nat) (ok : bool)        (* Initialize of node k up to RegisterNode; [ok]: the server started *)
  | EAccept (k : nat)                   (* the sequencer accepts the RegisterNode of node k *)
  | ERegister (k : nat)                 (* the handler of RegisterNode runs *)
  | EReply (k : nat)                    (* its reply reaches node k *)
  | EGiveUp (k : nat)                   (* RegisterNode of node k fails: deadline, connection, cancellation *)
  | EBegin                              (* a RunTestSequence is accepted *)
  | EEnd (shutdown : bool)              (* one returns; [shutdown]: DoRunTestSequence reached line 208 *)
  | EDeliver (t : tag)                  (* a ShutdownNode reaches its node *)
  | EComplete (t : tag) (ok : bool)     (* the sequencer sees its completion; [ok]: with a reply *)
  | ECall (k : nat) (named : bool)      (* another RPC reaches node k *)
  | EReturn (k : nat) (i : nat)         (* the i-th handler of node k returns *)
  | EOwner (k : nat).                   (* the main thread of node k, which is not local *)

(** The main thread; [nlocal]: --local_nodes. *)
Definition main_step (nlocal : nat) (s : life) : option life :=
  match lf_main s with
  (** distbench_busybox.cc 325-343: one local node manager after the other. *)
  | MStart j =>
      if nlocal <=? j then Some (with_main MWait s)
      else match nth_error (lf_nodes s) j with
           | Some n => match ln_phase n with NServing | NGone => Some (with_main (MStart (S j)) s) | _ => None end
           | None => None
           end
  (** distbench_test_sequencer.cc 685-688. *)
  | MWait => if lf_asked s then Some (with_main (MSend 1) s) else None
  (** 636-664. *)
  | MSend r =>
      match shutdown_targets 0 (rg_nodes (lf_reg s)) with
      | Some ids => Some (with_main (MCollect r) (with_sent (map (fun i => (r, i)) ids) s))
      | None => Some (with_main MCrash s)
      end
  (** 665-681. *)
  | MCollect r => match lf_wait s with [] => Some (with_main (MClose r) (with_down (with_asked true s))) | _ => None end
  (** 680, then 689 or 696-697. *)
  | MClose r =>
      if (lf_sequences s =? 0) && match lf_registering s with [] => true | _ => false end
      then Some (with_main (if r =? 1 then MLocal 0 else MDone) s) else None
  (** distbench_busybox.cc 351-354 and distbench_node_manager.cc 260-273; then
      the destructors: the node managers' find everything done. *)
  | MLocal j =>
      if nlocal <=? j then Some (with_main (MSend 2) s)
      else match nth_error (lf_nodes s) j with
           | Some n =>
               match ln_phase n with
               | NGone => Some (with_main (MLocal (S j)) s)
               | _ => match owner_step (set_told n) with
                      | Some n' => Some (with_nodes (node_set j n' (lf_nodes s)) s)
                      | None => None
                      end
               end
           | None => None
           end
  | MDone | MCrash => None
  end.

Definition step (nlocal : nat) (e : levent) (s : life) : option life :=
  match e with
  | EMain => main_step nlocal s
  (** distbench_node_manager.cc 287-353; a local one is started by the main
      thread. *)
  | EStart k ok =>
      match nth_error (lf_nodes s) k with
      | Some n =>
          match ln_phase n with
          | NNew =>
              if (nlocal <=? k) || match lf_main s with MStart j => j =? k | _ => false end
              then Some (with_nodes (node_set k (if ok then set_phase NRegistering n else set_told (set_phase NGone n)) (lf_nodes s)) s)
              else None
          | _ => None
          end
      | None => None
      end
  | EAccept k =>
      match nth_error (lf_nodes s) k with
      | Some n =>
          match ln_phase n with
          | NRegistering =>
              if lf_up s && negb (existsb (Nat.eqb k) (lf_registering s)) && negb (existsb (fun p => Nat.eqb k (fst p)) (lf_replies s))
              then Some (with_registering (lf_registering s ++ [k]) s) else None
          | _ => None
          end
      | None => None
      end
  (** distbench_test_sequencer.cc 41-95. *)
  | ERegister k =>
      match nth_error (lf_nodes s) k with
      | Some n =>
          if existsb (Nat.eqb k) (lf_registering s)
          then let '(res, r) := register_node true (ln_req n) (lf_reg s) in
               let s' := with_registry r k res (with_registering (filter (fun j => negb (j =? k)) (lf_registering s)) s) in
               Some (match res with RegUB => with_main MCrash s' | _ => s' end)
          else None
      | None => None
      end
  (** distbench_node_manager.cc 352-366. *)
  | EReply k =>
      match nth_error (lf_nodes s) k with
      | Some n =>
          match ln_phase n, find (fun p => Nat.eqb k (fst p)) (lf_replies s) with
          | NRegistering, Some (_, RegOk _ _) => Some (with_nodes (node_set k (set_phase NServing n) (lf_nodes s)) s)
          | NRegistering, Some _ => Some (with_nodes (node_set k (set_phase NFailing n) (lf_nodes s)) s)
          | _, _ => None
          end
      | None => None
      end
  | EGiveUp k =>
      match nth_error (lf_nodes s) k with
      | Some n => match ln_phase n with
                  | NRegistering => Some (with_nodes (node_set k (set_phase NFailing n) (lf_nodes s)) s)
                  | _ => None
                  end
      | None => None
      end
  | EBegin => if lf_up s then Some (with_sequences (S (lf_sequences s)) s) else None
  (** distbench_test_sequencer.cc 207-209. *)
  | EEnd shutdown =>
      match lf_sequences s with
      | S n => Some (with_asked shutdown (with_sequences n s))
      | O => None
      end
  | EDeliver t =>
      if has_tag t (lf_sent s) && negb (has_tag t (lf_delivered s)) then
        match reached s (snd t) with
        | Some k => match nth_error (lf_nodes s) k with
                    | Some n => if accepting n then Some (with_delivered t (with_nodes (node_set k (begin_stop t n) (lf_nodes s)) s)) else None
                    | None => None
                    end
        | None => None
        end
      else None
  (** distbench_test_sequencer.cc 668-676: the status is not used. *)
  | EComplete t ok =>
      if has_tag t (lf_wait s) && (negb ok || has_tag t (lf_returned s))
      then Some (with_wait (drop_tag t (lf_wait s)) s) else None
  | ECall k named =>
      match nth_error (lf_nodes s) k with
      | Some n => if accepting n then Some (with_nodes (node_set k (set_handlers (ln_handlers n ++ [HCall named]) n) (lf_nodes s)) s) else None
      | None => None
      end
  (** A handler that needs the name waits for config_mutex_
      (distbench_node_manager.h 99-102). *)
  | EReturn k i =>
      match nth_error (lf_nodes s) k with
      | Some n =>
          match nth_error (ln_handlers n) i with
          | Some h =>
              if needs_name h && config_locked n then None
              else let s' := with_nodes (node_set k (set_handlers (firstn i (ln_handlers n) ++ skipn (S i) (ln_handlers n)) n) (lf_nodes s)) s in
                   Some (match h with HStop t _ => with_returned t s' | HCall _ => s' end)
          | None => None
          end
      | None => None
      end
  (** The failing branch of Initialize runs in the same thread as Wait; for a
      local node manager that is the main thread, blocked at [MStart]. *)
  | EOwner k =>
      match nth_error (lf_nodes s) k with
      | Some n =>
          if (nlocal <=? k) || match ln_phase n with NFailing => true | _ => false end
          then match owner_step n with Some n' => Some (with_nodes (node_set k n' (lf_nodes s)) s) | None => None end
          else None
      | None => None
      end
  end.
Fixpoint run (nlocal : nat) (l : list levent) (s : life) : option life :=
  match l with
  | [] => Some s
  | e :: r => match step nlocal e s with Some s' => run nlocal r s' | None => None end
  end.
(** The start of the sequencer's process; [reqs]: what each node manager that
    will ever exist registers with, the local ones first. *)
Definition life_start (reqs : list reg_request) : life :=
  mkLife (map (fun q => mkLN q NNew false []) reqs) empty_registry false true 0 [] [] (MStart 0) [] [] [] [].
