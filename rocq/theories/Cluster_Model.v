(** A whole test: the test sequencer (distbench_test_sequencer.cc) and the node
    managers it calls.  Definitions only. *)
From Coq Require Import Ascii String List NArith ZArith Bool Arith.
From Verif Require Import Base_Model Grid_Model Place_Model Util_Model Driver_Model Table_Model Cli_Model.
From Verif Require Seq_Model.
From Verif Require Import Node_Model.
Import ListNotations.
Open Scope Z_scope.

(** traffic_config.proto 257-294: a test with the parts only the node managers
    read: max_threads, the driver options of the services (in the order of the
    services), protocol_driver_options and default_protocol. *)
Record whole := mkWhole {
  wt_test : test; wt_threads : Z; wt_drivers : list service_driver; wt_options : list driver_opts; wt_protocol : str }.
Definition config_of (t : whole) : config := te_config (wt_test t).
Definition traffic_of (t : whole) : traffic :=
  mkTraffic (wt_threads t) (wt_drivers t) (wt_options t) (wt_protocol t) (map li_name (cf_lists (config_of t))).
Definition desc_of (t : whole) : place_desc :=
  mkPD (map sv_spec (cf_services (config_of t))) (te_constraints (wt_test t)) (te_bundles (wt_test t)).

(** The node manager processes by node id; None: not running. *)
Definition world := Z -> option node.
(** What becomes of a request: it is served and answered, it does not arrive, or
    its answer does not.  A request that times out is either of the last two; it
    is not served later than in its phase. *)
Inductive fate := Served | NotServed | NotAnswered.
(** A phase: for every node the fate of its request and the outcomes of the
    external calls, and the events of the completion queue. *)
Record phase := mkPhase { ph_fate : Z -> fate; ph_ext : Z -> externals; ph_events : list (Z * bool) }.
(** One request; the answer is None if the status is an error. *)
Definition call {A} (f : fate) (h : node -> outcome A) (n : option node) : option node * option A :=
  match n, f with
  | None, _ => (None, None)
  | Some s, NotServed => (Some s, None)
  | Some s, _ =>
      match h s with
      | Crashed => (None, None)
      | Replied s' r a => (Some s', match f, r with Served, ROk => Some a | _, _ => None end)
      end
  end.
Definition set_node (w : world) (id : Z) (n : option node) : world := fun i => if i =? id then n else w i.
Fixpoint call_all {A} (fate_of : Z -> fate) (l : list (Z * (node -> outcome A))) (w : world) : world * list (Z * option A) :=
  match l with
  | [] => (w, [])
  | (id, h) :: r =>
      let (n, a) := call (fate_of id) h (w id) in
      let (w', replies) := call_all fate_of r (set_node w id n) in
      (w', (id, a) :: replies)
  end.
(** The answer of a node, read when its completion event has arrived. *)
Definition answer_of {A} (replies : list (Z * option A)) (id : Z) : option A :=
  match find (fun x => fst x =? id) replies with Some x => snd x | None => None end.
Definition is_some {A} (o : option A) : bool := match o with Some _ => true | None => false end.

(** distbench_test_sequencer.cc 443-447, 497-500, 547-550: the ids of the nodes
    of the placement; None: a CHECK failed or a null stub was called.  The order
    of the requests does not matter: every node gets one. *)
Fixpoint node_ids (r : Seq_Model.registry) (m : list (str * list str)) : option (list (Z * list str)) :=
  match m with
  | [] => Some []
  | (alias, names) :: rest =>
      match Seq_Model.lookup_node r alias, node_ids r rest with
      | Seq_Model.LookupOk id, Some l => Some ((id, names) :: l)
      | _, _ => None
      end
  end.
(** A std::set<std::string> is iterated in order (439-441). *)
Definition in_order (names : list str) : list str := map fst (fold_left (fun m n => omap_set n tt m) names []).

(** [PhCrash]: the sequencer died; [PhStuck]: it waits for ever. *)
Inductive phase_result (A : Type) := PhCrash | PhStuck | PhFailed (who : Z) | PhOk (a : A).
Arguments PhCrash {A}. Arguments PhStuck {A}. Arguments PhFailed {A}. Arguments PhOk {A}.
(** 453-468: the responses are merged in the order of completion; that of a
    failed call is empty. *)
Fixpoint await_endpoints (count : nat) (events : list (Z * bool)) (answer : Z -> option (list (str * endpoint)))
    (status : option Z) (acc : list (str * endpoint)) : phase_result (list (str * endpoint)) :=
  match count with
  | O => match status with Some who => PhFailed who | None => PhOk acc end
  | S c =>
      match events with
      | [] => PhStuck
      | (_, false) :: rest => await_endpoints count rest answer status acc
      | (id, true) :: rest =>
          match answer id with
          | Some eps => await_endpoints c rest answer status (Seq_Model.merge acc eps)
          | None => await_endpoints c rest answer (Some id) acc
          end
      end
  end.
(** 415-475: ConfigureNodes. *)
Definition configure_nodes (nes : Z -> node_env) (ph : phase) (t : whole) (l : list (Z * list str)) (w : world)
    : world * phase_result (list (str * endpoint)) :=
  let (w', replies) := call_all (ph_fate ph)
    (map (fun x => (fst x, configure (nes (fst x)) (ph_ext ph (fst x)) (traffic_of t) (in_order (snd x)))) l) w in
  (w', await_endpoints (length l) (ph_events ph) (answer_of replies) None []).
(** 477-522: IntroducePeers. *)
Definition introduce (ph : phase) (sm : list (str * endpoint)) (l : list (Z * list str)) (w : world) : world * phase_result unit :=
  let (w', replies) := call_all (ph_fate ph)
    (map (fun x => (fst x, fun s => let (s', r) := introduce_peers (ph_ext ph (fst x)) sm s in Replied s' r tt)) l) w in
  (w', match Seq_Model.await_run (length l) (ph_events ph) (fun id => is_some (answer_of replies id)) None with
       | None => PhStuck
       | Some (Some who) => PhFailed who
       | Some None => PhOk tt
       end).
(** 524-634: RunTraffic, see Seq_Model.run_traffic; the results are only asked
    for if every node has succeeded. *)
Definition traffic (run get : phase) (l : list (Z * list str)) (active : list Z) (w : world)
    : world * world * Seq_Model.traffic_result Z * list Z :=
  let ids := map fst l in
  let (w1, ran) := call_all (ph_fate run) (map (fun id => (id, Node_Model.run_traffic)) ids) w in
  let ok id := is_some (answer_of ran id) in
  match Seq_Model.await_run (length ids) (ph_events run) ok None with
  | Some None =>
      let (w2, got) := call_all (ph_fate get)
        (map (fun id => (id, fun s => let (s', logs) := Node_Model.traffic_result (ph_ext get id) true s in Replied s' ROk logs)) ids) w1 in
      let reply id := match answer_of got id with Some logs => Seq_Model.mkReply true logs | None => Seq_Model.mkReply false [] end in
      let (res, active') := Seq_Model.run_traffic ids ok reply (ph_events run) (ph_events get) active in
      (w1, w2, res, active')
  | _ =>
      let (res, active') := Seq_Model.run_traffic ids ok (fun _ => Seq_Model.mkReply false []) (ph_events run) [] active in
      (w1, w1, res, active')
  end.

(** distbench.proto TestResult without the summary and the resource usage. *)
Record test_result := mkTR { tr_test : whole; tr_placement : list (str * endpoint); tr_logs : list (str * Z) }.
(** The node managers after each phase (ghost). *)
Record worlds := mkWorlds { wo_configured : world; wo_introduced : world; wo_ran : world; wo_final : world }.
Inductive test_outcome :=
  | TestCrashed | TestStuck | TestFailed (where_ : Seq_Model.test_phase)
  | TestOk (r : test_result) (ws : worlds).
(** The outcomes of everything outside of the model during a test. *)
Record environment := mkEnvironment { ev_configure : phase; ev_introduce : phase; ev_run : phase; ev_get : phase }.

(** 373-413: DoRunTest. *)
Definition do_run_test (fnm : str -> str -> bool) (r : Seq_Model.registry) (nes : Z -> node_env) (ev : environment) (t : whole)
    (w : world) (active : list Z) : test_outcome * world * list Z :=
  match cf_services (config_of t) with
  | [] => (TestFailed Seq_Model.PhServices, w, active)
  | _ =>
      match place_services fnm (desc_of t) (Seq_Model.node_attributes r) with
      | PlaceUB | PlaceThrow => (TestCrashed, w, active)
      | PlaceErr _ => (TestFailed Seq_Model.PhPlace, w, active)
      | PlaceOk m =>
          match node_ids r m with
          | None => (TestCrashed, w, active)
          | Some l =>
              match configure_nodes nes (ev_configure ev) t l w with
              | (w1, PhCrash) => (TestCrashed, w1, active)
              | (w1, PhStuck) => (TestStuck, w1, active)
              | (w1, PhFailed _) => (TestFailed Seq_Model.PhConfigure, w1, active)
              | (w1, PhOk sm) =>
                  match introduce (ev_introduce ev) sm l w1 with
                  | (w2, PhCrash) => (TestCrashed, w2, active)
                  | (w2, PhStuck) => (TestStuck, w2, active)
                  | (w2, PhFailed _) => (TestFailed Seq_Model.PhIntroduce, w2, active)
                  | (w2, PhOk _) =>
                      match attribute_int (te_attributes (wt_test t)) timeout_name 3600 with
                      | None => (TestFailed Seq_Model.PhTimeout, w2, active)
                      | Some _ =>
                          let '(w3, w4, res, active') := traffic (ev_run ev) (ev_get ev) l active w2 in
                          match res with
                          | Seq_Model.TStuck => (TestStuck, w4, active')
                          | Seq_Model.TFailed _ => (TestFailed Seq_Model.PhTraffic, w4, active')
                          | Seq_Model.TOk logs => (TestOk (mkTR t sm logs) (mkWorlds w1 w2 w3 w4), w4, active')
                          end
                      end
                  end
              end
          end
      end
  end.
