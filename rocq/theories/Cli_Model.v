(** The modes of the distbench program (distbench_busybox.cc) and what they use:
    reading and writing files (distbench_utils.cc), the tester behind
    test_preview (distbench_test_sequencer_tester.cc), the registration of a node
    manager (distbench_node_manager.cc) and the shutdown of the nodes
    (distbench_test_sequencer.cc).  Definitions only. *)
From Coq Require Import Ascii String List NArith ZArith QArith Bool Arith.
From Verif Require Import Base_Model Grid_Model Canon_Model Place_Model Util_Model Replay_Model Net_Model Seq_Model Table_Model.
Import ListNotations.
Open Scope Z_scope.

(** ** Test sequences *)
(** traffic_config.proto 257-294: DistributedSystemDescription as far as any mode
    reads it: the part the engines compile, the attributes, the iterations of the
    actions in order (see action_desc), the predicates of the lists in order, the
    placement, and the rest. *)
Record test := mkTest {
  te_config : config; te_attributes : attributes; te_iterations : list (option (option str));
  te_predicates : list (list str); te_constraints : list (str * constraint_list); te_bundles : list (str * list str);
  te_rest : str }.
(** distbench.proto 28-31: TestSequence; the settings are opaque. *)
Record sequence := mkSequence { sq_settings : option str; sq_tests : list test }.
(** What GetCanonicalDistributedSystemDescription looks at (Canon_Model.v). *)
Definition dsd_of (t : test) : dsd :=
  mkDsd (map sv_spec (cf_services (te_config t))) (map (fun x => validated_part (snd x)) (cf_traces (te_config t)))
    (map mkActDesc (te_iterations t)) (map mkALDesc (te_predicates t)) (te_rest t).
(** The services of its result put back into the description. *)
Definition set_specs (l : list service_spec) (c : config) : config :=
  mkConf (map (fun x => mkSvc (fst x) (sv_channels (snd x))) (combine l (cf_services c))) (cf_payloads c) (cf_rpcs c) (cf_activities c)
    (cf_actions c) (cf_lists c) (cf_rpc_dists c) (cf_delay_dists c) (cf_size_dists c) (cf_traces c).
Definition set_config (c : config) (t : test) : test :=
  mkTest c (te_attributes t) (te_iterations t) (te_predicates t) (te_constraints t) (te_bundles t) (te_rest t).
Fixpoint put_back (l : list dsd) (ts : list test) : list test :=
  match l, ts with
  | d :: l', t :: ts' => set_config (set_specs (d_services d) (te_config t)) t :: put_back l' ts'
  | _, _ => []
  end.
(** distbench_utils.cc 795-814: GetCanonicalTestSequence. *)
Definition canonical_tests_of (s : sequence) : vres sequence :=
  match canonical_sequence (Canon_Model.mkSeq (sq_settings s) (map dsd_of (sq_tests s))) with
  | VUB => VUB
  | VErr e => VErr e
  | VOk r => VOk (mkSequence (ts_settings r) (put_back (ts_tests r) (sq_tests s)))
  end.

(** ** Files *)
(** distbench_utils.cc 169-183 ReadFileToString, 374-400
    ParseTestSequenceProtoFromFile.  [read]: the contents, None if the file
    could not be opened; [binary], [text]: protobuf's two parsers. *)
Inductive load_result := LoadOk (s : sequence) | LoadUnreadable | LoadUnparsable.
Definition load (read : str -> option str) (binary text : str -> option sequence) (file : str) : load_result :=
  match read file with
  | None => LoadUnreadable
  | Some contents =>
      match binary contents with
      | Some s => LoadOk s
      | None => match text contents with Some s => LoadOk s | None => LoadUnparsable end
      end
  end.

(** ** run_tests *)
(** The flags read by the modes below. *)
Record flags := mkFlags {
  fl_infile : str; fl_outfile : str; fl_binary : bool; fl_max_seconds : Z; fl_sequencer : str }.
(** What a mode does besides writing to standard error: RunTestSequence called
    with a deadline in seconds, results saved to a file in the binary or text
    format, the summary of the results printed, the canonical form printed. *)
Inductive effect (Results : Type) :=
  | ECall (s : sequence) (deadline : Z) | ESummary (r : Results) | ESave (as_binary : bool) (file : str) (r : Results)
  | EPrintCanonical (s : sequence) | EPrintResults (r : Results).
Arguments ECall {Results}. Arguments ESummary {Results}. Arguments ESave {Results}.
Arguments EPrintCanonical {Results}. Arguments EPrintResults {Results}.
(** The exit status of the process; [XUndefined]: undefined behaviour, an
    exception or a CHECK. *)
Inductive exit_code := XExit (n : Z) | XUndefined.
Definition set_attributes (a : attributes) (t : test) : test :=
  mkTest (te_config t) a (te_iterations t) (te_predicates t) (te_constraints t) (te_bundles t) (te_rest t).
Definition with_attributes (l : list attributes) (s : sequence) : sequence :=
  mkSequence (sq_settings s) (map (fun x => set_attributes (fst x) (snd x)) (combine l (sq_tests s))).

Section Modes.
  (** [run]: the answer of the sequencer, None if the RPC failed; [save]: whether
      the file could be written. *)
  Context {Results : Type}.
  Variables (read : str -> option str) (binary text : str -> option sequence)
    (run : sequence -> Z -> option Results) (save : bool -> str -> Results -> bool).

  (** 147-229: MainRunTests, 91-107: ValidateArgumentsOrExit; the stub is never
      null. *)
  Definition run_tests (f : flags) (args : list str) : list (effect Results) * exit_code :=
    match args with
    | _ :: _ => ([], XExit 1)
    | [] =>
        match load read binary text (fl_infile f) with
        | LoadOk s =>
            match run_tests_timeout (fl_max_seconds f) (map te_attributes (sq_tests s)) with
            | (attrs, TimeoutOk seconds) =>
                let s' := with_attributes attrs s in
                let d := deadline_seconds seconds in
                match run s' d with
                | None => ([ECall s' d], XExit 1)
                | Some r =>
                    match fl_outfile f with
                    | [] => ([ECall s' d; ESummary r], XExit 0)
                    | out => ([ECall s' d; ESummary r; ESave (fl_binary f) out r], XExit (if save (fl_binary f) out r then 0 else 1))
                    end
                end
            | (_, TimeoutOverflow) => ([], XUndefined)
            | (_, _) => ([], XExit 1)
            end
        | _ => ([], XExit 1)
        end
    end.

  (** ** check_test *)
  (** 252-258 *)
  Fixpoint check_traffic (stochastic : str -> option (list (Q * Z))) (l : list test) : exit_code :=
    match l with
    | [] => XExit 0
    | t :: r => match validate_traffic_config stochastic (te_config t) with
                | TOk _ => check_traffic stochastic r
                | TErr _ => XExit 1
                | TUndefined => XUndefined
                end
    end.
  (** 231-263: MainCheckTest; [same]: both print alike. *)
  Definition check_test (stochastic : str -> option (list (Q * Z))) (same : sequence -> sequence -> bool) (f : flags) (args : list str)
      : list (effect Results) * exit_code :=
    match args with
    | _ :: _ => ([], XExit 1)
    | [] =>
        match load read binary text (fl_infile f) with
        | LoadOk s =>
            match canonical_tests_of s with
            | VOk c => (if same s c then [] else [EPrintCanonical c], check_traffic stochastic (sq_tests s))
            | VErr _ => ([], XExit 1)
            | VUB => ([], XUndefined)
            end
        | _ => ([], XExit 1)
        end
    end.

  (** ** test_preview *)
  (** distbench_utils.cc 816-826: AllServiceInstances. *)
  Definition all_instances (c : config) : option (list str) := strip_names (all_instance_names (map sv_spec (cf_services c))).
  (** distbench_test_sequencer_tester.cc 133-148: RunTestSequenceOnSingleNodeManager;
      None: a division by zero. *)
  Definition on_one_node (t : test) : option test :=
    option_map (fun l => mkTest (te_config t) (te_attributes t) (te_iterations t) (te_predicates t) (te_constraints t) [(s_ "node0", l)] (te_rest t))
      (all_instances (te_config t)).
  Fixpoint all_on_one_node (l : list test) : option (list test) :=
    match l with
    | [] => Some []
    | t :: r => match on_one_node t, all_on_one_node r with Some t', Some r' => Some (t' :: r') | _, _ => None end
    end.
  (** distbench_test_sequencer_tester.cc 101-118: how many nodes RunTestSequence
      starts (ints; overflow is not modelled). *)
  Definition required_nodes (t : test) : Z :=
    fold_left (fun n s => n + svc_count s) (cf_services (te_config t)) 0
    - fold_left (fun n b => n + Z.of_nat (length (snd b))) (te_bundles t) 0 + Z.of_nat (length (te_bundles t)).
  Definition nodes_started (l : list test) : Z := fold_left (fun m t => Z.max m (required_nodes t)) l 0.
  (** 265-314: MainTestPreview; the tester starts without errors, [preview]: the
      answer of its sequencer to the sequence with that many nodes. *)
  Variable preview : Z -> sequence -> option Results.
  Definition test_preview (f : flags) (args : list str) : list (effect Results) * exit_code :=
    match args with
    | _ :: _ => ([], XExit 1)
    | [] =>
        match load read binary text (fl_infile f) with
        | LoadOk s =>
            match canonical_tests_of s with
            | VOk c =>
                match all_on_one_node (sq_tests c) with
                | None => ([], XUndefined)
                | Some l =>
                    let s' := mkSequence (sq_settings c) l in
                    match preview (nodes_started l) s' with
                    | None => ([ECall s' 3000], XExit 1)
                    | Some r =>
                        match fl_outfile f with
                        | [] => ([ECall s' 3000; EPrintResults r], XExit 0)
                        | out => ([ECall s' 3000; ESave (fl_binary f) out r], XExit (if save (fl_binary f) out r then 0 else 1))
                        end
                    end
                end
            | VErr _ => ([], XExit 1)
            | VUB => ([], XUndefined)
            end
        | _ => ([], XExit 1)
        end
    end.
End Modes.

(** ** node_manager *)
(** absl::SimpleAtoi<int>. *)
Definition simple_atoi32 (s : str) : option Z :=
  match scan_d s with
  | ScanInt z rest => if all_space rest && in_int32 z then Some z else None
  | _ => None
  end.
(** absl::StrSplit(argument, absl::MaxSplits('=', 1)): both parts, None if there
    is no '='. *)
Fixpoint split_assignment (s : str) : option (str * str) :=
  match s with
  | [] => None
  | a :: r => if Ascii.eqb a "="%char then Some ([], r)
              else option_map (fun kv => (a :: fst kv, snd kv)) (split_assignment r)
  end.
Fixpoint attribute_args (l : list str) : option (list attribute) :=
  match l with
  | [] => Some []
  | s :: r => match split_assignment s, attribute_args r with
              | Some (k, v), Some a => Some (mkAttr k v :: a)
              | _, _ => None
              end
  end.
(** 360-394: the arguments of node_manager: preassigned_node_id and the
    attributes; None: it returns 1. *)
Definition node_args (args : list str) : option (Z * list attribute) :=
  match args with
  | a :: r =>
      if starts_with a (s_ "node") then
        match simple_atoi32 (skipn 4 a) with
        | Some n =>
            if negb (str_eqb (s_ "node" ++ dec_of_Z n) a) || (n <? 0) then None
            else option_map (fun l => (n, mkAttr (s_ "node_alias") a :: l)) (attribute_args r)
        | None => None
        end
      else option_map (fun l => (-1, l)) (attribute_args args)
  | [] => Some (-1, [])
  end.
(** distbench_node_manager.cc 308-331: the service address; [given]:
    --service_address, [port]: the port that was bound. *)
Definition service_address (tbl : list if_entry) (flag : bool) (hostname device given : str) (port : Z) : option str * str :=
  let listening := bind_address tbl flag device port in
  let control_ip :=
    if starts_with listening (s_ "[::]") || starts_with listening (s_ "0.0.0.0") then None
    else option_map (fun a => ad_ip a ++ s_ " on " ++ ad_dev a ++ (if ad_v4 a then s_ " (ipv4)" else s_ " (ipv6)")) (best_address tbl device flag) in
  (control_ip,
   match given with
   | _ :: _ => given
   | [] =>
       match control_ip with
       | None => s_ "dns:///" ++ hostname ++ colon :: dec_of_Z port
       | Some _ => (if starts_with listening (s_ "[") then s_ "ipv6:///" else s_ "ipv4:///") ++ listening
       end
   end).
(** 287-367: NodeManager::Initialize: nothing is sent without --test_sequencer;
    the registration sent otherwise.  [started]: grpc_server_ is not null. *)
Record registration := mkRegn {
  rn_id : Z; rn_host : str; rn_control_ip : option str; rn_port : Z; rn_address : str; rn_attributes : list attribute }.
Inductive init_result := InitNoSequencer | InitNoServer | InitSent (r : registration) | InitUndefined.
Definition node_initialize (tbl : list if_entry) (flag : bool) (hostname sequencer device given : str) (port : Z) (started : bool)
    (id : Z) (attrs : list attribute) : init_result :=
  match sequencer with
  | [] => InitNoSequencer
  | _ =>
      (** 318: value() of an error throws *)
      let listening := bind_address tbl flag device port in
      if negb (starts_with listening (s_ "[::]") || starts_with listening (s_ "0.0.0.0")) &&
         match best_address tbl device flag with None => true | Some _ => false end then InitUndefined
      else if negb started then InitNoServer
      else let (ip, address) := service_address tbl flag hostname device given port in
           InitSent (mkRegn id hostname ip port address attrs)
  end.

(** ** Shutting down *)
(** distbench_test_sequencer.cc 648-664: the nodes TestSequencer::Shutdown sends
    ShutdownNode to, in order; None: a null stub is called. *)
Fixpoint shutdown_targets (i : Z) (l : list node_slot) : option (list Z) :=
  match l with
  | [] => Some []
  | n :: r =>
      if ns_pending n then shutdown_targets (i + 1) r
      else if ns_stub n then option_map (cons i) (shutdown_targets (i + 1) r) else None
  end.
(** 665-678: every answer is waited for; a node that answered is inactive. *)
Fixpoint shutdown_answers (answers : list Z) (active : list Z) : list Z :=
  match answers with [] => active | i :: r => shutdown_answers r (mark_inactive i active) end.

(** ** main *)
(** 423-463: what the command line selects. *)
Inductive mode_choice := ModeUsage (exit : Z) | ModeSequencer | ModeNode | ModeRun | ModeCheck | ModePreview.
(** [argv]: all arguments with the program's name; [rest]: those that absl did
    not take for flags. *)
Definition choose_mode (argv rest : list str) : mode_choice * list str :=
  if existsb (fun a => str_eqb a (s_ "-h")) argv then (ModeUsage 0, [])
  else match rest with
       | _ :: m :: args =>
           if str_eqb m (s_ "test_sequencer") then (ModeSequencer, args)
           else if str_eqb m (s_ "node_manager") then (ModeNode, args)
           else if str_eqb m (s_ "run_tests") then (ModeRun, args)
           else if str_eqb m (s_ "check_test") then (ModeCheck, args)
           else if str_eqb m (s_ "test_preview") then (ModePreview, args)
           else if str_eqb m (s_ "help") then (ModeUsage 0, args)
           else (ModeUsage 1, args)
       | _ => (ModeUsage 1, [])
       end.
