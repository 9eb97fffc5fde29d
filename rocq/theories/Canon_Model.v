(** Model of test-description validation (distbench_utils.cc).  Definitions only. *)
From Coq Require Import Ascii String List NArith ZArith Bool.
From Verif Require Import Base_Model Grid_Model.
Import ListNotations.
Open Scope Z_scope.

(** traffic_config.proto RpcReplayTraceRecord, only the fields validated here. *)
Record trace_record := mkTrRec { tr_client_instance : option Z; tr_server_instance : option Z }.
(** traffic_config.proto RpcReplayTrace. *)
Record replay_trace := mkTrace {
  rt_client : option str; rt_server : option str;
  rt_defaults : trace_record; rt_records : list trace_record }.
(** traffic_config.proto Action: [Some d] when iterations is set, with
    open_loop_interval_distribution [d] ([None]: unset, default "constant"). *)
Record action_desc := mkActDesc { ad_iterations : option (option str) }.
(** traffic_config.proto ActionList: the keys of predicate_probabilities. *)
Record action_list_desc := mkALDesc { al_predicates : list str }.
(** traffic_config.proto DistributedSystemDescription.  [d_rest] stands for
    every field these functions copy without looking at it. *)
Record dsd := mkDsd {
  d_services : list service_spec;
  d_traces : list replay_trace;
  d_actions : list action_desc;
  d_action_lists : list action_list_desc;
  d_rest : str }.

Inductive verr := EService (e : canon_error) | ENoClient | ENoServer | EClientUndefined
                | EServerUndefined | EServerIndex | EClientIndex | EDistribution | EPredicate.
Inductive vres (A : Type) := VUB | VErr (e : verr) | VOk (a : A).
Arguments VUB {A}. Arguments VErr {A}. Arguments VOk {A}.

(** distbench_utils.cc:760-767, the loop over services. *)
Fixpoint canon_services (l : list service_spec) : vres (list service_spec) :=
  match l with
  | [] => VOk []
  | s :: r => match canonical_spec s with
              | CanonUB => VUB
              | CanonErr e => VErr (EService e)
              | CanonOk s' => match canon_services r with
                              | VUB => VUB
                              | VErr e => VErr e
                              | VOk r' => VOk (s' :: r')
                              end
              end
  end.

(** distbench_utils.cc:97-105 EnumerateServiceSizes (later duplicates win). *)
Definition enumerate_sizes (l : list service_spec) : list (str * Z) :=
  fold_left (fun m s => map_set (sp_name s) (get_count s) m) l [].

(** record = defaults; record.MergeFrom(records(i)) and the int32 accessor. *)
Definition merged (dflt rec : option Z) : Z :=
  match rec with Some v => v | None => match dflt with Some v => v | None => 0 end end.

Fixpoint check_records (dflt : trace_record) (csize ssize : Z) (l : list trace_record) : option verr :=
  match l with
  | [] => None
  | r :: l' =>
      if ssize <? merged (tr_server_instance dflt) (tr_server_instance r) then Some EServerIndex
      else if csize <? merged (tr_client_instance dflt) (tr_client_instance r) then Some EClientIndex
      else check_records dflt csize ssize l'
  end.

(** distbench_utils.cc:828-859 ValidateRpcReplayTrace. *)
Definition validate_trace (sizes : list (str * Z)) (t : replay_trace) : option verr :=
  match rt_client t with
  | None => Some ENoClient
  | Some c =>
    match rt_server t with
    | None => Some ENoServer
    | Some s =>
      match map_find c sizes with
      | None => Some EClientUndefined
      | Some cs =>
        match map_find s sizes with
        | None => Some EServerUndefined
        | Some ss => check_records (rt_defaults t) cs ss (rt_records t)
        end
      end
    end
  end.

(** distbench_utils.cc:743-753 ValidateIterations. *)
Definition allowed_distributions : list str :=
  [s_ ""; s_ "constant"; s_ "exponential"; s_ "sync_burst"; s_ "sync_burst_spread"].
Definition distribution_of (d : option str) : str := match d with Some x => x | None => s_ "constant" end.
Definition validate_action (a : action_desc) : option verr :=
  match ad_iterations a with
  | None => None
  | Some d => if existsb (str_eqb (distribution_of d)) allowed_distributions then None
              else Some EDistribution
  end.

(** distbench_utils.cc:782-788: absl::StartsWith("!", name), arguments as written. *)
Definition validate_predicate (name : str) : option verr :=
  if starts_with (s_ "!") name then Some EPredicate else None.

Fixpoint first_error {A} (f : A -> option verr) (l : list A) : option verr :=
  match l with
  | [] => None
  | a :: r => match f a with Some e => Some e | None => first_error f r end
  end.

(** distbench_utils.cc:755-790 GetCanonicalDistributedSystemDescription. *)
Definition canonical_dsd (d : dsd) : vres dsd :=
  match canon_services (d_services d) with
  | VUB => VUB
  | VErr e => VErr e
  | VOk sv =>
      match first_error (validate_trace (enumerate_sizes (d_services d))) (d_traces d) with
      | Some e => VErr e
      | None =>
        match first_error validate_action (d_actions d) with
        | Some e => VErr e
        | None =>
          match first_error validate_predicate (flat_map al_predicates (d_action_lists d)) with
          | Some e => VErr e
          | None => VOk (mkDsd sv (d_traces d) (d_actions d) (d_action_lists d) (d_rest d))
          end
        end
      end
  end.

(** distbench_utils.cc:792-814 ValidateTestsSetting (always OK) and
    GetCanonicalTestSequence; [settings] is TestsSetting as an opaque value,
    set in the result even when it was absent (default value). *)
Record test_sequence := mkSeq { ts_settings : option str; ts_tests : list dsd }.
Fixpoint canonical_tests (l : list dsd) : vres (list dsd) :=
  match l with
  | [] => VOk []
  | d :: r => match canonical_dsd d with
              | VUB => VUB
              | VErr e => VErr e
              | VOk d' => match canonical_tests r with
                          | VUB => VUB | VErr e => VErr e | VOk r' => VOk (d' :: r')
                          end
              end
  end.
Definition canonical_sequence (t : test_sequence) : vres test_sequence :=
  match canonical_tests (ts_tests t) with
  | VUB => VUB
  | VErr e => VErr e
  | VOk l => VOk (mkSeq (Some (match ts_settings t with Some s => s | None => [] end)) l)
  end.
