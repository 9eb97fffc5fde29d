(** Helpers of distbench_utils.cc, the timeout arithmetic of
    distbench_busybox.cc and the activity settings of activity.cc.
    Definitions only. *)
From Coq Require Import Ascii String List NArith ZArith Bool.
From Verif Require Import Base_Model.
Import ListNotations.
Open Scope Z_scope.

(** Conversion of a 64-bit integer to a 32-bit int (modular in C++20), as done
    by every assignment of an int64_t to an int below. *)
Definition narrow (z : Z) : Z := (z + 2147483648) mod 4294967296 - 2147483648.
Definition int64_min : Z := -9223372036854775808.

(** ** Statuses *)
(** grpc::Status: an integer code (the enum is not range checked) and a
    message; ok() tests the code. *)
Record gstatus := mkG { g_code : Z; g_msg : str }.
Definition g_ok (s : gstatus) : bool := g_code s =? 0.
Definition grpc_ok : gstatus := mkG 0 [].
(** absl::Status: either OK, which carries no message, or a raw code with a
    message.  Constructing it with kOk drops the message (documented abseil
    behaviour, not part of this repository). *)
Inductive astatus := AOk | AErr (raw : Z) (msg : str).
Definition absl_make (raw : Z) (m : str) : astatus := if raw =? 0 then AOk else AErr raw m.
Definition a_ok (s : astatus) : bool := match s with AOk => true | AErr _ _ => false end.
(** absl::Status::code(): unknown raw codes read as kUnknown (2). *)
Definition a_code (s : astatus) : Z :=
  match s with
  | AOk => 0
  | AErr raw _ => if (0 <=? raw) && (raw <=? 16) then raw else 2
  end.
Definition a_msg (s : astatus) : str := match s with AOk => [] | AErr _ m => m end.

(** distbench_utils.cc 139-142: Annotate. *)
Definition annotate (s : gstatus) (context : str) : gstatus := mkG (g_code s) (context ++ g_msg s).
(** distbench_utils.cc 144-151: abslStatusToGrpcStatus. *)
Definition absl_to_grpc (s : astatus) : gstatus :=
  if a_ok s then grpc_ok else mkG (a_code s) (a_msg s).
(** distbench_utils.cc 153-160: grpcStatusToAbslStatus. *)
Definition grpc_to_absl (s : gstatus) : astatus :=
  if g_ok s then AOk else absl_make (g_code s) (g_msg s).

(** ** Named settings *)
(** traffic_config.proto 236-240: NamedSetting; all three fields optional and
    the two values not exclusive. *)
Record setting := mkSet { st_name : option str; st_str : option str; st_int : option Z }.
(** Accessor of an unset string field. *)
Definition opt_str (o : option str) : str := match o with Some s => s | None => [] end.

(** distbench_utils.cc 284-305: GetNamedSettingString (log output not modelled). *)
Fixpoint get_string (l : list setting) (n : str) (d : str) : str :=
  match l with
  | [] => d
  | s :: r =>
      match st_name s with
      | None => get_string r n d
      | Some m =>
          if negb (str_eqb m n) then get_string r n d
          else match st_int s with
               | Some _ => get_string r n d
               | None => match st_str s with Some v => v | None => get_string r n d end
               end
      end
  end.
(** distbench_utils.cc 319-340: GetNamedSettingInt64. *)
Fixpoint get_int (l : list setting) (n : str) (d : Z) : Z :=
  match l with
  | [] => d
  | s :: r =>
      match st_name s with
      | None => get_int r n d
      | Some m =>
          if negb (str_eqb m n) then get_int r n d
          else match st_str s with
               | Some _ => get_int r n d
               | None => match st_int s with Some v => v | None => get_int r n d end
               end
      end
  end.
(** traffic_config.proto 242-249: ProtocolDriverOptions. *)
Record driver_opts := mkOpts {
  po_name : option str; po_protocol : option str; po_netdev : option str;
  po_server : list setting; po_client : list setting; po_ip_version : Z }.
(** distbench_utils.cc 307-317, 342-352: the server and client wrappers. *)
Definition server_string (o : driver_opts) := get_string (po_server o).
Definition client_string (o : driver_opts) := get_string (po_client o).
Definition server_int (o : driver_opts) := get_int (po_server o).
Definition client_int (o : driver_opts) := get_int (po_client o).
(** distbench_utils.cc 432-451: AddServerInt64OptionTo,
    AddServerStringOptionTo, AddClientStringOptionTo. *)
Definition add_server_int (o : driver_opts) (n : str) (v : Z) :=
  mkOpts (po_name o) (po_protocol o) (po_netdev o)
         (po_server o ++ [mkSet (Some n) None (Some v)]) (po_client o) (po_ip_version o).
Definition add_server_string (o : driver_opts) (n v : str) :=
  mkOpts (po_name o) (po_protocol o) (po_netdev o)
         (po_server o ++ [mkSet (Some n) (Some v) None]) (po_client o) (po_ip_version o).
Definition add_client_string (o : driver_opts) (n v : str) :=
  mkOpts (po_name o) (po_protocol o) (po_netdev o)
         (po_server o) (po_client o ++ [mkSet (Some n) (Some v) None]) (po_ip_version o).
(** distbench_utils.cc 185-205: ApplyServerSettingsToGrpcBuilder: the channel
    arguments added, in order.  The builder itself is not modelled. *)
Inductive chan_arg := ArgStr (n v : str) | ArgInt (n : str) (v : Z).
Fixpoint builder_args (l : list setting) : list chan_arg :=
  match l with
  | [] => []
  | s :: r =>
      match st_name s with
      | None => builder_args r
      | Some n =>
          match st_str s, st_int s with
          | Some v, _ => ArgStr n v :: builder_args r
          | None, Some v => ArgInt n v :: builder_args r
          | None, None => builder_args r
          end
      end
  end.

(** ** Timeouts *)
(** A test is seen through its attributes (a protobuf map). *)
Definition attributes := list (str * str).
(** distbench_utils.cc 354-371: GetNamedAttributeInt64; [None] is the error. *)
Definition attribute_int (t : attributes) (n : str) (d : Z) : option Z :=
  match map_find n t with
  | None => Some d
  | Some v => simple_atoi v
  end.
Definition timeout_name : str := s_ "test_timeout".
Inductive timeout_result :=
  | TimeoutOk (seconds : Z)
  | TimeoutUnparsable
  | TimeoutNotPositive (v : Z)
  | TimeoutOverflow.           (* signed int64 overflow: undefined behaviour *)
(** distbench_busybox.cc 112-137: GetTestSequenceTimeout. *)
Fixpoint timeout_loop (tests : list attributes) (default acc : Z) : timeout_result :=
  match tests with
  | [] => if acc =? 0 then TimeoutOk default else TimeoutOk acc
  | t :: r =>
      match attribute_int t timeout_name int64_min with
      | None => TimeoutUnparsable
      | Some v =>
          if v =? int64_min then TimeoutOk default
          else if v <=? 0 then TimeoutNotPositive v
          else if in_int64 (acc + v) then timeout_loop r default (acc + v) else TimeoutOverflow
      end
  end.
Definition sequence_timeout (tests : list attributes) (default : Z) : timeout_result :=
  timeout_loop tests default 0.
(** distbench_busybox.cc 139-145: SetAllTestTimeoutAttributesTo. *)
Definition set_all_timeouts (tests : list attributes) (v : str) : list attributes :=
  map (map_set timeout_name v) tests.
(** distbench_busybox.cc 158-174: the part of MainRunTests that computes the
    deadline; [flag] is the --max_test_duration flag in whole seconds.  Returns
    the sequence sent to the sequencer and its timeout. *)
Definition run_tests_timeout (flag : Z) (tests : list attributes) : list attributes * timeout_result :=
  if negb (flag =? 0)
  then let tests' := set_all_timeouts tests (dec_of_Z flag) in (tests', sequence_timeout tests' flag)
  else (tests, sequence_timeout tests 3600).
(** distbench_utils.cc 162-167: SetGrpcClientContextDeadline takes an int, so
    the int64 timeout is narrowed (distbench_busybox.cc 190,
    distbench_test_sequencer.cc 550): seconds from now until the deadline. *)
Definition deadline_seconds (timeout : Z) : Z := narrow timeout.

(** ** Activity settings *)
(** traffic_config.proto 139-142: ActivityConfig. *)
Record activity_config := mkAC { ac_name : str; ac_settings : list setting }.
Inductive activity_func := FConsumeCpu | FDataCache | FInstrCache | FSleepFor | FSpinFor.
Definition func_of_name (s : str) : option activity_func :=
  if str_eqb s (s_ "ConsumeCpu") then Some FConsumeCpu
  else if str_eqb s (s_ "PolluteDataCache") then Some FDataCache
  else if str_eqb s (s_ "PolluteInstructionCache") then Some FInstrCache
  else if str_eqb s (s_ "SleepFor") then Some FSleepFor
  else if str_eqb s (s_ "SpinFor") then Some FSpinFor else None.
Inductive activity_error :=
  | ABadDuration (v : Z) | ABadArraySize (v : Z) | ABadReads (v : Z) | AUnknownFunc (name func : str).
(** activity.cc 171-179, 190-198: SleepFor/SpinFor::ValidateConfig. *)
Definition validate_duration (a : activity_config) : option activity_error :=
  let d := get_int (ac_settings a) (s_ "duration_us") (-1) in
  if d <? 1 then Some (ABadDuration d) else None.
(** activity.cc 225-233: ConsumeCpu::ValidateConfig. *)
Definition validate_array (a : activity_config) : option activity_error :=
  let n := get_int (ac_settings a) (s_ "array_size") 1000 in
  if n <? 1 then Some (ABadArraySize n) else None.
(** activity.cc 235-251: PolluteDataCache::ValidateConfig. *)
Definition validate_data_cache (a : activity_config) : option activity_error :=
  let n := get_int (ac_settings a) (s_ "array_size") 1000 in
  if n <? 1 then Some (ABadArraySize n)
  else let k := get_int (ac_settings a) (s_ "array_reads_per_iteration") 1000 in
       if k <? 1 then Some (ABadReads k) else None.
(** activity.h 24-31: ParsedActivityConfig; the fields a function does not use
    are uninitialised in the code and [None] here.  The duration is in
    microseconds (absl::Duration represents every int64 count). *)
Record parsed := mkParsed {
  pa_name : str; pa_func : activity_func;
  pa_array : option Z; pa_reads : option Z; pa_invocations : option Z; pa_duration : option Z }.
Inductive parse_result := ParseOk (p : parsed) | ParseError (e : activity_error).
(** activity.cc 98-139: ParseActivityConfig; 339-341: the instruction cache
    configuration is always valid. *)
Definition parse_activity (a : activity_config) : parse_result :=
  let fname := get_string (ac_settings a) (s_ "activity_func") [] in
  let int_of n d := narrow (get_int (ac_settings a) n d) in
  match func_of_name fname with
  | None => ParseError (AUnknownFunc (ac_name a) fname)
  | Some FConsumeCpu =>
      match validate_array a with
      | Some e => ParseError e
      | None => ParseOk (mkParsed (ac_name a) FConsumeCpu (Some (int_of (s_ "array_size") 1000)) None None None)
      end
  | Some FDataCache =>
      match validate_data_cache a with
      | Some e => ParseError e
      | None => ParseOk (mkParsed (ac_name a) FDataCache (Some (int_of (s_ "array_size") 2000000))
                                  (Some (int_of (s_ "array_reads_per_iteration") 1000)) None None)
      end
  | Some FInstrCache =>
      ParseOk (mkParsed (ac_name a) FInstrCache None None
                        (Some (int_of (s_ "function_invocations_per_iteration") 1000)) None)
  | Some FSleepFor =>
      match validate_duration a with
      | Some e => ParseError e
      | None => ParseOk (mkParsed (ac_name a) FSleepFor None None None
                                  (Some (get_int (ac_settings a) (s_ "duration_us") 0)))
      end
  | Some FSpinFor =>
      match validate_duration a with
      | Some e => ParseError e
      | None => ParseOk (mkParsed (ac_name a) FSpinFor None None None
                                  (Some (get_int (ac_settings a) (s_ "duration_us") 0)))
      end
  end.

(** An allocated activity.  The contents of the arrays are not modelled; their
    sizes, the bounds of the index distribution, the loop counts and the
    iteration counter (an int64) are. *)
Inductive activity :=
  | ActCpu (size iterations : Z)
  | ActData (size lo hi reads iterations : Z)
  | ActInstr (size lo hi invocations iterations : Z)
  | ActWait (spin : bool) (us : Z).
Inductive alloc_result :=
  | AllocOk (a : activity)
  | AllocThrows           (* std::vector::resize of a negative int *)
  | AllocUndefined.       (* uniform_int_distribution with lo > hi, or an unset field *)
(** activity.cc 305, 345: 100 * 100 generated functions. *)
Definition func_array_size : Z := 10000.
(** activity.cc 141-160: AllocateActivity, with the Initialize functions
    166-169, 185-188, 220-223, 253-266 and 343-355.  An array that does not fit
    in memory is not modelled. *)
Definition alloc_activity (p : parsed) : alloc_result :=
  match pa_func p with
  | FConsumeCpu =>
      match pa_array p with
      | Some n => if n <? 0 then AllocThrows else AllocOk (ActCpu n 0)
      | None => AllocUndefined
      end
  | FDataCache =>
      match pa_array p, pa_reads p with
      | Some n, Some k =>
          if n <? 0 then AllocThrows
          else if n - 1 <? 0 then AllocUndefined
          else AllocOk (ActData n 0 (n - 1) k 0)
      | _, _ => AllocUndefined
      end
  | FInstrCache =>
      match pa_invocations p with
      | Some k => AllocOk (ActInstr func_array_size 0 (func_array_size - 1) k 0)
      | None => AllocUndefined
      end
  | FSleepFor => match pa_duration p with Some d => AllocOk (ActWait false d) | None => AllocUndefined end
  | FSpinFor => match pa_duration p with Some d => AllocOk (ActWait true d) | None => AllocUndefined end
  end.

(** What one execution does: the array accesses (index, in order) and the
    requested wait. *)
Record effect := mkEff { ef_indices : list Z; ef_wait : option (bool * Z) }.
Inductive do_result := DoOk (a : activity) (e : effect) | DoOutOfBounds.
(** One access per loop turn.  std::uniform_int_distribution over [lo, hi]
    is any function of the raw random words onto that interval; reduction
    modulo its width is one, and every sequence of indices arises from some
    [draws].  [None]: an index outside the array. *)
Definition accesses (size lo hi : Z) (draws : nat -> Z) (count : Z) : option (list Z) :=
  let l := map (fun i => lo + draws i mod (hi - lo + 1)) (seq 0 (Z.to_nat count)) in
  if forallb (fun i => (0 <=? i) && (i <? size)) l then Some l else None.
(** activity.cc 162, 181, 200-208, 268-278, 357-365: DoActivity.  Sorting and
    summing the array are not modelled, nor is the value stored in it. *)
Definition do_activity (draws : nat -> Z) (a : activity) : do_result :=
  match a with
  | ActCpu n it => DoOk (ActCpu n (it + 1)) (mkEff (map Z.of_nat (seq 0 (Z.to_nat n))) None)
  | ActData n lo hi k it =>
      match accesses n lo hi draws k with
      | Some l => DoOk (ActData n lo hi k (it + 1)) (mkEff l None)
      | None => DoOutOfBounds
      end
  | ActInstr n lo hi k it =>
      match accesses n lo hi draws k with
      | Some l => DoOk (ActInstr n lo hi k (it + 1)) (mkEff l None)
      | None => DoOutOfBounds
      end
  | ActWait spin us => DoOk a (mkEff [] (Some (spin, us)))
  end.
(** activity.cc 164, 183, 210-218, 280-288, 367-375: GetActivityLog, the
    metrics (name, value). *)
Definition activity_log (a : activity) : list (str * Z) :=
  match a with
  | ActCpu _ it | ActData _ _ _ _ it | ActInstr _ _ _ _ it =>
      if it =? 0 then [] else [(s_ "iteration_count", it)]
  | ActWait _ _ => []
  end.
(** Running an activity several times (DistBenchEngine::RunActivity calls
    DoActivity once per iteration). *)
Fixpoint run_activity (draws : nat -> nat -> Z) (n : nat) (a : activity) : do_result :=
  match n with
  | O => DoOk a (mkEff [] None)
  | S n' => match run_activity draws n' a with
            | DoOk a' _ => do_activity (draws n') a'
            | DoOutOfBounds => DoOutOfBounds
            end
  end.
