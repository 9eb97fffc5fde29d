(** Model of latency recording in distbench_engine.cc: the reservoir behind
    max_rpc_samples, unpacking, merging into the peers' logs, GetLogs and the
    activity logs.  Definitions only. *)
From Coq Require Import Ascii String List ZArith Bool Arith.
From Verif Require Import Base_Model Sync_Model.
Import ListNotations.
Open Scope nat_scope.

(** ** The reservoir: RecordLatency 1682-1721 when packed_samples_size_ > 0 *)
(** One thread per finished RPC; thread t records RPC t. *)
Inductive r_phase :=
| RStart                   (* before the fetch_add of 1690 *)
| RFill (n : nat)          (* has number n < size and is writing slot n, 1693-1695 *)
| RFilled (n : nat)        (* written, about to do the fetch_sub of 1696 *)
| RSpin (n i : nat)        (* drew slot i < size; waits for the initial samples, 1712-1714 *)
| RWant (n i : nat)        (* about to take reservoir_sample_lock_, 1716 *)
| RIn (n i : nat)          (* holds the lock: reads and maybe writes slot i, 1717-1723 *)
| RDone (n : nat).
Record rsv := mkRsv {
  rv_number : nat;                   (* packed_sample_number_ *)
  rv_remaining : nat;                (* remaining_initial_samples_ *)
  rv_slot : nat -> option (nat * nat); (* packed_samples_: sample_number and RPC; None: never written *)
  rv_lock : option nat;              (* who holds reservoir_sample_lock_ *)
  rv_th : nat -> r_phase;
  rv_own : nat -> nat;               (* ghost: who got number n *)
  rv_subs : list nat;                (* ghost: numbers whose fetch_sub is done *)
  rv_bad : bool }.                   (* an unwritten slot was read *)
(** RunActionList 1341-1347; [size] = packed_samples_size_ > 0. *)
Definition rsv0 (size : nat) : rsv :=
  mkRsv 0 size (fun _ => None) None (fun _ => RStart) (fun _ => 0) [] false.
(** One step of thread [t]; [draw n] is the number absl::Uniform gives to the
    recorder that got sample number n (1699). *)
Definition rsv_step (size : nat) (draw : nat -> nat) (t : nat) (s : rsv) : option rsv :=
  match rv_th s t with
  | RStart =>
      let n := rv_number s in
      let p := if Nat.ltb n size then RFill n
               else if Nat.leb size (draw n) then RDone n
               else RSpin n (draw n) in
      Some (mkRsv (S n) (rv_remaining s) (rv_slot s) (rv_lock s) (upd (rv_th s) t p) (upd (rv_own s) n t) (rv_subs s) (rv_bad s))
  | RFill n =>
      Some (mkRsv (rv_number s) (rv_remaining s) (upd (rv_slot s) n (Some (n, t))) (rv_lock s) (upd (rv_th s) t (RFilled n))
              (rv_own s) (rv_subs s) (rv_bad s))
  | RFilled n =>
      Some (mkRsv (rv_number s) (rv_remaining s - 1) (rv_slot s) (rv_lock s) (upd (rv_th s) t (RDone n)) (rv_own s) (n :: rv_subs s) (rv_bad s))
  | RSpin n i =>
      if Nat.eqb (rv_remaining s) 0
      then Some (mkRsv (rv_number s) (rv_remaining s) (rv_slot s) (rv_lock s) (upd (rv_th s) t (RWant n i)) (rv_own s) (rv_subs s) (rv_bad s))
      else None
  | RWant n i =>
      match rv_lock s with
      | None => Some (mkRsv (rv_number s) (rv_remaining s) (rv_slot s) (Some t) (upd (rv_th s) t (RIn n i)) (rv_own s) (rv_subs s) (rv_bad s))
      | Some _ => None
      end
  | RIn n i =>
      let done slot bad := Some (mkRsv (rv_number s) (rv_remaining s) slot None (upd (rv_th s) t (RDone n)) (rv_own s) (rv_subs s) bad) in
      match rv_slot s i with
      | Some (m, _) => if Nat.ltb m n then done (upd (rv_slot s) i (Some (n, t))) (rv_bad s) else done (rv_slot s) (rv_bad s)
      | None => done (rv_slot s) true
      end
  | RDone _ => None
  end.
(** Runs; a thread that cannot move is skipped. *)
Fixpoint rsv_run (size : nat) (draw : nat -> nat) (l : list nat) (s : rsv) : rsv :=
  match l with
  | [] => s
  | t :: r => rsv_run size draw r (match rsv_step size draw t s with Some s' => s' | None => s end)
  end.

(** ** Samples *)
(** What RecordLatency reads of the ClientRpcState; times in nanoseconds,
    [st_prior] None: prior_start_time is InfinitePast; [st_error] None: the
    error message is empty, otherwise its index in the dictionary.  Durations
    too long for int64 are not modelled. *)
Record rpc_state := mkState {
  st_success : bool; st_start : Z; st_end : Z; st_prior : option Z;
  st_request : Z; st_response : Z; st_warmup : bool; st_trace : option nat; st_error : option Z }.
(** RpcSample; None: the field is not set. *)
Record sample := mkSample {
  sa_start : Z; sa_latency : Z; sa_weight : option Z; sa_request : Z; sa_response : Z;
  sa_warmup : bool; sa_trace : option nat; sa_error : option Z }.
(** The accessor latency_weight(), distbench.proto RpcSample: default 1. *)
Definition sample_weight (s : sample) : Z := match sa_weight s with Some w => w | None => 1 end.
(** RecordLatency 1735-1758. *)
Definition sample_direct (st : rpc_state) : sample :=
  mkSample (st_start st) (st_end st - st_start st)
    (match st_prior st with Some p => Some (st_start st - p)%Z | None => None end)
    (st_request st) (st_response st) (st_warmup st) (st_trace st) (st_error st).
(** RecordPackedLatency 1761-1792 followed by UnpackLatencySamples 1662-1679. *)
Record packed := mkPacked {
  pk_success : bool; pk_start : Z; pk_latency : Z; pk_weight : Z; pk_request : Z; pk_response : Z;
  pk_warmup : bool; pk_trace : option nat; pk_error : Z }.
Definition pack (st : rpc_state) : packed :=
  mkPacked (st_success st) (st_start st) (st_end st - st_start st)
    (match st_prior st with Some p => st_start st - p | None => 0 end)%Z
    (st_request st) (st_response st) (st_warmup st) (st_trace st)
    (match st_error st with Some i => i | None => 0%Z end).
Definition sample_unpacked (p : packed) : sample :=
  mkSample (pk_start p) (pk_latency p)
    (if (pk_weight p =? 0)%Z then None else Some (pk_weight p))
    (pk_request p) (pk_response p) (pk_warmup p) (pk_trace p)
    (if (pk_error p =? 0)%Z then None else Some (pk_error p)).

(** ** Logs *)
(** A recorded RPC: where it went, and the sample. *)
Record entry := mkEntry { en_service : nat; en_instance : nat; en_rpc : nat; en_ok : bool; en_sample : sample }.
(** RpcPerformanceLog: successful_rpc_samples and failed_rpc_samples. *)
Definition rpc_log := (list sample * list sample)%type.
(** PeerPerformanceLog: rpc_logs; the key is rpc_index, here not cut to int32. *)
Definition peer_log := list (nat * rpc_log).
Fixpoint log_find (r : nat) (m : peer_log) : option rpc_log :=
  match m with [] => None | (k, v) :: t => if Nat.eqb k r then Some v else log_find r t end.
(** (map)[r] = v *)
Fixpoint log_set (r : nat) (v : rpc_log) (m : peer_log) : peer_log :=
  match m with [] => [(r, v)] | (k, w) :: t => if Nat.eqb k r then (k, v) :: t else (k, w) :: log_set r v t end.
Definition log_get (r : nat) (m : peer_log) : rpc_log := match log_find r m with Some v => v | None => ([], []) end.
Definition add_sample (ok : bool) (x : sample) (l : rpc_log) : rpc_log :=
  if ok then (fst l ++ [x], snd l) else (fst l, snd l ++ [x]).
(** peer_logs_ of an action list, by service and instance. *)
Definition logs := list (list peer_log).
Fixpoint set_at {A} (i : nat) (x : A) (l : list A) : list A :=
  match l, i with
  | [], _ => []
  | _ :: t, O => x :: t
  | y :: t, S j => y :: set_at j x t
  end.
(** RecordLatency 1728-1734 and UnpackLatencySamples 1655-1661; None: CHECK_LT fails. *)
Definition record_entry (e : entry) (l : logs) : option logs :=
  match nth_error l (en_service e) with
  | None => None
  | Some sv =>
      match nth_error sv (en_instance e) with
      | None => None
      | Some pl =>
          let pl' := log_set (en_rpc e) (add_sample (en_ok e) (en_sample e) (log_get (en_rpc e) pl)) pl in
          Some (set_at (en_service e) (set_at (en_instance e) pl' sv) l)
      end
  end.
Fixpoint record_all (es : list entry) (l : logs) : option logs :=
  match es with [] => Some l | e :: r => match record_entry e l with Some l' => record_all r l' | None => None end end.
(** 1349-1353: one empty log per peer; [shape] is the number of instances of
    each service. *)
Definition logs0 (shape : list nat) : logs := map (fun n => repeat ([] : peer_log) n) shape.

(** UnpackLatencySamples 1645-1653: which slots are read, and the sort by end
    time.  std::sort may order equal end times differently; the sum is taken
    without overflow. *)
Definition pk_end (p : packed) : Z := (pk_start p + pk_latency p)%Z.
Fixpoint insert_end {A} (key : A -> Z) (x : A) (l : list A) : list A :=
  match l with [] => [x] | y :: t => if (key x <? key y)%Z then x :: l else y :: insert_end key x t end.
Fixpoint sort_end {A} (key : A -> Z) (l : list A) : list A :=
  match l with [] => [] | x :: t => insert_end key x (sort_end key t) end.
(** The RPCs whose samples are unpacked, in order.  None: an unwritten slot is read. *)
Fixpoint read_slots (slot : nat -> option (nat * nat)) (l : list nat) : option (list nat) :=
  match l with
  | [] => Some []
  | i :: r => match slot i, read_slots slot r with Some (_, t), Some ts => Some (t :: ts) | _, _ => None end
  end.
Definition unpack_order (size : nat) (key : nat -> Z) (s : rsv) : option (list nat) :=
  if Nat.leb (rv_number s) size then read_slots (rv_slot s) (seq 0 (rv_number s))
  else match read_slots (rv_slot s) (seq 0 size) with Some l => Some (sort_end key l) | None => None end.

(** End of RunActionList 1500-1509: one action list adds its non-empty peer
    logs to the peer's partial_logs.  [p] is the peer's list of partial logs. *)
Definition merge_peer (pl : peer_log) (p : list peer_log) : list peer_log :=
  match pl with [] => p | _ => p ++ [pl] end.
(** GetLogs 946-963.  A peer: log_name and partial_logs.  MergeFrom appends the
    repeated fields.  The iteration order of rpc_logs, a hash map, is that of
    the list here; entries of different keys do not affect each other. *)
Definition out_logs := list (str * peer_log).
Definition merge_rpc (name : str) (r : nat) (v : rpc_log) (o : out_logs) : out_logs :=
  match v with
  | ([], []) => o
  | _ =>
      let pl := match map_find name o with Some pl => pl | None => [] end in
      let w := log_get r pl in
      map_set name (log_set r (fst w ++ fst v, snd w ++ snd v) pl) o
  end.
Definition merge_partial (name : str) (pl : peer_log) (o : out_logs) : out_logs :=
  fold_left (fun o kv => merge_rpc name (fst kv) (snd kv) o) pl o.
Definition merge_peer_logs (o : out_logs) (p : str * list peer_log) : out_logs :=
  fold_left (fun o pl => merge_partial (fst p) pl o) (snd p) o.
Definition get_peer_logs (peers : list (list (str * list peer_log))) : out_logs :=
  fold_left (fun o sv => fold_left merge_peer_logs sv o) peers [].

(** ** Activity logs: UpdateActivitiesLog 1605-1625 and AddActivityLogs 921-930 *)
(** cumulative_activity_logs_: activity config name, metric name, sum; std::map
    iterates in name order, the list here in order of first use. *)
Definition act_logs := list (str * list (str * Z)).
Definition act_get (a m : str) (l : act_logs) : option Z :=
  match map_find a l with Some ms => map_find m ms | None => None end.
(** (logs)[a][m] += v; None: signed overflow. *)
Definition act_add (a m : str) (v : Z) (l : act_logs) : option act_logs :=
  let ms := match map_find a l with Some ms => ms | None => [] end in
  let w := ((match map_find m ms with Some w => w | None => 0 end) + v)%Z in
  if in_int64 w then Some (map_set a (map_set m w ms) l) else None.
(** What one action list adds: for each of its started activity actions, in
    order, the config name and the metrics of its GetActivityLog. *)
Definition act_run := list (str * list (str * Z)).
Fixpoint act_metrics (a : str) (ms : list (str * Z)) (l : act_logs) : option act_logs :=
  match ms with
  | [] => Some l
  | (m, v) :: r => match act_add a m v l with Some l' => act_metrics a r l' | None => None end
  end.
Fixpoint act_update (run : act_run) (l : act_logs) : option act_logs :=
  match run with
  | [] => Some l
  | (a, ms) :: r => match act_metrics a ms l with Some l' => act_update r l' | None => None end
  end.
(** Action lists finish one after another, under cumulative_activity_log_mu_ 1514. *)
Fixpoint act_all (runs : list act_run) (l : act_logs) : option act_logs :=
  match runs with
  | [] => Some l
  | x :: r => match act_update x l with Some l' => act_all r l' | None => None end
  end.
