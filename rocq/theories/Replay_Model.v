(** Replaying an RPC trace (distbench_engine.cc 1051-1309).  Definitions only. *)
From Coq Require Import Ascii String List NArith ZArith Bool Arith.
From Verif Require Import Base_Model Grid_Model Canon_Model.
Import ListNotations.
Open Scope Z_scope.

(** traffic_config.proto 144-181: RpcReplayTraceRecord.  rpc_class and
    server_processing_time_ns are not read by the code. *)
Inductive tmode := MUnknown | MTrafficStart | MTraceStart | MPriorStart | MPriorEnd.
Record record := mkRec {
  rc_timing : option Z; rc_mode : option tmode; rc_distances : list Z; rc_client : option Z;
  rc_server : option Z; rc_channel : option Z; rc_request_size : option Z; rc_response_size : option Z }.
(** traffic_config.proto 183-190: RpcReplayTrace. *)
Record trace := mkReplay {
  t_client : option str; t_server : option str; t_channels : list str; t_defaults : record; t_records : list record }.
(** The parts ValidateRpcReplayTrace looks at (Canon_Model.v). *)
Definition validated_part (t : trace) : replay_trace :=
  mkTrace (t_client t) (t_server t) (mkTrRec (rc_client (t_defaults t)) (rc_server (t_defaults t)))
    (map (fun r => mkTrRec (rc_client r) (rc_server r)) (t_records t)).

(** protobuf MergeFrom: a set field overrides, repeated fields are appended. *)
Definition override {A} (d r : option A) : option A := match r with Some _ => r | None => d end.
Definition merge (d r : record) : record :=
  mkRec (override (rc_timing d) (rc_timing r)) (override (rc_mode d) (rc_mode r)) (rc_distances d ++ rc_distances r)
    (override (rc_client d) (rc_client r)) (override (rc_server d) (rc_server r)) (override (rc_channel d) (rc_channel r))
    (override (rc_request_size d) (rc_request_size r)) (override (rc_response_size d) (rc_response_size r)).
(** 1107-1108, 1153-1154, 1166-1167, 1206-1207: defaults, then the record. *)
Definition record_at (t : trace) (i : nat) : option record := option_map (merge (t_defaults t)) (nth_error (t_records t) i).
Definition timing (r : record) : Z := match rc_timing r with Some z => z | None => 0 end.
Definition mode (r : record) : tmode := match rc_mode r with Some m => m | None => MUnknown end.
(** 1109-1110 and 1121-1122. *)
Definition addressed (local : Z) (r : record) : bool := match rc_client r with Some c => c =? local | None => true end.

(** 1051-1068: RpcTraceDeps. *)
Record dep := mkDep { dp_remaining : Z; dp_start : list nat; dp_end : list nat }.
Fixpoint upd {A} (i : nat) (f : A -> A) (l : list A) : list A :=
  match l, i with
  | [], _ => []
  | x :: r, O => f x :: r
  | x :: r, S j => x :: upd j f r
  end.
Definition push_start (i : nat) (d : dep) : dep := mkDep (dp_remaining d) (dp_start d ++ [i]) (dp_end d).
Definition push_end (i : nat) (d : dep) : dep := mkDep (dp_remaining d) (dp_start d) (dp_end d ++ [i]).
Definition set_remaining (z : Z) (d : dep) : dep := mkDep z (dp_start d) (dp_end d).

(** 1115-1135: the distances of record [i]; [None]: a CHECK failed.  Yields the
    dependencies and how many are valid. *)
Fixpoint setup_distances (t : trace) (local : Z) (i : nat) (m : tmode) (ds : list Z) (deps : list dep) (valid : Z)
  : option (list dep * Z) :=
  match ds with
  | [] => Some (deps, valid)
  | d :: r =>
      let index := Z.of_nat i - 1 - d in
      if d <? 0 then None
      else if index <? 0 then None
      else match record_at t (Z.to_nat index) with
           | None => None
           | Some dr =>
               if addressed local dr then
                 let deps1 := match m with
                              | MPriorStart => upd (Z.to_nat index) (push_start i) deps
                              | MPriorEnd => upd (Z.to_nat index) (push_end i) deps
                              | _ => deps
                              end in
                 setup_distances t local i m r deps1 (valid + 1)
               else setup_distances t local i m r deps valid
           end
  end.
(** 1106-1146: the loop over the records, [n] of them still to go from [i]. *)
Fixpoint setup_loop (t : trace) (local traffic_start trace_start : Z) (n i : nat)
    (deps : list dep) (ready : list (Z * nat)) (remaining : Z) : option (list dep * list (Z * nat) * Z) :=
  match n with
  | O => Some (deps, ready, remaining)
  | S n' =>
      match record_at t i with
      | None => None
      | Some r =>
          if addressed local r then
            match setup_distances t local i (mode r) (rc_distances r) deps 0 with
            | None => None
            | Some (deps1, valid) =>
                let deps2 := upd i (set_remaining valid) deps1 in
                let ready1 := if valid =? 0
                              then ready ++ [((match mode r with MTraceStart => trace_start | _ => traffic_start end) + timing r, i)]
                              else ready in
                setup_loop t local traffic_start trace_start n' (S i) deps2 ready1 (remaining + 1)
            end
          else setup_loop t local traffic_start trace_start n' (S i) deps ready remaining
      end
  end.

(** Where a record is sent: InitiateRpc with the two payload sizes (1239-1246),
    or InitiateRpcToMultiServerChannel (1231-1233). *)
Inductive target := ToServer (pd_id request_size response_size : Z) | ToChannel (channel : Z).
(** An RPC in flight; its end time once the callback has read the clock. *)
Record call := mkCall { cl_index : nat; cl_start : Z; cl_end : option Z }.
(** The thread in Run: at the head of the loop, waiting (1193), about to send,
    about to do ActivateStartDeps, returned. *)
Inductive pc := RTop | RWait (deadline : option Z) | RSend (i : nat) | RStarted (i : nat) (start : Z) | RDone.
(** [n_samples]: start offset and latency by record; [n_sent] is for the
    statements only, newest first. *)
Record runner := mkRunner {
  n_now : Z; n_trace_start : Z; n_deps : list dep; n_ready : list (Z * nat); n_remaining : Z; n_finished : bool;
  n_samples : list (nat * (Z * Z)); n_flight : list call; n_pc : pc; n_sent : list (nat * Z * target) }.
(** TooBig: the LOG(FATAL)s 1229 and 1237; BadPeer: CHECK_GE 1240; NoneReady:
    CHECK 1202. *)
Inductive rcrash := TooBig | BadPeer | NoneReady.
Inductive rresult := RNext (s : runner) | RCrash (c : rcrash) | RStuck.
Inductive raction :=
  | Tick (d : Z)       (* time passes *)
  | Main (n : nat)     (* the thread in Run; which of the earliest ready RPCs comes first *)
  | Finish (k : nat)   (* the callback of the k-th RPC in flight reads the clock *)
  | Activate (k : nat). (* and does the rest *)

(** 1099-1104 and 1179: Run up to its loop.  Times are not bounded here (the
    code adds int64s). *)
Definition setup (t : trace) (local traffic_start now : Z) : option runner :=
  match setup_loop t local traffic_start now (length (t_records t)) 0 (map (fun _ => mkDep 0 [] []) (t_records t)) [] 0 with
  | None => None
  | Some (deps, ready, remaining) => Some (mkRunner now now deps ready remaining false [] [] RTop [])
  end.
Definition set_pc (p : pc) (s : runner) : runner :=
  mkRunner (n_now s) (n_trace_start s) (n_deps s) (n_ready s) (n_remaining s) (n_finished s) (n_samples s) (n_flight s) p (n_sent s).
(** 1151-1157 and 1164-1170: the dependents of an RPC that started or ended at
    [time]. *)
Fixpoint release (t : trace) (time : Z) (l : list nat) (deps : list dep) (ready : list (Z * nat)) : list dep * list (Z * nat) :=
  match l with
  | [] => (deps, ready)
  | i :: r =>
      match nth_error deps i, record_at t i with
      | Some d, Some rec =>
          let left := dp_remaining d - 1 in
          release t time r (upd i (set_remaining left) deps) (if left =? 0 then ready ++ [(time + timing rec, i)] else ready)
      | _, _ => release t time r deps ready
      end
  end.
(** The earliest time in the heap (1187). *)
Fixpoint earliest (l : list (Z * nat)) : option Z :=
  match l with
  | [] => None
  | (x, _) :: r => match earliest r with None => Some x | Some y => Some (Z.min x y) end
  end.
Fixpoint without {A} (n : nat) (l : list A) : list A :=
  match l, n with
  | [], _ => []
  | _ :: r, O => r
  | x :: r, S m => x :: without m r
  end.
(** 1226-1248: the index checks; the casts to size_t make negative indices too
    big. *)
Definition destination (r : record) (pd_ids channels : list Z) : target + rcrash :=
  match rc_channel r with
  | Some c => if c <? 0 then inr TooBig
              else match nth_error channels (Z.to_nat c) with None => inr TooBig | Some n => inl (ToChannel n) end
  | None =>
      let i := match rc_server r with Some i => i | None => 0 end in
      if i <? 0 then inr TooBig
      else match nth_error pd_ids (Z.to_nat i) with
           | None => inr TooBig
           | Some p => if p <? 0 then inr BadPeer
                       else inl (ToServer p (match rc_request_size r with Some z => z | None => 0 end)
                                            (match rc_response_size r with Some z => z | None => 0 end))
           end
  end.
(** 1179-1252: one step of Run. *)
Definition main_step (t : trace) (pd_ids channels : list Z) (n : nat) (s : runner) : rresult :=
  match n_pc s with
  | RTop => RNext (set_pc (if n_remaining s =? 0 then RDone else RWait (earliest (n_ready s))) s)
  | RWait deadline =>
      if n_finished s
      then RNext (mkRunner (n_now s) (n_trace_start s) (n_deps s) (n_ready s) (n_remaining s) false (n_samples s) (n_flight s) RTop (n_sent s))
      else match deadline with
           | None => RStuck
           | Some d =>
               if d <=? n_now s then
                 match earliest (n_ready s) with
                 | None => RCrash NoneReady
                 | Some first =>
                     match nth_error (n_ready s) n with
                     | Some (x, i) =>
                         if x =? first
                         then RNext (mkRunner (n_now s) (n_trace_start s) (n_deps s) (without n (n_ready s)) (n_remaining s) (n_finished s)
                                       (n_samples s) (n_flight s) (RSend i) (n_sent s))
                         else RStuck
                     | None => RStuck
                     end
                 end
               else RStuck
           end
  | RSend i =>
      match record_at t i with
      | None => RStuck
      | Some r =>
          match destination r pd_ids channels with
          | inr c => RCrash c
          | inl dest =>
              RNext (mkRunner (n_now s) (n_trace_start s) (n_deps s) (n_ready s) (n_remaining s) (n_finished s) (n_samples s)
                       (n_flight s ++ [mkCall i (n_now s) None]) (RStarted i (n_now s)) ((i, n_now s, dest) :: n_sent s))
          end
      end
  | RStarted i start =>
      match nth_error (n_deps s) i with
      | None => RStuck
      | Some d =>
          let '(deps, ready) := release t start (dp_start d) (n_deps s) (n_ready s) in
          RNext (mkRunner (n_now s) (n_trace_start s) deps ready (n_remaining s) (n_finished s) (n_samples s) (n_flight s) RTop (n_sent s))
      end
  | RDone => RStuck
  end.
(** 1211-1212: the RPC has ended; its callback reads the clock. *)
Definition finish_step (k : nat) (s : runner) : rresult :=
  match nth_error (n_flight s) k with
  | Some (mkCall i start None) =>
      RNext (mkRunner (n_now s) (n_trace_start s) (n_deps s) (n_ready s) (n_remaining s) (n_finished s) (n_samples s)
               (upd k (fun _ => mkCall i start (Some (n_now s))) (n_flight s)) (n_pc s) (n_sent s))
  | _ => RStuck
  end.
(** 1213-1223 and 1160-1174: the sample and ActivateEndDeps (under the mutex). *)
Definition activate_step (t : trace) (k : nat) (s : runner) : rresult :=
  match nth_error (n_flight s) k with
  | Some (mkCall i start (Some e)) =>
      match nth_error (n_deps s) i with
      | None => RStuck
      | Some d =>
          let offset := start - n_trace_start s in
          let latency := e - start in
          let '(deps, ready) := release t (n_trace_start s + offset + latency) (dp_end d) (n_deps s) (n_ready s) in
          RNext (mkRunner (n_now s) (n_trace_start s) deps ready (n_remaining s - 1) true
                   (n_samples s ++ [(i, (offset, latency))]) (without k (n_flight s)) (n_pc s) (n_sent s))
      end
  | _ => RStuck
  end.
Definition rstep (t : trace) (pd_ids channels : list Z) (a : raction) (s : runner) : rresult :=
  match a with
  | Tick d =>
      if d <? 0 then RStuck
      else RNext (mkRunner (n_now s + d) (n_trace_start s) (n_deps s) (n_ready s) (n_remaining s) (n_finished s) (n_samples s) (n_flight s) (n_pc s) (n_sent s))
  | Main n => main_step t pd_ids channels n s
  | Finish k => finish_step k s
  | Activate k => activate_step t k s
  end.
Fixpoint rrun (t : trace) (pd_ids channels : list Z) (l : list raction) (s : runner) : rresult :=
  match l with
  | [] => RNext s
  | a :: r => match rstep t pd_ids channels a s with
              | RNext s' => rrun t pd_ids channels r s'
              | RCrash c => RCrash c
              | RStuck => rrun t pd_ids channels r s
              end
  end.

(** 1285-1295: logical_to_msc; a name that is not a channel of the target
    service is skipped. *)
Fixpoint channel_index (name : str) (l : list str) (i : Z) : option Z :=
  match l with
  | [] => None
  | x :: r => if str_eqb x name then Some i else channel_index name r (i + 1)
  end.
Fixpoint logical_channels (names service_channels : list str) : list Z :=
  match names with
  | [] => []
  | n :: r => match channel_index n service_channels 0 with
              | Some i => i :: logical_channels r service_channels
              | None => logical_channels r service_channels
              end
  end.
(** 1296-1301: logical_to_pdid, [None] when CHECK_NE fails. *)
Fixpoint logical_peers (peers : list Z) : option (list Z) :=
  match peers with
  | [] => Some []
  | p :: r => if p =? -1 then None else option_map (cons p) (logical_peers r)
  end.
