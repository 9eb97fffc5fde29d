(** Model of distbench_summary.cc.  The model gives the numbers that are
    formatted; the text is in Text_Model.v.  The maps are lists in order of
    first use; std::map iterates in key order, which changes only the order of
    the lines (in Text_Model.v too).  Definitions only. *)
From Coq Require Import Ascii String List ZArith Bool SpecFloat.
From Verif Require Import Base_Model Float_Model Log_Model.
Import ListNotations.
Open Scope Z_scope.

(** Signed 64 bit addition; None: overflow, undefined behaviour. *)
Definition add64 (a b : Z) : option Z := if in_int64 (a + b) then Some (a + b) else None.
Definition bind {A B} (x : option A) (f : A -> option B) : option B := match x with Some a => f a | None => None end.
Notation "'do' x <- a ; b" := (bind a (fun x => b)) (at level 200, x pattern, a at level 100, b at level 200).

(** ** LatencySummary, 31-44 *)
(** latencies[N * c]: size_t to double, product, and back; None: outside the
    vector. *)
Definition latency_at (l : list Z) (c : spec_float) : option Z :=
  do i <- f_trunc (f64_mul (f64_of_Z (Z.of_nat (length l))) c);
  if i <? 0 then None else nth_error l (Z.to_nat i).
Record lat_summary := mkLat { la_n : nat; la_values : option (Z * Z * Z * Z * Z * Z) }.
Definition latency_summary (l : list Z) : option lat_summary :=
  match l with
  | [] => Some (mkLat 0 None)
  | x :: _ =>
      do median <- latency_at l f64_0_5;
      do p90 <- latency_at l f64_0_9;
      do p99 <- latency_at l f64_0_99;
      do p999 <- latency_at l f64_0_999;
      Some (mkLat (length l) (Some (x, median, p90, p99, p999, last l x)))
  end.

(** ** SummarizeTestResult, 148-217 *)
Record perf := mkPerf { pf_rpcs : Z; pf_request : Z; pf_response : Z }.     (* rpc_traffic_summary *)
Definition perf0 : perf := mkPerf 0 0 0.
(** std::map<t_string_pair, ...> *)
Definition pair_eqb (a b : str * str) : bool := str_eqb (fst a) (fst b) && str_eqb (snd a) (snd b).
Fixpoint pair_find {V} (k : str * str) (m : list ((str * str) * V)) : option V :=
  match m with [] => None | (k', v) :: r => if pair_eqb k' k then Some v else pair_find k r end.
Fixpoint pair_set {V} (k : str * str) (v : V) (m : list ((str * str) * V)) : list ((str * str) * V) :=
  match m with [] => [(k, v)] | (k', w) :: r => if pair_eqb k' k then (k', v) :: r else (k', w) :: pair_set k v r end.
(** The local variables of the loop over one peer, and the counters. *)
Record peer_acc := mkPeer {
  ac_start : Z; ac_end : Z; ac_perf : perf;
  ac_lat : list (str * list Z);        (* latency_map *)
  ac_samples : Z; ac_warm : Z; ac_failed : Z }.
(** 175-196: one successful sample of the RPC called [name]. *)
Definition sum_sample (name : str) (a : peer_acc) (s : sample) : option peer_acc :=
  if sa_warmup s
  then do w <- add64 (ac_warm a) 1;
       Some (mkPeer (ac_start a) (ac_end a) (ac_perf a) (ac_lat a) (ac_samples a) w (ac_failed a))
  else
    do e <- add64 (sa_start s) (sa_latency s);
    do rq <- add64 (pf_request (ac_perf a)) (sa_request s);
    do rs <- add64 (pf_response (ac_perf a)) (sa_response s);
    let lat := match map_find name (ac_lat a) with Some l => l | None => [] end in
    Some (mkPeer (Z.min (sa_start s) (ac_start a)) (Z.max e (ac_end a)) (mkPerf (pf_rpcs (ac_perf a)) rq rs)
            (map_set name (lat ++ [sa_latency s]) (ac_lat a)) (ac_samples a) (ac_warm a) (ac_failed a)).
Fixpoint sum_samples (name : str) (l : list sample) (a : peer_acc) : option peer_acc :=
  match l with [] => Some a | s :: r => do a' <- sum_sample name a s; sum_samples name r a' end.
(** 166-197: one entry of rpc_logs; [names] are the names of rpc_descriptions.
    None also for an index outside them (166-167: undefined). *)
Definition sum_rpc (names : list str) (a : peer_acc) (rl : nat * rpc_log) : option peer_acc :=
  do name <- nth_error names (fst rl);
  let ok := Z.of_nat (length (fst (snd rl))) in
  let bad := Z.of_nat (length (snd (snd rl))) in
  let lat := match map_find name (ac_lat a) with Some _ => ac_lat a | None => map_set name [] (ac_lat a) end in
  do n <- add64 (pf_rpcs (ac_perf a)) ok;
  do f <- add64 (ac_failed a) bad;
  do s1 <- add64 (ac_samples a) bad;
  do s2 <- add64 s1 ok;
  sum_samples name (fst (snd rl))
    (mkPeer (ac_start a) (ac_end a) (mkPerf n (pf_request (ac_perf a)) (pf_response (ac_perf a))) lat s2 (ac_warm a) f).
Fixpoint sum_rpcs (names : list str) (l : peer_log) (a : peer_acc) : option peer_acc :=
  match l with [] => Some a | rl :: r => do a' <- sum_rpc names a rl; sum_rpcs names r a' end.
Definition int64_min : Z := -9223372036854775808.
Record totals := mkTotals {
  to_lat : list (str * list Z); to_perf : list ((str * str) * perf); to_time : Z;
  to_samples : Z; to_warm : Z; to_failed : Z }.
Definition totals0 : totals := mkTotals [] [] 0 0 0 0.
(** 158-204: one peer of one instance. *)
Definition sum_peer (names : list str) (initiator : str) (t : totals) (p : str * peer_log) : option totals :=
  do a <- sum_rpcs names (snd p) (mkPeer int64_max int64_min perf0 (to_lat t) (to_samples t) (to_warm t) (to_failed t));
  do time <- (if ac_start a =? int64_max then Some (to_time t)
              else if in_int64 (ac_end a - ac_start a) then Some (Z.max (to_time t) (ac_end a - ac_start a)) else None);
  Some (mkTotals (ac_lat a) (pair_set (initiator, fst p) (ac_perf a) (to_perf t)) time (ac_samples a) (ac_warm a) (ac_failed a)).
Fixpoint sum_peers (names : list str) (initiator : str) (l : list (str * peer_log)) (t : totals) : option totals :=
  match l with [] => Some t | p :: r => do t' <- sum_peer names initiator t p; sum_peers names initiator r t' end.
(** instance_logs: per initiating instance, its peer_logs. *)
Definition result_log := list (str * list (str * peer_log)).
Fixpoint sum_instances (names : list str) (l : result_log) (t : totals) : option totals :=
  match l with [] => Some t | (i, ps) :: r => do t' <- sum_peers names i ps t; sum_instances names r t' end.

(** ** AddInstanceSummaryTo, 79-144 *)
Record inst_sum := mkInst { is_tx : Z; is_rx : Z }.
Definition inst_get (k : str) (m : list (str * inst_sum)) : inst_sum := match map_find k m with Some x => x | None => mkInst 0 0 end.
Record inst_totals := mkIT { it_map : list (str * inst_sum); it_rpcs : Z; it_tx : Z }.
(** 88-116 *)
Definition inst_step (t : inst_totals) (e : (str * str) * perf) : option inst_totals :=
  let '((i, d), p) := e in
  do n <- add64 (it_rpcs t) (pf_rpcs p);
  do b <- add64 (pf_request p) (pf_response p);
  do x <- add64 (it_tx t) b;
  let s1 := inst_get i (it_map t) in
  do tx1 <- add64 (is_tx s1) (pf_request p);
  do rx1 <- add64 (is_rx s1) (pf_response p);
  let m1 := map_set i (mkInst tx1 rx1) (it_map t) in
  let s2 := inst_get d m1 in
  do tx2 <- add64 (is_tx s2) (pf_response p);
  do rx2 <- add64 (is_rx s2) (pf_request p);
  Some (mkIT (map_set d (mkInst tx2 rx2) m1) n x).
Fixpoint inst_all (l : list ((str * str) * perf)) (t : inst_totals) : option inst_totals :=
  match l with [] => Some t | e :: r => do t' <- inst_step t e; inst_all r t' end.

(** ** The result, 206-216 *)
Record summary := mkSummary {
  sm_lat : list (str * lat_summary);
  sm_comm : list ((str * str) * perf);           (* AddCommunicationSummaryTo 59-77 *)
  sm_inst : option (list (str * inst_sum) * Z * Z);  (* 117-119 None: no RPCs; otherwise instances, total RPCs, total bytes *)
  sm_time : Z; sm_samples : Z; sm_warm : Z; sm_failed : Z }.
Fixpoint lat_all (l : list (str * list Z)) : option (list (str * lat_summary)) :=
  match l with
  | [] => Some []
  | (n, v) :: r => do x <- latency_summary (sort_end (fun z => z) v); do xs <- lat_all r; Some ((n, x) :: xs)
  end.
Inductive sum_result := NoSummary | Summary (s : summary).
(** 209: a time of zero gives no lines.  (double)test_time / 1e9 is zero only
    if test_time is. *)
Definition summarize (names : list str) (l : result_log) : option sum_result :=
  do t <- sum_instances names l totals0;
  if to_time t =? 0 then Some NoSummary
  else
    do lat <- lat_all (to_lat t);
    do it <- inst_all (to_perf t) (mkIT [] 0 0);
    Some (Summary (mkSummary lat (to_perf t)
                     (if it_rpcs it =? 0 then None else Some (it_map it, it_rpcs it, it_tx it))
                     (to_time t) (to_samples t) (to_warm t) (to_failed t))).
