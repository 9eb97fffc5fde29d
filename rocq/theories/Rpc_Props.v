(** Properties C28 (propagation), C31, C32, C33, C34, C60. *)
From Coq Require Import Ascii String List ZArith Bool Lia Arith.
From Verif Require Import Base_Model Base_Proofs Iter_Model Rpc_Model Rpc_Proofs Rpc_Proofs2.
Import ListNotations.
Open Scope Z_scope.

(** * C28 *)
(** An action list is a warmup run iff some iteration on the chain of calls
    that led to it is a warmup iteration. *)
Theorem C28_warmup_chain : forall l rq force, chain l (fake_request, false) = Some (rq, force) ->
  (list_warmup force rq = true <->
   exists c sc jo, In (c, sc, jo) l /\ hp_iteration (hop_of c) < hp_warmup_iterations (hop_of c)).
Proof.
  intros l rq force E. rewrite (chain_warmup_gen _ _ _ _ _ E). cbn [list_warmup fake_request rq_warmup orb]. rewrite existsb_exists. split.
  - intros [[[c sc] jo] [I W]]. exists c, sc, jo. split; [assumption|]. now apply Z.ltb_lt.
  - intros [c [sc [jo [I W]]]]. exists (c, sc, jo). split; [assumption|]. now apply Z.ltb_lt.
Qed.
Print Assumptions C28_warmup_chain.

(** Every request of an iteration carries the mark of the iteration. *)
Theorem C28_requests_marked : forall scalar joint inc w h targets l, send_requests scalar joint inc w h targets = Some l ->
  forall t rq size, In (t, rq, size) l -> rq_warmup rq = Some w.
Proof.
  intros scalar joint inc w h targets l E t rq size I. destruct (send_spec _ _ _ _ _ _ _ E) as [L N].
  apply In_nth_error in I. destruct I as [k K]. assert (nth_error targets k <> None) as X.
  { apply nth_error_Some. rewrite <- L. apply nth_error_Some. congruence. }
  destruct (nth_error targets k) as [t'|] eqn:T; [|congruence]. destruct (N k t' T) as [z [r [_ K']]].
  rewrite K in K'. injection K' as -> -> ->. reflexivity.
Qed.
Print Assumptions C28_requests_marked.

(** * C31 *)
Theorem C31_cancelled : forall scalar reason deadline now table inst ded rq, deadline < now ->
  exists r, rpc_handler scalar (Some (reason, deadline)) now table inst ded rq = Some r /\
  answered r (mkResp (s_ "Traffic cancelled: "%string ++ reason)%list None 0).
Proof. exact handler_cancelled. Qed.
Print Assumptions C31_cancelled.

Theorem C31_no_index_no_size : forall scalar canceled now table inst ded rq, ~ refusing canceled now ->
  rq_index rq = None -> rq_resp_size rq = None ->
  exists r, rpc_handler scalar canceled now table inst ded rq = Some r /\
  answered r (mkResp (s_ "rpc has no index, and no response size: "%string) None 0).
Proof.
  intros scalar canceled now table inst ded rq NR I S0. unfold rpc_handler. rewrite (not_refusing _ _ NR), I, S0.
  eexists. split; [reflexivity|]. repeat split.
Qed.
Print Assumptions C31_no_index_no_size.

Theorem C31_bad_index : forall scalar canceled now table inst ded rq i, ~ refusing canceled now ->
  rq_index rq = Some i -> in_int32 i = true -> Z.of_nat (length table) <= int32_max ->
  (i < 0 \/ Z.of_nat (length table) <= i) ->
  exists r, rpc_handler scalar canceled now table inst ded rq = Some r /\
  answered r (mkResp (s_ "rpc_index out of range: "%string ++ dec_of_Z i)%list None 0).
Proof. exact handler_bad_index. Qed.
Print Assumptions C31_bad_index.

Theorem C31_not_allowed : forall scalar canceled now table inst ded rq i srv, ~ refusing canceled now ->
  rq_index rq = Some i -> 0 <= i -> nth_error table (Z.to_nat i) = Some srv -> Z.of_nat (length table) <= int32_max ->
  sv_allowed srv = false ->
  exists r, rpc_handler scalar canceled now table inst ded rq = Some r /\
  answered r (mkResp (s_ "rpc_index should never be sent to this service: "%string ++ dec_of_Z i)%list None 0).
Proof. exact handler_not_allowed. Qed.
Print Assumptions C31_not_allowed.

Theorem C31_no_handler : forall scalar canceled now table inst ded rq i srv n, ~ refusing canceled now ->
  rq_index rq = Some i -> 0 <= i -> nth_error table (Z.to_nat i) = Some srv -> Z.of_nat (length table) <= int32_max ->
  sv_allowed srv = true -> sv_handler srv = -1 ->
  compute_response_size scalar rq (sv_def srv) (df_resp_index (sv_def srv)) = Some n ->
  exists r, rpc_handler scalar canceled now table inst ded rq = Some r /\
  answered r (mkResp [] (if df_multi (sv_def srv) then Some inst else None) n).
Proof. exact handler_simple. Qed.
Print Assumptions C31_no_handler.

Theorem C31_handler_list : forall scalar canceled now table inst ded rq i srv, ~ refusing canceled now ->
  rq_index rq = Some i -> 0 <= i -> nth_error table (Z.to_nat i) = Some srv -> Z.of_nat (length table) <= int32_max ->
  sv_allowed srv = true -> sv_handler srv <> -1 ->
  exists r, rpc_handler scalar canceled now table inst ded rq = Some r /\
  sends_of r = 0%nat /\ frees_of r = 0%nat /\ lists_of r = [sv_handler srv] /\
  (ded = true -> hr_work r = WNone /\ hr_detached r = 0) /\ (ded = false -> hr_events r = [] /\ hr_detached r = 1).
Proof. exact handler_list. Qed.
Print Assumptions C31_handler_list.

(** Either the dispatcher answers and frees, once, or it starts exactly one
    action list (which does both, C25); replay requests are the exception. *)
Theorem C31_one_owner : forall scalar canceled now table inst ded rq r,
  rpc_handler scalar canceled now table inst ded rq = Some r ->
  (sends_of r = 1%nat /\ frees_of r = 1%nat /\ lists_of r = [] /\ hr_work r = WNone) \/
  (sends_of r = 0%nat /\ frees_of r = 0%nat /\ length (lists_of r) = 1%nat) \/
  (hr_events r = [] /\ lists_of r = [] /\ rq_index rq = None /\ rq_resp_size rq <> None).
Proof. exact handler_one_owner. Qed.
Print Assumptions C31_one_owner.

Theorem C31_error_iff_refused : forall scalar canceled now table inst ded rq r resp,
  in_int32 (match rq_index rq with Some i => i | None => 0 end) = true -> Z.of_nat (length table) <= int32_max ->
  rpc_handler scalar canceled now table inst ded rq = Some r -> In (HSend resp) (hr_events r) ->
  (rs_error resp = [] <->
   ~ refusing canceled now /\ exists i srv, rq_index rq = Some i /\ 0 <= i /\ nth_error table (Z.to_nat i) = Some srv /\ sv_allowed srv = true).
Proof. exact handler_error_iff. Qed.
Print Assumptions C31_error_iff_refused.

(** Finding: a replay request is neither answered nor freed by the engine. *)
Theorem C31_replay_unanswered_refuted : exists rq, forall scalar now table inst ded,
  exists r, rpc_handler scalar None now table inst ded rq = Some r /\ hr_events r = [] /\ lists_of r = [].
Proof. exists (mkReq None None (Some false) (Some 100) (Some 5)). intros. eexists. split; [reflexivity|]. split; reflexivity. Qed.
Print Assumptions C31_replay_unanswered_refuted.

(** * C32 *)
Theorem C32_response_size : forall scalar rq d ov,
  match rq_resp_size rq with
  | Some n => compute_response_size scalar rq d ov = Some (to_size_t n)
  | None =>
      (ov <> -1 -> compute_response_size scalar rq d ov = option_map to_size_t (scalar ov)) /\
      (ov = -1 -> df_resp_index d >= 0 -> compute_response_size scalar rq d ov = option_map to_size_t (scalar (df_resp_index d))) /\
      (ov = -1 -> df_resp_index d < 0 -> compute_response_size scalar rq d ov = Some (Z.max 0 (df_resp_size d)))
  end.
Proof. exact response_size_spec. Qed.
Print Assumptions C32_response_size.

(** Finding: a negative size in the request asks for a response of almost 2^64 bytes. *)
Theorem C32_negative_size_refuted : exists rq, forall scalar d ov,
  exists n, compute_response_size scalar rq d ov = Some n /\ n > 2 ^ 63.
Proof. exists (mkReq (Some 0) None None (Some (-1)) None). intros. eexists. split; [reflexivity|]. vm_compute. reflexivity. Qed.
Print Assumptions C32_negative_size_refuted.

(** * C33 *)
Theorem C33_request_size : forall scalar joint d ov,
  (df_joint d >= 0 -> forall q r, joint (df_joint d) = Some (q :: r) ->
     request_sizes scalar joint d ov = Some (to_size_t q, Some (hd q r))) /\
  (df_joint d < 0 -> ov <> -1 -> request_sizes scalar joint d ov = option_map (fun n => (to_size_t n, None)) (scalar ov)) /\
  (df_joint d < 0 -> ov = -1 -> df_req_index d >= 0 ->
     request_sizes scalar joint d ov = option_map (fun n => (to_size_t n, None)) (scalar (df_req_index d))) /\
  (df_joint d < 0 -> ov = -1 -> df_req_index d < 0 -> request_sizes scalar joint d ov = Some (Z.max 0 (df_req_size d), None)).
Proof. exact request_size_spec. Qed.
Print Assumptions C33_request_size.

Theorem C33_one_request_per_target : forall scalar joint inc w h targets l, send_requests scalar joint inc w h targets = Some l ->
  map (fun x => fst (fst x)) l = targets /\
  forall t rq size, In (t, rq, size) l -> rq_index rq = Some (hp_rpc h) /\
    request_sizes scalar joint (hp_def h) (hp_override h) = Some (size, rq_resp_size rq).
Proof.
  intros scalar joint inc w h targets l E. destruct (send_spec _ _ _ _ _ _ _ E) as [L N]. split.
  - apply nth_error_ext_eq; [now rewrite map_length|]. intros k t T. destruct (N k t T) as [z [r [_ K]]].
    rewrite (map_nth_error _ _ _ K). reflexivity.
  - intros t rq size I. apply In_nth_error in I. destruct I as [k K]. assert (nth_error targets k <> None) as X.
    { apply nth_error_Some. rewrite <- L. apply nth_error_Some. congruence. }
    destruct (nth_error targets k) as [t'|] eqn:T; [|congruence]. destruct (N k t' T) as [z [r [Q K']]].
    rewrite K in K'. injection K' as -> -> ->. cbn [rq_index rq_resp_size]. auto.
Qed.
Print Assumptions C33_one_request_per_target.

(** * C34 *)
(** Along any chain of calls the context holds one entry per RPC hop since the
    first sampled one, in order. *)
Theorem C34_trace_chain : forall l rq force, chain l (fake_request, false) = Some (rq, force) ->
  rq_trace rq = match from_first_due (rpc_hops l) with [] => None | hs => Some (trace_plus empty_trace hs) end.
Proof. intros l rq force E. now apply (chain_untraced _ _ _ _ _ E). Qed.
Print Assumptions C34_trace_chain.

Theorem C34_parallel_lists : forall l rq force t, chain l (fake_request, false) = Some (rq, force) -> rq_trace rq = Some t ->
  let n := length (from_first_due (rpc_hops l)) in
  length (tr_engines t) = n /\ length (tr_invocations t) = n /\ length (tr_lists t) = n /\
  length (tr_actions t) = n /\ length (tr_iterations t) = n /\ length (tr_fanout t) = n.
Proof.
  intros l rq force t E T n. rewrite (chain_untraced _ _ _ _ _ E eq_refl) in T. subst n.
  destruct (from_first_due (rpc_hops l)) as [|x r]; [discriminate|]. injection T as <-.
  unfold trace_plus, empty_trace. cbn [tr_engines tr_invocations tr_lists tr_actions tr_iterations tr_fanout app map length].
  now rewrite !map_length.
Qed.
Print Assumptions C34_parallel_lists.

(** Each hop extends what it received. *)
Theorem C34_extends : forall l rq force rq' force' t, chain l (rq, force) = Some (rq', force') -> rq_trace rq = Some t ->
  rq_trace rq' = Some (trace_plus t (rpc_hops l)).
Proof. exact chain_traced. Qed.
Print Assumptions C34_extends.

Theorem C34_sampling : forall count interval, 0 <= count <= int32_max ->
  (0 < interval -> (trace_due count interval = true <-> exists m, count = m * interval)) /\
  (interval <= 0 -> trace_due count interval = false).
Proof. intros count interval C. split; [apply due_spec; assumption|apply not_due]. Qed.
Print Assumptions C34_sampling.

(** Finding: the counter is truncated to 32 bits, so sampling goes out of step
    after 2^32 RPCs. *)
Theorem C34_sampling_wraps_refuted : exists count interval, 0 < interval /\ (forall m, count <> m * interval) /\ trace_due count interval = true.
Proof. exists 4294967296, 3. split; [lia|]. split; [intros m; lia|reflexivity]. Qed.
Print Assumptions C34_sampling_wraps_refuted.

(** * C60 *)
Theorem C60_pending_count : forall max l, 0 <= max -> let s := fly_run max l fly0 in
  fy_pending s = Z.of_nat (length (sent (fy_log s))) - Z.of_nat (length (completed (fy_log s))) /\
  NoDup (sent (fy_log s)) /\ NoDup (completed (fy_log s)) /\ incl (completed (fy_log s)) (sent (fy_log s)) /\ 0 <= fy_pending s /\
  (incl (sent (fy_log s)) (completed (fy_log s)) -> fy_pending s = 0).
Proof. exact pending_counts. Qed.
Print Assumptions C60_pending_count.

Theorem C60_overload_cancels : forall max l, 0 <= max -> let s := fly_run max l fly0 in
  fy_pending s > max -> (forall i, fl_phase (fy_iter s i) = SIdle) -> fy_canceled s <> None.
Proof. exact overload_cancels. Qed.
Print Assumptions C60_overload_cancels.

(** The overload cancellation happens only above the limit, and at most one
    cancellation takes effect; it stays. *)
Theorem C60_overload_only_above_limit : forall max l, 0 <= max -> let s := fly_run max l fly0 in
  forall l1 r l2, fy_log s = l1 ++ EvCancel r :: l2 ->
  cancels_of l2 = [] /\ cancels_of l1 = [] /\ fy_canceled s = Some r /\
  (r = TooManyRpcs -> Z.of_nat (length (sent l2)) - Z.of_nat (length (completed l2)) > max).
Proof.
  intros max l M s l1 r l2 E. pose proof (run_FI max l M) as H. fold s in H. pose proof (F_hist _ _ H) as HH. rewrite E in HH.
  destruct (fly_split _ _ _ _ HH) as [A B]. split; [assumption|]. pose proof (F_canc _ _ H) as C. rewrite E in C.
  unfold cancels_of in C. rewrite flat_map_app in C. cbn [flat_map app] in C. unfold cancels_of in A. rewrite A in C. fold (cancels_of l1) in C.
  destruct (fy_canceled s) as [r'|].
  - destruct (cancels_of l1) as [|x y] eqn:Q; [|destruct y; discriminate]. injection C as <-. auto.
  - destruct (cancels_of l1); discriminate.
Qed.
Print Assumptions C60_overload_only_above_limit.

Theorem C35_first_cancellation_kept : forall max l s r, fy_canceled s = Some r -> fy_canceled (fly_run max l s) = Some r.
Proof. exact cancel_kept. Qed.
Print Assumptions C35_first_cancellation_kept.

(** An iteration finishes once, after all its RPCs were recorded, and does
    finish when they all were. *)
Theorem C60_iteration_finish : forall max l, 0 <= max -> let s := fly_run max l fly0 in
  (forall l1 i l2, fy_log s = l1 ++ EvFinish i :: l2 ->
     ~ In (EvFinish i) l2 /\ exists n, In (EvStart i n) l2 /\ forall k, (k < n)%nat -> In (EvLeft i k) l2) /\
  (forall l1 i k l2, fy_log s = l1 ++ EvLeft i k :: l2 -> ~ In (EvLeft i k) l2 /\ In (EvRecorded i k) l2) /\
  (forall l1 i k l2, fy_log s = l1 ++ EvRecorded i k :: l2 -> ~ In (EvRecorded i k) l2 /\ In (EvSent i k) l2) /\
  (forall i n, In (EvStart i n) (fy_log s) -> (forall k, (k < n)%nat -> In (EvLeft i k) (fy_log s)) -> In (EvFinish i) (fy_log s)).
Proof.
  intros max l M s. pose proof (F_hist _ _ (run_FI max l M)) as H. fold s in H.
  split; [|split; [|split]].
  - intros l1 i l2 E. rewrite E in H. exact (fly_split _ _ _ _ H).
  - intros l1 i k l2 E. rewrite E in H. exact (fly_split _ _ _ _ H).
  - intros l1 i k l2 E. rewrite E in H. exact (fly_split _ _ _ _ H).
  - exact (iteration_finishes max l M).
Qed.
Print Assumptions C60_iteration_finish.

(** * Examples *)
Definition ex_def : rpc_def := mkDef (-1) (-1) 2 64 (-1) false.
Definition ex_hop (e it wu : Z) : hop := mkHop e 7 1 2 it wu 4 2 0 (-1) ex_def.
Definition no_joint : joint_draw := fun _ => None.
Definition ex_scalar : scalar_draw := fun i => if i =? 2 then Some 300 else None.
(** Engine 5, iteration 3 of 10 warmups, fans out to 2 targets; the second
    one's handler runs a nested list, which sends on from engine 6. *)
Definition ex_chain : list link :=
  [(ByRpc (ex_hop 5 3 10) [0; 1] 1, ex_scalar, no_joint); (ByList (ex_hop 6 0 0), ex_scalar, no_joint);
   (ByRpc (ex_hop 6 8 0) [4] 0, ex_scalar, no_joint)].
Example C34_example : chain ex_chain (fake_request, false) =
  Some (mkReq (Some 0) (Some (mkTrace [5; 6] [7; 7] [1; 1] [2; 2] [3; 8] [1; 0])) (Some true) None None, false).
Proof. reflexivity. Qed.
Example C28_example : exists c sc jo, In (c, sc, jo) ex_chain /\ hp_iteration (hop_of c) < hp_warmup_iterations (hop_of c).
Proof. exists (ByRpc (ex_hop 5 3 10) [0; 1] 1), ex_scalar, no_joint. split; [left; reflexivity|reflexivity]. Qed.
Definition ex_table : list server_rpc := [mkSrv true (-1) ex_def; mkSrv false (-1) ex_def; mkSrv true 3 ex_def].
Example C31_example_size :
  rpc_handler ex_scalar None 5 ex_table 1 false (mkReq (Some 0) None None None None) =
  Some (mkHR [HSend (mkResp [] None 300); HFree] WNone 0).
Proof. reflexivity. Qed.
Example C31_example_refused :
  rpc_handler ex_scalar (Some (s_ "x"%string, 4)) 5 ex_table 1 false (mkReq (Some 0) None None None None) =
  Some (mkHR [HSend (mkResp (s_ "Traffic cancelled: x"%string) None 0); HFree] WNone 0).
Proof. reflexivity. Qed.
Example C31_example_grace :
  rpc_handler ex_scalar (Some (s_ "x"%string, 5)) 5 ex_table 1 false (mkReq (Some 2) None None None None) =
  Some (mkHR [] (WList 3 None) 1).
Proof. reflexivity. Qed.
Example C31_example_index :
  rpc_handler ex_scalar None 5 ex_table 1 false (mkReq (Some (-3)) None None None None) =
  Some (mkHR [HSend (mkResp (s_ "rpc_index out of range: -3"%string) None 0); HFree] WNone 0).
Proof. reflexivity. Qed.
Example C33_example : request_sizes ex_scalar (fun _ => Some [10; 20]) (mkDef 0 2 2 64 64 false) 2 = Some (10, Some 20).
Proof. reflexivity. Qed.
(** Two iterations with three RPCs against a limit of two pending. *)
Definition ex_fly : list fly_action :=
  [AStart 0 2; AStart 1 1; ASend 0; ASend 0; AReply 0 0 false; ASend 0; ASend 0; ASend 1; ASend 1; ASend 0; ASend 0;
   ASend 1; ALeave 0 0; AComplete 0 0; AReply 0 1 false; ALeave 0 1].
Example C60_example :
  rev (fy_log (fly_run 2 ex_fly fly0)) =
  [EvStart 0 2; EvStart 1 1; EvSent 0 0; EvRecorded 0 0; EvSent 0 1; EvSent 1 0; EvCancel TooManyRpcs;
   EvLeft 0 0; EvCompleted 0 0; EvRecorded 0 1; EvLeft 0 1; EvFinish 0] /\
  fy_pending (fly_run 2 ex_fly fly0) = 2.
Proof. split; reflexivity. Qed.
