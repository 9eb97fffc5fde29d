(** Specification and proofs for Rpc_Model: dispatch, sizes, warmup, tracing. *)
From Coq Require Import Ascii String List ZArith Bool Lia Arith.
From Verif Require Import Base_Model Base_Proofs Iter_Model Rpc_Model.
Import ListNotations.
Open Scope Z_scope.

(** * Dispatch *)
(** Requests are refused from the deadline of a cancellation on. *)
Definition refusing (canceled : option (str * Z)) (now : Z) : Prop :=
  exists reason deadline, canceled = Some (reason, deadline) /\ deadline < now.
(** Answered and freed, nothing left to do. *)
Definition answered (r : h_result) (resp : response) : Prop :=
  hr_events r = [HSend resp; HFree] /\ hr_work r = WNone /\ hr_detached r = 0.
Definition sends_of (r : h_result) : nat :=
  length (filter (fun e => match e with HSend _ => true | _ => false end) (hr_events r)).
Definition frees_of (r : h_result) : nat :=
  length (filter (fun e => match e with HFree => true | _ => false end) (hr_events r)).
Definition lists_of (r : h_result) : list Z :=
  flat_map (fun e => match e with HList i _ => [i] | _ => [] end) (hr_events r) ++
  match hr_work r with WList i _ => [i] | _ => [] end.

Lemma not_refusing : forall canceled now, ~ refusing canceled now ->
  match canceled with
  | Some (reason, deadline) => if now >? deadline then Some reason else None
  | None => None
  end = None.
Proof.
  intros [[reason d]|] now H; [|reflexivity]. destruct (now >? d) eqn:E; [|reflexivity].
  destruct H. exists reason, d. split; [reflexivity|]. apply Z.gtb_lt in E. assumption.
Qed.

Lemma handler_cancelled : forall scalar reason deadline now table inst ded rq, deadline < now ->
  exists r, rpc_handler scalar (Some (reason, deadline)) now table inst ded rq = Some r /\
  answered r (mkResp (s_ "Traffic cancelled: "%string ++ reason)%list None 0).
Proof.
  intros. unfold rpc_handler. replace (now >? deadline) with true by (symmetry; apply Z.gtb_lt; assumption).
  eexists. split; [reflexivity|]. repeat split.
Qed.
Lemma to_size_t_id : forall z, 0 <= z < 18446744073709551616 -> to_size_t z = z.
Proof. intros. unfold to_size_t. now apply Z.mod_small. Qed.
Lemma to_size_t_neg : forall z, -9223372036854775808 <= z < 0 -> 9223372036854775808 <= to_size_t z.
Proof.
  intros z H. unfold to_size_t. rewrite <- (Z_mod_plus_full z 1). rewrite Z.mod_small; lia.
Qed.
Lemma handler_bad_index : forall scalar canceled now table inst ded rq i, ~ refusing canceled now ->
  rq_index rq = Some i -> in_int32 i = true -> Z.of_nat (length table) <= int32_max ->
  (i < 0 \/ Z.of_nat (length table) <= i) ->
  exists r, rpc_handler scalar canceled now table inst ded rq = Some r /\
  answered r (mkResp (s_ "rpc_index out of range: "%string ++ dec_of_Z i)%list None 0).
Proof.
  intros scalar canceled now table inst ded rq i NR RI I32 TL B. unfold rpc_handler. rewrite (not_refusing _ _ NR), RI.
  unfold in_int32, int32_max in *. apply andb_prop in I32. destruct I32 as [I1 I2]. apply Z.leb_le in I1, I2.
  assert (to_size_t i >=? Z.of_nat (length table) = true) as ->.
  { apply Z.geb_le. destruct B as [B|B].
    - pose proof (to_size_t_neg i). lia.
    - rewrite to_size_t_id; lia. }
  eexists. split; [reflexivity|]. repeat split.
Qed.
Lemma handler_lookup : forall (table : list server_rpc) i, 0 <= i -> i < Z.of_nat (length table) -> Z.of_nat (length table) <= int32_max ->
  (to_size_t i >=? Z.of_nat (length table)) = false /\ nth_error table (Z.to_nat (to_size_t i)) = nth_error table (Z.to_nat i).
Proof.
  intros table i A B C. unfold int32_max in C. rewrite to_size_t_id by lia. split; [|reflexivity].
  destruct (i >=? Z.of_nat (length table)) eqn:E; [|reflexivity]. apply Z.geb_le in E. lia.
Qed.
Lemma handler_not_allowed : forall scalar canceled now table inst ded rq i srv, ~ refusing canceled now ->
  rq_index rq = Some i -> 0 <= i -> nth_error table (Z.to_nat i) = Some srv -> Z.of_nat (length table) <= int32_max ->
  sv_allowed srv = false ->
  exists r, rpc_handler scalar canceled now table inst ded rq = Some r /\
  answered r (mkResp (s_ "rpc_index should never be sent to this service: "%string ++ dec_of_Z i)%list None 0).
Proof.
  intros scalar canceled now table inst ded rq i srv NR RI P N TL AL. unfold rpc_handler. rewrite (not_refusing _ _ NR), RI.
  assert (L : i < Z.of_nat (length table)).
  { assert (nth_error table (Z.to_nat i) <> None) as X by congruence. apply nth_error_Some in X. lia. }
  destruct (handler_lookup table i P L TL) as [-> ->]. rewrite N, AL. cbn [negb]. eexists. split; [reflexivity|]. repeat split.
Qed.
Lemma handler_simple : forall scalar canceled now table inst ded rq i srv n, ~ refusing canceled now ->
  rq_index rq = Some i -> 0 <= i -> nth_error table (Z.to_nat i) = Some srv -> Z.of_nat (length table) <= int32_max ->
  sv_allowed srv = true -> sv_handler srv = -1 ->
  compute_response_size scalar rq (sv_def srv) (df_resp_index (sv_def srv)) = Some n ->
  exists r, rpc_handler scalar canceled now table inst ded rq = Some r /\
  answered r (mkResp [] (if df_multi (sv_def srv) then Some inst else None) n).
Proof.
  intros scalar canceled now table inst ded rq i srv n NR RI P N TL AL HL CS. unfold rpc_handler. rewrite (not_refusing _ _ NR), RI.
  assert (L : i < Z.of_nat (length table)).
  { assert (nth_error table (Z.to_nat i) <> None) as X by congruence. apply nth_error_Some in X. lia. }
  destruct (handler_lookup table i P L TL) as [-> ->]. rewrite N, AL, HL, CS. cbn [negb Z.eqb Pos.eqb]. eexists. split; [reflexivity|]. repeat split.
Qed.
Lemma handler_list : forall scalar canceled now table inst ded rq i srv, ~ refusing canceled now ->
  rq_index rq = Some i -> 0 <= i -> nth_error table (Z.to_nat i) = Some srv -> Z.of_nat (length table) <= int32_max ->
  sv_allowed srv = true -> sv_handler srv <> -1 ->
  exists r, rpc_handler scalar canceled now table inst ded rq = Some r /\
  sends_of r = 0%nat /\ frees_of r = 0%nat /\ lists_of r = [sv_handler srv] /\
  (ded = true -> hr_work r = WNone /\ hr_detached r = 0) /\ (ded = false -> hr_events r = [] /\ hr_detached r = 1).
Proof.
  intros scalar canceled now table inst ded rq i srv NR RI P N TL AL HL. unfold rpc_handler. rewrite (not_refusing _ _ NR), RI.
  assert (L : i < Z.of_nat (length table)).
  { assert (nth_error table (Z.to_nat i) <> None) as X by congruence. apply nth_error_Some in X. lia. }
  destruct (handler_lookup table i P L TL) as [-> ->]. rewrite N, AL. cbn [negb].
  replace (sv_handler srv =? -1) with false by (symmetry; apply Z.eqb_neq; assumption).
  destruct ded; eexists; (split; [reflexivity|]); repeat split; discriminate.
Qed.
Lemma handler_one_owner : forall scalar canceled now table inst ded rq r,
  rpc_handler scalar canceled now table inst ded rq = Some r ->
  (sends_of r = 1%nat /\ frees_of r = 1%nat /\ lists_of r = [] /\ hr_work r = WNone) \/
  (sends_of r = 0%nat /\ frees_of r = 0%nat /\ length (lists_of r) = 1%nat) \/
  (hr_events r = [] /\ lists_of r = [] /\ rq_index rq = None /\ rq_resp_size rq <> None).
Proof.
  intros scalar canceled now table inst ded rq r E. unfold rpc_handler, reply in E.
  destruct (match canceled with Some _ => _ | None => _ end) eqn:CR; [injection E as <-; left; repeat split|].
  destruct (rq_index rq) as [i|] eqn:RI.
  - destruct (to_size_t i >=? Z.of_nat (length table)); [injection E as <-; left; repeat split|].
    destruct (nth_error table (Z.to_nat (to_size_t i))) as [srv|]; [|discriminate].
    destruct (sv_allowed srv); cbn [negb] in E; [|injection E as <-; left; repeat split].
    destruct (sv_handler srv =? -1).
    + destruct (compute_response_size _ _ _ _); [|discriminate]. injection E as <-. left. repeat split.
    + destruct ded; injection E as <-; right; left; repeat split.
  - destruct (rq_resp_size rq) eqn:RS; injection E as <-; [right; right|left]; repeat split. discriminate.
Qed.
(** The answer to a refused request carries an error, a served one does not. *)
Lemma handler_error_iff : forall scalar canceled now table inst ded rq r resp,
  in_int32 (match rq_index rq with Some i => i | None => 0 end) = true -> Z.of_nat (length table) <= int32_max ->
  rpc_handler scalar canceled now table inst ded rq = Some r -> In (HSend resp) (hr_events r) ->
  (rs_error resp = [] <->
   ~ refusing canceled now /\ exists i srv, rq_index rq = Some i /\ 0 <= i /\ nth_error table (Z.to_nat i) = Some srv /\ sv_allowed srv = true).
Proof.
  intros scalar canceled now table inst ded rq r resp I32 TL E S0. unfold rpc_handler, reply in E.
  assert (EX : forall x : str, rs_error resp = (s_ "!"%string ++ x)%list -> True) by auto.
  destruct (match canceled with Some _ => _ | None => _ end) as [reason|] eqn:CR.
  { injection E as <-. destruct S0 as [S0|[S0|[]]]; [|discriminate]. injection S0 as <-. cbn [rs_error]. split; [discriminate|].
    intros [NR _]. rewrite (not_refusing _ _ NR) in CR. discriminate. }
  assert (NR : ~ refusing canceled now).
  { intros [rs [d [-> L]]]. apply Z.gtb_lt in L. rewrite L in CR. discriminate. }
  destruct (rq_index rq) as [i|] eqn:RI.
  - destruct (to_size_t i >=? Z.of_nat (length table)) eqn:G.
    + injection E as <-. destruct S0 as [S0|[S0|[]]]; [|discriminate]. injection S0 as <-. cbn [rs_error]. split; [discriminate|].
      intros [_ [j [srv [Q [P [N _]]]]]]. injection Q as <-. exfalso.
      assert (nth_error table (Z.to_nat i) <> None) as X by congruence. apply nth_error_Some in X.
      unfold int32_max in TL. rewrite to_size_t_id in G by lia. apply Z.geb_le in G. lia.
    + destruct (nth_error table (Z.to_nat (to_size_t i))) as [srv|] eqn:N; [|discriminate].
      assert (P : 0 <= i).
      { destruct (Z_lt_le_dec i 0) as [L|L]; [|assumption]. exfalso. unfold in_int32, int32_max in *. apply andb_prop in I32.
        destruct I32 as [I1 _]. apply Z.leb_le in I1. pose proof (to_size_t_neg i ltac:(lia)).
        destruct (Z.leb_spec (Z.of_nat (length table)) (to_size_t i)); [|lia].
        assert (to_size_t i >=? Z.of_nat (length table) = true) by (apply Z.geb_le; assumption). congruence. }
      assert (TI : to_size_t i = i).
      { apply to_size_t_id. unfold in_int32, int32_max in *. apply andb_prop in I32. destruct I32 as [_ I2]. apply Z.leb_le in I2. lia. }
      rewrite TI in N. destruct (sv_allowed srv) eqn:AL; cbn [negb] in E.
      * destruct (sv_handler srv =? -1).
        -- destruct (compute_response_size _ _ _ _); [|discriminate]. injection E as <-.
           destruct S0 as [S0|[S0|[]]]; [|discriminate]. injection S0 as <-. cbn [rs_error]. split; [|reflexivity].
           intros _. split; [assumption|]. exists i, srv. auto.
        -- destruct ded; injection E as <-; [|destruct S0]. destruct S0 as [S0|[]]. discriminate.
      * injection E as <-. destruct S0 as [S0|[S0|[]]]; [|discriminate]. injection S0 as <-. cbn [rs_error]. split; [discriminate|].
        intros [_ [j [srv' [Q [_ [N' AL']]]]]]. injection Q as <-. congruence.
  - destruct (rq_resp_size rq) eqn:RS; injection E as <-; [destruct S0|].
    destruct S0 as [S0|[S0|[]]]; [|discriminate]. injection S0 as <-. cbn [rs_error]. split; [discriminate|].
    intros [_ [j [srv [Q _]]]]. discriminate.
Qed.

(** * Sizes *)
Lemma response_size_spec : forall scalar rq d ov,
  match rq_resp_size rq with
  | Some n => compute_response_size scalar rq d ov = Some (to_size_t n)
  | None =>
      (ov <> -1 -> compute_response_size scalar rq d ov = option_map to_size_t (scalar ov)) /\
      (ov = -1 -> df_resp_index d >= 0 -> compute_response_size scalar rq d ov = option_map to_size_t (scalar (df_resp_index d))) /\
      (ov = -1 -> df_resp_index d < 0 -> compute_response_size scalar rq d ov = Some (Z.max 0 (df_resp_size d)))
  end.
Proof.
  intros scalar rq d ov. unfold compute_response_size. destruct (rq_resp_size rq); [reflexivity|]. repeat split.
  - intros N. apply Z.eqb_neq in N. rewrite N. cbn [andb]. rewrite N. now destruct (scalar ov).
  - intros -> G. assert (df_resp_index d >=? 0 = true) as -> by (apply Z.geb_le; lia). cbn [Z.eqb Pos.eqb andb].
    assert (df_resp_index d =? -1 = false) as -> by (apply Z.eqb_neq; lia). now destruct (scalar (df_resp_index d)).
  - intros -> L. assert (df_resp_index d >=? 0 = false) as ->.
    { destruct (df_resp_index d >=? 0) eqn:E; [apply Z.geb_le in E; lia|reflexivity]. }
    cbn [Z.eqb Pos.eqb andb]. destruct (df_resp_size d >=? 0) eqn:E; f_equal.
    + apply Z.geb_le in E. lia.
    + destruct (Z.leb_spec 0 (df_resp_size d)); [|lia]. assert (df_resp_size d >=? 0 = true) by (apply Z.geb_le; assumption). congruence.
Qed.
Lemma request_size_spec : forall scalar joint d ov,
  (df_joint d >= 0 -> forall q r, joint (df_joint d) = Some (q :: r) ->
     request_sizes scalar joint d ov = Some (to_size_t q, Some (hd q r))) /\
  (df_joint d < 0 -> ov <> -1 -> request_sizes scalar joint d ov = option_map (fun n => (to_size_t n, None)) (scalar ov)) /\
  (df_joint d < 0 -> ov = -1 -> df_req_index d >= 0 ->
     request_sizes scalar joint d ov = option_map (fun n => (to_size_t n, None)) (scalar (df_req_index d))) /\
  (df_joint d < 0 -> ov = -1 -> df_req_index d < 0 -> request_sizes scalar joint d ov = Some (Z.max 0 (df_req_size d), None)).
Proof.
  intros scalar joint d ov. unfold request_sizes.
  assert (T : forall x, x >= 0 -> (x >=? 0) = true) by (intros; apply Z.geb_le; lia).
  assert (F : forall x, x < 0 -> (x >=? 0) = false).
  { intros x L. destruct (x >=? 0) eqn:E; [apply Z.geb_le in E; lia|reflexivity]. }
  repeat split.
  - intros G q r E. rewrite (T _ G), E. now destruct r.
  - intros L N. rewrite (F _ L). apply Z.eqb_neq in N. rewrite N. cbn [negb]. now destruct (scalar ov).
  - intros L -> G. rewrite (F _ L), (T _ G). cbn [Z.eqb Pos.eqb negb]. now destruct (scalar (df_req_index d)).
  - intros L -> L2. rewrite (F _ L), (F _ L2). cbn [Z.eqb Pos.eqb negb].
    destruct (Z_lt_le_dec (df_req_size d) 0) as [M|M].
    + rewrite (F _ M). repeat f_equal. lia.
    + rewrite (T (df_req_size d)) by lia. repeat f_equal. lia.
Qed.

(** * Requests *)
Lemma fan_length : forall l i b z, length (fan_requests i b z l) = length l.
Proof. induction l as [|t r IH]; intros; cbn [fan_requests length]; [reflexivity|]. now rewrite IH. Qed.
Lemma fan_nth : forall l i b z k t, nth_error l k = Some t ->
  nth_error (fan_requests i b z l) k =
  Some (t, mkReq (rq_index b) (add_fanout (i + Z.of_nat k) (rq_trace b)) (rq_warmup b) (rq_resp_size b) (rq_proc_ns b), z).
Proof.
  induction l as [|x r IH]; intros i b z k t H; [destruct k; discriminate|]. destruct k as [|k]; cbn [nth_error fan_requests] in *.
  - injection H as ->. now rewrite Z.add_0_r.
  - rewrite (IH (i + 1) b z k t H). now replace (i + 1 + Z.of_nat k) with (i + Z.of_nat (S k)) by lia.
Qed.
Lemma send_spec : forall scalar joint inc w h targets l, send_requests scalar joint inc w h targets = Some l ->
  length l = length targets /\
  forall k t, nth_error targets k = Some t ->
  exists size resp, request_sizes scalar joint (hp_def h) (hp_override h) = Some (size, resp) /\
  nth_error l k = Some (t, mkReq (Some (hp_rpc h)) (add_fanout (Z.of_nat k) (common_trace inc h)) (Some w) resp None, size).
Proof.
  intros scalar joint inc w h targets l E. unfold send_requests in E. destruct targets as [|t0 r].
  - injection E as <-. split; [reflexivity|]. intros k t H. destruct k; discriminate.
  - destruct (request_sizes _ _ _ _) as [[size resp]|]; [|discriminate].
    assert (X : forall (x y : list (Z * request * Z)), Some x = Some y -> x = y) by congruence. apply X in E. rewrite <- E.
    split; [apply fan_length|]. intros k t H. exists size, resp. split; [reflexivity|].
    rewrite (fan_nth _ _ _ _ _ _ H). now rewrite Z.add_0_l.
Qed.

(** * Chains *)
Definition hop_of (c : cause) : hop := match c with ByRpc h _ _ => h | ByList h => h end.
Definition warmup_hop (c : cause) : bool := hp_iteration (hop_of c) <? hp_warmup_iterations (hop_of c).
Notation link := (cause * scalar_draw * joint_draw)%type.
Definition cause_of (x : link) : cause := fst (fst x).

Lemma caused_rpc : forall sc jo h targets k rq force q f, caused sc jo (ByRpc h targets k) (rq, force) = Some (q, f) ->
  f = false /\ rq_warmup q = Some (iteration_warmup (list_warmup force rq) (hp_iteration h) (hp_warmup_iterations h)) /\
  rq_index q = Some (hp_rpc h) /\ rq_trace q = add_fanout (Z.of_nat k) (common_trace rq h).
Proof.
  intros sc jo h targets k rq force q f E. cbn [caused] in E.
  destruct (send_requests _ _ _ _ _ _) as [l|] eqn:S0; [|discriminate]. destruct (send_spec _ _ _ _ _ _ _ S0) as [L N].
  destruct (nth_error l k) as [[[t q'] z]|] eqn:K; [|discriminate]. injection E as <- <-.
  assert (nth_error targets k <> None) as X.
  { apply nth_error_Some. rewrite <- L. apply nth_error_Some. congruence. }
  destruct (nth_error targets k) as [t'|] eqn:T; [|congruence]. destruct (N k t' T) as [size [resp [_ K']]].
  rewrite K in K'. injection K' as -> -> ->. auto.
Qed.
Lemma chain_warmup_gen : forall l rq force rq' force', chain l (rq, force) = Some (rq', force') ->
  list_warmup force' rq' = list_warmup force rq || existsb (fun x => warmup_hop (cause_of x)) l.
Proof.
  induction l as [|[[c sc] jo] r IH]; intros rq force rq' force' E; cbn [chain] in E.
  - injection E as <- <-. cbn [existsb]. now rewrite orb_false_r.
  - destruct (caused sc jo c (rq, force)) as [[q f]|] eqn:C; [|discriminate]. apply IH in E. rewrite E. cbn [existsb cause_of fst].
    rewrite orb_assoc. f_equal. destruct c as [h targets k|h].
    + destruct (caused_rpc _ _ _ _ _ _ _ _ _ C) as [-> [W _]]. unfold list_warmup at 1. rewrite W. reflexivity.
    + cbn [caused] in C. injection C as <- <-. unfold list_warmup at 1. cbn [warmup_hop hop_of]. unfold iteration_warmup, warmup_hop. cbn [hop_of].
      unfold list_warmup. destruct (rq_warmup rq) as [[]|], force, (hp_iteration h <? hp_warmup_iterations h); reflexivity.
Qed.

(** Tracing. *)
Definition rpc_hop (x : link) : list (hop * nat) := match cause_of x with ByRpc h _ k => [(h, k)] | ByList _ => [] end.
Definition rpc_hops (l : list link) : list (hop * nat) := flat_map rpc_hop l.
Fixpoint from_first_due (l : list (hop * nat)) : list (hop * nat) :=
  match l with
  | [] => []
  | (h, k) :: r => if trace_due (hp_count h) (hp_interval h) then l else from_first_due r
  end.
Definition trace_plus (t : trace) (l : list (hop * nat)) : trace :=
  mkTrace (tr_engines t ++ map (fun x => hp_engine (fst x)) l) (tr_invocations t ++ map (fun x => hp_invocation (fst x)) l)
          (tr_lists t ++ map (fun x => hp_list (fst x)) l) (tr_actions t ++ map (fun x => hp_action (fst x)) l)
          (tr_iterations t ++ map (fun x => hp_iteration (fst x)) l) (tr_fanout t ++ map (fun x => Z.of_nat (snd x)) l).
Lemma trace_plus_cons : forall t h k r,
  trace_plus t ((h, k) :: r) =
  trace_plus (mkTrace (tr_engines t ++ [hp_engine h]) (tr_invocations t ++ [hp_invocation h]) (tr_lists t ++ [hp_list h])
                (tr_actions t ++ [hp_action h]) (tr_iterations t ++ [hp_iteration h]) (tr_fanout t ++ [Z.of_nat k])) r.
Proof. intros. unfold trace_plus. cbn [map fst snd tr_engines tr_invocations tr_lists tr_actions tr_iterations tr_fanout]. now rewrite <- !app_assoc. Qed.
Lemma trace_plus_nil : forall t, trace_plus t [] = t.
Proof. intros [a b c d e f]. unfold trace_plus. cbn [map tr_engines tr_invocations tr_lists tr_actions tr_iterations tr_fanout]. now rewrite !app_nil_r. Qed.
Lemma chain_traced : forall l rq force rq' force' t, chain l (rq, force) = Some (rq', force') -> rq_trace rq = Some t ->
  rq_trace rq' = Some (trace_plus t (rpc_hops l)).
Proof.
  induction l as [|[[c sc] jo] r IH]; intros rq force rq' force' t E T; cbn [chain] in E.
  - injection E as <- <-. cbn [rpc_hops flat_map]. now rewrite trace_plus_nil.
  - destruct (caused sc jo c (rq, force)) as [[q f]|] eqn:C; [|discriminate]. destruct c as [h targets k|h].
    + destruct (caused_rpc _ _ _ _ _ _ _ _ _ C) as [-> [_ [_ TR]]]. unfold common_trace in TR. rewrite T in TR. cbn [add_fanout] in TR.
      rewrite (IH _ _ _ _ _ E TR). cbn [rpc_hops flat_map rpc_hop cause_of fst app]. now rewrite trace_plus_cons.
    + cbn [caused] in C. injection C as <- <-. rewrite (IH _ _ _ _ _ E T). reflexivity.
Qed.
Lemma chain_untraced : forall l rq force rq' force', chain l (rq, force) = Some (rq', force') -> rq_trace rq = None ->
  rq_trace rq' = match from_first_due (rpc_hops l) with [] => None | hs => Some (trace_plus empty_trace hs) end.
Proof.
  induction l as [|[[c sc] jo] r IH]; intros rq force rq' force' E T; cbn [chain] in E.
  - injection E as <- <-. assumption.
  - destruct (caused sc jo c (rq, force)) as [[q f]|] eqn:C; [|discriminate]. destruct c as [h targets k|h].
    + destruct (caused_rpc _ _ _ _ _ _ _ _ _ C) as [-> [_ [_ TR]]]. unfold common_trace in TR. rewrite T in TR.
      cbn [rpc_hops flat_map rpc_hop cause_of fst app from_first_due].
      destruct (trace_due (hp_count h) (hp_interval h)); cbn [add_fanout] in TR.
      * rewrite (chain_traced _ _ _ _ _ _ E TR). rewrite trace_plus_cons. reflexivity.
      * exact (IH _ _ _ _ E TR).
    + cbn [caused] in C. injection C as <- <-. exact (IH _ _ _ _ E T).
Qed.
Lemma due_spec : forall count interval, 0 <= count <= int32_max -> 0 < interval ->
  (trace_due count interval = true <-> exists m, count = m * interval).
Proof.
  intros count interval C I. unfold trace_due, to_int32, int32_max in *. rewrite Z.mod_small by lia.
  replace (count + 2147483648 - 2147483648) with count by lia.
  assert (interval >? 0 = true) as -> by (apply Z.gtb_lt; assumption). cbn [andb]. rewrite Z.eqb_eq. split.
  - intros R. exists (Z.quot count interval). pose proof (Z.quot_rem' count interval). lia.
  - intros [m ->]. apply Z.rem_mul. lia.
Qed.
Lemma not_due : forall count interval, interval <= 0 -> trace_due count interval = false.
Proof. intros. unfold trace_due. destruct (interval >? 0) eqn:E; [apply Z.gtb_lt in E; lia|reflexivity]. Qed.
Lemma nth_error_ext_eq : forall A (l m : list A), length l = length m ->
  (forall k x, nth_error m k = Some x -> nth_error l k = Some x) -> l = m.
Proof.
  intros A. induction l as [|a l IH]; intros [|b m] L H; try discriminate; [reflexivity|]. f_equal.
  - specialize (H 0%nat b eq_refl). cbn in H. congruence.
  - apply IH; [now injection L|]. intros k x K. exact (H (S k) x K).
Qed.
