(** C82: the actions of a test keep the order, the delays, the clients, the time
    limits and the responses that its configuration prescribes. *)
From Coq Require Import Ascii String List NArith ZArith QArith Bool Arith Lia Permutation.
From Verif Require Import Base_Model Base_Proofs Grid_Model Grid_Proofs Place_Model Util_Model Net_Model Fanout_Model Table_Model Table_Proofs Table_Proofs2 Table_Props Cli_Model.
From Verif Require Seq_Model Sync_Model Rpc_Model Rpc_Proofs.
From Verif Require Import Seq_Proofs Node_Model Node_Proofs Node_Props Cluster_Model Cluster_Proofs Cluster_Props.
From Verif Require Import Iter_Model Iter_Proofs Iter_Proofs2 Iter_Props AList_Model AList_Proofs AList_Proofs2 AList_Props.
From Verif Require Import Peer_Model Peer_Proofs Peer_Props Deliver_Model Deliver_Proofs Deliver_Props.
From Verif Require Import Log_Model Sum_Model Sum_Proofs Sum_Proofs2 Report_Model Report_Proofs Report_Proofs2 Report_Props.
From Verif Require Import Work_Model Work_Proofs Work_Proofs2 Work_Proofs3 Work_Proofs4 Work_Proofs5 Work_Proofs6 Work_Props Work_Props2.
Import ListNotations.
Open Scope Z_scope.

(** An action is started once all it depends on are done, which stand before it
    in the list, and a delay is over; it is skipped if and only if one of its
    predicates was not drawn or an action it depends on was skipped. *)
Theorem C82_order fnm r nes ev t w active res ws o info opts x s d : benchmark fnm r nes ev t w active res ws o info opts -> none_idle (config_of t) ->
  list_run_ok o r t res ws info opts x s -> nth_error (cf_lists (config_of t)) (Z.to_nat (lr_list x)) = Some d ->
  forall l1 i skip now l2, al_log s = l1 ++ LStart i skip now :: l2 ->
  exists a, action_at (config_of t) d i a /\
    (forall m, In m (an_deps a) -> exists j, (j < i)%nat /\ position d m j /\ In (LDone j) l2) /\
    (skip = true <-> (exists p, In p (ro_predicates (opts (an_name a))) /\ ~ In p (lr_predicates x)) \/ (exists j u, waits_for d a j /\ In (LStart j true u) l2)) /\
    (an_delay a <> None -> exists u v, In (LDelay i u v) l2 /\ u + v <= now).
Proof.
  intros B Ni (id & e & rd & tl & Ra & V & R & L & A) Ed l1 i skip now l2 El. pose proof (be_ran _ _ _ _ _ _ _ _ _ _ _ _ B) as Rn. pose proof (be_rpcs _ _ _ _ _ _ _ _ _ _ _ _ B) as Dr.
  pose proof (lists_ok _ _ _ _ _ _ _ _ _ _ opts Rn Dr _ _ _ _ _ _ _ Ra V Ed Ni) as Ok.
  destruct (C24_start_rule _ _ s Ok (ex_intro _ _ R) _ _ _ _ _ El) as (b & Eb & _ & Dn & Sk & De).
  destruct (list_at _ _ _ _ _ _ _ _ _ _ opts Rn Dr _ _ _ _ _ _ _ Ra V Ed i b Eb) as (a & Ea & At & -> & Eo).
  destruct (deps_at t opts rd tl d i a Ea At Eo) as (Dp & Dm). exists (en_action a). split; [exact At|]. split; [|split].
  - intros m I. destruct (Dm m I) as (j & Lt & P). exists j. split; [exact Lt|]. split; [exact P|]. apply Dn. cbn [list_action aa_deps]. apply Dp. exists m. auto.
  - rewrite Sk. cbn [list_action aa_preds aa_deps]. split; (intros [H|(j & u & H & Q)]; [left; exact H|right; exists j, u; split; [apply Dp, H|exact Q]]).
  - intro N. apply De. cbn [list_action aa_delay]. apply (delay_at t opts rd d i _ a Eo), N.
Qed.
Print Assumptions C82_order.
(** Only an action with a delay is delayed, and from when all it depends on are done. *)
Theorem C82_delay fnm r nes ev t w active res ws o info opts x s d : benchmark fnm r nes ev t w active res ws o info opts -> none_idle (config_of t) ->
  list_run_ok o r t res ws info opts x s -> nth_error (cf_lists (config_of t)) (Z.to_nat (lr_list x)) = Some d ->
  forall l1 i now v l2, al_log s = l1 ++ LDelay i now v :: l2 ->
  exists a, action_at (config_of t) d i a /\ an_delay a <> None /\ (forall u v, ~ In (LDelay i u v) l2) /\ forall m, In m (an_deps a) -> exists j, position d m j /\ In (LDone j) l2.
Proof.
  intros B Ni (id & e & rd & tl & Ra & V & R & L & A) Ed l1 i now v l2 El. pose proof (be_ran _ _ _ _ _ _ _ _ _ _ _ _ B) as Rn. pose proof (be_rpcs _ _ _ _ _ _ _ _ _ _ _ _ B) as Dr.
  pose proof (lists_ok _ _ _ _ _ _ _ _ _ _ opts Rn Dr _ _ _ _ _ _ _ Ra V Ed Ni) as Ok.
  destruct (C24_delay_rule _ _ s Ok (ex_intro _ _ R) _ _ _ _ _ El) as (_ & On & b & Eb & De & Dn).
  destruct (list_at _ _ _ _ _ _ _ _ _ _ opts Rn Dr _ _ _ _ _ _ _ Ra V Ed i b Eb) as (a & Ea & At & -> & Eo).
  destruct (deps_at t opts rd tl d i a Ea At Eo) as (Dp & Dm). exists (en_action a). split; [exact At|]. split; [exact (proj1 (delay_at t opts rd d i _ a Eo) De)|]. split; [exact On|].
  intros m I. destruct (Dm m I) as (j & Lt & P). exists j. split; [exact P|]. apply Dn. cbn [list_action aa_deps]. apply Dp. exists m. auto.
Qed.
Print Assumptions C82_delay.
(** The thread of a list sleeps, until an action finishes, if and only if none
    has finished meanwhile, one is running, and no action that is not done
    waits for its delay, is an activity, or starts iterations at intervals. *)
Theorem C82_wait fnm r nes ev t w active res ws o info opts id n e rd k tl d preds sch s now v : benchmark fnm r nes ev t w active res ws o info opts -> none_idle (config_of t) ->
  ready_at o r t res ws id n e rd -> vec_at (tb_lists (rd_tables rd)) k = Some tl -> nth_error (cf_lists (config_of t)) (Z.to_nat k) = Some d ->
  al_run (map (fun a => list_action rd (opts (an_name (en_action a))) a) (tl_entries tl)) preds sch al_init = AlNext s -> al_pc_ s = PWait ->
  main_step (map (fun a => list_action rd (opts (an_name (en_action a))) a) (tl_entries tl)) preds now v s = AlDisabled <->
  (exists i sk u, In (LStart i sk u) (al_log s) /\ ~ In (LFinish i) (al_log s)) /\ (forall i, In (LFinish i) (al_log s) -> In (LDone i) (al_log s)) /\
  forall i a, action_at (config_of t) d i a -> ~ In (LDone i) (al_log s) ->
    (forall u y, In (LDelay i u y) (al_log s) -> exists sk z, In (LStart i sk z) (al_log s)) /\ (forall m, an_kind a <> KActivity m) /\ open_loop (opts (an_name a)) = None.
Proof.
  intros B Ni Ra V Ed R Pc. pose proof (be_ran _ _ _ _ _ _ _ _ _ _ _ _ B) as Rn. pose proof (be_rpcs _ _ _ _ _ _ _ _ _ _ _ _ B) as Dr.
  pose proof (lists_ok _ _ _ _ _ _ _ _ _ _ opts Rn Dr _ _ _ _ _ _ _ Ra V Ed Ni) as Ok. pose proof (list_at _ _ _ _ _ _ _ _ _ _ opts Rn Dr _ _ _ _ _ _ _ Ra V Ed) as La. pose proof (at_list _ _ _ _ _ _ _ _ _ _ opts Rn Dr _ _ _ _ _ _ _ Ra V Ed) as Al.
  set (acts := map _ _) in *. assert (Re : reachable acts preds s) by (exists sch; exact R). destruct (reachable_K _ _ Ok _ Re) as [D|(_ & J0 & _)]; [destruct D; congruence|].
  pose proof (reach_delay _ _ _ Re) as (_ & Dl).
  assert (Sf : some_finished s = false <-> (exists i sk u, In (LStart i sk u) (al_log s) /\ ~ In (LFinish i) (al_log s)) /\ (forall i, In (LFinish i) (al_log s) -> In (LDone i) (al_log s))).
  { unfold some_finished. rewrite orb_false_iff, Z.eqb_neq, negb_false_iff, (J_pend _ _ _ J0). split.
    - intros (P & F). destruct (al_fin s) as [|q fl] eqn:Fi; [|discriminate]. split.
      + assert (exists i, running (al_tbl s) i = true) as (i & Ri).
        { destruct (existsb (running (al_tbl s)) (seq 0 (length acts))) eqn:Q; [apply existsb_exists in Q as (i & _ & Q); eauto|]. exfalso. apply P. unfold cnt.
          replace (filter (running (al_tbl s)) (seq 0 (length acts))) with (@nil nat); [reflexivity|]. symmetry. clear -Q. induction (seq 0 (length acts)) as [|y l IH]; [reflexivity|]. cbn [existsb filter] in *. apply orb_false_iff in Q as (Q1 & Q2). rewrite Q1. auto. }
        unfold running in Ri. apply andb_prop in Ri as (R1 & R2). apply (J_start _ _ _ J0) in R1 as (sk & u & I). exists i, sk, u. split; [exact I|]. intro K. apply (J_finish _ _ _ J0) in K. rewrite K in R2. discriminate.
      + intros i I. apply (J_done _ _ _ J0). apply (J_finish _ _ _ J0) in I. destruct (e_finished (al_tbl s i)) eqn:Q; [reflexivity|]. assert (In i (al_fin s)) as K by (apply (J_list _ _ _ J0); auto). rewrite Fi in K. destruct K.
    - intros ((i & sk & u & I & N) & F). split.
      + assert (Ri : running (al_tbl s) i = true).
        { unfold running. rewrite (proj2 (J_start _ _ _ J0 i) (ex_intro _ sk (ex_intro _ u I))). destruct (e_cb (al_tbl s i)) eqn:Q; try reflexivity. destruct N. apply (J_finish _ _ _ J0), Q. }
        assert (Li : (i < length acts)%nat) by (apply (J_lt _ _ _ _ J0), (J_start _ _ _ J0); eauto). unfold cnt. assert (In i (filter (running (al_tbl s)) (seq 0 (length acts)))) as K by (apply filter_In; split; [apply in_seq; lia|exact Ri]).
        destruct (filter (running (al_tbl s)) (seq 0 (length acts))); [destruct K|cbn [length]; lia].
      + destruct (al_fin s) as [|q l] eqn:Q; [reflexivity|]. exfalso. assert (In q (al_fin s)) as K by (rewrite Q; left; reflexivity). apply (J_list _ _ _ J0) in K as (K1 & K2). apply (J_finish _ _ _ J0), F, (J_done _ _ _ J0) in K1. congruence. }
  unfold main_step. rewrite Pc. destruct (some_finished s) eqn:Q.
  - split; [unfold handle_finished; rewrite Q; discriminate|]. intros (H1 & H2 & _). pose proof (proj2 Sf (conj H1 H2)) as K. discriminate.
  - destruct (proj1 Sf eq_refl) as (S1 & S2). destruct (timed_wait acts s) eqn:T.
    + split; [discriminate|]. intros (_ & _ & H). exfalso. unfold timed_wait in T. apply existsb_exists in T as (i & Ii & T). apply andb_prop in T as (T1 & T2). apply in_seq in Ii.
      destruct (nth_error acts i) as [b|] eqn:Eb; [|apply nth_error_None in Eb; unfold size in Ii; lia]. destruct (La i b Eb) as (a & Ea & At & -> & Eo).
      destruct (H i _ At) as (H1 & H2 & H3); [intro K; apply (J_done _ _ _ J0) in K; rewrite K in T1; discriminate|]. apply orb_prop in T2 as [T2|T2].
      * destruct (J_wait _ _ _ J0 i T2) as (Ns & u & y & _ & I). destruct (H1 u y I) as (sk & z & I'). rewrite (proj2 (J_start _ _ _ J0 i) (ex_intro _ sk (ex_intro _ z I'))) in Ns. discriminate.
      * cbn [list_action aa_timed] in T2. apply orb_prop in T2 as [T2|T2]; [destruct (an_kind (en_action a)) eqn:Kk; try discriminate; destruct (H2 n0 eq_refl)|].
        apply andb_prop in T2 as (T2 & T3). unfold open_loop in H3. rewrite T2 in H3. rewrite H3 in T3. discriminate.
    + split; [|reflexivity]. intros _. split; [exact S1|]. split; [exact S2|]. intros i a At Nd. destruct (Al i a At) as (b & Eb & <- & Ea & Eo).
      assert (F : negb (e_finished (al_tbl s i)) && (e_waiting (al_tbl s i) || match nth_error acts i with Some a => aa_timed a | None => false end) = false).
      { destruct (negb _ && _) eqn:F; [|reflexivity]. assert (timed_wait acts s = true) as K; [|congruence]. apply existsb_exists. exists i. split; [|exact F]. apply in_seq. unfold size. assert (i < length acts)%nat by (apply nth_error_Some; congruence). lia. }
      destruct (e_finished (al_tbl s i)) eqn:Fi; [destruct Nd; apply (J_done _ _ _ J0), Fi|]. cbn [negb andb] in F. apply orb_false_iff in F as (F1 & F2). rewrite Ea in F2. cbn [list_action aa_timed] in F2. apply orb_false_iff in F2 as (F2 & F3).
      split; [|split].
      * intros u y I. apply (J_start _ _ _ J0). destruct (Dl i u y I) as [K|K]; [congruence|exact K].
      * intros m K. rewrite K in F2. discriminate.
      * unfold open_loop. destruct (ro_iterations _); [|reflexivity]. destruct (ro_interval _); [discriminate|reflexivity].
Qed.
Print Assumptions C82_wait.

(** The history of a list that has returned: what was started was called back. *)
Lemma start_once acts preds s : list_ok acts -> reachable acts preds s -> forall i sk u sk' u', In (LStart i sk u) (al_log s) -> In (LStart i sk' u') (al_log s) -> sk = sk' /\ u = u'.
Proof.
  intros Ok R i sk u sk' u' I I'. apply in_split in I as (l1 & l2 & E). destruct (C24_start_rule _ _ s Ok R _ _ _ _ _ E) as (_ & _ & N & _). rewrite E in I'. apply in_app_or in I' as [I'|[I'|I']].
  - apply in_split in I' as (m1 & m2 & E'). assert (Q : al_log s = m1 ++ LStart i sk' u' :: (m2 ++ LStart i sk u :: l2)) by (rewrite E, E', <- app_assoc; reflexivity).
    destruct (C24_start_rule _ _ s Ok R _ _ _ _ _ Q) as (_ & _ & N' & _). destruct (N' sk u). apply in_or_app. right. left. reflexivity.
  - injection I' as -> ->. auto.
  - destruct (N sk' u' I').
Qed.
Lemma called acts preds s i : list_ok acts -> reachable acts preds s -> In (LDone i) (al_log s) -> In (LCall i) (al_log s).
Proof.
  intros Ok R D. apply in_split in D as (m1 & m2 & E). destruct (C24_life_cycle _ _ s Ok R _ _ _ E) as (_ & F). assert (F' : In (LFinish i) (al_log s)) by (rewrite E; apply in_or_app; right; right; exact F).
  apply in_split in F' as (k1 & k2 & E2). destruct (C24_life_cycle _ _ s Ok R _ _ _ E2) as (_ & G). rewrite E2. apply in_or_app. right. right. exact G.
Qed.
(** A list returns only if its instance may call the RPCs of all actions that
    are started and not skipped, even when the traffic is canceled. *)
Theorem C82_clients fnm r nes ev t w active res ws o info opts x s d : benchmark fnm r nes ev t w active res ws o info opts -> none_idle (config_of t) ->
  list_run_ok o r t res ws info opts x s -> nth_error (cf_lists (config_of t)) (Z.to_nat (lr_list x)) = Some d -> In LFree (al_log s) ->
  forall i a rp now, action_at (config_of t) d i a -> an_kind a = KRpc (rp_name rp) -> In rp (cf_rpcs (config_of t)) -> In (LStart i false now) (al_log s) ->
  client_of (config_of t) (lr_instance x) rp.
Proof.
  intros B Ni (id & e & rd & tl & Ra & V & R & L & A) Ed Fr i a rp now At Kk Ir St. pose proof (be_ran _ _ _ _ _ _ _ _ _ _ _ _ B) as Rn. pose proof (be_rpcs _ _ _ _ _ _ _ _ _ _ _ _ B) as Dr.
  pose proof (lists_ok _ _ _ _ _ _ _ _ _ _ opts Rn Dr _ _ _ _ _ _ _ Ra V Ed Ni) as Ok.
  destruct (at_list _ _ _ _ _ _ _ _ _ _ opts Rn Dr _ _ _ _ _ _ _ Ra V Ed i a At) as (b & Eb & <- & Ea & Eo). pose proof (given_up_at _ _ _ _ _ _ _ _ _ _ opts Rn Dr _ _ _ _ _ _ Ra V i b Eb) as Gu.
  set (acts := map _ _) in *. assert (Re : reachable acts (lr_predicates x) s) by (exists (lr_schedule x); exact R).
  destruct (given_up rd b) eqn:G.
  - exfalso. apply in_split in Fr as (l1 & l2 & E). destruct (C24_complete _ _ s Ok Re l1 l2 E) as (Dn & _). destruct (C25_one_response _ _ s Ok Re) as (_ & O). destruct (O l1 l2 E) as (_ & _ & Fa).
    assert (St2 : In (LStart i false now) l2). { pose proof St as Q. rewrite E in Q. apply in_app_or in Q as [Q|[Q|Q]]; [|discriminate|exact Q]. rewrite Forall_forall in Fa. specialize (Fa _ Q). discriminate. }
    assert (D : In (LDone i) (al_log s)) by (rewrite E; apply in_or_app; right; right; exact (Dn _ _ _ St2)).
    destruct (silent_reachable acts _ s Re i _ Ea) as (u & Q); [exact G|cbn [list_action aa_activity]; rewrite Kk; reflexivity|exact (called _ _ s i Ok Re D)|]. destruct (start_once _ _ s Ok Re _ _ _ _ _ St Q). discriminate.
  - destruct (situation_of_test _ _ _ _ _ _ _ _ _ _ _ _ _ _ Rn Dr Ra) as (eps & k0 & i0 & s0 & _ & H & _).
    destruct (in_dec (list_eq_dec ascii_dec) (svc_name s0) (rp_clients rp)) as [I|N].
    + exists k0, i0, s0. split; [exact (es_located _ _ _ _ _ _ _ _ _ H)|]. split; [exact (es_service _ _ _ _ _ _ _ _ _ H)|exact I].
    + enough (false = true) by discriminate. apply Gu. exists (rp_name rp), rp. split; [exact Kk|]. split; [exact Ir|]. split; [reflexivity|]. intros (k1 & i1 & s1 & L1 & E1 & I1).
      destruct (located_fun _ _ _ _ _ _ (es_sane _ _ _ _ _ _ _ _ _ H) L1 (es_located _ _ _ _ _ _ _ _ _ H)) as (-> & ->). pose proof (es_service _ _ _ _ _ _ _ _ _ H) as E0. assert (s1 = s0) by congruence. subst s1. auto.
Qed.
Print Assumptions C82_clients.
(** The iterations of an action that is started: as many as the log of its
    iterations has starts.  Without an interval, at most the allowed number run
    at a time, and apart from the first ones none starts after the time limit;
    with an interval, none starts before its time, and apart from the first
    none is due after the time limit.  Only the first ones are marked as
    warmup, unless the list is. *)
Theorem C82_iterations fnm r nes ev t w active res ws o info opts x s d : benchmark fnm r nes ev t w active res ws o info opts ->
  list_run_ok o r t res ws info opts x s -> nth_error (cf_lists (config_of t)) (Z.to_nat (lr_list x)) = Some d ->
  forall i a ar now, action_at (config_of t) d i a -> nth_error (lr_actions x) i = Some ar -> In (LStart i false now) (al_log s) ->
  match an_kind a with
  | KActivity _ => True
  | KRpc m => forall rp, In rp (cf_rpcs (config_of t)) -> rp_name rp = m -> client_of (config_of t) (lr_instance x) rp
  | _ => True
  end -> (forall m, an_kind a <> KActivity m) ->
  let y := opts (an_name a) in
  exists its, length (ar_iterations ar) = length (starts (it_log its)) /\ (In (LCall i) (al_log s) -> In ICall (it_log its)) /\
    (forall k u v, In (IStart k u v) (it_log its) -> 0 <= k < times y /\ (u = true <-> ar_warmup ar = true \/ k < ro_warmup y)) /\
    match open_loop y with
    | None =>
        Z.of_nat (length (starts (it_log its))) - Z.of_nat (length (ends (it_log its))) <= Z.min (ro_parallel y) (times y) /\
        forall us, ro_iterations y = true -> ro_duration y = Some us -> forall k u v, In (IStart k u v) (it_log its) -> Z.min (ro_parallel y) (times y) <= k -> v <= ar_now ar + us * 1000
    | Some per =>
        constant_gap per (ar_schedule ar) -> forall k u v, In (IStart k u v) (it_log its) -> ar_first ar + k * per < v /\
          forall us, ro_duration y = Some us -> 0 < k -> ar_first ar + k * per <= ar_now ar + us * 1000
    end.
Proof.
  intros B (id & e & rd & tl & Ra & V & R & L & A) Ed i a ar now At Er St Cl Na. pose proof (be_ran _ _ _ _ _ _ _ _ _ _ _ _ B) as Rn. pose proof (be_rpcs _ _ _ _ _ _ _ _ _ _ _ _ B) as Dr.
  destruct (at_list _ _ _ _ _ _ _ _ _ _ opts Rn Dr _ _ _ _ _ _ _ Ra V Ed i a At) as (b & Eb & <- & Ea & Eo). pose proof (given_up_at _ _ _ _ _ _ _ _ _ _ opts Rn Dr _ _ _ _ _ _ Ra V i b Eb) as Gu.
  pose proof (A i b ar Eb Er) as Ok. assert (Ng : given_up rd b = false).
  { destruct (given_up rd b) eqn:G; [|reflexivity]. destruct (proj1 Gu eq_refl) as (m & rp & K & Ir & Nr & Nc). rewrite K in Cl. destruct (Nc (Cl rp Ir Nr)). }
  assert (Nact : is_activity (an_kind (en_action b)) = false) by (destruct (an_kind (en_action b)); try reflexivity; destruct (Na n eq_refl)).
  destruct (ak_some _ _ _ _ _ _ _ _ _ _ _ _ Ok Nact Ng now St) as (its & It & Le & Ca & _). cbv zeta. set (y := opts (an_name (en_action b))) in *. exists its. split; [exact Le|]. split; [exact Ca|].
  pose proof (be_options _ _ _ _ _ _ _ _ _ _ _ _ B (an_name (en_action b))) as (O1 & O2). fold y in O1, O2. set (cfg := iterations_of y (ar_now ar) (ar_warmup ar)) in *.
  assert (Pe : ic_period cfg = open_loop y) by reflexivity. assert (Li : ic_limit cfg = times y) by reflexivity. assert (Pa : ic_parallel cfg = ro_parallel y) by reflexivity.
  assert (Tl : forall us, ro_iterations y = true -> ro_duration y = Some us -> ic_time_limit cfg = Some (ar_now ar + us * 1000)) by (intros us E1 E2; unfold cfg, iterations_of; cbn [ic_time_limit]; rewrite E1, E2; reflexivity).
  assert (Nu : forall n, rev (starts (it_log its)) = upto n -> n <= times y -> forall k u v, In (IStart k u v) (it_log its) -> 0 <= k < times y).
  { intros n Q Ln k u v I. assert (In k (starts (it_log its))) as Ik by (apply in_flat_map; exists (IStart k u v); split; [exact I|left; reflexivity]).
    apply in_rev in Ik. rewrite Q in Ik. unfold upto in Ik. apply in_map_iff in Ik as (q & <- & Iq). apply in_seq in Iq. lia. }
  destruct It as [Cr|(per & Or)].
  - fold cfg in Cr. assert (Io : iter_ok cfg) by (split; unfold copies; rewrite Pa, Li; apply O2; exact (proj1 Cr)). assert (On : open_loop y = None) by (rewrite <- Pe; exact (proj1 Cr)). rewrite On. split; [|split].
    + destruct (C26_numbers _ _ _ _ Io Cr) as (n & Bn & Rv & _). intros k u v I. split; [exact (Nu n Rv ltac:(lia) k u v I)|]. exact (C28_iterations_marked cfg its k u v (or_introl (ex_intro _ _ (ex_intro _ _ (conj Io Cr)))) I).
    + rewrite <- Pa, <- Li. exact (C26_parallel_bound _ _ _ _ Io Cr).
    + intros us E1 E2 k u v I K. rewrite <- Pa, <- Li in K. exact (C26_time_limit _ _ _ _ _ Io Cr (Tl us E1 E2) k u v I K).
  - fold cfg in Or. assert (Os : open_loop y = Some per) by (rewrite <- Pe; exact (proj1 Or)). rewrite Os. split.
    + destruct (C27_numbers _ _ _ _ _ Or) as (n & Bn & Rv & _). intros k u v I. split; [exact (Nu n Rv ltac:(lia) k u v I)|]. apply (C28_iterations_marked cfg its k u v); [right; eauto|exact I].
    + intros G k u v I. destruct (C27_never_early _ _ _ _ _ G Or k u v I) as (N1 & N2). split; [exact N1|]. intros us E2 K. apply N2; [exact K|]. apply Tl; [|exact E2]. unfold open_loop in Os. destruct (ro_iterations y); [reflexivity|discriminate].
Qed.
Print Assumptions C82_iterations.

(** A response has the payload of an action that does nothing else and that ran
    (not skipped): of the action that sends it, else of the last such that had
    finished; or none, if there is none. *)
Definition overrides (c : config) (d : list_d) (l : list al_event) (i : nat) : Prop := exists a now, action_at c d i a /\ an_kind a = KNop /\ In (LStart i false now) l.
Theorem C82_response fnm r nes ev t w active res ws o info opts x s d : benchmark fnm r nes ev t w active res ws o info opts -> none_idle (config_of t) ->
  list_run_ok o r t res ws info opts x s -> nth_error (cf_lists (config_of t)) (Z.to_nat (lr_list x)) = Some d ->
  forall l1 by_ ov l2, al_log s = l1 ++ LSend by_ ov :: l2 ->
  let own := exists i, by_ = Some i /\ overrides (config_of t) d l2 i in
  (exists i a m, action_at (config_of t) d i a /\ an_response a = Some m /\ payload_refers (config_of t) m ov /\
     (by_ = Some i /\ overrides (config_of t) d l2 i \/
      ~ own /\ exists m1 m2, l2 = m1 ++ LFinish i :: m2 /\ overrides (config_of t) d m2 i /\ forall u j v, m1 = u ++ LFinish j :: v -> ~ overrides (config_of t) d (v ++ LFinish i :: m2) j)) \/
  ov = -1 /\ ~ own /\ forall u j v, l2 = u ++ LFinish j :: v -> ~ overrides (config_of t) d v j.
Proof.
  intros B Ni (id & e & rd & tl & Ra & V & R & L & A) Ed l1 by_ ov l2 E. pose proof (be_ran _ _ _ _ _ _ _ _ _ _ _ _ B) as Rn. pose proof (be_rpcs _ _ _ _ _ _ _ _ _ _ _ _ B) as Dr.
  pose proof (lists_ok _ _ _ _ _ _ _ _ _ _ opts Rn Dr _ _ _ _ _ _ _ Ra V Ed Ni) as Ok. pose proof (list_at _ _ _ _ _ _ _ _ _ _ opts Rn Dr _ _ _ _ _ _ _ Ra V Ed) as La. pose proof (at_list _ _ _ _ _ _ _ _ _ _ opts Rn Dr _ _ _ _ _ _ _ Ra V Ed) as Al.
  set (acts := map _ _) in *. pose proof (C32_list_override _ _ s Ok (ex_intro _ _ R) _ _ _ _ E) as Ov. clear E.
  assert (Ow : forall l i, (overrides (config_of t) d l i <-> own_override acts l i <> -1) /\
      (own_override acts l i <> -1 -> exists a m, action_at (config_of t) d i a /\ an_response a = Some m /\ payload_refers (config_of t) m (own_override acts l i))).
  { intros l i. unfold own_override. destruct (existsb _ l) eqn:X.
    - apply existsb_exists in X as (z & I & Z0). destruct z as [|j [|] v| | | | | |]; try discriminate. apply Nat.eqb_eq in Z0. subst j.
      destruct (nth_error acts i) as [b|] eqn:Eb.
      + destruct (La i b Eb) as (a & Ea & At & -> & Eo). cbn [list_action aa_override].
        assert (Rs : an_kind (en_action a) = KNop -> exists m, an_response (en_action a) = Some m /\ payload_refers (config_of t) m (en_response a) /\ en_response a <> -1).
        { intro Kk. pose proof (eo_response _ _ _ _ _ _ Eo) as Er. destruct (an_response (en_action a)) as [m|] eqn:Q; [exists m; tauto|]. pose proof At as (u1 & u2 & _ & El & _). destruct (Ni (en_action a)); [rewrite El; apply in_elt|exact Kk|exact Q]. }
        split.
        * split.
          -- intros (a' & now & At' & Kk & _). pose proof (action_at_fun _ _ _ _ _ At At') as Q. rewrite <- Q in Kk. rewrite Kk. cbn [is_nop]. destruct (Rs Kk) as (m & _ & _ & N). exact N.
          -- intro N. exists (en_action a), v. split; [exact At|]. split; [|exact I]. destruct (an_kind (en_action a)); cbn [is_nop] in N; try congruence.
        * intro N. destruct (an_kind (en_action a)) eqn:Kk; cbn [is_nop] in N |- *; try congruence. destruct (Rs eq_refl) as (m & R1 & R2 & _). exists (en_action a), m. auto.
      + split; [|congruence]. split; [|congruence]. intros (a & now & At & _). destruct (Al i a At) as (b & _ & _ & Q & _). congruence.
    - split; [|congruence]. split; [|congruence]. intros (a & now & _ & _ & I). assert (existsb (fun e => match e with LStart j false _ => Nat.eqb j i | _ => false end) l = true) as K; [|congruence].
      apply existsb_exists. eexists. split; [exact I|]. cbn. apply Nat.eqb_refl. }
  assert (Lo : forall l, (last_override acts l <> -1 -> exists m1 i m2, l = m1 ++ LFinish i :: m2 /\ own_override acts m2 i = last_override acts l /\ forall u j v, m1 = u ++ LFinish j :: v -> own_override acts (v ++ LFinish i :: m2) j = -1) /\
      (last_override acts l = -1 -> forall u j v, l = u ++ LFinish j :: v -> own_override acts v j = -1)).
  { induction l as [|z l (IH1 & IH2)].
    - split; [intro N; cbn in N; congruence|]. intros _ u j v Q. destruct u; discriminate.
    - assert (Sk : last_override acts (z :: l) = last_override acts l -> (forall j, z = LFinish j -> own_override acts l j = -1) ->
        (last_override acts (z :: l) <> -1 -> exists m1 i m2, z :: l = m1 ++ LFinish i :: m2 /\ own_override acts m2 i = last_override acts (z :: l) /\ forall u j v, m1 = u ++ LFinish j :: v -> own_override acts (v ++ LFinish i :: m2) j = -1) /\
        (last_override acts (z :: l) = -1 -> forall u j v, z :: l = u ++ LFinish j :: v -> own_override acts v j = -1)).
      { intros Q Hz. rewrite Q. split.
        - intro N. destruct (IH1 N) as (m1 & i & m2 & E1 & E2 & E3). exists (z :: m1), i, m2. split; [rewrite E1; reflexivity|]. split; [exact E2|]. intros [|u0 u] j v Eu; [injection Eu as Ez ->; rewrite <- E1; apply Hz; exact Ez|]. injection Eu as -> Eu. exact (E3 u j v Eu).
        - intros N [|u0 u] j v Eu; [injection Eu as Ez ->; apply Hz; exact Ez|]. injection Eu as -> Eu. exact (IH2 N u j v Eu). }
      destruct z as [| | | |i| | |]; try (apply Sk; [reflexivity|intros; discriminate]). cbn [last_override]. destruct (Z.eqb_spec (own_override acts l i) (-1)) as [Q|Q].
      + assert (Q' : last_override acts (LFinish i :: l) = last_override acts l) by (cbn [last_override]; rewrite Q; reflexivity). rewrite <- Q'. apply Sk; [exact Q'|]. intros j [= <-]. exact Q.
      + split; [|congruence]. intros _. exists [], i, l. split; [reflexivity|]. split; [reflexivity|]. intros [|u0 u] j v Eu; discriminate. }
  assert (Last : forall P : Prop, P -> (exists i a m, action_at (config_of t) d i a /\ an_response a = Some m /\ payload_refers (config_of t) m (last_override acts l2) /\
      (by_ = Some i /\ overrides (config_of t) d l2 i \/ P /\ exists m1 m2, l2 = m1 ++ LFinish i :: m2 /\ overrides (config_of t) d m2 i /\ forall u j v, m1 = u ++ LFinish j :: v -> ~ overrides (config_of t) d (v ++ LFinish i :: m2) j)) \/
      last_override acts l2 = -1 /\ P /\ forall u j v, l2 = u ++ LFinish j :: v -> ~ overrides (config_of t) d v j).
  { intros P HP. destruct (Lo l2) as (L1 & L2). destruct (Z.eq_dec (last_override acts l2) (-1)) as [Q|Q].
    - right. split; [exact Q|]. split; [exact HP|]. intros u j v Eu K. apply (proj1 (Ow v j)) in K. exact (K (L2 Q u j v Eu)).
    - left. destruct (L1 Q) as (m1 & i & m2 & E1 & E2 & E3). rewrite <- E2 in Q. destruct (proj2 (Ow m2 i) Q) as (a & m & At & Rs & Pr). exists i, a, m. split; [exact At|]. split; [exact Rs|]. split; [rewrite <- E2; exact Pr|]. right. split; [exact HP|].
      exists m1, m2. split; [exact E1|]. split; [apply Ow, Q|]. intros u j v Eu K. apply (proj1 (Ow _ j)) in K. exact (K (E3 u j v Eu)). }
  cbv zeta. destruct by_ as [i|].
  - destruct (Z.eqb_spec (own_override acts l2 i) (-1)) as [Q|Q].
    + rewrite Ov. apply Last. intros (i' & [= <-] & K). apply (proj1 (Ow l2 i)) in K. congruence.
    + left. rewrite Ov. destruct (proj2 (Ow l2 i) Q) as (a & m & At & Rs & Pr). exists i, a, m. split; [exact At|]. split; [exact Rs|]. split; [exact Pr|]. left. split; [reflexivity|apply Ow, Q].
  - rewrite Ov. apply Last. intros (i' & Q & _). discriminate.
Qed.
Print Assumptions C82_response.

(** ** Examples *)
(** The client chooses a payload, then waits for a delay and calls the servers
    three times, two at a time at most, for at most 9 microseconds. *)
Definition order_conf : config :=
  mkConf ex_services [mkPay (s_ "spread") (Some (s_ "sizes")) None] [ex_rpc "echo" None] []
    [mkActD (s_ "choose") [] None KNop None (Some (s_ "spread")); mkActD (s_ "call") [s_ "choose"] (Some (s_ "pause")) (KRpc (s_ "echo")) None None]
    [mkListD (s_ "client") [s_ "choose"; s_ "call"]; mkListD (s_ "echo") []] [] [ex_dist "pause" "action_delay_ns" 5] [ex_dist "sizes" "payload_size" 64] [].
Definition order_opts (n : str) : run_options := if str_eqb n (s_ "call") then mkOptions true (Some 3) (Some 9) 2 None 1 false false [] else options0.
Definition order_test : whole := mkWhole (mkTest order_conf [] [] [] [] [(s_ "node2", [s_ "server/1/0/0"; s_ "server/2/0/0"])] []) 16 (wt_drivers ex_t) [] (s_ "grpc").
Definition order_result : test_result := result_of order_test (ex_run_of order_test).
Definition order_worlds : worlds := worlds_of (ex_run_of order_test).
Definition order_out : outside := outside_of (engines_of (wo_introduced order_worlds)).
Definition order_runs : list list_run := some_runs (gen false (skipn 10) order_opts (ones order_out order_test order_result order_worlds) 100 (main_lists order_conf)).
Lemma order_ran : ran (fun _ _ => true) ex_r ex_nes ex_ev order_test ex_w [0; 1; 2; 3; 9] order_result order_worlds.
Proof.
  apply (ran_of order_test _ eq_refl); [|vm_compute; reflexivity]. constructor; [|apply NoDup_cons; [intros []|apply NoDup_nil]|apply NoDup_nil]. destruct Peer_Props.ex_sane as [S1 S2 S3]. constructor; [exact S1|exact S2|exact S3].
Qed.
Lemma order_benchmark res ws : ran (fun _ _ => true) ex_r ex_nes ex_ev order_test ex_w [0; 1; 2; 3; 9] res ws -> check_addresses ws = true ->
  benchmark (fun _ _ => true) ex_r ex_nes ex_ev order_test ex_w [0; 1; 2; 3; 9] res ws (outside_of (engines_of (wo_introduced ws))) ex_info order_opts.
Proof.
  intros Rn C. unfold check_addresses in C. apply andb_prop in C as (C & C3). apply andb_prop in C as (C1 & C2). constructor.
  - exact Rn.
  - repeat constructor. intros [].
  - cbn. unfold int32_max. lia.
  - apply network_of; [apply distinct_spec, C1|]. intro I. enough (existsb (str_eqb []) (map ex_socket (engines_of (wo_introduced ws))) = true) as Q by (rewrite Q in C2; discriminate). apply existsb_exists. exists []. auto.
  - intros id n e id' n' e' O O' A A' Q. pose proof (proj2 (engines_of_In _ _ _ _) (conj O A)) as I. pose proof (proj2 (engines_of_In _ _ _ _) (conj O' A')) as I'.
    pose proof (named_once (fun x => add_protocol (skipn 10 (ex_info (fst (fst x)) (snd (fst x)) (snd x)))) _ _ _ (distinct_spec _ C3) I I' Q) as W. congruence.
  - intros rp [<-|[]]. split; [reflexivity|]. exists (FGrid false false false). split; [reflexivity|]. intros. repeat split; discriminate.
  - intro n. unfold order_opts. destruct (str_eqb n (s_ "call")); (split; [vm_compute; discriminate|]); intros _; vm_compute; split; discriminate.
Qed.
Example C82_ex_benchmark : benchmark (fun _ _ => true) ex_r ex_nes ex_ev order_test ex_w [0; 1; 2; 3; 9] order_result order_worlds order_out ex_info order_opts /\ none_idle order_conf.
Proof. split; [apply (order_benchmark _ _ order_ran); vm_compute; reflexivity|]. intros a [<-|[<-|[]]]; discriminate. Qed.
Lemma order_execution res ws W : gen false (skipn 10) order_opts (ones (outside_of (engines_of (wo_introduced ws))) order_test res ws) 100 (main_lists order_conf) = Some W ->
  execution (outside_of (engines_of (wo_introduced ws))) ex_r order_test res ws ex_info order_opts complete W.
Proof. intro E. eapply gen_execution; [|intros x I; exact (ones_ready _ _ _ _ x I)|exact E]. reflexivity. Qed.
Example C82_ex_execution : execution order_out ex_r order_test order_result order_worlds ex_info order_opts complete order_runs.
Proof. apply order_execution. unfold order_runs. apply some_runs_spec. vm_compute. reflexivity. Qed.
(** Both clients run the list; the call is started when its delay is over, and
    the response has the size distribution. *)
Definition order_log (n : nat) : option (list al_event) :=
  match nth_error (ones order_out order_test order_result order_worlds) 0, nth_error order_runs n with
  | Some y, Some x =>
      match vec_at (tb_lists (rd_tables (on_ready y))) (lr_list x) with
      | Some tl => match al_run (map (fun a => list_action (on_ready y) (order_opts (an_name (en_action a))) a) (tl_entries tl)) [] (lr_schedule x) al_init with AlNext s => Some (rev (al_log s)) | _ => None end
      | None => None
      end
  | _, _ => None
  end.
Example C82_ex_log :
  map (fun x => (string_of_list_ascii (lr_instance x), lr_list x, map (fun ar => map (fun i => length (ir_rpcs i)) (ar_iterations ar)) (lr_actions x))) order_runs =
    [("client/0/0/0"%string, 0, [[0]; [3; 3; 3]]%nat); ("client/1/0/0"%string, 0, [[0]; [3; 3; 3]]%nat)] /\
  order_log 0 = Some [LStart 0 false 0; LCall 0; LFinish 0; LDone 0; LDelay 1 0 0; LStart 1 false 0; LCall 1; LFinish 1; LDone 1; LSend None 0; LFree].
Proof. vm_compute. auto. Qed.
(** The two actions of the list, in the terms of the theorems. *)
Example C82_ex_actions : let d := mkListD (s_ "client") [s_ "choose"; s_ "call"] in nth_error (cf_lists order_conf) 0 = Some d /\
  (exists a, action_at order_conf d 0 a /\ an_kind a = KNop /\ an_response a = Some (s_ "spread") /\ payload_refers order_conf (s_ "spread") 0) /\
  (exists a, action_at order_conf d 1 a /\ waits_for d a 0 /\ an_delay a = Some (s_ "pause") /\ open_loop (order_opts (an_name a)) = None) /\
  client_of order_conf (s_ "client/1/0/0") (ex_rpc "echo" None) /\ ~ client_of order_conf (s_ "server/1/0/0") (ex_rpc "echo" None).
Proof.
  cbv zeta. split; [reflexivity|]. split; [|split; [|split]].
  - exists (mkActD (s_ "choose") [] None KNop None (Some (s_ "spread"))). split; [exists [], (tl (cf_actions order_conf)); split; [reflexivity|]; split; [reflexivity|]; intros [K|[]]; discriminate|]. split; [reflexivity|]. split; [reflexivity|]. left. exists (mkPay (s_ "spread") (Some (s_ "sizes")) None), (s_ "sizes"). split; [left; reflexivity|]. split; [reflexivity|]. split; [reflexivity|].
    exists (ex_dist "sizes" "payload_size" 64). split; [split; [lia|reflexivity]|reflexivity].
  - exists (mkActD (s_ "call") [s_ "choose"] (Some (s_ "pause")) (KRpc (s_ "echo")) None None). split; [exists (firstn 1 (cf_actions order_conf)), []; split; [reflexivity|]; split; [reflexivity|intros []]|]. split; [|split; reflexivity]. exists (s_ "choose"). split; [left; reflexivity|]. split; [reflexivity|].
    intros [|[|j]] K; [lia|discriminate|destruct j; discriminate].
  - exists 0%nat, 1%nat, (nth 0 ex_services (mkSvc (mkSpec [] None None None None None) [])). split; [|split; [reflexivity|left; reflexivity]]. eexists. split; [reflexivity|]. split; [vm_compute; reflexivity|vm_compute; reflexivity].
  - intros (k & i & sv & (s0 & E & L & N) & E' & I). assert (s0 = sv) by congruence. subst s0. destruct I as [I|[]]. destruct k as [|[|k]]; [|injection E as <-; discriminate|destruct k; discriminate]. injection E as <-.
    destruct i as [|[|i]]; [vm_compute in N; discriminate|vm_compute in N; discriminate|]. unfold svc_count in L. cbn in L. lia.
Qed.
(** While the first action runs the thread sleeps; while the second waits for
    its delay it does not. *)
Example C82_ex_wait :
  match nth_error (ones order_out order_test order_result order_worlds) 0 with
  | Some y =>
      match vec_at (tb_lists (rd_tables (on_ready y))) 0 with
      | Some l =>
          let acts := map (fun a => list_action (on_ready y) (order_opts (an_name (en_action a))) a) (tl_entries l) in
          map (fun sch => match al_run acts [] sch al_init with
                          | AlNext s => Some (al_pc_ s, match main_step acts [] 3 0 s with AlDisabled => true | _ => false end)
                          | _ => None
                          end) [repeat (MStep 0 5) 4; repeat (MStep 0 5) 4 ++ [ECall 0; EFinish 0] ++ repeat (MStep 0 5) 6]
      | None => []
      end
  | None => []
  end = [Some (PWait, true); Some (PWait, false)].
Proof. vm_compute. reflexivity. Qed.
