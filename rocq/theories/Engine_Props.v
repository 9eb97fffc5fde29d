(** C85: the life of an engine. *)
From Coq Require Import List Bool Arith Lia.
From Verif Require Import Engine_Model Engine_Proofs Engine_Proofs2.
Import ListNotations.

Definition reached (s : engine_state) : Prop := exists l, engine_run_all l engine0 = Some s.
Definition over_list (s : engine_state) (r : nat) : Prop := exists x, nth_error (eg_runs s) r = Some x /\ ru_phase x = RGone.
Definition touches_engine (p : uphase) : Prop := p = UOpen \/ p = UTail \/ p = ULast.
Lemma reached_inv : forall s, reached s -> inv s.
Proof. intros s [l E]. eapply inv_all; eauto using inv0. Qed.
Lemma reached_linv : forall s, reached s -> linv s.
Proof. intros s [l E]. eapply linv_all; eauto using linv0. Qed.

(** Each wait of the destructor has what it waits for behind it for good,
    whatever arrives while it runs. *)
Theorem C85_stages : forall s, reached s ->
  (2 <= rank (eg_phase s) -> forall x, In x (eg_runs s) -> ru_origin x = OMain -> ru_phase x = RGone) /\
  (3 <= rank (eg_phase s) -> eg_setups s = 0) /\
  (4 <= rank (eg_phase s) -> forall x, In x (eg_runs s) -> ru_origin x = OInline -> ru_phase x = RGone) /\
  (5 <= rank (eg_phase s) -> forall x, In x (eg_runs s) -> ru_phase x = RGone) /\
  (6 <= rank (eg_phase s) -> forall v, In v (eg_units s) -> un_kind v = KRpc -> un_phase v = UGone) /\
  (7 <= rank (eg_phase s) -> forall v, In v (eg_units s) -> un_phase v = UGone).
Proof.
  intros s R. pose proof (reached_inv s R) as H.
  split; [|split; [|split; [|split; [|split]]]].
  - intros L x I O. destruct (In_nth_error _ _ I) as [r E]. destruct (ru_phase x) eqn:P; auto; exfalso;
      (assert (A : alive x) by (unfold alive; rewrite P; discriminate);
       pose proof (i_main s H _ _ E O A) as M; rewrite (i_joined s H L) in M; discriminate).
  - apply (i_setups s H).
  - apply (i_inline s H).
  - intros L. apply (all_gone s H L).
  - apply (i_rpcs s H).
  - intros L v I. destruct (un_kind v) eqn:K; [apply (i_rpcs s H)|apply (i_pool s H)]; auto; lia.
Qed.

(** No action list starts, calls, sends, ends or merges after the wait for the
    detached lists: the client of the driver is not shut down while a list may
    still use it, and nothing is queued in thread_pool_ any more. *)
Theorem C85_no_late_work : forall s e s' r, reached s -> engine_step e s = Some s' ->
  (exists a k, e = ECall r a k) \/ e = EStart r \/ e = ESend r \/ e = EFinish r \/ e = EMerge r \/ e = EReturn r ->
  rank (eg_phase s) <= 4.
Proof.
  intros s e s' r R E W. destruct (Nat.le_gt_cases (rank (eg_phase s)) 4) as [|L]; auto. exfalso.
  pose proof (all_gone s (reached_inv s R) L) as G.
  assert (K : exists x, In x (eg_runs s) /\ ru_phase x <> RGone).
  { unfold engine_step in E. destruct (eg_crashed s); [discriminate|].
    destruct W as [(a & k & ->)|[-> |[-> |[-> |[-> | ->]]]]];
      destruct (nth_error (eg_runs s) r) as [[o p]|] eqn:X; try discriminate;
      exists (mkRun o p); (split; [eapply nth_error_In; eauto|]); destruct p; try discriminate; cbn; try discriminate. }
  destruct K as (x & I & N). auto.
Qed.

(** When the body of the destructor has returned no done callback is in progress;
    a thread can be in the engine only for an iteration of a list in thread_pool_
    that was not the last one. *)
Theorem C85_body : forall s v, reached s -> 6 <= rank (eg_phase s) -> In v (eg_units s) -> touches_engine (un_phase v) ->
  un_kind v = KPool /\ un_phase v = UTail /\ eg_phase s = DMembers.
Proof.
  intros s v R L I T. pose proof (reached_inv s R) as H.
  destruct (no_holding s H ltac:(lia) v I) as [N1 N2].
  assert (P : un_phase v = UTail) by (destruct T as [T|[T|T]]; congruence).
  split; [|split; auto].
  - destruct (un_kind v) eqn:K; auto. rewrite (i_rpcs s H L v I K) in P. discriminate.
  - destruct (eg_phase s) eqn:D; cbn in L; try lia; auto.
    destruct (C85_stages s R) as (_ & _ & _ & _ & _ & G). rewrite D in G. rewrite G in P by (auto; cbn; lia). discriminate.
Qed.

(** Such a thread can be there (finding): of two iterations of a list that run
    at once, the first to end is counted, the other one ends the action, the
    main list and the test, and the engine is destroyed: iteration_state_cache_
    and its mutex are gone when the first one calls FreeIterationState, because
    they are declared after thread_pool_. *)
Definition pool_witness : list eevent :=
  [EMain; ECall 0 0 KPool; ECall 0 0 KPool; EStart 1; EFinish 1; EMerge 1; EReturn 1; EStart 2; EFinish 2; EMerge 2; EReturn 2;
   ECount 0 true; ECount 1 true; ECallback 1; ERelease 1; EFinish 0; EMerge 0; EReturn 0; EJoin; EGetLogs;
   EDelete; EDtor; EDtor; EDtor; EDtor; EDtor].
Theorem C85_body_safe_refuted : exists l s s' v, engine_run_all l engine0 = Some s /\ eg_phase s = DMembers /\
  nth_error (eg_units s) 0 = Some v /\ touches_engine (un_phase v) /\ engine_step (EFree 0) s = Some s'.
Proof.
  exists pool_witness. eexists. eexists. eexists. split; [vm_compute; reflexivity|]. split; [reflexivity|].
  split; [reflexivity|]. split; [right; left; reflexivity|vm_compute; reflexivity].
Qed.
(** Without lists started by lists the destructor is safe. *)
Lemma kinds_step : forall e s s', engine_step e s = Some s' -> (forall r a, e <> ECall r a KPool) ->
  (forall v, In v (eg_units s) -> un_kind v = KRpc) -> forall v, In v (eg_units s') -> un_kind v = KRpc.
Proof.
  intros e s s' E N A. unfold engine_step in E. destruct (eg_crashed s); [discriminate|].
  assert (RU : forall r p, eg_units (run_phase r p s) = eg_units s) by (intros; unfold run_phase; destruct (nth_error _ _); auto).
  assert (UU : forall u p v, In v (eg_units (unit_phase u p s)) -> un_kind v = KRpc).
  { intros u p v I. unfold unit_phase in I. destruct (nth_error (eg_units s) u) as [x|] eqn:X; auto.
    cbn in I. destruct (in_upd _ _ _ _ I) as [-> |J]; auto. cbn. apply A. eapply nth_error_In; eauto. }
  destruct e.
  7:{ destruct (nth_error (eg_runs s) r) as [[o []]|]; try discriminate. injection E as <-.
      destruct k; [|exfalso; apply (N r a); auto]. cbn. intros v I. apply in_app_iff in I. destruct I as [I|[<-|[]]]; auto. }
  17:{ assert (X : eg_units s' = eg_units s).
       { unfold destructor_step in E.
         repeat match type of E with context [match ?x with _ => _ end] => destruct x eqn:?; try discriminate | context [if ?x then _ else _] => destruct x eqn:?; try discriminate end;
         injection E as <-; reflexivity. }
       rewrite X. auto. }
  all: repeat match type of E with
       | context [match nth_error ?l ?x with _ => _ end] => destruct (nth_error l x) as [[]|] eqn:?; try discriminate
       | context [match ?x with _ => _ end] => destruct x eqn:?; try discriminate
       end; injection E as <-; cbn; rewrite ?RU; eauto.
Qed.
Theorem C85_body_plain : forall l s v, engine_run_all l engine0 = Some s -> (forall r a, ~ In (ECall r a KPool) l) ->
  6 <= rank (eg_phase s) -> In v (eg_units s) -> ~ touches_engine (un_phase v).
Proof.
  intros l s v E N L I T.
  assert (K : forall l s0 s1, engine_run_all l s0 = Some s1 -> (forall r a, ~ In (ECall r a KPool) l) ->
     (forall v, In v (eg_units s0) -> un_kind v = KRpc) -> forall v, In v (eg_units s1) -> un_kind v = KRpc).
  { induction l0 as [|e l0 IH]; cbn; intros s0 s1 X M A; [injection X as <-; auto|].
    destruct (engine_step e s0) eqn:Y; [|discriminate]. eapply IH; [exact X|intros r a J; apply (M r a); auto|].
    eapply kinds_step; eauto. intros r a ->. apply (M r a). auto. }
  destruct (C85_body s v) as (P & _); auto; [exists l; auto|].
  rewrite (K _ _ _ E N) in P; auto; [discriminate|]. easy.
Qed.

(** Once called the destructor can end from every state, within a number of
    steps fixed by the work in progress, if the RPCs and lists in progress end. *)
Theorem C85_deletable : forall s, reached s -> eg_crashed s = false -> eg_phase s <> DNo ->
  exists l s', engine_run_all l s = Some s' /\ eg_phase s' = DGone /\ length l <= left_to_do s.
Proof. intros s R C P. apply (finishes (left_to_do s)); auto using reached_inv. Qed.

(** GetLogs reads the logs of exactly the lists merged so far, each once. *)
Theorem C85_report : forall l1 l2 s, engine_run_all (l1 ++ EGetLogs :: l2) engine0 = Some s ->
  exists s1, engine_run_all l1 engine0 = Some s1 /\ nth_error (eg_reports s) (length (eg_reports s1)) = Some (merges l1) /\
    NoDup (merges l1) /\
    forall r, In r (merges l1) <-> exists x, nth_error (eg_runs s1) r = Some x /\ (ru_phase x = RMerged \/ ru_phase x = RGone).
Proof.
  intros l1 l2 s E. rewrite run_app_e in E. destruct (engine_run_all l1 engine0) as [s1|] eqn:X; [|discriminate].
  exists s1. split; auto. destruct (run_logs _ _ _ X) as (LG & _). cbn in LG.
  assert (LI : linv s1) by (apply reached_linv; exists l1; auto).
  cbn [engine_run_all] in E. destruct (engine_step EGetLogs s1) as [s2|] eqn:Y; [|discriminate].
  destruct (step_logs _ _ _ Y) as (_ & RP). destruct (run_logs _ _ _ E) as (_ & m & M).
  rewrite M, RP, <- LG. split; [|split; [apply (l_nodup s1 LI)|apply (l_iff s1 LI)]].
  rewrite <- app_assoc, nth_error_app2, Nat.sub_diag by auto. reflexivity.
Qed.
(** With no list in progress the report is complete. *)
Theorem C85_complete : forall s r, reached s -> (forall x, In x (eg_runs s) -> ru_phase x = RGone) -> r < length (eg_runs s) -> In r (eg_logs s).
Proof.
  intros s r R A L. apply (l_iff s (reached_linv s R)). destruct (nth_error (eg_runs s) r) as [x|] eqn:X.
  - exists x. split; auto. right. apply A. eapply nth_error_In; eauto.
  - apply nth_error_None in X. lia.
Qed.
(** After FinishTraffic the main lists and all lists started below them are in. *)
Inductive below (s : engine_state) : nat -> nat -> Prop :=
  | below_self : forall r, below s r r
  | below_next : forall r q x u v, below s r q -> forall q', nth_error (eg_runs s) q' = Some x -> ru_origin x = ONested u ->
      nth_error (eg_units s) u = Some v -> un_run v = q -> below s r q'.
Theorem C85_joined : forall s r x q y, reached s -> eg_main s = None -> nth_error (eg_runs s) r = Some x -> ru_origin x = OMain ->
  below s r q -> nth_error (eg_runs s) q = Some y -> ru_phase y = RGone /\ In q (eg_logs s).
Proof.
  intros s r x q y R M X O B. pose proof (reached_inv s R) as H.
  assert (G : forall y, nth_error (eg_runs s) q = Some y -> ru_phase y = RGone).
  { induction B as [|r q z u v B IH q' Q Oz V <-].
    - intros y' Y. rewrite X in Y. injection Y as <-. destruct (ru_phase x) eqn:P; auto; exfalso;
        (assert (A : alive x) by (unfold alive; rewrite P; discriminate); pose proof (i_main s H _ _ X O A); congruence).
    - intros y' Y. rewrite Q in Y. injection Y as <-. destruct (i_nested s H _ _ _ Q Oz) as (w & W & K & Lt & Al).
      rewrite V in W. injection W as <-.
      destruct (ru_phase z) eqn:P; auto; exfalso;
        (assert (A : alive z) by (unfold alive; rewrite P; discriminate);
         destruct (i_holds s H _ _ V (or_introl (Al A))) as (p & b & Pp & Pb); rewrite (IH X p Pp) in Pb; discriminate). }
  intros Y. split; [auto|]. apply (l_iff s (reached_linv s R)). exists y. split; auto. right. auto.
Qed.
(** The lists of handlers can be missing (finding): the response of the handler
    is sent, so the list that waits for it and the test can end, and all RPCs the
    handler made are over, but its logs are merged after GetLogs and lost. *)
Definition missing_witness : list eevent :=
  [EArrive true; ECall 0 0 KRpc; ECount 0 true; ECallback 0; ERelease 0; ESend 0; EFinish 0; EGetLogs; EMerge 0; EReturn 0; EDelete;
   EDtor; EDtor; EDtor; EDtor; EDtor; EDtor].
Theorem C85_all_logged_refuted : exists s, engine_run_all missing_witness engine0 = Some s /\ eg_reports s = [[]] /\
  eg_logs s = [0] /\ eg_phase s = DGone /\ (exists v, eg_units s = [v] /\ un_kind v = KRpc) /\ engine_step EGetLogs s = None.
Proof.
  eexists. split; [vm_compute; reflexivity|]. repeat split. eexists. split; reflexivity.
Qed.

(** std::terminate is called exactly when the main list is started again before
    FinishTraffic returned. *)
Theorem C85_terminate : forall l s, engine_run_all l engine0 = Some s -> eg_crashed s = true ->
  exists l1 l2, l = l1 ++ EMain :: l2 ++ [EMain] /\ ~ In EJoin l2.
Proof.
  intros l s E C. destruct (terminate_why l engine0 s E eq_refl C) as (_ & [(M & _)|K]); auto. cbn in M. congruence.
Qed.
Theorem C85_terminates : forall l1 l2 s, engine_run_all (l1 ++ EMain :: l2) engine0 = Some s -> ~ In EJoin l2 ->
  eg_crashed s = false -> eg_phase s = DNo -> exists s', engine_step EMain s = Some s' /\ eg_crashed s' = true.
Proof. exact terminates. Qed.

(** A run: the main list calls an RPC, a handler is detached, the destructor
    waits for it. *)
Definition life_ex : list eevent :=
  [EMain; ESetup; ECall 0 0 KRpc; ECall 0 0 KRpc; EArrive false; ECount 0 true; ECount 1 true; EFree 0; ECallback 1; ERelease 1;
   ESetupEnd; EFinish 0; EMerge 0; EReturn 0; EJoin; EGetLogs; EDelete; EDtor; EDtor; EDtor].
Example C85_ex : option_map (fun s => (eg_phase s, eg_detached s, eg_reports s, left_to_do s)) (engine_run_all life_ex engine0) = Some (DSpin, 1, [[0]], 8).
Proof. vm_compute. reflexivity. Qed.
Example C85_ex_wait : match engine_run_all life_ex engine0 with Some s => engine_step EDtor s = None | None => False end.
Proof. vm_compute. reflexivity. Qed.
Example C85_ex_end : option_map (fun s => (eg_phase s, eg_logs s, map un_phase (eg_units s)))
  (engine_run_all (life_ex ++ [EStart 1; EFinish 1; EMerge 1; EReturn 1; EDtor; ERelease 0; EDtor; EDtor]) engine0) = Some (DGone, [0; 1], [UGone; UGone]).
Proof. vm_compute. reflexivity. Qed.
(** The driver waits for the iteration that is still in its callback. *)
Example C85_ex_client : option_map eg_phase (engine_run_all (life_ex ++ [EStart 1; EFinish 1; EMerge 1; EReturn 1; EDtor; EDtor]) engine0) = None.
Proof. vm_compute. reflexivity. Qed.
Example C85_ex_below : match engine_run_all pool_witness engine0 with Some s => below s 0 2 /\ In 2 (eg_logs s) | None => False end.
Proof.
  vm_compute. split; [|auto]. eapply below_next with (q' := 2) (q := 0); [apply below_self|reflexivity|reflexivity|reflexivity|reflexivity].
Qed.
Example C85_ex_terminate : option_map eg_crashed (engine_run_all [EMain; EGetLogs; EMain] engine0) = Some true.
Proof. reflexivity. Qed.

Print Assumptions C85_stages.
Print Assumptions C85_no_late_work.
Print Assumptions C85_body.
Print Assumptions C85_body_safe_refuted.
Print Assumptions C85_body_plain.
Print Assumptions C85_deletable.
Print Assumptions C85_report.
Print Assumptions C85_complete.
Print Assumptions C85_joined.
Print Assumptions C85_all_logged_refuted.
Print Assumptions C85_terminate.
Print Assumptions C85_terminates.

(** The calls of SetupConnection in progress are those begun and not over, so
    the destructor never waits for more than these. *)
Definition begun (l : list eevent) : nat := length (filter (fun e => match e with ESetup => true | _ => false end) l).
Definition ended (l : list eevent) : nat := length (filter (fun e => match e with ESetupEnd => true | _ => false end) l).
Lemma setups_step : forall e s s', engine_step e s = Some s' -> eg_setups s' + ended [e] = eg_setups s + begun [e].
Proof.
  intros e s s' E. unfold engine_step, destructor_step, run_phase, unit_phase in E. destruct e; cbn [begun ended filter length];
    repeat match type of E with context [match ?x with _ => _ end] => destruct x eqn:? end; try discriminate E; injection E as <-; cbn [eg_setups with_runs with_units with_main with_setups with_detached with_logs with_reports with_phase with_crash]; lia.
Qed.
Theorem C85_setups : forall l s, engine_run_all l engine0 = Some s -> eg_setups s + ended l = begun l.
Proof.
  intros l s H. assert (G : forall l s0, engine_run_all l s0 = Some s -> eg_setups s + ended l = eg_setups s0 + begun l).
  { clear. induction l as [|e l IH]; cbn [engine_run_all]; intros s0 H; [injection H as <-; reflexivity|]. destruct (engine_step e s0) as [s1|] eqn:E; [|discriminate H].
    pose proof (setups_step _ _ _ E) as A. specialize (IH _ H). unfold begun, ended in *. cbn [filter] in *. destruct e; cbn [length] in *; lia. }
  exact (G l engine0 H).
Qed.
(** So once the connections are set up, nothing of them holds the destructor. *)
Theorem C85_setups_none : forall l s, engine_run_all l engine0 = Some s -> begun l = ended l -> eg_phase s = DShut -> eg_crashed s = false -> exists s', engine_step EDtor s = Some s' /\ eg_phase s' = DServer.
Proof.
  intros l s H B P C. pose proof (C85_setups l s H) as K. assert (Z : eg_setups s = 0) by lia. eexists. unfold engine_step, destructor_step. rewrite C, P, Z. cbn [Nat.eqb]. split; reflexivity.
Qed.
Example C85_ex_setups : begun life_ex = 1 /\ ended life_ex = 1.
Proof. split; reflexivity. Qed.
Print Assumptions C85_setups.
Print Assumptions C85_setups_none.
