(** Properties of the gRPC protocol driver. *)
From Coq Require Import Ascii String List NArith ZArith Bool Arith Lia.
From Verif Require Import Base_Model Grpc_Model Grpc_Proofs Grpc_Proofs2.
Import ListNotations.
Open Scope nat_scope.

(** ** C47: clients *)
(** In every run, of either client, an RPC's callback is called at most once,
    only after gRPC delivered a result, and by the time the RPC is released it
    has been called. *)
Theorem C47_once : forall k stubs l s i r, crun k l (start_client stubs) = Next s -> nth_error (c_rpcs s) i = Some r ->
  length (r_calls r) <= 1 /\ (r_wire r = None -> r_calls r = []) /\
  (r_phase r = Returned \/ r_phase r = Deleted \/ r_phase r = Released -> length (r_calls r) = 1).
Proof.
  intros k stubs l s i r R E. pose proof (inv_run k l _ _ (inv_start k stubs) R) as [B _].
  pose proof (b_rpc _ _ B i r E) as O. unfold rpc_ok in O.
  destruct (r_phase r); try (destruct O as (-> & O); cbn [length]; repeat split; auto; intros [H|[H|H]]; discriminate);
    destruct O as (w & W & -> & _); cbn [length]; repeat split; auto; congruence.
Qed.
(** What it finds: the request given back and the response on success; on
    failure the error message, and the request is gone. *)
Theorem C47_result : forall k stubs l s i r c, crun k l (start_client stubs) = Next s -> nth_error (c_rpcs s) i = Some r -> In c (r_calls r) ->
  match r_wire r with
  | Some (None, response) => c = mkCs (Some (r_given r)) response None (Some true)
  | Some (Some message, _) => c = mkCs None [] (Some message) (Some false)
  | None => False
  end.
Proof.
  intros k stubs l s i r c R E Ic. pose proof (inv_run k l _ _ (inv_start k stubs) R) as [B _].
  pose proof (b_rpc _ _ B i r E) as O. unfold rpc_ok in O.
  destruct (r_phase r); try (destruct O as (H & _); rewrite H in Ic; destruct Ic; fail);
    destruct O as (w & W & H & _); rewrite H in Ic; destruct Ic as [<-|[]]; rewrite W; destruct w as [[m|] resp]; reflexivity.
Qed.
(** pending_rpcs_ is the number of RPCs initiated and not yet released. *)
Theorem C47_pending : forall k stubs l s, crun k l (start_client stubs) = Next s ->
  c_pending s = Z.of_nat (length (filter (fun r => match r_phase r with Entered | Released => false | _ => true end) (c_rpcs s))).
Proof. intros k stubs l s R. pose proof (inv_run k l _ _ (inv_start k stubs) R) as [B _]. exact (b_pending _ _ B). Qed.
(** Used as documented ([disciplined]: peers are connected, and once shutdown
    has begun RPCs are started from callbacks only) nothing crashes, whatever
    the interleaving; *)
Theorem C47_no_crash : forall k stubs l, disciplined stubs k l (start_client stubs) ->
  exists s, crun k l (start_client stubs) = Next s.
Proof.
  intros k stubs l D. destruct (disc_run stubs k l _ (inv_start k stubs) (disc_start stubs) D) as (s & R & _). exists s. exact R.
Qed.
(** ShutdownClient gets past its wait only when every RPC has been completed
    and released; *)
Theorem C47_shutdown_waits : forall k stubs l s, disciplined stubs k l (start_client stubs) -> crun k l (start_client stubs) = Next s ->
  c_shut s <> ShNot -> c_shut s <> ShSpin -> forall i r, nth_error (c_rpcs s) i = Some r -> r_phase r = Released /\ length (r_calls r) = 1.
Proof.
  intros k stubs l s D R N1 N2 i r E. destruct (disc_run stubs k l _ (inv_start k stubs) (disc_start stubs) D) as (s1 & R1 & I & Di).
  assert (s1 = s) by congruence. subst s1.
  assert (P : r_phase r = Released) by (eapply (d_quiet _ _ Di); [left; split; assumption|exact E]).
  split; [exact P|]. apply (C47_once k stubs l s i r R E). auto.
Qed.
(** and nobody waits for ever: when neither gRPC nor a thread of the client can
    do anything, every RPC has been completed and shutdown, if it was begun, is
    done; *)
Theorem C47_completes : forall k stubs l s, disciplined stubs k l (start_client stubs) -> crun k l (start_client stubs) = Next s ->
  (forall a, internal a s -> cstep k a s = Stuck) ->
  (forall i r, nth_error (c_rpcs s) i = Some r -> r_phase r = Released /\ length (r_calls r) = 1) /\ (c_shut s = ShNot \/ c_shut s = ShDone).
Proof.
  intros k stubs l s D R St. destruct (disc_run stubs k l _ (inv_start k stubs) (disc_start stubs) D) as (s1 & R1 & I & Di).
  assert (s1 = s) by congruence. subst s1. destruct (final_state stubs k s I Di St) as [A B]. split; [|exact B].
  intros i r E. pose proof (A i r E) as P. split; [exact P|]. apply (C47_once k stubs l s i r R E). auto.
Qed.
(** which must happen, for without new RPCs only so many steps are left. *)
Fixpoint all_effective (k : kind) (l : list caction) (s : client) : Prop :=
  match l with
  | [] => True
  | a :: r => internal a s /\ exists s', cstep k a s = Next s' /\ all_effective k r s'
  end.
Lemma effective_bound k l : forall s, inv k s -> all_effective k l s -> length l <= work s.
Proof.
  induction l as [|a r IH]; intros s I H; cbn [length]; [lia|]. destruct H as (Ia & s' & C & H).
  pose proof (work_decreases k a s s' I Ia C). specialize (IH s' (inv_step k a s s' I C) H). lia.
Qed.
Theorem C47_terminates : forall k stubs l s, crun k l (start_client stubs) = Next s ->
  exists bound, forall l2, all_effective k l2 s -> length l2 <= bound.
Proof.
  intros k stubs l s R. exists (work s). intros l2 H. apply (effective_bound k); [|exact H]. exact (inv_run k l _ _ (inv_start k stubs) R).
Qed.
(** Without the discipline: an RPC initiated while or after the client shuts
    down brings the process down, although the peer is connected. *)
Theorem C47_late_initiate_refuted :
  (forall k q, exists l, crun k (l ++ [Initiate 0 q None]) (start_client [true]) = Crash IndexCheck) /\
  (forall q, exists l, crun Polling (Initiate 0 q None :: l) (start_client [true]) = Crash QueueShut) /\
  (forall k q, exists l, crun k (Initiate 0 q None :: l) (start_client [true]) = Crash FreedStub).
Proof.
  split; [|split].
  - intros k q. exists [Shutdown; Shutdown; Shutdown; Shutdown; Poll None; Poll None; Poll None; Shutdown; Shutdown; Shutdown].
    destruct k; reflexivity.
  - intro q. exists [Shutdown; Shutdown; Shutdown; Shutdown; Advance 0; Advance 0]. reflexivity.
  - intros k q. exists [Shutdown; Shutdown; Shutdown; Shutdown; Poll None; Poll None; Poll None; Shutdown; Shutdown; Advance 0; Advance 0].
    destruct k; reflexivity.
Qed.
(** A peer whose connection failed is a null pointer. *)
Theorem C47_unconnected_refuted : forall k q, exists l, crun k (Initiate 0 q None :: l) (start_client [false]) = Crash NullStub.
Proof. intros k q. exists [Advance 0; Advance 0]. destruct k; reflexivity. Qed.

(** An RPC whose callback starts another one while shutdown waits. *)
Definition client_ex : list caction :=
  [Initiate 1 (s_ "q0") None; Advance 0; Advance 0; Shutdown; Shutdown; Wire 0 None (s_ "r0"); Poll None; Poll (Some 0); Poll None;
   Initiate 0 (s_ "q1") (Some 0); Advance 1; Advance 1; Poll None; Poll None; Poll None; Shutdown; Wire 1 (Some (s_ "gone")) []; Poll None; Poll (Some 1);
   Poll None; Poll None; Poll None; Poll None; Shutdown; Shutdown; Shutdown; Poll None; Poll None; Poll None; Shutdown; Shutdown].
Example C47_ex_disciplined : disciplined [true; true] Polling client_ex (start_client [true; true]).
Proof.
  vm_compute. repeat match goal with |- _ /\ _ => split | |- True => exact Logic.I | |- ?x = ?x => reflexivity end; try (intro H; discriminate H).
  intros _ [|[|i]] r E; try discriminate E. injection E as <-. intros _ H. discriminate H.
Qed.
Example C47_ex_run : exists s, crun Polling client_ex (start_client [true; true]) = Next s /\ c_shut s = ShDone /\ c_pending s = 0%Z /\
  map r_calls (c_rpcs s) = [[mkCs (Some (s_ "q0")) (s_ "r0") None (Some true)]; [mkCs None [] (Some (s_ "gone")) (Some false)]].
Proof. eexists. split; [vm_compute; reflexivity|]. vm_compute. auto. Qed.
(** While the first is outstanding shutdown does not get past its wait. *)
Example C47_ex_waits : exists s, crun Polling (firstn 6 client_ex) (start_client [true; true]) = Next s /\ c_shut s = ShSpin /\ c_pending s = 1%Z /\ shutdown Polling s = Stuck.
Proof. eexists. split; [vm_compute; reflexivity|]. vm_compute. auto. Qed.
Example C47_ex_callback : exists s, crun Callback [Initiate 0 (s_ "q") None; Advance 0; Advance 0; Wire 0 None (s_ "r"); Advance 0; Advance 0; Advance 0; Advance 0; Shutdown; Shutdown; Shutdown] (start_client [true]) = Next s
  /\ c_shut s = ShDone /\ c_stubs s = [] /\ map r_calls (c_rpcs s) = [[mkCs (Some (s_ "q")) (s_ "r") None (Some true)]].
Proof. eexists. split; [vm_compute; reflexivity|]. vm_compute. auto. Qed.

(** ** C46: servers *)
(** [contract false]: the handler reads, may send once, reads, may free once
    after that, and touches the state no more.  [contract true]: it also gets to
    the end.  Then for every interleaving of gRPC, the polling thread, the
    handlers on whatever threads, and ShutdownServer, no deleted object is
    touched and nothing is started on a queue that was shut down. *)
Theorem C46_no_use_after_free : forall prog l, (forall i, contract false (prog i) = true) ->
  exists s, srun prog l start_server = SNext s.
Proof.
  intros prog l Gp. pose proof (srun_inv false prog l Gp start_server (sinv_start false) (srun_allowed_false prog l _)) as H.
  destruct (srun prog l start_server) as [s|c|]; [exists s; reflexivity|destruct H|destruct H].
Qed.
(** Each object is deleted at most once and finished at most once; finished only
    if a call was accepted; a call that was accepted is deleted only after its
    response was finished and its handler has let go of it; and nothing gRPC
    still holds refers to a deleted object. *)
Theorem C46_once : forall prog l s i f, (forall i, contract false (prog i) = true) -> srun prog l start_server = SNext s ->
  nth_error (v_fsms s) i = Some f ->
  f_deleted f <= 1 /\ f_finish f <= 1 /\ (f_finish f = 1 -> f_accepted f = true) /\
  (f_deleted f = 1 -> (forall o, ~ In (i, o) (v_ops s)) /\ (forall ok, ~ In (i, ok) (v_events s)) /\
     (f_accepted f = true -> f_finish f = 1 /\ f_closed f = true /\ f_ops f = Some [])).
Proof.
  intros prog l s i f Gp R E. pose proof (srun_inv false prog l Gp start_server (sinv_start false) (srun_allowed_false prog l _)) as I. rewrite R in I.
  pose proof (i_fsm _ _ I i f E) as Fo.
  assert (K : forall {A} (x : A) l, In (i, x) l -> sel i l <> []) by (intros A x l0 H Z; apply sel_In in H; rewrite Z in H; destruct H).
  inversion Fo as [Q Eq Eo Ee|ok' Q Eq Eo Ee|Q Eq Eo Ee|l' Cl Eq Eo Ee|l' Cl Eq Eo Ee|l' ok' Cl Eq Eo Ee|l' Cl Q Eq Eo Ee|Eq Eo Ee|ok' Eq Eo Ee|Q Eq Eo Ee];
    subst f; cbn [f_deleted f_finish f_accepted f_closed f_ops]; (split; [lia|]; split; [lia|]; split; [intro; reflexivity || discriminate|]; intro D; try discriminate D).
  - split; [intros o H; exact (K _ _ _ H (eq_sym Eo))|]. split; [intros o H; exact (K _ _ _ H (eq_sym Ee))|]. discriminate.
  - split; [intros o H; exact (K _ _ _ H (eq_sym Eo))|]. split; [intros o H; exact (K _ _ _ H (eq_sym Ee))|]. auto.
Qed.
(** Nothing is leaked: when the handler of an accepted call is through, gRPC
    holds nothing of it and the polling thread has left it, it is gone. *)
Theorem C46_no_leak : forall prog l s i f, (forall i, contract true (prog i) = true) -> srun_allowed true prog l start_server ->
  srun prog l start_server = SNext s -> nth_error (v_fsms s) i = Some f ->
  f_ops f = Some [] -> (forall o, ~ In (i, o) (v_ops s)) -> (forall ok, ~ In (i, ok) (v_events s)) -> v_poller s <> SpIn i ->
  f_deleted f = 1 /\ f_finish f = 1.
Proof.
  intros prog l s i f Gp Al R E Fi No Ne Np. pose proof (srun_inv true prog l Gp start_server (sinv_start true) Al) as I. rewrite R in I.
  pose proof (i_fsm _ _ I i f E) as Fo.
  assert (K : forall {A} (x : A) l, ~ In (i, x) l -> ~ In x (sel i l)) by (intros A x l0 H Z; apply H; apply sel_In; exact Z).
  inversion Fo as [Q Eq Eo Ee|ok' Q Eq Eo Ee|Q Eq Eo Ee|l' Cl Eq Eo Ee|l' Cl Eq Eo Ee|l' ok' Cl Eq Eo Ee|l' Cl Q Eq Eo Ee|Eq Eo Ee|ok' Eq Eo Ee|Q Eq Eo Ee];
    subst f; cbn [f_deleted f_finish f_accepted f_closed f_ops] in *; try discriminate; try (injection Fi as ->; cbn in Cl; discriminate).
  - exfalso. apply (K _ OpFinish _ (No OpFinish)). rewrite <- Eo. left. reflexivity.
  - exfalso. apply (K _ ok' _ (Ne ok')). rewrite <- Ee. left. reflexivity.
  - auto.
Qed.
(** Until some completion fails, exactly one object waits for the next call. *)
Theorem C46_one_waiting : forall prog l s, (forall i, contract false (prog i) = true) -> srun prog l start_server = SNext s ->
  v_detected s = false ->
  length (filter (fun f => match f_ops f, f_deleted f with None, O => true | _, _ => false end) (v_fsms s)) = 1.
Proof.
  intros prog l s Gp R D. pose proof (srun_inv false prog l Gp start_server (sinv_start false) (srun_allowed_false prog l _)) as I. rewrite R in I.
  exact (proj2 (i_waiting _ _ I) D).
Qed.
(** Once shutdown has begun and nothing can happen any more, it has returned,
    the polling thread has been joined and every object was deleted once; the
    calls that were accepted were all answered.  (The handler was set, and
    handlers get to their end.) *)
Theorem C46_shutdown_completes : forall prog l s, (forall i, contract true (prog i) = true) -> srun_allowed true prog l start_server ->
  srun prog l start_server = SNext s -> v_shut s <> SsNot -> (forall a, sinternal a = true -> sstep prog a s = SStuck) ->
  v_shut s = SsJoined /\ v_poller s = SpExited /\
  forall i f, nth_error (v_fsms s) i = Some f -> f_deleted f = 1 /\ (f_accepted f = true -> f_finish f = 1 /\ f_closed f = true) /\ (f_accepted f = false -> f_finish f = 0).
Proof.
  intros prog l s Gp Al R Ns St. pose proof (srun_inv true prog l Gp start_server (sinv_start true) Al) as I. rewrite R in I.
  destruct (sfinal true prog s eq_refl Gp I Ns St) as (A & B & _ & _ & C). split; [exact A|]. split; [exact B|].
  intros i f E. destruct (C i f E) as (D1 & _ & D2 & D3). split; [exact D1|]. split; [exact D2|]. intro H. apply D3. exact H.
Qed.
(** Once ShutdownServer has returned, the polling thread is gone: the server's
    memory may be released. *)
Lemma joined_step prog a s s' : (v_shut s = SsJoined -> v_poller s = SpExited) -> sstep prog a s = SNext s' -> v_shut s' = SsJoined -> v_poller s' = SpExited.
Proof.
  intros I H. assert (C : forall w n ok, complete_op w n ok s = SNext s' -> v_shut s' = v_shut s /\ v_poller s' = v_poller s).
  { intros w n ok K. unfold complete_op in K. destruct (nth_error (v_ops s) n) as [[i o]|]; [|discriminate].
    destruct o, w; try discriminate; (destruct (nth_error (v_fsms s) i); [|discriminate]); injection K as <-; split; reflexivity. }
  destruct a as [|n|n|n ok|n|i|]; cbn [sstep] in H.
  - injection H as <-. exact I.
  - destruct (shutting s); [discriminate|]. destruct (C _ _ _ H) as [-> ->]. exact I.
  - destruct (shutting s); [|discriminate]. destruct (C _ _ _ H) as [-> ->]. exact I.
  - destruct (C _ _ _ H) as [-> ->]. exact I.
  - intro J. exfalso. assert (K : v_shut s' = v_shut s /\ v_poller s <> SpExited).
    { unfold poll_server in H. destruct (v_poller s) eqn:P; [| | |discriminate].
      - destruct (v_handler_set s); [|discriminate]. injection H as <-. split; [reflexivity|discriminate].
      - split; [|discriminate]. destruct (nth_error (v_events s) n) as [[i ok]|].
        + unfold access in H. destruct (nth_error _ i) as [f|]; [|discriminate]. destruct (f_deleted f); [|discriminate]. destruct ok.
          * destruct (f_state f).
            -- destruct (queue_shut s); [discriminate|]. injection H as <-. reflexivity.
            -- destruct (v_post_new s); [|injection H as <-; reflexivity]. unfold new_fsm in H. destruct (queue_shut _); [discriminate|]. injection H as <-. reflexivity.
            -- injection H as <-. reflexivity.
          * injection H as <-. reflexivity.
        + destruct (v_events s), (v_ops s); try discriminate. destruct (queue_shut s); [|discriminate]. injection H as <-. reflexivity.
      - split; [|discriminate]. unfold access in H. destruct (nth_error _ i) as [f|]; [|discriminate]. destruct (f_deleted f); [|discriminate]. injection H as <-. reflexivity. }
    destruct K as [K1 K2]. apply K2, I. congruence.
  - unfold handle_op in H. destruct (nth_error (v_fsms s) i) as [f|] eqn:E; [|discriminate]. destruct (f_ops f) as [[|o rest]|]; try discriminate.
    unfold access in H. rewrite E in H. destruct (f_deleted f); [|discriminate]. destruct o.
    + injection H as <-. exact I.
    + destruct (queue_shut s); [discriminate|]. injection H as <-. exact I.
    + injection H as <-. exact I.
  - unfold shutdown_server in H. destruct (v_shut s); try discriminate; try (injection H as <-; discriminate).
    + destruct (forallb _ _); [|discriminate]. injection H as <-. discriminate.
    + destruct (v_detected s); [|discriminate]. injection H as <-. discriminate.
    + destruct (v_poller s) eqn:P; try discriminate. injection H as <-. intros _. exact P.
Qed.
Theorem C46_joined : forall prog l s, srun prog l start_server = SNext s -> v_shut s = SsJoined -> v_poller s = SpExited.
Proof.
  intros prog l s. assert (G : forall l s0, (v_shut s0 = SsJoined -> v_poller s0 = SpExited) -> srun prog l s0 = SNext s -> v_shut s = SsJoined -> v_poller s = SpExited).
  { clear l. induction l as [|a r IH]; intros s0 I H; cbn [srun] in H; [injection H as <-; exact I|].
    destruct (sstep prog a s0) as [s1|c|] eqn:E; [|discriminate|exact (IH s0 I H)]. exact (IH s1 (joined_step prog a s0 s1 I E) H). }
  apply G. discriminate.
Qed.
(** That point is reached: only so many steps can be taken without new calls. *)
Fixpoint all_seffective (prog : nat -> list hop) (l : list saction) (s : server) : Prop :=
  match l with
  | [] => True
  | a :: r => sinternal a = true /\ exists s', sstep prog a s = SNext s' /\ all_seffective prog r s'
  end.
Lemma seffective_bound prog l : good_prog false prog -> forall s, sinv false s -> all_seffective prog l s -> length l <= swork prog s.
Proof.
  intro Gp. induction l as [|a r IH]; intros s I H; cbn [length]; [lia|]. destruct H as (Ia & s' & C & H).
  pose proof (swork_decreases false prog a s s' Gp I Ia C).
  pose proof (sstep_inv false prog a s Gp I) as I'. rewrite C in I'. specialize (I' ltac:(destruct a; cbn [sallowed]; auto; discriminate)).
  specialize (IH s' I' H). lia.
Qed.
Theorem C46_terminates : forall prog l s, (forall i, contract false (prog i) = true) -> srun prog l start_server = SNext s ->
  exists bound, forall l2, all_seffective prog l2 s -> length l2 <= bound.
Proof.
  intros prog l s Gp R. exists (swork prog s). intros l2 H. apply seffective_bound; [exact Gp| |exact H].
  pose proof (srun_inv false prog l Gp start_server (sinv_start false) (srun_allowed_false prog l _)) as I. rewrite R in I. exact I.
Qed.

(** It is not so that a server accepts calls until it is shut down: when the
    response of one call could not be sent (its client has gone), one more call
    is accepted and after it never another. *)
Definition full_prog : list hop := [HRead; HSend; HFree].
Definition deaf_run : list saction :=
  [SetHandler; PollServer 0; Accept 0; PollServer 0; Handle 0; Handle 0; Handle 0; PollServer 0; Sent 1 false; PollServer 0;
   Accept 0; PollServer 0; Handle 1; Handle 1; Handle 1; PollServer 0; Sent 0 true; PollServer 0].
Theorem C46_deaf_after_failed_finish_refuted : exists s, srun (fun _ => full_prog) deaf_run start_server = SNext s /\ v_shut s = SsNot /\
  forall l, ~ In ShutdownServer l -> exists s', srun (fun _ => full_prog) l s = SNext s' /\ length (v_fsms s') = 2 /\ v_ops s' = [] /\ v_events s' = [].
Proof.
  eexists. split; [vm_compute; reflexivity|]. split; [reflexivity|].
  match goal with |- forall l, _ -> exists s', srun _ l ?x = _ /\ _ => set (s0 := x) end.
  assert (G : forall l, ~ In ShutdownServer l -> srun (fun _ => full_prog) l s0 = SNext s0); [|intros l N; exists s0; rewrite (G l N); repeat split; reflexivity].
  induction l as [|a r IH]; intro N; [reflexivity|]. cbn [srun].
  assert (St : sstep (fun _ => full_prog) a s0 = SNext s0 \/ sstep (fun _ => full_prog) a s0 = SStuck).
  { destruct a as [|n|n|n ok|n|i|].
    - left. reflexivity.
    - right. destruct n; reflexivity.
    - right. reflexivity.
    - right. destruct n; reflexivity.
    - right. destruct n; reflexivity.
    - right. destruct i as [|[|[|i]]]; reflexivity.
    - exfalso. apply N. left. reflexivity. }
  destruct St as [-> | ->]; apply IH; intro H; apply N; right; exact H.
Qed.
(** Nor does shutdown always return: a call accepted before any handler is set
    is never answered, and ShutdownServer waits for it for ever. *)
Definition orphan_run : list saction :=
  [Accept 0; ShutdownServer; PollServer 0; PollServer 0; PollServer 0; ShutdownServer; Reject 0; PollServer 0].
Theorem C46_no_handler_hangs_refuted : forall prog, exists s, srun prog orphan_run start_server = SNext s /\
  forall l, exists s', srun prog l s = SNext s' /\ v_shut s' = SsShutting /\ exists f, nth_error (v_fsms s') 0 = Some f /\ f_accepted f = true /\ f_finish f = 0 /\ f_deleted f = 0.
Proof.
  intro prog. eexists. split; [vm_compute; reflexivity|].
  match goal with |- forall l, exists s', srun _ l ?x = _ /\ _ => set (s0 := x) end.
  set (s1 := mkServer (v_fsms s0) (v_ops s0) (v_events s0) (v_poller s0) (v_post_new s0) (v_detected s0) true true (v_shut s0)).
  assert (Ok : forall s', s' = s0 \/ s' = s1 -> v_shut s' = SsShutting /\ exists f, nth_error (v_fsms s') 0 = Some f /\ f_accepted f = true /\ f_finish f = 0 /\ f_deleted f = 0).
  { intros s' [-> | ->]; (split; [reflexivity|]; eexists; split; [reflexivity|]; repeat split). }
  assert (G : forall l s, s = s0 \/ s = s1 -> exists s', srun prog l s = SNext s' /\ (s' = s0 \/ s' = s1)).
  { induction l as [|a r IH]; intros s Hs; [exists s; auto|]. cbn [srun].
    assert (St : sstep prog a s = SNext s1 \/ sstep prog a s = SStuck).
    { destruct Hs as [-> | ->]; destruct a as [|n|n|n ok|n|i|]; try (left; reflexivity); try (right; reflexivity);
        try (right; destruct n; reflexivity); right; destruct i as [|[|i]]; try reflexivity; destruct i; reflexivity. }
    destruct St as [-> | ->]; apply IH; auto. }
  intro l. destruct (G l s0 (or_introl eq_refl)) as (s' & R & H). exists s'. split; [exact R|]. exact (Ok s' H).
Qed.
(** The contract is needed: freeing twice, reading after freeing, or sending
    twice touches a deleted object under some schedule. *)
Theorem C46_contract_needed_refuted :
  (exists l i, srun (fun _ => [HSend; HFree; HFree]) l start_server = SCrash (UseAfterFree i)) /\
  (exists l i, srun (fun _ => [HSend; HFree; HRead]) l start_server = SCrash (UseAfterFree i)) /\
  (exists l i, srun (fun _ => [HSend; HSend; HFree]) l start_server = SCrash (UseAfterFree i)).
Proof.
  split; [|split].
  - exists [SetHandler; PollServer 0; Accept 0; PollServer 0; Handle 0; PollServer 0; Sent 1 true; PollServer 0; Handle 0; Handle 0], 0. reflexivity.
  - exists [SetHandler; PollServer 0; Accept 0; PollServer 0; Handle 0; PollServer 0; Sent 1 true; PollServer 0; Handle 0; Handle 0], 0. reflexivity.
  - exists [SetHandler; PollServer 0; Accept 0; PollServer 0; Handle 0; Handle 0; PollServer 0; Sent 1 true; Sent 1 true; PollServer 0; PollServer 0; Handle 0], 0. reflexivity.
Qed.
(** The handoff server frees the request as soon as the response is sent: the
    same handlers are safe there only if they do not read after sending. *)
Fixpoint no_late_read (sent : bool) (l : list hop) : bool :=
  match l with
  | [] => true
  | HRead :: r => negb sent && no_late_read sent r
  | HSend :: r => no_late_read true r
  | HFree :: r => no_late_read sent r
  end.
Theorem C46_handoff : forall full l, contract full l = true -> no_late_read false l = true ->
  exists h, handoff_run l (mkHo 0 0) = HoOk h /\ ho_finished h <= 1 /\ ho_deleted h <= 1 /\ (full = true -> ho_finished h = 1 /\ ho_deleted h = 1).
Proof.
  intros full. induction l as [|o r IH]; intros C N.
  - exists (mkHo 0 0). cbn in *. repeat split; auto; destruct full; discriminate.
  - destruct o; cbn [contract no_late_read negb andb] in C, N; [|clear IH|discriminate].
    + destruct (IH C N) as (h & R & H). exists h. cbn. auto.
    + cbn. assert (G : forall r, after_send full r = true -> no_late_read true r = true ->
               exists h, handoff_run r (mkHo 1 0) = HoOk h /\ ho_finished h <= 1 /\ ho_deleted h <= 1 /\ (full = true -> ho_finished h = 1 /\ ho_deleted h = 1)).
      { clear. induction r as [|o r IH]; intros C N.
        - exists (mkHo 1 0). cbn in *. repeat split; auto; destruct full; discriminate.
        - destruct o; cbn [after_send no_late_read negb andb] in C, N; try discriminate.
          destruct r; [|discriminate]. exists (mkHo 1 1). cbn. repeat split; auto. }
      exact (G r C N).
Qed.
Theorem C46_handoff_late_read_refuted : exists l, contract true l = true /\ handoff_run l (mkHo 0 0) = HoUseAfterFree.
Proof. exists [HSend; HRead; HFree]. split; reflexivity. Qed.
(** The inline server answers OK, with an empty response, for a handler that
    never responded; only without a handler is the call refused. *)
Theorem C46_inline_unanswered_refuted : forall request,
  (exists h, h request = None /\ inline_rpc (Some h) request = inl []) /\ exists m, inline_rpc None request = inr m.
Proof. intro q. split; [exists (fun _ => None); split; reflexivity|eexists; reflexivity]. Qed.

(** Two calls, the second still running when shutdown begins. *)
Definition server_ex : list saction :=
  [SetHandler; PollServer 0; Accept 0; PollServer 0; Handle 0; PollServer 0; Accept 0; Handle 0; PollServer 0; Sent 0 true; PollServer 0; PollServer 0; ShutdownServer; ShutdownServer;
   Handle 1; Reject 0; ShutdownServer; Handle 0; PollServer 0; Handle 1; Sent 0 false; ShutdownServer; ShutdownServer; ShutdownServer; ShutdownServer; PollServer 0; Handle 1; PollServer 0; ShutdownServer].
Example C46_ex_contract : contract true full_prog = true. Proof. reflexivity. Qed.
Example C46_ex_allowed : srun_allowed true (fun _ => full_prog) server_ex start_server.
Proof. vm_compute. repeat split; intro H; discriminate H. Qed.
Example C46_ex_run : exists s, srun (fun _ => full_prog) server_ex start_server = SNext s /\ v_shut s = SsJoined /\
  map (fun f => (f_accepted f, f_finish f, f_deleted f)) (v_fsms s) = [(true, 1, 1); (true, 1, 1); (false, 0, 1)].
Proof. eexists. split; [vm_compute; reflexivity|]. vm_compute. auto. Qed.
Example C46_ex_quiet : exists s, srun (fun _ => full_prog) server_ex start_server = SNext s /\
  forall a, sinternal a = true -> sstep (fun _ => full_prog) a s = SStuck.
Proof.
  eexists. split; [vm_compute; reflexivity|]. intros [|n|n|n ok|n|i|] H; try discriminate; try reflexivity.
  - destruct n; reflexivity.
  - destruct n; reflexivity.
  - destruct i as [|[|[|i]]]; try reflexivity. destruct i; reflexivity.
Qed.
Example C47_ex_quiet : exists s, crun Polling client_ex (start_client [true; true]) = Next s /\ forall a, internal a s -> cstep Polling a s = Stuck.
Proof.
  eexists. split; [vm_compute; reflexivity|]. intros [p q o|i|i st r|t|] H; cbn [internal] in H; try reflexivity.
  - destruct H.
  - destruct i as [|[|i]]; try reflexivity. destruct i; reflexivity.
  - destruct i as [|[|i]]; try reflexivity. destruct i; reflexivity.
  - destruct H as [_ H]. exfalso. apply H. reflexivity.
Qed.

Print Assumptions C47_once.
Print Assumptions C47_result.
Print Assumptions C47_pending.
Print Assumptions C47_no_crash.
Print Assumptions C47_shutdown_waits.
Print Assumptions C47_completes.
Print Assumptions C47_terminates.
Print Assumptions C47_late_initiate_refuted.
Print Assumptions C47_unconnected_refuted.
Print Assumptions C46_no_use_after_free.
Print Assumptions C46_once.
Print Assumptions C46_no_leak.
Print Assumptions C46_one_waiting.
Print Assumptions C46_shutdown_completes.
Print Assumptions C46_terminates.
Print Assumptions C46_deaf_after_failed_finish_refuted.
Print Assumptions C46_no_handler_hangs_refuted.
Print Assumptions C46_contract_needed_refuted.
Print Assumptions C46_handoff.
Print Assumptions C46_handoff_late_read_refuted.
Print Assumptions C46_inline_unanswered_refuted.
Print Assumptions C46_joined.
