(** Property C86: the server half of the Mercury driver. *)
From Coq Require Import List NArith ZArith Bool Arith Lia.
From Verif Require Import Wire_Model Wire_Proofs2 Wire_Props Grpc_Model Grpc_Proofs Merc_Model Merc_Proofs Merc_Props
  Msrv_Model Msrv_Proofs Msrv_Proofs2.
Import ListNotations.
Open Scope nat_scope.

(** What follows the contract of a ServerRpcState: over its inline part and
    the work it returned, a handler answers once or not at all and then frees
    the state. *)
Definition keeps_contract (h : nat -> option grr -> hscript) : Prop := forall i m,
  let all := hs_inline (h i m) ++ match hs_work (h i m) with Some w => w | None => [] end in
  all = [OFree] \/ exists r, all = [OSend r; OFree].

(** Each request that arrived is given to the handler once, as decoded from
    what was received, and its input is read and released before that. *)
Theorem C86_decoded : forall b mem h l s i r, srun b mem h l sstart = SvNext s -> nth_error (sv_reqs s) i = Some r ->
  server_request mem (rq_wire r) = SrvRequest (rq_seen r) /\
  exists answers, rq_lib r = answers ++ [LDestroy; LFreeInput; LGetInput] /\
    Forall (fun c => exists ok, c = LRespond ok) answers.
Proof.
  intros b mem h l s i r R N. destruct (i_req _ _ _ (sinv_run _ _ _ _ _ R) _ _ N) as (A & k & B & C).
  split; [exact A|]. exists k. split; [exact B|]. eapply Forall_impl; [|exact C].
  intros c H. destruct c; try contradiction. eauto.
Qed.
(** So the handler sees the message that the client sent. *)
Theorem C86_same_message : forall b mem h l s i r room m w, srun b mem h l sstart = SvNext s -> nth_error (sv_reqs s) i = Some r ->
  grr_ok m -> (Z.to_N (byte_size m) <= mem)%N -> (mem < 2 ^ 63)%N -> (Z.to_N (byte_size m) + 16 <= room)%N ->
  put_on_wire mem room m = Some w -> rq_wire r = w -> rq_seen r = Some m.
Proof.
  intros b mem h l s i r room m w R N G M P Q W E. destruct (C48_message mem room m G M P Q) as (w' & W' & _ & S' & _).
  rewrite W in W'. injection W' as <-. destruct (C86_decoded _ _ _ _ _ _ _ R N) as (A & _). rewrite E, S' in A. congruence.
Qed.

(** With handlers that keep the contract no state is used after it was freed
    and no build aborts; *)
Theorem C86_no_misuse : forall b mem h l, keeps_contract h ->
  srun b mem h l sstart <> SvUB /\ srun b mem h l sstart <> SvFatal.
Proof. intros b mem h l T. apply run_safe; [exact T|apply sinv_start]. Qed.
(** the server runs on for ever if the handler is set first and no request
    needs more memory than there is. *)
Theorem C86_lives : forall b mem h l, keeps_contract h ->
  (forall w, In (STrigger (TRequest w)) l -> server_request mem w <> SrvThrow) ->
  exists s, srun b mem h (SSet :: l) sstart = SvNext s.
Proof.
  intros b mem h l T H. cbn [srun sstep sstart sv_shut]. cbn [sv_reqs sv_resps sv_tasks sv_poller sv_progress sv_notified].
  apply run_lives; [exact T| | |reflexivity].
  - apply Forall_forall. intros a K. destruct a as [| |[|w|]| | | |]; cbn [throws]; auto.
  - eapply (sinv_step b mem h SSet sstart); [apply sinv_start|reflexivity].
Qed.
(** The checks of a debug build change nothing else, whatever the handlers do. *)
Theorem C86_builds_agree : forall mem h l, srun Debug mem h l sstart <> SvFatal ->
  srun Debug mem h l sstart = srun Release mem h l sstart.
Proof. intros mem h l H. apply run_builds_any, H. Qed.
(** Without them a second response goes to Mercury. *)
Theorem C86_answered_twice_refuted : exists mem h l s r, srun Release mem h l sstart = SvNext s /\
  srun Debug mem h l sstart = SvFatal /\ nth_error (sv_reqs s) 0 = Some r /\
  rq_lib r = [LRespond true; LRespond true; LDestroy; LFreeInput; LGetInput].
Proof.
  exists 100%N, (fun _ _ => mkHs [OSend empty_grr; OSend empty_grr; OFree] None),
    [SSet; SPoll; STrigger (TRequest []); SOp true; SOp true].
  eexists _, _. vm_compute. repeat split; reflexivity.
Qed.

(** At any time the responses handed to HG_Respond for a request are a prefix
    of what its handler sends: with the contract at most one, and the state is
    freed at most once, after it; *)
Theorem C86_at_most_once : forall b mem h l s i r, keeps_contract h ->
  srun b mem h l sstart = SvNext s -> nth_error (sv_reqs s) i = Some r ->
  length (filter (fun p => Nat.eqb (rp_req p) i) (sv_resps s)) <= 1 /\ rq_freed r <= 1 /\
  (forall p, In p (sv_resps s) -> rp_req p = i ->
     In (OSend (rp_msg p)) (hs_inline (h i (rq_seen r))) \/ exists w, hs_work (h i (rq_seen r)) = Some w /\ In (OSend (rp_msg p)) w) /\
  (rq_freed r = 1 -> forall m, In (OSend m) (hs_inline (h i (rq_seen r)) ++ match hs_work (h i (rq_seen r)) with Some w => w | None => [] end) ->
     exists p, In p (sv_resps s) /\ rp_req p = i /\ rp_msg p = m).
Proof.
  intros b mem h l s i r T R N. pose proof (sinv_run _ _ _ _ _ R) as V.
  destruct (any_script _ _ _ _ _ V N) as (pre & post & E & A & F).
  assert (LL : length (filter (fun p => Nat.eqb (rp_req p) i) (sv_resps s)) = length (said pre))
    by (rewrite <- A; unfold sent_for; rewrite map_length; reflexivity).
  assert (Shape : frees pre <= 1 /\ length (said pre) <= 1 /\ (frees pre = 1 -> post = [])).
  { destruct (T i (rq_seen r)) as [Q|[m Q]]; fold (script (h i (rq_seen r))) in Q; rewrite Q in E;
      destruct pre as [|x [|y [|z pre]]]; try discriminate; cbn [app] in E; try (injection E; intros; subst);
      try discriminate; cbn; repeat split; auto; discriminate. }
  destruct Shape as (S1 & S2 & S3). split; [lia|]. split; [lia|]. split.
  - intros p K Kr. assert (M : In (rp_msg p) (said pre)).
    { rewrite <- A. unfold sent_for. apply in_map, filter_In. split; [exact K|]. unfold of_req. rewrite Kr. apply Nat.eqb_refl. }
    unfold said in M. apply in_flat_map in M as (o & Ko & Mo). destruct o as [m|]; [|destruct Mo]. destruct Mo as [<-|[]].
    assert (K2 : In (OSend m) (script (h i (rq_seen r)))) by (rewrite E; apply in_or_app; left; exact Ko).
    unfold script in K2. apply in_app_or in K2 as [K2|K2]; [left; exact K2|right].
    destruct (hs_work (h i (rq_seen r))) as [w|]; [eauto|destruct K2].
  - intros F1 m K. fold (script (h i (rq_seen r))) in K. rewrite E, S3, app_nil_r in K by lia.
    assert (M : In m (sent_for i (sv_resps s))).
    { rewrite A. unfold said. apply in_flat_map. exists (OSend m). split; [exact K|left; reflexivity]. }
    unfold sent_for in M. apply in_map_iff in M as (p & <- & M). apply filter_In in M as [M1 M2]. exists p.
    split; [exact M1|]. split; [apply Nat.eqb_eq; exact M2|reflexivity].
Qed.
(** and when ShutdownServer has returned each handler has done all it does:
    exactly the answers of the handler were handed to Mercury, in their order,
    and the state of each request was freed. *)
Theorem C86_answered : forall b mem h l s i r, keeps_contract h ->
  srun b mem h l sstart = SvNext s -> sv_shut s = ShDone -> nth_error (sv_reqs s) i = Some r ->
  rq_freed r = 1 /\
  map rp_msg (filter (fun p => Nat.eqb (rp_req p) i) (sv_resps s)) =
  flat_map (fun o => match o with OSend m => [m] | OFree => [] end)
    (hs_inline (h i (rq_seen r)) ++ match hs_work (h i (rq_seen r)) with Some w => w | None => [] end).
Proof.
  intros b mem h l s i r T R D N. pose proof (sinv_run _ _ _ _ _ R) as V. destruct (done_script _ _ _ _ _ V D N) as [A B].
  split; [|exact A]. rewrite B. destruct (T i (rq_seen r)) as [Q|[m Q]]; fold (script (h i (rq_seen r))) in Q; rewrite Q; reflexivity.
Qed.
(** Each call of HG_Respond belongs to one buffer. *)
Theorem C86_buffers : forall b mem h l s i r, srun b mem h l sstart = SvNext s -> nth_error (sv_reqs s) i = Some r ->
  length (filter (fun c => match c with LRespond _ => true | _ => false end) (rq_lib r)) =
  length (filter (fun p => Nat.eqb (rp_req p) i) (sv_resps s)).
Proof. intros b mem h l s i r R N. exact (i_count _ _ _ (sinv_run _ _ _ _ _ R) _ _ N). Qed.

(** After that nothing happens any more: no callback, no handler, no task. *)
Theorem C86_quiet : forall b mem h l s a, srun b mem h l sstart = SvNext s -> sv_shut s = ShDone ->
  sstep b mem h a s = SvStuck \/ sstep b mem h a s = SvNext s.
Proof. intros b mem h l s a R D. eapply done_quiet; [eapply sinv_run, R|exact D]. Qed.

(** ShutdownServer ends: until it is over some thread can do something, and
    only a bounded number of things can be done. *)
Inductive changes (b : build) (mem : N) (h : nat -> option grr -> hscript) : nat -> msrv -> msrv -> Prop :=
  | changes_none : forall s, changes b mem h 0 s s
  | changes_one : forall n a s s1 s', sstep b mem h a s = SvNext s1 -> s1 <> s -> changes b mem h n s1 s' -> changes b mem h (S n) s s'.
Theorem C86_shutdown_ends : forall b mem h l s, keeps_contract h ->
  srun b mem h l sstart = SvNext s -> sv_notified s = true ->
  (sv_shut s <> ShDone -> exists a s', sstep b mem h a s = SvNext s' /\ s' <> s) /\
  (exists bound, forall n s', changes b mem h n s s' -> n <= bound).
Proof.
  intros b mem h l s T R N. pose proof (sinv_run _ _ _ _ _ R) as V. split.
  - intros D. apply not_over_moves; assumption.
  - exists (weight s). intros n s' C. clear R l. revert V N. induction C as [s|n a s s1 s' E D C IH]; intros V N; [lia|].
    destruct (weight_step mem h b T a s s1 V N E) as [->|L]; [congruence|].
    assert (n <= weight s1) by (apply IH; [eapply sinv_step; eassumption|eapply notified_step; eassumption]). lia.
Qed.

(** A response sent by the handler itself is followed by a call of
    HG_Progress before the polling thread ends, if only it sends; *)
Theorem C86_progressed : forall b mem h l s p,
  (forall i m w o, hs_work (h i m) = Some w -> In o w -> o = OFree) ->
  srun b mem h l sstart = SvNext s -> sv_poller s = SpExited -> In p (sv_resps s) -> rp_at p < sv_progress s.
Proof.
  intros b mem h l s p W R P K. eapply (pinv_run mem h b); [|exact R| |exact K].
  - intros i m w E. assert (F : forall o, In o w -> o = OFree) by (intros o; eapply W, E). clear E.
    induction w as [|o w IH]; [reflexivity|]. rewrite (F o) by (left; reflexivity). apply IH. intros x Kx. apply F. right. exact Kx.
  - unfold settled. rewrite P. exact Logic.I.
Qed.
(** not so one sent by the work that the handler returned: the pool is emptied
    after the polling thread has ended, and the client may wait for ever. *)
Theorem C86_last_progress_refuted : exists b mem h l s p, keeps_contract h /\
  srun b mem h l sstart = SvNext s /\ sv_shut s = ShDone /\ In p (sv_resps s) /\
  rp_at p = sv_progress s /\ rp_phase p = RPosted.
Proof.
  exists Release, 100%N, (fun _ _ => mkHs [] (Some [OSend empty_grr; OFree])),
    [SSet; SPoll; STrigger (TRequest []); SOp true; SProgress []; SShut; SPoll; SShut; STask 0 true; STask 0 true; STask 0 true; SShut],
    (mkMsrv true [mkMreq [] (Some empty_grr) [LRespond true; LDestroy; LFreeInput; LGetInput] 1]
       [mkMresp 0 empty_grr 1 RPosted] [] SpExited 1 true ShDone), (mkMresp 0 empty_grr 1 RPosted).
  split; [intros i m; right; exists empty_grr; reflexivity|]. split; [vm_compute; reflexivity|]. cbn. auto.
Qed.
(** Buffers that HG_Respond refused are never deleted, nor those whose
    callback comes after the polling thread has ended. *)
Theorem C86_buffers_deleted_refuted : exists b mem h l s, keeps_contract h /\
  srun b mem h l sstart = SvNext s /\ sv_shut s = ShDone /\ map rp_phase (sv_resps s) = [RRefused; RFreed; RSent].
Proof.
  exists Release, 100%N, (fun _ _ => mkHs [OSend empty_grr; OFree] None),
    [SSet; SPoll; STrigger (TRequest []); SOp false; SOp true; SOp true; SProgress [0];
     SPoll; STrigger (TRequest []); SOp true; SOp true; SOp true; SProgress [1];
     SPoll; STrigger (TDone 1); SProgress [];
     SPoll; STrigger (TRequest []); SOp true; SOp true; SOp true; SProgress [2];
     SShut; SPoll; SShut; SShut].
  eexists. split; [intros i m; right; exists empty_grr; reflexivity|]. vm_compute. repeat split; reflexivity.
Qed.
(** A request that comes before SetHandler, or whose length no memory can
    hold, ends the process. *)
Theorem C86_early_request_refuted : forall b mem h w m, server_request mem w = SrvRequest m ->
  srun b mem h [SPoll; STrigger (TRequest w); SSet] sstart = SvTerminate.
Proof. intros b mem h w m E. cbn. unfold request_callback. rewrite E. reflexivity. Qed.
Theorem C86_long_request_refuted : forall mem, (mem < 2 ^ 63)%N -> exists w, length w = 16 /\
  forall b h, srun b mem h [SSet; SPoll; STrigger (TRequest w)] sstart = SvTerminate.
Proof.
  intros mem P. destruct (C48_length_bounded_refuted mem P) as (w & L & E). exists w. split; [exact L|].
  intros b h. cbn. unfold request_callback. rewrite E. reflexivity.
Qed.

(** Two requests: one answered by its handler, one by the pool. *)
Definition ex_h : nat -> option grr -> hscript := fun i m =>
  match i with
  | O => mkHs [OSend (set_payload empty_grr (Some [7%N])); OFree] None
  | _ => mkHs [] (Some [OSend empty_grr; OFree])
  end.
Definition ex_l : list saction :=
  [SPoll; STrigger (TRequest []); SOp true; SOp true; SOp true; SProgress [0];
   SPoll; STrigger (TRequest []); SOp true; SProgress []; STask 0 true; SPoll; STrigger (TDone 0); SProgress [1];
   STask 0 true; SShut; STask 0 true; SPoll; SShut; SShut].
Lemma ex_keeps : keeps_contract ex_h.
Proof. intros [|i] m; right; [exists (set_payload empty_grr (Some [7%N]))|exists empty_grr]; reflexivity. Qed.
Example C86_ex : keeps_contract ex_h /\
  (forall w, In (STrigger (TRequest w)) ex_l -> server_request 100 w <> SrvThrow) /\
  exists s, srun Debug 100 ex_h (SSet :: ex_l) sstart = SvNext s /\ sv_shut s = ShDone /\ sv_notified s = true /\
    map rq_freed (sv_reqs s) = [1; 1] /\ map rp_phase (sv_resps s) = [RFreed; RSent] /\
    map rp_at (sv_resps s) = [0; 2] /\ sv_progress s = 3.
Proof.
  split; [exact ex_keeps|]. split.
  - intros w H. cbn in H. repeat (destruct H as [H|H]; [try discriminate; injection H as <-; vm_compute; discriminate|]). destruct H.
  - eexists. vm_compute. repeat split; reflexivity.
Qed.
(** In the middle of it: the task has answered and not freed yet. *)
Example C86_ex_middle : exists s, srun Release 100 ex_h (SSet :: firstn 11 ex_l) sstart = SvNext s /\
  sv_shut s = ShNot /\ map rq_freed (sv_reqs s) = [1; 0] /\ map rp_phase (sv_resps s) = [RSent; RPosted] /\ sv_tasks s = [(1, [OFree])].
Proof. eexists. vm_compute. repeat split; reflexivity. Qed.
(** Shutting down while the handler works: five more steps. *)
Example C86_ex_shutdown : exists s, srun Release 100 ex_h [SSet; SPoll; STrigger (TRequest []); SShut] sstart = SvNext s /\
  sv_notified s = true /\ sv_shut s <> ShDone /\
  exists s', srun Release 100 ex_h [SOp true; SOp true; SOp true; SProgress [0]; SPoll; SShut; SShut] s = SvNext s' /\ sv_shut s' = ShDone.
Proof.
  eexists. split; [vm_compute; reflexivity|]. split; [reflexivity|]. split; [discriminate|].
  eexists. split; [vm_compute; reflexivity|]. reflexivity.
Qed.
(** A handler that answers by itself only: its response was progressed. *)
Example C86_ex_progressed : exists h s,
  (forall i m w o, hs_work (h i m) = Some w -> In o w -> o = OFree) /\
  srun Release 100 h [SSet; SPoll; STrigger (TRequest []); SShut; SOp true; SOp true; SProgress [0]; SPoll] sstart = SvNext s /\
  sv_poller s = SpExited /\ map rp_at (sv_resps s) = [0] /\ sv_progress s = 1 /\ sv_tasks s = [(0, [OFree])].
Proof.
  exists (fun _ _ => mkHs [OSend empty_grr] (Some [OFree])). eexists. split.
  - intros i m w o E. injection E as <-. intros [<-|[]]. reflexivity.
  - vm_compute. repeat split; reflexivity.
Qed.

Print Assumptions C86_decoded.
Print Assumptions C86_same_message.
Print Assumptions C86_no_misuse.
Print Assumptions C86_lives.
Print Assumptions C86_builds_agree.
Print Assumptions C86_answered_twice_refuted.
Print Assumptions C86_at_most_once.
Print Assumptions C86_answered.
Print Assumptions C86_buffers.
Print Assumptions C86_quiet.
Print Assumptions C86_shutdown_ends.
Print Assumptions C86_progressed.
Print Assumptions C86_last_progress_refuted.
Print Assumptions C86_buffers_deleted_refuted.
Print Assumptions C86_early_request_refuted.
Print Assumptions C86_long_request_refuted.
