(** C86: a Mercury server whose handler is set serves. *)
From Coq Require Import List NArith ZArith Bool Arith Lia.
From Verif Require Import Wire_Model Wire_Props Grpc_Model Grpc_Proofs Merc_Model Merc_Props Msrv_Model Msrv_Proofs Msrv_Proofs2 Msrv_Props.
Import ListNotations.
Open Scope nat_scope.

(** What the polling thread does. *)
Definition polls (a : saction) : Prop := match a with SPoll | STrigger _ | SOp _ | SProgress _ => True | _ => False end.
Section Serves.
  Variable b : build.
  Variable mem : N.
  Variable h : nat -> option grr -> hscript.
  Hypothesis T : forall i m, tidy (h i m).
  Definition ready (s : msrv) : Prop := sinv mem h s /\ sv_set s = true /\ sv_notified s = false.
  Definition returns (s : msrv) : Prop := exists l s', Forall polls l /\ srun b mem h l s = SvNext s' /\ ready s' /\ sv_poller s' = SpTest /\ length (sv_reqs s') = length (sv_reqs s).
  Lemma returns_step a s s1 : polls a -> sstep b mem h a s = SvNext s1 -> length (sv_reqs s1) = length (sv_reqs s) -> returns s1 -> returns s.
  Proof.
    intros P E L (l & s' & F & R & Q & K & N). exists (a :: l), s'. split; [constructor; assumption|]. split; [cbn [srun]; rewrite E; exact R|]. split; [exact Q|]. split; [exact K|]. congruence.
  Qed.
  Lemma ready_step a s s1 : ready s -> polls a -> sstep b mem h a s = SvNext s1 -> ready s1.
  Proof.
    intros (V & Q & N) P E. split; [eapply sinv_step; eassumption|]. split; [eapply set_step; eassumption|].
    destruct a as [| |t|ok|sent|n ok|]; try destruct P; cbn [sstep] in E.
    - destruct (sv_poller s); try discriminate E. injection E as <-. exact N.
    - destruct (sv_poller s); try discriminate E. destruct t as [|w|k]; cbn [do_trigger] in E.
      + injection E as <-. exact N.
      + unfold request_callback in E. destruct (server_request mem w); [discriminate E|]. destruct (sv_set s); [|discriminate E]. injection E as <-. exact N.
      + destruct (nth_error (sv_resps s) k) as [r|]; [|discriminate E]. destruct (rp_phase r); try discriminate E. injection E as <-. exact N.
    - destruct (sv_poller s) as [| |i [|o ops] [w|]| |]; try discriminate E; try (injection E as <-; exact N); apply use_state_next in E as (r & _ & _ & ->); exact N.
    - destruct (sv_poller s); try discriminate E. injection E as <-. exact N.
  Qed.
  Lemma returns_progress s : ready s -> sv_poller s = SpProgress -> returns s.
  Proof.
    intros Q P. assert (E : exists s1, sstep b mem h (SProgress []) s = SvNext s1 /\ sv_poller s1 = SpTest /\ length (sv_reqs s1) = length (sv_reqs s)) by (cbn [sstep]; rewrite P; eexists; repeat split).
    destruct E as (s1 & E & P1 & L). apply (returns_step (SProgress []) s s1 Logic.I E L). exists [], s1. split; [constructor|]. split; [reflexivity|]. split; [exact (ready_step (SProgress []) _ _ Q Logic.I E)|]. auto.
  Qed.
  Lemma returns_in ops : forall s i w, ready s -> sv_poller s = SpIn i ops w -> returns s.
  Proof.
    induction ops as [|o ops IH]; intros s i w Q P.
    - assert (E : exists s1, sstep b mem h (SOp true) s = SvNext s1 /\ sv_poller s1 = SpProgress /\ length (sv_reqs s1) = length (sv_reqs s)) by (cbn [sstep]; rewrite P; destruct w; eexists; repeat split).
      destruct E as (s1 & E & P1 & L). exact (returns_step (SOp true) s s1 Logic.I E L (returns_progress s1 (ready_step (SOp true) _ _ Q Logic.I E) P1)).
    - destruct Q as (V & S & N).
      assert (E : exists s1, sstep b mem h (SOp true) s = SvNext s1) by (cbn [sstep]; rewrite P; eapply hold_op; [exact T|exact V|eapply op_hold, P|reflexivity]).
      destruct E as (s1 & E). pose proof E as E'. cbn [sstep] in E'. rewrite P in E'. apply use_state_next in E' as (r & _ & _ & ->).
      refine (returns_step (SOp true) s _ Logic.I E _ (IH _ i w (ready_step (SOp true) _ _ (conj V (conj S N)) Logic.I E) eq_refl)). cbn [sv_reqs sset_poller]. apply lset_length.
  Qed.
  Lemma returns_always s : ready s -> returns s.
  Proof.
    intros Q. destruct (sv_poller s) as [| |i ops w| |] eqn:P.
    - exists [], s. split; [constructor|]. split; [reflexivity|]. split; [exact Q|]. split; [exact P|reflexivity].
    - assert (E : exists s1, sstep b mem h (STrigger TNone) s = SvNext s1 /\ sv_poller s1 = SpProgress /\ length (sv_reqs s1) = length (sv_reqs s)) by (cbn [sstep]; rewrite P; eexists; repeat split).
      destruct E as (s1 & E & P1 & L). exact (returns_step (STrigger TNone) s s1 Logic.I E L (returns_progress s1 (ready_step (STrigger TNone) _ _ Q Logic.I E) P1)).
    - exact (returns_in ops s i w Q P).
    - exact (returns_progress s Q P).
    - destruct Q as (V & _ & N). rewrite (i_exit _ _ _ V P) in N. discriminate N.
  Qed.
  Lemma run_more l1 : forall l2 s s1, srun b mem h l1 s = SvNext s1 -> srun b mem h (l1 ++ l2) s = srun b mem h l2 s1.
  Proof.
    induction l1 as [|a l1 IH]; intros l2 s s1 R; cbn [srun app] in *; [injection R as <-; reflexivity|]. destruct (sstep b mem h a s); try discriminate R; exact (IH _ _ _ R).
  Qed.
  Lemma run_set l : forall s s', srun b mem h l s = SvNext s' -> sv_set s = true -> sv_set s' = true.
  Proof.
    induction l as [|a l IH]; intros s s' R Q; cbn [srun] in R; [injection R as <-; exact Q|]. destruct (sstep b mem h a s) as [s1| | | |] eqn:E; try discriminate R; [exact (IH _ _ R (set_step _ _ _ _ _ _ E Q))|exact (IH _ _ R Q)].
  Qed.
End Serves.

(** With the handler set first, as long as the server is not being shut down: the
    polling thread can, by itself, finish what it does and then take any request
    that fits the memory, as the next one, to the handler. *)
Theorem C86_serves : forall b mem h l s w m, keeps_contract h -> srun b mem h (SSet :: l) sstart = SvNext s -> sv_notified s = false -> server_request mem w = SrvRequest m ->
  exists l2 s2 r, Forall polls l2 /\ srun b mem h l2 s = SvNext s2 /\ nth_error (sv_reqs s2) (length (sv_reqs s)) = Some r /\ rq_wire r = w /\ rq_seen r = m /\
    sv_poller s2 = SpIn (length (sv_reqs s)) (hs_inline (h (length (sv_reqs s)) m)) (hs_work (h (length (sv_reqs s)) m)).
Proof.
  intros b mem h l s w m K R N D. assert (Q : ready mem h s).
  { split; [exact (sinv_run _ _ _ _ _ R)|]. split; [|exact N]. cbn [srun sstep sstart sv_shut] in R. exact (run_set b mem h l _ _ R eq_refl). }
  destruct (returns_always b mem h K s Q) as (l1 & s1 & F & R1 & (V1 & S1 & N1) & P1 & L1).
  eexists (l1 ++ [SPoll; STrigger (TRequest w)]), _, _. split; [apply Forall_app; split; [exact F|repeat constructor]|].
  rewrite (run_more b mem h l1 _ _ _ R1). cbn [srun sstep]. rewrite P1, N1. cbn [sset_poller sv_poller sv_set do_trigger]. unfold request_callback. rewrite D. cbn [sset_poller sv_set]. rewrite S1. cbn [negb]. cbv zeta.
  split; [reflexivity|]. cbn [sv_reqs sv_poller sset_poller]. rewrite <- L1, nth_error_app2 by lia. rewrite Nat.sub_diag. repeat split; reflexivity.
Qed.

(** The handler of the first request has sent and not yet freed. *)
Example C86_serves_ex : exists s, keeps_contract (fun _ _ => mkHs [OSend sample; OFree] None) /\
  srun Debug 100 (fun _ _ => mkHs [OSend sample; OFree] None) [SSet; SPoll; STrigger (TRequest []); SOp true] sstart = SvNext s /\ sv_notified s = false /\ length (sv_reqs s) = 1 /\
  sv_poller s = SpIn 0 [OFree] None /\ exists m, server_request 100 [] = SrvRequest m.
Proof. eexists. split; [intros i m; right; exists sample; reflexivity|]. split; [vm_compute; reflexivity|]. repeat split. vm_compute. eexists. reflexivity. Qed.

Print Assumptions C86_serves.
