(** C50: which end a record timed by prior ends is timed by. *)
From Coq Require Import Ascii String List NArith ZArith Bool Arith Lia.
From Verif Require Import Base_Model Base_Proofs Grid_Model Canon_Model Replay_Model Replay_Proofs Replay_Proofs2 Replay_Proofs3 Replay_Proofs4
  Replay_Proofs5 Replay_Props.
Import ListNotations.
Open Scope Z_scope.

(** The samples are in the order in which the callbacks took the mutex.  A
    record timed by prior ends is sent no earlier than the delay after the end
    of the prior RPC that was recorded last; *)
Theorem C50_last_recorded : forall t me traffic began pd_ids channels s k at_ dest j, replaying t me traffic began pd_ids channels s ->
  sent_at s k at_ dest -> mode_is t k MPriorEnd -> waits t me k j ->
  exists earlier i offset latency later, n_samples s = earlier ++ (i, (offset, latency)) :: later /\
    waits t me k i /\ (forall q, In q later -> ~ waits t me k (fst q)) /\ n_trace_start s + offset + latency + delay t k <= at_.
Proof.
  intros t me T0 T1 pd ch s k a d j H Hs M W. destruct (replaying_good _ _ _ _ _ _ _ H) as (_ & G & _).
  destruct H as (s0 & l & E & R). pose proof (run_linv _ _ _ _ _ _ _ _ (setup_good _ _ _ _ _ E) (setup_linv _ _ _ _ _ E) R) as L.
  assert (Lk : (k < length (t_records t))%nat) by (destruct W as [[Lt _] _]; exact Lt). apply (mode_eq t k MPriorEnd Lk ltac:(discriminate)) in M.
  assert (T : timed t me k). { split; [exact M|]. intro N. apply (waits_iff t me k j G) in W. rewrite N in W. destruct W. }
  destruct (l_sent _ _ _ L _ Hs T) as (x & Lx & b & i & o & la & c & A1 & A2 & A3 & A4). cbn [sidx sstart fst snd] in *.
  exists b, i, o, la, c. split; [exact A1|]. split; [apply (waits_iff t me k i G); exact A2|]. split.
  - intros q Hq Wq. apply (A3 q Hq). apply (waits_iff t me k (fst q) G). exact Wq.
  - rewrite timing_eq in A4. lia.
Qed.
(** so it is sent no earlier than the delay after every prior end if callbacks
    take the mutex in the order in which they read the clock. *)
Theorem C50_in_order : forall t me traffic began pd_ids channels s k at_ dest j e, replaying t me traffic began pd_ids channels s ->
  sent_at s k at_ dest -> mode_is t k MPriorEnd -> waits t me k j -> ended_at s j e ->
  (forall earlier i o l later i' o' l', n_samples s = earlier ++ (i, (o, l)) :: later -> In (i', (o', l')) earlier -> o' + l' <= o + l) ->
  e + delay t k <= at_.
Proof.
  intros t me T0 T1 pd ch s k a d j e H Hs M W (o & l & Hin & ->) S.
  destruct (C50_last_recorded _ _ _ _ _ _ _ _ _ _ _ H Hs M W) as (b & i & o1 & l1 & c & A1 & A2 & A3 & A4).
  pose proof Hin as K. rewrite A1 in K. apply in_app_iff in K. destruct K as [K|[K|K]].
  - specialize (S _ _ _ _ _ _ _ _ A1 K). lia.
  - injection K as -> -> ->. exact A4.
  - exfalso. exact (A3 _ K W).
Qed.
(** Two prior RPCs that end at 5 and 10, recorded in that order: the third is
    sent at 110. *)
Example C50_in_order_example : exists t s at_ dest, replaying t 0 0 0 [0] [] s /\ mode_is t 2 MPriorEnd /\ waits t 0 2 0 /\ waits t 0 2 1 /\
  sent_at s 2 at_ dest /\ at_ = 110 /\ n_samples s = [(0%nat, (0, 5)); (1%nat, (0, 10))] /\ delay t 2 = 100.
Proof.
  set (t := mkReplay None None [] plain [plain; plain; rec MPriorEnd 100 [0; 1]]).
  destruct (setup t 0 0 0) as [s0|] eqn:E; [|vm_compute in E; discriminate].
  set (l := [Main 0; Main 0; Main 0; Main 0; Main 0; Main 0; Main 0; Main 0; Main 0; Tick 5; Finish 0; Activate 0; Tick 5; Finish 0; Activate 0; Tick 95; Main 0; Main 0; Main 0; Tick 5; Main 0; Main 0; Main 0; Main 0]).
  destruct (rrun t [0] [] l s0) as [s|c|] eqn:R; [|vm_compute in E; injection E as <-; vm_compute in R; discriminate|vm_compute in E; injection E as <-; vm_compute in R; discriminate].
  exists t, s, 110, (ToServer 0 0 0). split; [exists s0, l; auto|]. vm_compute in E. injection E as <-. vm_compute in R. injection R as <-.
  split; [reflexivity|].
  split; [split; [split; [cbn; lia|intros c H; discriminate]|]; split; [split; [cbn; lia|intros c H; discriminate]|]; exists 1; split; [right; left; reflexivity|reflexivity]|].
  split; [split; [split; [cbn; lia|intros c H; discriminate]|]; split; [split; [cbn; lia|intros c H; discriminate]|]; exists 0; split; [left; reflexivity|reflexivity]|].
  split; [left; reflexivity|]. repeat split; reflexivity.
Qed.
Print Assumptions C50_last_recorded.
Print Assumptions C50_in_order.
