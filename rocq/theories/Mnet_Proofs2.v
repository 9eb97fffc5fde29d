(** Progress of Mercury clients and servers together. *)
From Coq Require Import List NArith ZArith Bool Arith Lia.
From Verif Require Import Wire_Model Wire_Proofs2 Wire_Props Grpc_Model Grpc_Proofs Merc_Model Merc_Proofs Merc_Props
  Msrv_Model Msrv_Proofs Msrv_Proofs2 Msrv_Props Mnet_Model Mnet_Proofs.
Import ListNotations.
Open Scope nat_scope.

(** ** One server *)
Definition sown (a : saction) : Prop :=
  match a with SPoll | STrigger TNone | SOp true | STask _ true | SProgress _ => True | _ => False end.
Definition fine (s : msrv) : Prop := forall p, In p (sv_resps s) -> rp_phase p <> RRefused.

Section Server.
Variable b : build.
Variable mem : N.
Variable h : nat -> option grr -> hscript.
Hypothesis T : forall i m, tidy (h i m).

Definition alive (s : msrv) : Prop := sinv mem h s /\ sv_notified s = false /\ fine s.
Lemma use_keeps i o s s' : use_state b i o true s = SvNext s' -> sv_notified s' = sv_notified s /\ sv_poller s' = sv_poller s /\ sv_tasks s' = sv_tasks s /\ (fine s -> fine s').
Proof.
  intros E. unfold use_state in E. destruct (nth_error (sv_reqs s) i) as [r|]; [|discriminate]. destruct (negb _); [discriminate|].
  destruct o as [m|].
  - destruct (_ && _); [discriminate|]. injection E as <-. repeat split. intros F p H. cbn [sv_resps] in H. apply in_app_or in H.
    destruct H as [H|[<-|[]]]; [auto|discriminate].
  - injection E as <-. repeat split. intros F. exact F.
Qed.
Lemma send_some_fine sent l : forall k p, In p (send_some sent k l) -> rp_phase p = RRefused -> exists p0, In p0 l /\ rp_phase p0 = RRefused.
Proof.
  induction l as [|q l IH]; intros k p H P; [destruct H|]. cbn [send_some] in H. destruct H as [H|H].
  - exists q. split; [left; reflexivity|]. destruct (rp_phase q) eqn:Q; try (rewrite H in Q; congruence).
    destruct (existsb _ _); subst p; [discriminate|congruence].
  - destruct (IH _ _ H P) as (p0 & A & B). exists p0. split; [right; exact A|exact B].
Qed.
Lemma alive_step a s s' : sown a -> alive s -> sstep b mem h a s = SvNext s' -> alive s' /\ map rq_pair (sv_reqs s') = map rq_pair (sv_reqs s).
Proof.
  intros O (V & N & F) E. pose proof (sinv_step _ _ _ _ _ _ V E) as V'. pose proof (g_reqs _ _ _ (sstep_sgrow _ _ _ _ _ _ E)) as G.
  assert (W : news mem a = []) by (destruct a as [| |[| |]| | | |]; try contradiction; reflexivity). rewrite W, app_nil_r in G.
  split; [|exact G]. split; [exact V'|].
  destruct a as [| |[|wire|k]|[|]|sent|n [|]|]; try contradiction; cbn [sstep] in E.
  - destruct (sv_poller s); try discriminate. injection E as <-. auto.
  - destruct (sv_poller s); try discriminate. cbn [do_trigger] in E. injection E as <-. auto.
  - destruct (sv_poller s) as [| |i [|o ops] [w|]| |]; try discriminate; try (injection E as <-; auto).
    all: apply use_keeps in E; destruct E as (A & _ & _ & B); split; [rewrite A; exact N|apply B; exact F].
  - destruct (sv_poller s); try discriminate. injection E as <-. split; [exact N|]. intros p H P. cbn [sv_resps] in H.
    destruct (send_some_fine _ _ _ _ H P) as (p0 & A & B). exact (F p0 A B).
  - destruct (nth_error (sv_tasks s) n) as [[i [|o ops]]|]; [| |discriminate].
    + injection E as <-. auto.
    + apply use_keeps in E. destruct E as (A & _ & _ & B). split; [rewrite A; exact N|apply B; exact F].
Qed.
Definition goes (s s' : msrv) : Prop := exists l, Forall sown l /\ srun b mem h l s = SvNext s'.
Lemma goes_refl s : goes s s.
Proof. exists []. auto. Qed.
Lemma goes_step a s s1 s2 : sown a -> sstep b mem h a s = SvNext s1 -> goes s1 s2 -> goes s s2.
Proof. intros O E (l & F & R). exists (a :: l). split; [constructor; assumption|]. cbn [srun]. rewrite E. exact R. Qed.
Lemma srun_app l1 : forall l2 s s1, srun b mem h l1 s = SvNext s1 -> srun b mem h (l1 ++ l2) s = srun b mem h l2 s1.
Proof. induction l1 as [|a l IH]; intros l2 s s1 E; cbn [srun app] in *; [congruence|]. destruct (sstep b mem h a s); try discriminate; eauto. Qed.
Lemma goes_trans s s1 s2 : goes s s1 -> goes s1 s2 -> goes s s2.
Proof.
  intros (l1 & F1 & R1) (l2 & F2 & R2). exists (l1 ++ l2). split; [apply Forall_app; auto|]. rewrite (srun_app _ _ _ _ R1). exact R2.
Qed.
Lemma alive_run l : forall s s', Forall sown l -> alive s -> srun b mem h l s = SvNext s' -> alive s' /\ map rq_pair (sv_reqs s') = map rq_pair (sv_reqs s).
Proof.
  induction l as [|a l IH]; intros s s' F A R; cbn [srun] in R; [injection R as <-; auto|]. inversion F as [|? ? O F']; subst.
  destruct (sstep b mem h a s) as [s1| | | |] eqn:E; try discriminate; [|eauto].
  destruct (alive_step _ _ _ O A E) as [A1 G1]. destruct (IH _ _ F' A1 R) as [A2 G2]. split; [exact A2|congruence].
Qed.
Lemma alive_goes s s' : alive s -> goes s s' -> alive s' /\ map rq_pair (sv_reqs s') = map rq_pair (sv_reqs s).
Proof. intros A (l & F & R). eapply alive_run; eassumption. Qed.

(** The handler the polling thread is in returns. *)
Lemma leave_handler ops : forall s i work, alive s -> sv_poller s = SpIn i ops work -> exists s', goes s s' /\ sv_poller s' = SpProgress.
Proof.
  induction ops as [|o ops IH]; intros s i work A P.
  - destruct work as [k|]; (eexists; split; [eapply (goes_step (SOp true)); [exact Logic.I|cbn [sstep]; rewrite P; reflexivity|apply goes_refl]|reflexivity]).
  - assert (E : exists s1, sstep b mem h (SOp true) s = SvNext s1).
    { destruct (step_safe mem h b T (SOp true) s (proj1 A)) as [E|[E|[E [K|[_ [w K]]]]]]; [exact E| |contradiction|discriminate].
      cbn [sstep] in E. rewrite P in E. unfold use_state in E. cbn [sset_poller sv_reqs] in E.
      destruct (i_in _ _ _ (proj1 A) _ _ _ P) as (r & _ & Nr & _). rewrite Nr in E. destruct (negb _); [discriminate|]. destruct o; [destruct (_ && _)|]; discriminate. }
    destruct E as [s1 E]. destruct (alive_step (SOp true) _ _ Logic.I A E) as [A1 _].
    assert (P1 : sv_poller s1 = SpIn i ops work). { cbn [sstep] in E. rewrite P in E. apply use_keeps in E. destruct E as (_ & K & _). exact K. }
    destruct (IH _ _ _ A1 P1) as (s' & G & P'). exists s'. split; [|exact P']. eapply (goes_step (SOp true)); [exact Logic.I|exact E|exact G].
Qed.
Lemma to_test s : alive s -> exists s', goes s s' /\ sv_poller s' = SpTest.
Proof.
  intros A. assert (Pg : forall s, sv_poller s = SpProgress -> exists s', goes s s' /\ sv_poller s' = SpTest).
  { intros s0 P. eexists. split; [eapply (goes_step (SProgress [])); [exact Logic.I| |apply goes_refl]|]; [cbn [sstep]; rewrite P; reflexivity|reflexivity]. }
  destruct (sv_poller s) as [| |i ops work| |] eqn:P.
  - exists s. split; [apply goes_refl|exact P].
  - destruct (Pg (sset_poller SpProgress s) eq_refl) as (s' & G & P'). exists s'. split; [|exact P'].
    eapply (goes_step (STrigger TNone)); [exact Logic.I| |exact G]. cbn [sstep]. rewrite P. reflexivity.
  - destruct (leave_handler _ _ _ _ A P) as (s1 & G1 & P1). destruct (Pg _ P1) as (s' & G & P'). exists s'. split; [eapply goes_trans; eassumption|exact P'].
  - auto.
  - pose proof (i_exit _ _ _ (proj1 A) P). destruct A as (_ & N & _). congruence.
Qed.
(** The tasks of the pool run to their end. *)
Definition load (l : list (nat * list srv_op)) : nat := list_sum (map (fun t => S (length (snd t))) l).
Lemma empty_pool n : forall s, load (sv_tasks s) < n -> alive s -> exists s', goes s s' /\ sv_tasks s' = [] /\ sv_poller s' = sv_poller s.
Proof.
  induction n as [|n IH]; intros s L A; [lia|]. destruct (sv_tasks s) as [|[i ops] rest] eqn:E0; [exists s; split; [apply goes_refl|auto]|].
  assert (E : exists s1, sstep b mem h (STask 0 true) s = SvNext s1 /\ load (sv_tasks s1) < load (sv_tasks s) /\ sv_poller s1 = sv_poller s).
  { destruct ops as [|o ops].
    - eexists. cbn [sstep]. rewrite E0. cbn [nth_error]. split; [reflexivity|]. cbn. split; [lia|reflexivity].
    - assert (E : exists s1, sstep b mem h (STask 0 true) s = SvNext s1).
      { destruct (step_safe mem h b T (STask 0 true) s (proj1 A)) as [E|[E|[E [K|[_ [w K]]]]]]; [exact E| |contradiction|discriminate].
        cbn [sstep] in E. rewrite E0 in E. cbn [nth_error] in E. unfold use_state in E. cbn [sset_tasks sv_reqs] in E.
        destruct (i_task _ _ _ (proj1 A) i (o :: ops)) as (r & _ & _ & Nr & _); [rewrite E0; left; reflexivity|]. rewrite Nr in E.
        destruct (negb _); [discriminate|]. destruct o; [destruct (_ && _)|]; discriminate. }
      destruct E as [s1 E]. exists s1. split; [exact E|]. cbn [sstep] in E. rewrite E0 in E. cbn [nth_error lset] in E. apply use_keeps in E.
      destruct E as (_ & K1 & K2 & _). cbn [sset_tasks sv_poller sv_tasks] in K1, K2. rewrite K1, K2. split; [|reflexivity].
      rewrite E0. unfold load. cbn [map snd length list_sum fold_right]. lia. }
  destruct E as (s1 & E & Ls & P). destruct (alive_step (STask 0 true) _ _ Logic.I A E) as [A1 _].
  destruct (IH s1) as (s' & G & Z & P'); [rewrite E0 in Ls; lia|exact A1|]. exists s'. split; [|split; [exact Z|congruence]].
  eapply (goes_step (STask 0 true)); [exact Logic.I|exact E|exact G].
Qed.
Lemma send_all l : forall k len, k + length l <= len -> forall p, In p (send_some (seq 0 len) k l) -> rp_phase p <> RPosted.
Proof.
  induction l as [|q l IH]; intros k len L p H; [destruct H|]. cbn [send_some length] in *. destruct H as [<-|H]; [|eapply (IH (S k)); [|exact H]; lia].
  assert (X : existsb (Nat.eqb k) (seq 0 len) = true) by (apply existsb_exists; exists k; split; [apply in_seq; lia|apply Nat.eqb_refl]).
  destruct (rp_phase q) eqn:Q; rewrite ?X; try discriminate; congruence.
Qed.
Lemma settle s : alive s -> exists s', goes s s' /\ alive s' /\ map rq_pair (sv_reqs s') = map rq_pair (sv_reqs s) /\
  sv_poller s' = SpTest /\ sv_tasks s' = [] /\ forall p, In p (sv_resps s') -> rp_phase p = RSent \/ rp_phase p = RFreed.
Proof.
  intros A. destruct (to_test s A) as (s1 & G1 & P1). destruct (alive_goes _ _ A G1) as [A1 _].
  destruct (empty_pool _ s1 (Nat.lt_succ_diag_r _) A1) as (s2 & G2 & Z2 & P2). destruct (alive_goes _ _ A1 G2) as [A2 _]. rewrite P1 in P2.
  pose (s3 := sset_poller SpProgress (sset_poller SpTrigger s2)).
  pose (s4 := mkMsrv (sv_set s3) (sv_reqs s3) (send_some (seq 0 (length (sv_resps s3))) 0 (sv_resps s3)) (sv_tasks s3) SpTest (S (sv_progress s3)) (sv_notified s3) (sv_shut s3)).
  assert (G : goes s s4).
  { eapply goes_trans; [exact G1|]. eapply goes_trans; [exact G2|].
    eapply (goes_step SPoll); [exact Logic.I| |]. { cbn [sstep]. rewrite P2. destruct A2 as (_ & N & _). rewrite N. reflexivity. }
    eapply (goes_step (STrigger TNone)); [exact Logic.I|reflexivity|].
    eapply (goes_step (SProgress (seq 0 (length (sv_resps s3))))); [exact Logic.I|reflexivity|apply goes_refl]. }
  destruct (alive_goes _ _ A G) as [A4 Q4]. exists s4. split; [exact G|]. split; [exact A4|]. split; [exact Q4|]. split; [reflexivity|]. split; [exact Z2|].
  intros p H. destruct A4 as (_ & _ & F4). specialize (F4 p H). pose proof (send_all _ 0 (length (sv_resps s3)) (Nat.le_refl _) p H) as K.
  destruct (rp_phase p); auto; congruence.
Qed.
(** then each request has all its responses out. *)
Lemma settled_answers s q r m : sinv mem h s -> sv_poller s = SpTest -> sv_tasks s = [] -> nth_error (sv_reqs s) q = Some r ->
  In (OSend m) (hs_inline (h q (rq_seen r)) ++ match hs_work (h q (rq_seen r)) with Some k => k | None => [] end) ->
  exists k p, nth_error (sv_resps s) k = Some p /\ rp_req p = q /\ rp_msg p = m.
Proof.
  intros V P Z Nr H. destruct (i_rest _ _ _ V q r Nr) as (pre & E & A & B).
  - unfold holders. rewrite P, Z. intros [].
  - rewrite app_nil_r in E. fold (script (h q (rq_seen r))) in H. rewrite E in H.
    assert (K : In m (sent_for q (sv_resps s))). { rewrite A. unfold said. apply in_flat_map. exists (OSend m). split; [exact H|left; reflexivity]. }
    unfold sent_for in K. apply in_map_iff in K. destruct K as (p & Em & K). apply filter_In in K. destruct K as [K Eq].
    unfold of_req in Eq. apply Nat.eqb_eq in Eq. apply In_nth_error in K. destruct K as [k K]. eauto.
Qed.
End Server.
