(** Consequences of the invariant of the Mercury server. *)
From Coq Require Import List NArith ZArith Bool Arith Lia.
From Verif Require Import Wire_Model Grpc_Model Grpc_Proofs Merc_Model Msrv_Model Msrv_Proofs.
Import ListNotations.
Open Scope nat_scope.

Lemma tidy_left hs pre o ops : tidy hs -> script hs = pre ++ o :: ops ->
  frees pre = 0 /\ (forall m, o = OSend m -> pre = []) /\ (o = OFree -> ops = []).
Proof.
  intros [T|[m T]] E; rewrite T in E; destruct pre as [|x [|y [|z pre]]]; try discriminate; cbn [app] in E;
    injection E; intros; subst; try discriminate; (split; [reflexivity|split; intros; try discriminate; reflexivity]).
Qed.

Section Server.
Variable mem : N.
Variable h : nat -> option grr -> hscript.

Lemma hold_op b (T : forall i m, tidy (h i m)) s s1 i o ops ok : sinv mem h s -> In (i, o :: ops) (holders s) ->
  sv_reqs s1 = sv_reqs s -> exists s', use_state b i o ok s1 = SvNext s'.
Proof.
  intros V K E. destruct (i_hold _ _ _ V _ _ K) as (r & Nr & pre & Es & Em & Ef).
  destruct (tidy_left _ _ _ _ (T i (rq_seen r)) Es) as (F0 & P0 & _).
  unfold use_state. rewrite E, Nr, Ef, F0. cbn [Nat.eqb negb]. destruct o as [m|]; [|eauto].
  specialize (P0 m eq_refl) as ->.
  assert (responds (rq_lib r) = 0) as ->.
  { rewrite (i_count _ _ _ V _ _ Nr). apply (f_equal (@length _)) in Em. unfold sent_for in Em. rewrite map_length in Em. exact Em. }
  rewrite andb_false_r. eauto.
Qed.
Lemma op_hold s i o ops w : sv_poller s = SpIn i (o :: ops) w ->
  In (i, o :: ops ++ match w with Some x => x | None => [] end) (holders s).
Proof. intros P. unfold holders. rewrite P. left. reflexivity. Qed.
Lemma task_hold s i ops n : nth_error (sv_tasks s) n = Some (i, ops) -> In (i, ops) (holders s).
Proof. intros E. unfold holders. apply in_or_app. right. eapply nth_error_In, E. Qed.

Definition throws (a : saction) : Prop :=
  match a with STrigger (TRequest wire) => server_request mem wire = SrvThrow | _ => False end.

Lemma step_safe b (T : forall i m, tidy (h i m)) a s : sinv mem h s ->
  (exists s', sstep b mem h a s = SvNext s') \/ sstep b mem h a s = SvStuck \/
  (sstep b mem h a s = SvTerminate /\ (throws a \/ (sv_set s = false /\ exists w, a = STrigger (TRequest w)))).
Proof.
  intros V. destruct a as [| |t|ok|sent|n ok|]; cbn [sstep].
  - destruct (sv_shut s); eauto.
  - destruct (sv_poller s); eauto.
  - destruct (sv_poller s); eauto. destruct t as [|w|k]; cbn [do_trigger]; [eauto| |].
    + unfold request_callback. cbn [throws]. destruct (server_request mem w); [auto|].
      destruct (sv_set s); cbn [negb]; [eauto|]. right. right. split; [reflexivity|]. eauto.
    + destruct (nth_error (sv_resps s) k) as [r|]; [|auto]. destruct (rp_phase r); eauto.
  - destruct (sv_poller s) as [| |i [|o ops] [w|]| |] eqn:P; eauto.
    + left. eapply hold_op; [exact T|exact V|eapply op_hold, P|reflexivity].
    + left. eapply hold_op; [exact T|exact V|eapply op_hold, P|reflexivity].
  - destruct (sv_poller s); eauto.
  - destruct (nth_error (sv_tasks s) n) as [[i [|o ops]]|] eqn:E; eauto.
    left. eapply hold_op; [exact T|exact V|eapply task_hold, E|reflexivity].
  - destruct (sv_shut s); eauto; [destruct (sv_poller s)|destruct (sv_tasks s)]; eauto.
Qed.

Lemma run_safe b (T : forall i m, tidy (h i m)) l : forall s, sinv mem h s ->
  srun b mem h l s <> SvUB /\ srun b mem h l s <> SvFatal.
Proof.
  induction l as [|a l IH]; intros s V; cbn [srun]; [split; discriminate|].
  destruct (step_safe b T a s V) as [[s' E]|[E|[E _]]]; rewrite E.
  - apply IH. eapply sinv_step; eassumption.
  - apply IH, V.
  - split; discriminate.
Qed.

Lemma set_step b a s s' : sstep b mem h a s = SvNext s' -> sv_set s = true -> sv_set s' = true.
Proof.
  intros E Q. destruct a as [| |t|ok|sent|n ok|]; cbn [sstep] in E.
  - destruct (sv_shut s); try discriminate. injection E as <-. reflexivity.
  - destruct (sv_poller s); try discriminate. injection E as <-. exact Q.
  - destruct (sv_poller s); try discriminate. destruct t as [|w|k]; cbn [do_trigger] in E.
    + injection E as <-. exact Q.
    + unfold request_callback in E. destruct (server_request mem w); [discriminate|].
      destruct (sv_set s) eqn:Z; cbn [negb] in E; [|discriminate]. injection E as <-. cbn. reflexivity.
    + destruct (nth_error (sv_resps s) k) as [r|]; [|discriminate]. destruct (rp_phase r); try discriminate.
      injection E as <-. exact Q.
  - destruct (sv_poller s) as [| |i [|o ops] [w|]| |]; try discriminate; try (injection E as <-; exact Q);
      apply use_state_next in E as (r & _ & _ & ->); exact Q.
  - destruct (sv_poller s); try discriminate. injection E as <-. exact Q.
  - destruct (nth_error (sv_tasks s) n) as [[i [|o ops]]|]; try discriminate; try (injection E as <-; exact Q);
      apply use_state_next in E as (r & _ & _ & ->); exact Q.
  - destruct (sv_shut s); [|destruct (sv_poller s)|destruct (sv_tasks s)|]; try discriminate; injection E as <-; exact Q.
Qed.

Lemma run_lives b (T : forall i m, tidy (h i m)) l : Forall (fun a => ~ throws a) l -> forall s, sinv mem h s -> sv_set s = true ->
  exists s', srun b mem h l s = SvNext s'.
Proof.
  induction 1 as [|a l H F IH]; intros s V Q; cbn [srun]; [eauto|].
  destruct (step_safe b T a s V) as [[s' E]|[E|[_ [E|[E _]]]]]; [| |contradiction|congruence]; rewrite E.
  - apply IH; [eapply sinv_step; eassumption|eapply set_step; eassumption].
  - apply IH; assumption.
Qed.

(** The two builds. *)
Lemma use_builds s i o ok s' : use_state Debug i o ok s = SvNext s' -> use_state Release i o ok s = SvNext s'.
Proof.
  unfold use_state. destruct (nth_error (sv_reqs s) i) as [r|]; [|discriminate].
  destruct (negb _); [discriminate|]. destruct o; [|auto]. destruct (true && _); [discriminate|auto].
Qed.
Lemma step_builds a s : sstep Debug mem h a s = sstep Release mem h a s \/
  sstep Debug mem h a s = SvFatal.
Proof.
  assert (U : forall i o ok t, use_state Debug i o ok t = use_state Release i o ok t \/ use_state Debug i o ok t = SvFatal).
  { intros i o ok t. unfold use_state. destruct (nth_error (sv_reqs t) i) as [r|]; [|auto].
    destruct (negb _); [auto|]. destruct o; [|auto]. destruct (true && _); auto. }
  destruct a as [| |t|ok|sent|n ok|]; cbn [sstep]; auto.
  - destruct (sv_poller s) as [| |i [|o ops] [w|]| |]; auto.
  - destruct (nth_error (sv_tasks s) n) as [[i [|o ops]]|]; auto.
Qed.
(** A Debug build that does not abort does what a Release build does. *)
Lemma run_builds_any l : forall s, srun Debug mem h l s <> SvFatal -> srun Debug mem h l s = srun Release mem h l s.
Proof.
  induction l as [|a l IH]; intros s N; cbn [srun] in *; [reflexivity|].
  destruct (step_builds a s) as [E|E]; rewrite E in *; [|congruence].
  destruct (sstep Release mem h a s); auto.
Qed.

(** The end. *)
Lemma done_quiet b a s : sinv mem h s -> sv_shut s = ShDone -> sstep b mem h a s = SvStuck \/ sstep b mem h a s = SvNext s.
Proof.
  intros V D. pose proof (i_shut _ _ _ V) as K. rewrite D in K. destruct K as [P T].
  destruct a as [| |t|ok|sent|n ok|]; cbn [sstep]; rewrite ?D, ?P, ?T; auto. destruct n; auto.
Qed.
Lemma done_script s i r : sinv mem h s -> sv_shut s = ShDone -> nth_error (sv_reqs s) i = Some r ->
  sent_for i (sv_resps s) = said (script (h i (rq_seen r))) /\ rq_freed r = frees (script (h i (rq_seen r))).
Proof.
  intros V D Nr. pose proof (i_shut _ _ _ V) as K. rewrite D in K. destruct K as [P T].
  destruct (i_rest _ _ _ V i r Nr) as (pre & E & A & B).
  - unfold holders. rewrite P, T. intros [].
  - rewrite app_nil_r in E. rewrite E. auto.
Qed.
Lemma any_script s i r : sinv mem h s -> nth_error (sv_reqs s) i = Some r ->
  exists pre post, script (h i (rq_seen r)) = pre ++ post /\ sent_for i (sv_resps s) = said pre /\ rq_freed r = frees pre.
Proof.
  intros V Nr. destruct (in_dec Nat.eq_dec i (map fst (holders s))) as [H|H].
  - apply in_map_iff in H as ([j ops] & E & H). cbn [fst] in E. subst j.
    destruct (i_hold _ _ _ V _ _ H) as (r' & Nr' & pre & P). rewrite Nr in Nr'. injection Nr' as <-. eauto.
  - destruct (i_rest _ _ _ V i r Nr H) as (pre & P). eauto.
Qed.

(** Shutting down. *)
Definition weight (s : msrv) : nat :=
  (match sv_poller s with
   | SpExited => 0 | SpTest => 1 | SpProgress => 2
   | SpIn _ ops w => 3 + length ops + match w with Some x => S (length x) | None => 0 end
   | SpTrigger => 7 end)
  + fold_right (fun t n => S (length (snd t)) + n) 0 (sv_tasks s)
  + match sv_shut s with ShNot => 3 | ShJoin => 2 | ShPool => 1 | ShDone => 0 end.

Lemma fr_app (l k : list (nat * list srv_op)) :
  fold_right (fun t n => S (length (snd t)) + n) 0 (l ++ k) =
  fold_right (fun t n => S (length (snd t)) + n) 0 l + fold_right (fun t n => S (length (snd t)) + n) 0 k.
Proof. induction l as [|t l IH]; [reflexivity|]. cbn [app fold_right]. rewrite IH. lia. Qed.
Lemma fr_drop (l : list (nat * list srv_op)) : forall n i, nth_error l n = Some (i, []) ->
  fold_right (fun t n => S (length (snd t)) + n) 0 (ldrop n l) < fold_right (fun t n => S (length (snd t)) + n) 0 l.
Proof.
  induction l as [|t l IH]; intros [|n] i E; try discriminate; cbn [nth_error ldrop fold_right] in *.
  - lia.
  - apply IH in E. lia.
Qed.
Lemma fr_set (l : list (nat * list srv_op)) : forall n i o ops, nth_error l n = Some (i, o :: ops) ->
  fold_right (fun t n => S (length (snd t)) + n) 0 (lset n (i, ops) l) < fold_right (fun t n => S (length (snd t)) + n) 0 l.
Proof.
  induction l as [|t l IH]; intros [|n] i o ops E; try discriminate; cbn [nth_error lset fold_right] in *.
  - injection E as ->. cbn [snd length]. lia.
  - apply IH in E. lia.
Qed.

Lemma weight_step b (T : forall i m, tidy (h i m)) a s s' : sinv mem h s -> sv_notified s = true ->
  sstep b mem h a s = SvNext s' -> s' = s \/ weight s' < weight s.
Proof.
  intros V N E. destruct a as [| |t|ok|sent|n ok|]; cbn [sstep] in E.
  - pose proof (i_notif _ _ _ V) as K. rewrite N in K. destruct (sv_shut s); discriminate.
  - destruct (sv_poller s) eqn:P; try discriminate. rewrite N in E. injection E as <-. right.
    unfold weight. cbn [sset_poller sv_poller sv_tasks sv_shut]. rewrite P. lia.
  - destruct (sv_poller s) eqn:P; try discriminate. right. destruct t as [|w|k]; cbn [do_trigger] in E.
    + injection E as <-. unfold weight. cbn [sset_poller sv_poller sv_tasks sv_shut]. rewrite P. lia.
    + unfold request_callback in E. destruct (server_request mem w) as [|m]; [discriminate|].
      destruct (negb _); [discriminate|]. injection E as <-. unfold weight. cbn [sv_poller sv_tasks sv_shut]. rewrite P.
      assert (L : length (script (h (length (sv_reqs s)) m)) <= 2)
        by (destruct (T (length (sv_reqs s)) m) as [->|[x ->]]; cbn; lia).
      unfold script in L. rewrite app_length in L.
      destruct (hs_work (h (length (sv_reqs s)) m)); lia.
    + destruct (nth_error (sv_resps s) k) as [r|]; [|discriminate]. destruct (rp_phase r); try discriminate.
      injection E as <-. unfold weight. cbn [sset_poller sset_resps sv_poller sv_tasks sv_shut]. rewrite P. lia.
  - right. destruct (sv_poller s) as [| |i [|o ops] [w|]| |] eqn:P; try discriminate.
    + injection E as <-. unfold weight. cbn [sset_poller sset_tasks sv_poller sv_tasks sv_shut]. rewrite P, fr_app.
      cbn [fold_right snd length]. lia.
    + injection E as <-. unfold weight. cbn [sset_poller sset_tasks sv_poller sv_tasks sv_shut]. rewrite P. cbn [length]. lia.
    + apply use_state_next in E as (r & _ & _ & ->). unfold weight. cbn [sset_poller sv_poller sv_tasks sv_shut]. rewrite P. cbn [length]. lia.
    + apply use_state_next in E as (r & _ & _ & ->). unfold weight. cbn [sset_poller sv_poller sv_tasks sv_shut]. rewrite P. cbn [length]. lia.
  - destruct (sv_poller s) eqn:P; try discriminate. injection E as <-. right.
    unfold weight. cbn [sv_poller sv_tasks sv_shut]. rewrite P. lia.
  - right. destruct (nth_error (sv_tasks s) n) as [[i [|o ops]]|] eqn:Q; try discriminate.
    + injection E as <-. unfold weight. cbn [sset_tasks sv_poller sv_tasks sv_shut]. pose proof (fr_drop _ _ _ Q). lia.
    + apply use_state_next in E as (r & _ & _ & ->). unfold weight. cbn [sset_tasks sv_poller sv_tasks sv_shut].
      pose proof (fr_set _ _ _ _ _ Q). lia.
  - pose proof (i_notif _ _ _ V) as K. rewrite N in K. destruct (sv_shut s) eqn:D; try discriminate.
    + destruct (sv_poller s); try discriminate. injection E as <-. right. unfold weight. cbn [sset_shut sv_poller sv_tasks sv_shut]. rewrite D. lia.
    + destruct (sv_tasks s); try discriminate. injection E as <-. right. unfold weight. cbn [sset_shut sv_poller sv_tasks sv_shut]. rewrite D. lia.
    + injection E as <-. auto.
Qed.
Lemma notified_step b a s s' : sstep b mem h a s = SvNext s' -> sv_notified s = true -> sv_notified s' = true.
Proof.
  intros E Q. destruct a as [| |t|ok|sent|n ok|]; cbn [sstep] in E.
  - destruct (sv_shut s); try discriminate. injection E as <-. exact Q.
  - destruct (sv_poller s); try discriminate. injection E as <-. exact Q.
  - destruct (sv_poller s); try discriminate. destruct t as [|w|k]; cbn [do_trigger] in E.
    + injection E as <-. exact Q.
    + unfold request_callback in E. destruct (server_request mem w); [discriminate|].
      destruct (negb _); [discriminate|]. injection E as <-. exact Q.
    + destruct (nth_error (sv_resps s) k) as [r|]; [|discriminate]. destruct (rp_phase r); try discriminate.
      injection E as <-. exact Q.
  - destruct (sv_poller s) as [| |i [|o ops] [w|]| |]; try discriminate; try (injection E as <-; exact Q);
      apply use_state_next in E as (r & _ & _ & ->); exact Q.
  - destruct (sv_poller s); try discriminate. injection E as <-. exact Q.
  - destruct (nth_error (sv_tasks s) n) as [[i [|o ops]]|]; try discriminate; try (injection E as <-; exact Q);
      apply use_state_next in E as (r & _ & _ & ->); exact Q.
  - destruct (sv_shut s); [|destruct (sv_poller s)|destruct (sv_tasks s)|]; try discriminate; injection E as <-; try exact Q; reflexivity.
Qed.
(** Some action is always possible until the shutdown is over. *)
Lemma not_over_moves b (T : forall i m, tidy (h i m)) s : sinv mem h s -> sv_notified s = true -> sv_shut s <> ShDone ->
  exists a s', sstep b mem h a s = SvNext s' /\ s' <> s.
Proof.
  intros V N D.
  assert (W : forall a s', sstep b mem h a s = SvNext s' -> weight s' < weight s -> exists a s', sstep b mem h a s = SvNext s' /\ s' <> s).
  { intros a s' E L. exists a, s'. split; [exact E|]. intros ->. lia. }
  assert (G : forall a s', sstep b mem h a s = SvNext s' -> sv_poller s' <> sv_poller s -> exists a s', sstep b mem h a s = SvNext s' /\ s' <> s).
  { intros a s' E L. exists a, s'. split; [exact E|]. congruence. }
  destruct (sv_poller s) as [| |i [|o ops] w| |] eqn:P.
  - eapply (G SPoll); [cbn [sstep]; rewrite P, N; reflexivity|discriminate].
  - eapply (G (STrigger TNone)); [cbn [sstep do_trigger]; rewrite P; reflexivity|discriminate].
  - destruct w as [w|]; eapply (G (SOp true)); try (cbn [sstep]; rewrite P; reflexivity); discriminate.
  - destruct (hold_op b T s (sset_poller (SpIn i ops w) s) i o _ true V (op_hold _ _ _ _ _ P) eq_refl) as (s' & E).
    eapply (G (SOp true)); [cbn [sstep]; rewrite P; exact E|].
    apply use_state_next in E as (r & _ & _ & ->). cbn [sset_poller sv_poller]. intros E. injection E as E.
    apply (f_equal (@length _)) in E. cbn [length] in E. lia.
  - eapply (G (SProgress [])); [cbn [sstep]; rewrite P; reflexivity|discriminate].
  - pose proof (i_notif _ _ _ V) as K. rewrite N in K.
    destruct (sv_tasks s) as [|[i [|o ops]] ts] eqn:Tk.
    + destruct (sv_shut s) eqn:Sh; try discriminate; try congruence.
      * exists SShut, (sset_shut ShPool s). split; [cbn [sstep]; rewrite Sh, P; reflexivity|].
        intros F. apply (f_equal sv_shut) in F. rewrite Sh in F. discriminate.
      * exists SShut, (sset_shut ShDone s). split; [cbn [sstep]; rewrite Sh, Tk; reflexivity|].
        intros F. apply (f_equal sv_shut) in F. rewrite Sh in F. discriminate.
    + assert (Q : nth_error (sv_tasks s) 0 = Some (i, [])) by (rewrite Tk; reflexivity).
      eapply (W (STask 0 true)); [cbn [sstep]; rewrite Q; reflexivity|].
      unfold weight. cbn [sset_tasks sv_poller sv_tasks sv_shut]. pose proof (fr_drop _ _ _ Q). lia.
    + assert (Q : nth_error (sv_tasks s) 0 = Some (i, o :: ops)) by (rewrite Tk; reflexivity).
      destruct (hold_op b T s (sset_tasks (lset 0 (i, ops) (sv_tasks s)) s) i o _ true V (task_hold _ _ _ _ Q) eq_refl) as (s' & E).
      eapply (W (STask 0 true)); [cbn [sstep]; rewrite Q; exact E|].
      apply use_state_next in E as (r & _ & _ & ->). unfold weight. cbn [sset_tasks sv_poller sv_tasks sv_shut].
      pose proof (fr_set _ _ _ _ _ Q). lia.
Qed.

(** Progress after inline responses. *)
Definition settled (s : msrv) : Prop :=
  match sv_poller s with SpTest | SpTrigger | SpExited => True | _ => False end.
Definition pinv (s : msrv) : Prop := settled s -> forall p, In p (sv_resps s) -> rp_at p < sv_progress s.

Lemma pinv_step b (W : forall i m w, hs_work (h i m) = Some w -> said w = []) a s s' :
  sinv mem h s -> pinv s -> sstep b mem h a s = SvNext s' -> pinv s'.
Proof.
  intros V Pv E. unfold pinv in *. destruct a as [| |t|ok|sent|n ok|]; cbn [sstep] in E.
  - destruct (sv_shut s); try discriminate. injection E as <-. exact Pv.
  - destruct (sv_poller s) eqn:P; try discriminate. injection E as <-. intros _. unfold settled in Pv. rewrite P in Pv.
    exact (Pv Logic.I).
  - destruct (sv_poller s) eqn:P; try discriminate. destruct t as [|w|k]; cbn [do_trigger] in E.
    + injection E as <-. intros [].
    + unfold request_callback in E. destruct (server_request mem w); [discriminate|].
      destruct (negb _); [discriminate|]. injection E as <-. intros [].
    + destruct (nth_error (sv_resps s) k) as [r|]; [|discriminate]. destruct (rp_phase r); try discriminate.
      injection E as <-. intros [].
  - destruct (sv_poller s) as [| |i [|o ops] [w|]| |] eqn:P; try discriminate; try (injection E as <-; intros []);
      apply use_state_next in E as (r & _ & _ & ->); intros [].
  - destruct (sv_poller s); try discriminate. injection E as <-. intros _ p K. cbn [sv_resps sv_progress] in *.
    apply send_some_in in K as (q & K & _ & -> & _). pose proof (i_range _ _ _ V _ K). lia.
  - destruct (nth_error (sv_tasks s) n) as [[i [|o ops]]|] eqn:Q; try discriminate; [injection E as <-; exact Pv|].
    apply use_state_next in E as (r & _ & _ & ->). destruct o as [m|]; [|exact Pv]. exfalso.
    destruct (i_task _ _ _ V _ _ (nth_error_In _ _ Q)) as (r' & w & pre & _ & Ew & El). apply W in Ew.
    rewrite El, said_app in Ew. destruct (said pre); discriminate.
  - destruct (sv_shut s); [|destruct (sv_poller s) eqn:P|destruct (sv_tasks s)|]; try discriminate; injection E as <-; try exact Pv.
Qed.
Lemma pinv_run b (W : forall i m w, hs_work (h i m) = Some w -> said w = []) l s :
  srun b mem h l sstart = SvNext s -> pinv s.
Proof.
  intros E. apply (srun_ind b mem h (fun s => sinv mem h s /\ pinv s)) with (l := l) (s := sstart) in E; [tauto| |].
  - intros a t t' [A B] K. split; [eapply sinv_step|eapply pinv_step]; eassumption.
  - split; [apply sinv_start|]. intros _ p [].
Qed.
End Server.
