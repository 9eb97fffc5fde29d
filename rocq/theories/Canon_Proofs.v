(** Specifications and lemmas for test-description validation. *)
From Coq Require Import Ascii String List NArith ZArith Bool Lia ZifyBool.
From Verif Require Import Base_Model Base_Proofs Grid_Model Grid_Proofs Canon_Model.
Import ListNotations.
Open Scope Z_scope.

(** The size the validator attributes to a service name: that of the last
    service with the name. *)
Definition size_of (l : list service_spec) (n : str) (c : Z) : Prop :=
  exists before s after, l = before ++ s :: after /\ sp_name s = n /\ get_count s = c /\
                         ~ In n (map sp_name after).

Lemma enumerate_sizes_find l n : forall c,
  map_find n (enumerate_sizes l) = Some c <-> size_of l n c.
Proof.
  unfold enumerate_sizes. induction l as [|s l IH] using rev_ind; intros c.
  - cbn. split; [discriminate|]. intros (b & s & a & E & _). destruct b; discriminate.
  - rewrite fold_left_app. cbn [fold_left].
    destruct (str_eqb_spec n (sp_name s)) as [->|N].
    + rewrite map_find_set_same. split.
      * intros [= <-]. exists l, s, []. repeat split; auto.
      * intros (b & s' & a & E & En & Ec & Hn).
        destruct a as [|x a' _] using rev_ind.
        { apply app_inj_tail in E as [_ <-]. congruence. }
        exfalso. rewrite app_comm_cons, app_assoc in E. apply app_inj_tail in E as [_ <-].
        apply Hn. rewrite map_app, in_app_iff. right. left. reflexivity.
    + rewrite map_find_set_other by exact N. rewrite IH. split.
      * intros (b & s' & a & -> & En & Ec & Hn). exists b, s', (a ++ [s]).
        rewrite <- app_assoc. repeat split; auto. rewrite map_app, in_app_iff. cbn. intros [K|[K|[]]]; [auto|congruence].
      * intros (b & s' & a & E & En & Ec & Hn).
        destruct a as [|x a' _] using rev_ind.
        { apply app_inj_tail in E as [_ <-]. congruence. }
        rewrite app_comm_cons, app_assoc in E. apply app_inj_tail in E as [-> <-].
        exists b, s', a'. repeat split; auto. intros K. apply Hn. rewrite map_app, in_app_iff. auto.
Qed.

(** The value a record field takes after applying the trace defaults. *)
Definition effective (dflt rec : option Z) (v : Z) : Prop :=
  rec = Some v \/ (rec = None /\ dflt = Some v) \/ (rec = None /\ dflt = None /\ v = 0).
Lemma effective_merged d r v : effective d r v <-> v = merged d r.
Proof. unfold effective, merged. destruct r, d; intuition congruence. Qed.

(** What validation really demands of a replay trace. *)
Definition trace_accepted (services : list service_spec) (t : replay_trace) : Prop :=
  exists c s cs ss, rt_client t = Some c /\ rt_server t = Some s /\
    size_of services c cs /\ size_of services s ss /\
    forall r, In r (rt_records t) ->
      (forall v, effective (tr_client_instance (rt_defaults t)) (tr_client_instance r) v -> v <= cs) /\
      (forall v, effective (tr_server_instance (rt_defaults t)) (tr_server_instance r) v -> v <= ss).

Lemma check_records_spec d cs ss l :
  check_records d cs ss l = None <->
  forall r, In r l ->
      (forall v, effective (tr_client_instance d) (tr_client_instance r) v -> v <= cs) /\
      (forall v, effective (tr_server_instance d) (tr_server_instance r) v -> v <= ss).
Proof.
  induction l as [|r l IH]; cbn [check_records].
  - split; [intros _ r []|reflexivity].
  - destruct (Z.ltb_spec ss (merged (tr_server_instance d) (tr_server_instance r))) as [H1|H1].
    { split; [discriminate|]. intros H. exfalso. destruct (H r (or_introl eq_refl)) as [_ H2].
      specialize (H2 _ (proj2 (effective_merged _ _ _) eq_refl)). lia. }
    destruct (Z.ltb_spec cs (merged (tr_client_instance d) (tr_client_instance r))) as [H2|H2].
    { split; [discriminate|]. intros H. exfalso. destruct (H r (or_introl eq_refl)) as [H3 _].
      specialize (H3 _ (proj2 (effective_merged _ _ _) eq_refl)). lia. }
    rewrite IH. split.
    + intros H r' [<-|Hr]; [|apply H; exact Hr].
      split; intros v Hv; apply effective_merged in Hv; lia.
    + intros H r' Hr. apply H. right. exact Hr.
Qed.

Lemma size_of_det l n c1 c2 : size_of l n c1 -> size_of l n c2 -> c1 = c2.
Proof. rewrite <- !enumerate_sizes_find. congruence. Qed.

Lemma validate_trace_spec services t :
  validate_trace (enumerate_sizes services) t = None <-> trace_accepted services t.
Proof.
  unfold validate_trace, trace_accepted.
  destruct (rt_client t) as [c|]; [|split; [discriminate|intros (?&?&?&?&K&_); discriminate]].
  destruct (rt_server t) as [s|]; [|split; [discriminate|intros (?&?&?&?&_&K&_); discriminate]].
  destruct (map_find c (enumerate_sizes services)) as [cs|] eqn:Ec.
  2:{ split; [discriminate|]. intros (c'&s'&cs&ss&K&_&K2&_). injection K as <-.
      apply enumerate_sizes_find in K2. congruence. }
  destruct (map_find s (enumerate_sizes services)) as [ss|] eqn:Es.
  2:{ split; [discriminate|]. intros (c'&s'&cs'&ss&_&K&_&K2&_). injection K as <-.
      apply enumerate_sizes_find in K2. congruence. }
  rewrite check_records_spec. split.
  - intros H. exists c, s, cs, ss. rewrite <- !enumerate_sizes_find. auto.
  - intros (c'&s'&cs'&ss'&[= <-]&[= <-]&K1&K2&H). apply enumerate_sizes_find in K1, K2.
    assert (cs' = cs) as -> by congruence. assert (ss' = ss) as -> by congruence. exact H.
Qed.

Definition known_distribution (n : str) : Prop :=
  n = s_ "" \/ n = s_ "constant" \/ n = s_ "exponential" \/ n = s_ "sync_burst" \/ n = s_ "sync_burst_spread".
Lemma known_distribution_spec n : existsb (str_eqb n) allowed_distributions = true <-> known_distribution n.
Proof.
  unfold allowed_distributions, known_distribution. cbn [existsb].
  rewrite !orb_true_iff.
  repeat match goal with |- context [str_eqb n ?x = true] =>
    let H := fresh in assert (H : str_eqb n x = true <-> n = x) by (destruct (str_eqb_spec n x); split; congruence);
    rewrite H; clear H end.
  intuition discriminate.
Qed.

Definition action_ok (a : action_desc) : Prop :=
  forall d, ad_iterations a = Some d -> forall n, d = Some n -> known_distribution n.
Lemma validate_action_spec a : validate_action a = None <-> action_ok a.
Proof.
  unfold validate_action, action_ok. destruct (ad_iterations a) as [d|]; [|split; [discriminate|reflexivity]].
  destruct (existsb (str_eqb (distribution_of d)) allowed_distributions) eqn:E.
  - split; [|reflexivity]. intros _ d' [= <-] n ->. apply known_distribution_spec. exact E.
  - split; [discriminate|]. intros H. exfalso. destruct d as [n|]; [|discriminate E].
    specialize (H _ eq_refl n eq_refl). apply known_distribution_spec in H. cbn [distribution_of] in E. congruence.
Qed.

Lemma validate_predicate_spec n : validate_predicate n = None <-> n <> [] /\ n <> s_ "!".
Proof.
  unfold validate_predicate. destruct (starts_with (s_ "!") n) eqn:E.
  - apply starts_with_spec in E as [r E]. split; [discriminate|]. intros [H1 H2]. exfalso.
    destruct n as [|c n]; [auto|]. injection E as <- E. destruct n; [auto|discriminate].
  - split; [|reflexivity]. intros _.
    assert (K : forall r, s_ "!" <> n ++ r).
    { intros r Hr. assert (starts_with (s_ "!") n = true) by (apply starts_with_spec; eauto). congruence. }
    split; intros ->.
    + apply (K (s_ "!")). reflexivity.
    + apply (K []). reflexivity.
Qed.

Lemma first_error_spec {A} (f : A -> option verr) l : first_error f l = None <-> forall a, In a l -> f a = None.
Proof.
  induction l as [|a l IH]; cbn [first_error]; [split; [intros _ a []|reflexivity]|].
  destruct (f a) eqn:E.
  - split; [discriminate|]. intros H. rewrite <- E. symmetry. apply eq_sym. apply H. left. reflexivity.
  - rewrite IH. split; [intros H b [<-|Hb]; auto|intros H b Hb; apply H; right; exact Hb].
Qed.

Lemma canon_services_spec l l' :
  canon_services l = VOk l' <-> Forall2 (fun s s' => canonical_spec s = CanonOk s') l l'.
Proof.
  revert l'. induction l as [|s l IH]; intros l'; cbn [canon_services].
  - split; [intros [= <-]; constructor|intros H; inversion H; reflexivity].
  - destruct (canonical_spec s) as [|e|s'] eqn:E.
    + split; [discriminate|]. intros H. inversion H; subst. congruence.
    + split; [discriminate|]. intros H. inversion H; subst. congruence.
    + destruct (canon_services l) as [|e|r] eqn:Er.
      * split; [discriminate|]. intros H. inversion H; subst.
        match goal with K : Forall2 _ l ?r |- _ => apply IH in K; discriminate end.
      * split; [discriminate|]. intros H. inversion H; subst.
        match goal with K : Forall2 _ l ?r |- _ => apply IH in K; discriminate end.
      * split.
        -- intros [= <-]. constructor; [exact E|]. apply IH. reflexivity.
        -- intros H. inversion H; subst.
           match goal with K : Forall2 _ l ?r |- _ => apply IH in K end. congruence.
Qed.

(** Validation as a whole. *)
Definition dsd_accepted (d : dsd) : Prop :=
  (forall t, In t (d_traces d) -> trace_accepted (d_services d) t) /\
  (forall a, In a (d_actions d) -> action_ok a) /\
  (forall al p, In al (d_action_lists d) -> In p (al_predicates al) -> p <> [] /\ p <> s_ "!").

Definition dsd_completes (d d' : dsd) : Prop :=
  Forall2 completes (d_services d) (d_services d') /\
  d_traces d' = d_traces d /\ d_actions d' = d_actions d /\
  d_action_lists d' = d_action_lists d /\ d_rest d' = d_rest d.

Lemma canonical_dsd_iff d d' :
  canonical_dsd d = VOk d' <->
  dsd_accepted d /\ Forall2 (fun s s' => canonical_spec s = CanonOk s') (d_services d) (d_services d') /\
  d_traces d' = d_traces d /\ d_actions d' = d_actions d /\
  d_action_lists d' = d_action_lists d /\ d_rest d' = d_rest d.
Proof.
  unfold canonical_dsd, dsd_accepted.
  assert (HT : first_error (validate_trace (enumerate_sizes (d_services d))) (d_traces d) = None <->
               forall t, In t (d_traces d) -> trace_accepted (d_services d) t).
  { rewrite first_error_spec. split; intros H t Ht; apply validate_trace_spec; auto. }
  assert (HA : first_error validate_action (d_actions d) = None <-> forall a, In a (d_actions d) -> action_ok a).
  { rewrite first_error_spec. split; intros H t Ht; apply validate_action_spec; auto. }
  assert (HP : first_error validate_predicate (flat_map al_predicates (d_action_lists d)) = None <->
               forall al p, In al (d_action_lists d) -> In p (al_predicates al) -> p <> [] /\ p <> s_ "!").
  { rewrite first_error_spec. split.
    - intros H al p Hal Hp. apply validate_predicate_spec. apply H. apply in_flat_map. eauto.
    - intros H p Hp. apply in_flat_map in Hp as (al & Hal & Hp). apply validate_predicate_spec. eauto. }
  destruct (canon_services (d_services d)) as [|e|sv] eqn:ES.
  - split; [discriminate|]. intros (_ & H & _). apply canon_services_spec in H. congruence.
  - split; [discriminate|]. intros (_ & H & _). apply canon_services_spec in H. congruence.
  - destruct (first_error (validate_trace _) _) eqn:ET.
    { split; [discriminate|]. intros ((H & _) & _). apply HT in H. congruence. }
    destruct (first_error validate_action _) eqn:EA.
    { split; [discriminate|]. intros ((_ & H & _) & _). apply HA in H. congruence. }
    destruct (first_error validate_predicate _) eqn:EP.
    { split; [discriminate|]. intros ((_ & _ & H) & _). apply HP in H. congruence. }
    split.
    + intros [= <-]. cbn [d_services d_traces d_actions d_action_lists d_rest].
      split; [tauto|]. split; [apply canon_services_spec; exact ES|auto].
    + intros (_ & H & E1 & E2 & E3 & E4). apply canon_services_spec in H.
      destruct d'; cbn in *. congruence.
Qed.

Lemma services_complete l : Forall acceptable l -> Forall fits l ->
  exists sv, Forall2 (fun s s' => canonical_spec s = CanonOk s') l sv.
Proof.
  induction l as [|s l IH]; intros A Fi; [exists []; constructor|].
  apply Forall_cons_iff in A as [A1 A]. apply Forall_cons_iff in Fi as [F1 Fi].
  destruct (IH A Fi) as [sv F]. destruct (canonical_spec_complete s A1 F1) as [s' E].
  exists (s' :: sv). constructor; assumption.
Qed.

Lemma canonical_dsd_spec d :
  (forall d', canonical_dsd d = VOk d' ->
     dsd_accepted d /\ Forall acceptable (d_services d) /\ dsd_completes d d') /\
  (dsd_accepted d -> Forall acceptable (d_services d) -> Forall fits (d_services d) ->
     exists d', canonical_dsd d = VOk d').
Proof.
  split.
  - intros d' E. apply canonical_dsd_iff in E as (H & F & E1 & E2 & E3 & E4).
    split; [exact H|]. split.
    + clear -F. induction F; constructor; auto. apply (canonical_spec_sound _ _ H).
    + split; [|auto]. clear -F. induction F; constructor; auto. apply (canonical_spec_sound _ _ H).
  - intros H A Fi.
    destruct (services_complete _ A Fi) as [sv F].
    exists (mkDsd sv (d_traces d) (d_actions d) (d_action_lists d) (d_rest d)).
    apply canonical_dsd_iff. cbn. split; [exact H|]. split; [exact F|]. auto.
Qed.

Lemma canonical_tests_spec l l' :
  canonical_tests l = VOk l' <-> Forall2 (fun d d' => canonical_dsd d = VOk d') l l'.
Proof.
  revert l'. induction l as [|d l IH]; intros l'; cbn [canonical_tests].
  - split; [intros [= <-]; constructor|intros H; inversion H; reflexivity].
  - destruct (canonical_dsd d) as [|e|d'] eqn:E.
    + split; [discriminate|]. intros H. inversion H; subst. congruence.
    + split; [discriminate|]. intros H. inversion H; subst. congruence.
    + destruct (canonical_tests l) as [|e|r] eqn:Er.
      * split; [discriminate|]. intros H. inversion H; subst.
        match goal with K : Forall2 _ l ?r |- _ => apply IH in K; discriminate end.
      * split; [discriminate|]. intros H. inversion H; subst.
        match goal with K : Forall2 _ l ?r |- _ => apply IH in K; discriminate end.
      * split.
        -- intros [= <-]. constructor; [exact E|]. apply IH. reflexivity.
        -- intros H. inversion H; subst.
           match goal with K : Forall2 _ l ?r |- _ => apply IH in K end. congruence.
Qed.

Definition test_valid (d : dsd) : Prop := dsd_accepted d /\ Forall acceptable (d_services d).

Lemma canonical_sequence_spec t :
  (forall t', canonical_sequence t = VOk t' ->
     Forall test_valid (ts_tests t) /\ Forall2 dsd_completes (ts_tests t) (ts_tests t') /\
     (forall s, ts_settings t = Some s -> ts_settings t' = Some s)) /\
  (Forall test_valid (ts_tests t) -> Forall (fun d => Forall fits (d_services d)) (ts_tests t) ->
     exists t', canonical_sequence t = VOk t').
Proof.
  unfold canonical_sequence. split.
  - intros t'. destruct (canonical_tests (ts_tests t)) as [|e|l] eqn:E; try discriminate.
    intros [= <-]. cbn [ts_tests ts_settings]. apply canonical_tests_spec in E.
    split; [|split; [|intros s ->; reflexivity]].
    + clear -E. induction E as [|d d' l l' H E IH]; constructor; auto.
      destruct (proj1 (canonical_dsd_spec d) d' H) as (A & B & _). split; assumption.
    + clear -E. induction E as [|d d' l l' H E IH]; constructor; auto.
      apply (proj1 (canonical_dsd_spec d) d' H).
  - intros V F.
    assert (exists l', Forall2 (fun d d' => canonical_dsd d = VOk d') (ts_tests t) l') as [l' H].
    { revert V F. generalize (ts_tests t). induction l as [|d l IH]; intros V F; [exists []; constructor|].
      apply Forall_cons_iff in V as [[V1 V2] V]. apply Forall_cons_iff in F as [F1 F].
      destruct (IH V F) as [l' H]. destruct (proj2 (canonical_dsd_spec d) V1 V2 F1) as [d' E].
      exists (d' :: l'). constructor; assumption. }
    apply canonical_tests_spec in H. rewrite H. eauto.
Qed.
