(** Logs, termination and progress of the life of an engine. *)
From Coq Require Import List Bool Arith Lia.
From Verif Require Import Engine_Model Engine_Proofs.
Import ListNotations.

Definition merged_phase (p : rphase) : Prop := p = RMerged \/ p = RGone.
Definition merges (l : list eevent) : list nat := flat_map (fun e => match e with EMerge r => [r] | _ => [] end) l.

Record linv (s : engine_state) : Prop := {
  l_iff : forall r, In r (eg_logs s) <-> exists x, nth_error (eg_runs s) r = Some x /\ merged_phase (ru_phase x);
  l_nodup : NoDup (eg_logs s) }.
Lemma linv0 : linv engine0.
Proof. split; cbn; [|constructor]. intros r. split; [easy|]. intros (x & X & _). destruct r; discriminate. Qed.

Lemma linv_same : forall s s', linv s -> eg_logs s' = eg_logs s -> eg_runs s' = eg_runs s -> linv s'.
Proof. intros s s' [A B] E F. split; rewrite ?E, ?F; auto. Qed.
Lemma linv_new : forall s s' x, linv s -> eg_logs s' = eg_logs s -> eg_runs s' = eg_runs s ++ [x] -> ~ merged_phase (ru_phase x) -> linv s'.
Proof.
  intros s s' x [A B] E F N. split; rewrite ?E, ?F; auto. intros r. rewrite A. split; intros (y & Y & M).
  - exists y. split; auto using snoc_old.
  - destruct (snoc_nth _ _ _ _ Y) as [[_ O]|[_ ->]]; [eauto|contradiction].
Qed.
Lemma linv_upd : forall s s' r x p, linv s -> nth_error (eg_runs s) r = Some x -> eg_logs s' = eg_logs s ->
  eg_runs s' = upd r (mkRun (ru_origin x) p) (eg_runs s) -> (merged_phase (ru_phase x) <-> merged_phase p) -> linv s'.
Proof.
  intros s s' r x p [A B] X E F N. split; rewrite ?E, ?F; auto. intros q. rewrite A.
  destruct (Nat.eq_dec q r) as [->|D].
  - rewrite upd_same by (eapply nth_lt; eauto). split; intros (y & Y & M).
    + exists (mkRun (ru_origin x) p). split; auto. cbn. apply N. congruence.
    + exists x. split; auto. apply N. injection Y as <-. exact M.
  - rewrite upd_other by auto. reflexivity.
Qed.
Lemma linv_merge : forall s s' r x, linv s -> nth_error (eg_runs s) r = Some x -> ru_phase x = RFreed -> eg_logs s' = eg_logs s ++ [r] ->
  eg_runs s' = upd r (mkRun (ru_origin x) RMerged) (eg_runs s) -> linv s'.
Proof.
  intros s s' r x [A B] X P E F. split; rewrite ?E, ?F.
  - intros q. rewrite in_app_iff. cbn. destruct (Nat.eq_dec q r) as [->|D].
    + rewrite upd_same by (eapply nth_lt; eauto). split; auto. intros _. exists (mkRun (ru_origin x) RMerged). split; auto. left. reflexivity.
    + rewrite upd_other by auto. rewrite A. intuition congruence.
  - assert (~ In r (eg_logs s)).
    { rewrite A. intros (y & Y & [M|M]); congruence. }
    clear - B H. induction (eg_logs s) as [|y l IH]; cbn.
    + constructor; [easy|constructor].
    + inversion B; subst. constructor.
      * rewrite in_app_iff. cbn. intros [I|[I|[]]]; auto. apply H. left. auto.
      * apply IH; auto. intros I. apply H. right. auto.
Qed.
Lemma phase_logs : forall r p s, eg_logs (run_phase r p s) = eg_logs s.
Proof. intros. unfold run_phase. destruct (nth_error _ _); reflexivity. Qed.
Lemma phase_runs : forall r p s x, nth_error (eg_runs s) r = Some x -> eg_runs (run_phase r p s) = upd r (mkRun (ru_origin x) p) (eg_runs s).
Proof. intros. unfold run_phase. rewrite H. reflexivity. Qed.
Lemma unit_logs : forall u p s, eg_logs (unit_phase u p s) = eg_logs s /\ eg_runs (unit_phase u p s) = eg_runs s.
Proof. intros. unfold unit_phase. destruct (nth_error _ _); split; reflexivity. Qed.
Lemma dtor_logs : forall s s', destructor_step s = Some s' -> eg_logs s' = eg_logs s /\ eg_runs s' = eg_runs s /\ eg_reports s' = eg_reports s /\ eg_crashed s' = eg_crashed s.
Proof.
  intros s s' E. unfold destructor_step in E.
  repeat match type of E with context [match ?x with _ => _ end] => destruct x; try discriminate | context [if ?x then _ else _] => destruct x; try discriminate end;
    injection E as <-; repeat split; reflexivity.
Qed.
Ltac unm := unfold merged_phase; cbn; intuition discriminate.
Lemma linv_step : forall e s s', linv s -> engine_step e s = Some s' -> linv s'.
Proof.
  intros e s s' H E. unfold engine_step in E. destruct (eg_crashed s); [discriminate|].
  destruct e.
  - destruct (eg_phase s); try discriminate. destruct (eg_main s); injection E as <-.
    + eapply linv_same; eauto.
    + eapply linv_new; eauto; [reflexivity|unm].
  - destruct (eg_phase s); try discriminate. destruct (eg_main s) as [r|]; [|discriminate].
    destruct (nth_error (eg_runs s) r) as [x|]; [|discriminate]. destruct (gone x); [|discriminate].
    injection E as <-. eapply linv_same; eauto.
  - destruct (_ <=? _); [|discriminate]. injection E as <-. eapply linv_same; eauto.
  - destruct (eg_setups s); [discriminate|]. injection E as <-. eapply linv_same; eauto.
  - destruct (_ <=? _); [|discriminate]. destruct dedicated; injection E as <-; eapply linv_new; eauto; try reflexivity; unm.
  - destruct (nth_error (eg_runs s) r) as [[o []]|] eqn:X; try discriminate. injection E as <-.
    eapply linv_upd; eauto using phase_logs, phase_runs. unm.
  - destruct (nth_error (eg_runs s) r) as [[o []]|] eqn:X; try discriminate. injection E as <-.
    destruct k; [eapply linv_same; eauto|eapply linv_new; eauto; [reflexivity|unm]].
  - destruct (nth_error (eg_units s) u) as [[r a k []]|] eqn:X; try discriminate.
    destruct (forallb _ _) eqn:F; [|discriminate]. injection E as <-. eapply linv_same; eauto; apply unit_logs.
  - destruct (nth_error (eg_units s) u) as [[r a k []]|] eqn:X; try discriminate. injection E as <-. eapply linv_same; eauto; apply unit_logs.
  - destruct (nth_error (eg_units s) u) as [[r a k []]|] eqn:X; try discriminate. injection E as <-. eapply linv_same; eauto; apply unit_logs.
  - destruct (nth_error (eg_units s) u) as [[r a k []]|] eqn:X; try discriminate. injection E as <-. eapply linv_same; eauto; apply unit_logs.
  - destruct (nth_error (eg_runs s) r) as [[o [|[]| | |]]|] eqn:X; try discriminate. injection E as <-.
    eapply linv_upd; eauto using phase_logs, phase_runs. unm.
  - destruct (nth_error (eg_runs s) r) as [[o []]|] eqn:X; try discriminate.
    destruct (existsb _ _); [discriminate|]. injection E as <-.
    eapply linv_upd; eauto using phase_logs, phase_runs. unm.
  - destruct (nth_error (eg_runs s) r) as [[o []]|] eqn:X; try discriminate. injection E as <-.
    eapply linv_merge; [exact H|exact X|reflexivity|reflexivity|]. apply (phase_runs _ _ _ _ X).
  - destruct (nth_error (eg_runs s) r) as [[o []]|] eqn:X; try discriminate. injection E as <-.
    eapply (linv_upd s _ r _ RGone H X).
    + destruct o; cbn; apply phase_logs.
    + destruct o; cbn; apply (phase_runs _ _ _ _ X).
    + unm.
  - destruct (eg_phase s); try discriminate. injection E as <-. eapply linv_same; eauto.
  - destruct (eg_phase s); try discriminate. injection E as <-. eapply linv_same; eauto.
  - destruct (dtor_logs _ _ E) as (A & B & _). eapply linv_same; eauto.
Qed.
Lemma linv_all : forall l s s', linv s -> engine_run_all l s = Some s' -> linv s'.
Proof.
  induction l as [|e l IH]; cbn; intros s s' H E; [injection E as <-; auto|].
  destruct (engine_step e s) eqn:X; [|discriminate]. eapply IH; [|eauto]. eapply linv_step; eauto.
Qed.

(** One event: what it adds to the logs and the reports. *)
Lemma step_logs : forall e s s', engine_step e s = Some s' ->
  eg_logs s' = eg_logs s ++ merges [e] /\
  eg_reports s' = eg_reports s ++ match e with EGetLogs => [eg_logs s] | _ => [] end.
Proof.
  intros e s s' E. unfold engine_step in E. destruct (eg_crashed s); [discriminate|].
  assert (RP : forall r p, eg_reports (run_phase r p s) = eg_reports s) by (intros; unfold run_phase; destruct (nth_error _ _); reflexivity).
  assert (RL := fun r p => phase_logs r p s).
  assert (UP : forall r p, eg_reports (unit_phase r p s) = eg_reports s) by (intros; unfold unit_phase; destruct (nth_error _ _); reflexivity).
  assert (UL := fun r p => proj1 (unit_logs r p s)).
  destruct e; cbn [merges flat_map]; rewrite ?app_nil_r.
  16: { destruct (eg_phase s); try discriminate. injection E as <-. cbn. auto. }
  17: { destruct (dtor_logs _ _ E) as (A & _ & B & _). auto. }
  14: { destruct (nth_error (eg_runs s) r) as [[o []]|]; try discriminate. injection E as <-. cbn. rewrite RP. auto. }
  all: repeat match type of E with
       | context [match nth_error ?l ?x with _ => _ end] => destruct (nth_error l x) as [[]|] eqn:?; try discriminate
       | context [match ?x with _ => _ end] => destruct x; try discriminate
       end; injection E as <-; cbn; rewrite ?RP, ?RL, ?UP, ?UL; auto.
Qed.
Lemma run_app_e : forall l1 l2 s, engine_run_all (l1 ++ l2) s =
  match engine_run_all l1 s with Some s1 => engine_run_all l2 s1 | None => None end.
Proof. induction l1; cbn; intros; auto. destruct (engine_step a s); auto. Qed.
Lemma run_logs : forall l s s', engine_run_all l s = Some s' ->
  eg_logs s' = eg_logs s ++ merges l /\ exists more, eg_reports s' = eg_reports s ++ more.
Proof.
  induction l as [|e l IH]; cbn; intros s s' E.
  - injection E as <-. rewrite app_nil_r. split; auto. exists []. rewrite app_nil_r. auto.
  - destruct (engine_step e s) as [s1|] eqn:X; [|discriminate]. destruct (IH _ _ E) as (A & m & B).
    destruct (step_logs _ _ _ X) as (C & D). rewrite A, B, C, D. cbn. rewrite app_nil_r, <- !app_assoc. split; auto. eauto.
Qed.

(** Progress of the destructor. *)
Definition uw (p : uphase) : nat := match p with UOpen => 3 | UTail | ULast => 2 | UBack => 1 | UGone => 0 end.
Definition rw (p : rphase) : nat := match p with RQueued => 4 | RRunning _ => 3 | RFreed => 2 | RMerged => 1 | RGone => 0 end.
Definition sumu (l : list unitrec) : nat := fold_right (fun x n => uw (un_phase x) + n) 0 l.
Definition sumr (l : list runrec) : nat := fold_right (fun x n => rw (ru_phase x) + n) 0 l.
Definition left_to_do (s : engine_state) : nat := sumu (eg_units s) + sumr (eg_runs s) + eg_setups s + (7 - rank (eg_phase s)).
Lemma sumu_upd : forall l k x y, nth_error l k = Some x -> sumu (upd k y l) + uw (un_phase x) = sumu l + uw (un_phase y).
Proof. induction l; destruct k; cbn; intros; try discriminate; [injection H as ->; lia|]. specialize (IHl _ _ y H). unfold sumu, sumr in *. lia. Qed.
Lemma sumr_upd : forall l k x y, nth_error l k = Some x -> sumr (upd k y l) + rw (ru_phase x) = sumr l + rw (ru_phase y).
Proof. induction l; destruct k; cbn; intros; try discriminate; [injection H as ->; lia|]. specialize (IHl _ _ y H). unfold sumu, sumr in *. lia. Qed.

Lemma unit_less : forall s u x p, nth_error (eg_units s) u = Some x -> uw p < uw (un_phase x) ->
  left_to_do (unit_phase u p s) < left_to_do s /\ eg_crashed (unit_phase u p s) = eg_crashed s /\ eg_phase (unit_phase u p s) = eg_phase s.
Proof.
  intros s u x p E L. unfold unit_phase. rewrite E. unfold left_to_do. cbn [with_units with_runs eg_units eg_runs eg_setups eg_phase eg_crashed].
  pose proof (sumu_upd _ _ _ (mkUnit (un_run x) (un_action x) (un_kind x) p) E). cbn [un_phase] in H. repeat split; auto. lia.
Qed.
Lemma run_less : forall s r x p, nth_error (eg_runs s) r = Some x -> rw p < rw (ru_phase x) ->
  left_to_do (run_phase r p s) < left_to_do s /\ eg_crashed (run_phase r p s) = eg_crashed s /\ eg_phase (run_phase r p s) = eg_phase s.
Proof.
  intros s r x p E L. unfold run_phase. rewrite E. unfold left_to_do. cbn [with_units with_runs eg_units eg_runs eg_setups eg_phase eg_crashed].
  pose proof (sumr_upd _ _ _ (mkRun (ru_origin x) p) E). cbn [ru_phase] in H. repeat split; auto. lia.
Qed.

Definition moving (p : uphase) : bool := match p with UTail | ULast | UBack => true | _ => false end.
Definition ready (p : rphase) : bool := match p with RQueued | RFreed | RMerged => true | _ => false end.
Lemma find_nth {A} : forall (f : A -> bool) l, (exists k x, nth_error l k = Some x /\ f x = true) \/ (forall x, In x l -> f x = false).
Proof.
  induction l as [|y l IH]; [right; easy|]. destruct (f y) eqn:F; [left; exists 0, y; auto|].
  destruct IH as [(k & x & E & G)|N]; [left; exists (S k), x; auto|].
  right. intros x [<-|I]; auto.
Qed.
Lemma last_nth {A} : forall (f : A -> bool) l, (forall x, In x l -> f x = false) \/
  exists k x, nth_error l k = Some x /\ f x = true /\ forall j y, k < j -> nth_error l j = Some y -> f y = false.
Proof.
  induction l as [|y l IH]; [left; easy|]. destruct IH as [N|(k & x & E & F & L)].
  - destruct (f y) eqn:F.
    + right. exists 0, y. repeat split; auto. intros [|j] z Lt Z; [lia|]. apply N. eapply nth_error_In; eauto.
    + left. intros x [<-|I]; auto.
  - right. exists (S k), x. repeat split; auto. intros [|j] z Lt Z; [lia|]. eapply L; [|exact Z]. lia.
Qed.

Lemma can_move : forall s, inv s -> eg_crashed s = false -> eg_phase s <> DNo -> eg_phase s <> DGone ->
  exists e s', engine_step e s = Some s' /\ left_to_do s' < left_to_do s /\ eg_crashed s' = false /\ eg_phase s' <> DNo.
Proof.
  intros s H C P0 P1.
  destruct (find_nth (fun v => moving (un_phase v)) (eg_units s)) as [(u & [r a k p] & U & M)|NU].
  { destruct p; try discriminate M.
    - exists (EFree u), (unit_phase u UBack s). destruct (unit_less s u _ UBack U) as (A & B & D); [cbn; lia|].
      rewrite B, D. unfold engine_step. rewrite C, U. auto.
    - exists (ECallback u), (unit_phase u UBack s). destruct (unit_less s u _ UBack U) as (A & B & D); [cbn; lia|].
      rewrite B, D. unfold engine_step. rewrite C, U. auto.
    - exists (ERelease u), (unit_phase u UGone s). destruct (unit_less s u _ UGone U) as (A & B & D); [cbn; lia|].
      rewrite B, D. unfold engine_step. rewrite C, U. auto. }
  destruct (find_nth (fun x => ready (ru_phase x)) (eg_runs s)) as [(r & [o p] & R & M)|NR].
  { destruct p; try discriminate M.
    - exists (EStart r), (run_phase r (RRunning false) s). destruct (run_less s r _ (RRunning false) R) as (A & B & D); [cbn; lia|].
      rewrite B, D. unfold engine_step. rewrite C, R. auto.
    - exists (EMerge r), (with_logs (eg_logs s ++ [r]) (run_phase r RMerged s)). destruct (run_less s r _ RMerged R) as (A & B & D); [cbn; lia|].
      unfold engine_step. cbn [with_logs eg_crashed eg_phase]. rewrite B, D, C, R. auto.
    - destruct (run_less s r _ RGone R) as (A & B & D); [cbn; lia|].
      exists (EReturn r). unfold engine_step. rewrite C, R. eexists. split; [reflexivity|].
      assert (W : forall n x, left_to_do (with_detached n x) = left_to_do x) by reflexivity.
      destruct o; rewrite ?W; cbn [with_detached eg_crashed eg_phase]; rewrite ?B, ?D; auto. }
  destruct (last_nth (fun x => match ru_phase x with RRunning _ => true | _ => false end) (eg_runs s)) as [NA|(r & [o p] & R & M & LA)].
  2:{ destruct p; try discriminate M.
      destruct (existsb (holds r) (eg_units s)) eqn:X.
      - apply existsb_exists in X. destruct X as (v & I & Hv). unfold holds in Hv. apply andb_prop in Hv. destruct Hv as [Hr Hp].
        apply Nat.eqb_eq in Hr. pose proof (NU v I) as NV.
        assert (PV : un_phase v = UOpen) by (destruct (un_phase v); auto; discriminate).
        destruct (In_nth_error _ _ I) as [u U]. destruct v as [r' a k p]. cbn in *. subst r' p.
        assert (F : forallb (fun x => negb (for_unit u x) || gone x) (eg_runs s) = true).
        { apply forallb_forall. intros x Ix. destruct (for_unit u x) eqn:FU; auto. cbn.
          unfold for_unit in FU. destruct (ru_origin x) eqn:Ox; try discriminate. apply Nat.eqb_eq in FU. subst u0.
          destruct (In_nth_error _ _ Ix) as [q Q]. destruct (i_nested s H _ _ _ Q Ox) as (w & W & K & Lt & _).
          rewrite U in W. injection W as <-. cbn in Lt. pose proof (LA _ _ Lt Q) as N1. pose proof (NR _ Ix) as N2.
          unfold gone. destruct (ru_phase x); auto; discriminate. }
        exists (ECount u false), (unit_phase u UTail s). destruct (unit_less s u _ UTail U) as (A & B & D); [cbn; lia|].
        rewrite B, D. unfold engine_step. rewrite C, U, F. auto.
      - exists (EFinish r), (run_phase r RFreed s). destruct (run_less s r _ RFreed R) as (A & B & D); [cbn; lia|].
        rewrite B, D. unfold engine_step. rewrite C, R, X. auto. }
  assert (AG : forall x, In x (eg_runs s) -> ru_phase x = RGone).
  { intros x I. pose proof (NR x I). pose proof (NA x I). destruct (ru_phase x); auto; discriminate. }
  assert (UG : forall v, In v (eg_units s) -> un_phase v = UGone).
  { intros v I. destruct (In_nth_error _ _ I) as [u U]. pose proof (NU v I) as M. destruct (un_phase v) eqn:PV; auto; try discriminate.
    destruct (i_holds s H _ _ U (or_introl PV)) as (x & b & X & B). rewrite (AG x) in B by (eapply nth_error_In; eauto). discriminate. }
  destruct (eg_setups s) as [|n] eqn:S0.
  2:{ exists ESetupEnd, (with_setups n s). unfold engine_step. rewrite C, S0. unfold left_to_do. cbn [with_setups eg_units eg_runs eg_setups eg_phase eg_crashed]. rewrite S0. repeat split; auto. lia. }
  assert (K : exists s', destructor_step s = Some s' /\ left_to_do s' < left_to_do s /\ eg_phase s' <> DNo).
  { unfold destructor_step. destruct (eg_phase s) eqn:P; try congruence.
    - destruct (eg_main s) as [r|] eqn:M.
      + destruct (i_mainlt s H _ M) as (x & X & Ox). rewrite X. rewrite (proj2 (gone_iff x) (AG x (nth_error_In _ _ X))).
        eexists. split; [reflexivity|]. unfold left_to_do. cbn [with_phase with_main eg_units eg_runs eg_setups eg_phase]. rewrite P. cbn [rank]. split; [lia|discriminate].
      + eexists. split; [reflexivity|]. unfold left_to_do. cbn [with_phase with_main eg_units eg_runs eg_setups eg_phase]. rewrite P. cbn [rank]. split; [lia|discriminate].
    - rewrite S0. cbn. eexists. split; [reflexivity|]. unfold left_to_do. cbn [with_phase with_main eg_units eg_runs eg_setups eg_phase]. rewrite P. cbn [rank]. split; [lia|discriminate].
    - replace (existsb (fun x => is_inline x && negb (gone x)) (eg_runs s)) with false.
      + eexists. split; [reflexivity|]. unfold left_to_do. cbn [with_phase with_main eg_units eg_runs eg_setups eg_phase]. rewrite P. cbn [rank]. split; [lia|discriminate].
      + symmetry. apply Bool.not_true_is_false. intros X. apply existsb_exists in X. destruct X as (x & I & X).
        rewrite (proj2 (gone_iff x) (AG x I)), andb_false_r in X. discriminate.
    - replace (eg_detached s) with 0.
      + cbn. eexists. split; [reflexivity|]. unfold left_to_do. cbn [with_phase with_main eg_units eg_runs eg_setups eg_phase]. rewrite P. cbn [rank]. split; [lia|discriminate].
      + rewrite (i_count s H). unfold count. symmetry. clear - AG. induction (eg_runs s) as [|y l IH]; auto. cbn.
        replace (detached_alive y) with false; [apply IH; intros; apply AG; right; auto|].
        unfold detached_alive. rewrite (proj2 (gone_iff y) (AG y (or_introl eq_refl))). destruct (ru_origin y); reflexivity.
    - replace (existsb (fun x => is_rpc x && negb (over x)) (eg_units s)) with false.
      + eexists. split; [reflexivity|]. unfold left_to_do. cbn [with_phase with_main eg_units eg_runs eg_setups eg_phase]. rewrite P. cbn [rank]. split; [lia|discriminate].
      + symmetry. apply Bool.not_true_is_false. intros X. apply existsb_exists in X. destruct X as (x & I & X).
        rewrite (proj2 (over_iff x) (UG x I)), andb_false_r in X. discriminate.
    - replace (existsb (fun x => negb (is_rpc x) && negb (over x)) (eg_units s)) with false.
      + eexists. split; [reflexivity|]. unfold left_to_do. cbn [with_phase with_main eg_units eg_runs eg_setups eg_phase]. rewrite P. cbn [rank]. split; [lia|discriminate].
      + symmetry. apply Bool.not_true_is_false. intros X. apply existsb_exists in X. destruct X as (x & I & X).
        rewrite (proj2 (over_iff x) (UG x I)), andb_false_r in X. discriminate. }
  destruct K as (s' & E & Lt & Np). exists EDtor, s'. unfold engine_step. rewrite C. split; [exact E|].
  destruct (dtor_logs _ _ E) as (_ & _ & _ & Cr). rewrite Cr. auto.
Qed.
Lemma finishes : forall n s, left_to_do s <= n -> inv s -> eg_crashed s = false -> eg_phase s <> DNo ->
  exists l s', engine_run_all l s = Some s' /\ eg_phase s' = DGone /\ length l <= n.
Proof.
  induction n as [|n IH]; intros s Ln H C P.
  - exists [], s. split; auto. split; auto. unfold left_to_do in Ln. destruct (eg_phase s); auto; cbn in Ln; lia.
  - destruct (eg_phase s) eqn:D; try congruence.
    7:{ exists [], s. split; [reflexivity|]. split; [auto|cbn; lia]. }
    all: destruct (can_move s H C) as (e & s1 & E & Lt & C1 & P1); try congruence;
      destruct (IH s1) as (l & s2 & R & G & Len); try lia; auto; try (eapply inv_step; eauto);
      exists (e :: l), s2; cbn; rewrite E; repeat split; auto; lia.
Qed.

(** std::terminate. *)
Lemma main_step : forall e s s', engine_step e s = Some s' -> e <> EMain -> e <> EJoin ->
  eg_crashed s' = eg_crashed s /\ (rank (eg_phase s') <= 1 -> eg_main s' = eg_main s).
Proof.
  intros e s s' E N1 N2. unfold engine_step in E. destruct (eg_crashed s) eqn:C; [discriminate|].
  assert (RC : forall r p, eg_crashed (run_phase r p s) = eg_crashed s /\ eg_main (run_phase r p s) = eg_main s) by (intros; unfold run_phase; destruct (nth_error _ _); auto).
  assert (UC : forall r p, eg_crashed (unit_phase r p s) = eg_crashed s /\ eg_main (unit_phase r p s) = eg_main s) by (intros; unfold unit_phase; destruct (nth_error _ _); auto).
  destruct e; try congruence.
  16:{ destruct (dtor_logs _ _ E) as (_ & _ & _ & Cr). rewrite Cr. split; auto. intros R. unfold destructor_step in E.
       repeat match type of E with context [match ?x with _ => _ end] => destruct x eqn:?; try discriminate | context [if ?x then _ else _] => destruct x eqn:?; try discriminate end;
         injection E as <-; cbn in *; lia. }
  all: repeat match type of E with
       | context [match nth_error ?l ?x with _ => _ end] => destruct (nth_error l x) as [[]|] eqn:?; try discriminate
       | context [match ?x with _ => _ end] => destruct x; try discriminate
       end; injection E as <-; cbn; rewrite ?(proj1 (RC _ _)), ?(proj2 (RC _ _)), ?(proj1 (UC _ _)), ?(proj2 (UC _ _)); auto.
Qed.
Lemma rank_step : forall e s s', engine_step e s = Some s' -> rank (eg_phase s) <= rank (eg_phase s').
Proof.
  intros e s s' E. unfold engine_step in E. destruct (eg_crashed s) eqn:C; [discriminate|].
  assert (RC : forall r p, eg_phase (run_phase r p s) = eg_phase s) by (intros; unfold run_phase; destruct (nth_error _ _); auto).
  assert (UC : forall r p, eg_phase (unit_phase r p s) = eg_phase s) by (intros; unfold unit_phase; destruct (nth_error _ _); auto).
  destruct e.
  18:{ unfold destructor_step in E.
       repeat match type of E with context [match ?x with _ => _ end] => destruct x eqn:?; try discriminate | context [if ?x then _ else _] => destruct x eqn:?; try discriminate end;
         injection E as <-; cbn in *; lia. }
  all: repeat match type of E with
       | context [match nth_error ?l ?x with _ => _ end] => destruct (nth_error l x) as [[]|] eqn:?; try discriminate
       | context [match ?x with _ => _ end] => destruct x eqn:?; try discriminate
       end; injection E as <-; cbn; rewrite ?RC, ?UC; auto; try lia.
Qed.
Lemma rank_run : forall l s s', engine_run_all l s = Some s' -> rank (eg_phase s) <= rank (eg_phase s').
Proof.
  induction l as [|e l IH]; cbn; intros s s' E; [injection E as <-; auto|].
  destruct (engine_step e s) eqn:X; [|discriminate]. apply rank_step in X. apply IH in E. lia.
Qed.
Lemma crash_step : forall e s s', engine_step e s = Some s' -> eg_crashed s' = true -> e = EMain /\ eg_phase s' = DNo.
Proof.
  intros e s s' E C. destruct e; try (exfalso; destruct (main_step _ _ _ E) as [A _]; [discriminate|discriminate|];
    unfold engine_step in E; destruct (eg_crashed s); [discriminate|congruence]).
  - unfold engine_step in E. destruct (eg_crashed s) eqn:C0; [discriminate|].
    destruct (eg_phase s) eqn:P; try discriminate. destruct (eg_main s); injection E as <-; cbn in *; auto.
  - exfalso. unfold engine_step in E. destruct (eg_crashed s) eqn:C0; [discriminate|].
    destruct (eg_phase s) eqn:P; try discriminate. destruct (eg_main s); try discriminate.
    destruct (nth_error _ _); try discriminate. destruct (gone r); try discriminate. injection E as <-. cbn in C. congruence.
Qed.
Lemma crashed_stops : forall l s s', eg_crashed s = true -> engine_run_all l s = Some s' -> l = [].
Proof. destruct l as [|e l]; cbn; intros; auto. unfold engine_step in H0. rewrite H in H0. discriminate. Qed.
Lemma terminate_why : forall l s s', engine_run_all l s = Some s' -> eg_crashed s = false -> eg_crashed s' = true ->
  eg_phase s' = DNo /\
  ((eg_main s <> None /\ exists l2, l = l2 ++ [EMain] /\ ~ In EJoin l2) \/
   exists l1 l2, l = l1 ++ EMain :: l2 ++ [EMain] /\ ~ In EJoin l2).
Proof.
  induction l as [|e l IH]; cbn; intros s s' E C C'; [injection E as <-; congruence|].
  destruct (engine_step e s) as [s1|] eqn:X; [|discriminate].
  destruct (eg_crashed s1) eqn:C1.
  - pose proof (crashed_stops _ _ _ C1 E). subst l. injection E as <-. destruct (crash_step _ _ _ X C1) as [-> P]. split; auto.
    left. split; [|exists []; auto]. unfold engine_step in X. rewrite C in X. destruct (eg_phase s); try discriminate.
    destruct (eg_main s); [discriminate|]. injection X as <-. cbn in C1. congruence.
  - destruct (IH _ _ E C1 C') as (P & D). split; auto.
    pose proof (rank_run _ _ _ E) as R1. rewrite P in R1. cbn in R1.
    assert (EE : e = EMain \/ e = EJoin \/ (e <> EMain /\ e <> EJoin)) by (destruct e; auto; right; right; split; discriminate).
    destruct EE as [-> |[-> |[N1 N2]]].
    + destruct D as [(M & l2 & -> & Q)|(l1 & l2 & -> & Q)].
      * right. exists [], l2. auto.
      * right. exists (EMain :: l1), l2. auto.
    + destruct D as [(M & l2 & -> & Q)|(l1 & l2 & -> & Q)].
      * exfalso. unfold engine_step in X. rewrite C in X. destruct (eg_phase s); try discriminate. destruct (eg_main s); try discriminate.
        destruct (nth_error _ _); try discriminate. destruct (gone r); try discriminate. injection X as <-. cbn in M. congruence.
      * right. exists (EJoin :: l1), l2. auto.
    + destruct (main_step _ _ _ X N1 N2) as [_ M]. specialize (M ltac:(lia)).
      destruct D as [(Mn & l2 & -> & Q)|(l1 & l2 & -> & Q)].
      * left. split; [congruence|]. exists (e :: l2). split; auto. intros [I|I]; auto.
      * right. exists (e :: l1), l2. auto.
Qed.
Lemma main_kept : forall l s s', engine_run_all l s = Some s' -> eg_main s <> None -> ~ In EJoin l -> eg_phase s' = DNo -> eg_main s' <> None.
Proof.
  induction l as [|e l IH]; cbn; intros s s' E M N P; [injection E as <-; auto|].
  destruct (engine_step e s) as [s1|] eqn:X; [|discriminate].
  pose proof (rank_run _ _ _ E) as R1. rewrite P in R1. cbn in R1.
  apply (IH _ _ E); auto.
  assert (EE : e = EMain \/ (e <> EMain /\ e <> EJoin)) by (destruct e; auto; right; split; try discriminate; exfalso; auto).
  destruct EE as [-> |[N1 N2]].
  - unfold engine_step in X. destruct (eg_crashed s); [discriminate|]. destruct (eg_phase s); try discriminate.
    destruct (eg_main s) eqn:MM; injection X as <-; cbn; congruence.
  - destruct (main_step _ _ _ X N1 N2) as [_ K]. rewrite K by lia. auto.
Qed.
Lemma terminates : forall l1 l2 s, engine_run_all (l1 ++ EMain :: l2) engine0 = Some s -> ~ In EJoin l2 ->
  eg_crashed s = false -> eg_phase s = DNo -> exists s', engine_step EMain s = Some s' /\ eg_crashed s' = true.
Proof.
  intros l1 l2 s E N C P. rewrite run_app_e in E. destruct (engine_run_all l1 engine0) as [s0|]; [|discriminate].
  cbn [engine_run_all] in E. destruct (engine_step EMain s0) as [s1|] eqn:X; [|discriminate].
  assert (M : eg_main s1 <> None).
  { unfold engine_step in X. destruct (eg_crashed s0); [discriminate|]. destruct (eg_phase s0); try discriminate.
    destruct (eg_main s0) eqn:M; injection X as <-; cbn; congruence. }
  pose proof (main_kept _ _ _ E M N P) as K. unfold engine_step. rewrite C, P. destruct (eg_main s); [|congruence].
  eexists. split; reflexivity.
Qed.
