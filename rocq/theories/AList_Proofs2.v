(** Consequences of the action list invariant: responses, progress, hangs. *)
From Coq Require Import Ascii String List ZArith Bool Lia Arith.
From Verif Require Import Base_Model Base_Proofs AList_Model AList_Proofs.
Import ListNotations.
Open Scope Z_scope.

Definition is_cancel (e : al_event) : Prop := e = LCancel.

Lemma after_free : forall acts preds l1 l2, history_ok acts preds (l1 ++ LFree :: l2) -> Forall is_cancel l1.
Proof.
  induction l1 as [|e l1 IH]; intros l2 H; [constructor|]. cbn [app history_ok] in H. destruct H as [H1 H2].
  constructor; [|eauto]. assert (F : In LFree (l1 ++ LFree :: l2)) by apply in_elt.
  destruct e as [i t d|i sk t|i|[i|] ov|i|i| |]; cbn [event_ok] in H1; try tauto; try reflexivity;
  try (destruct H1 as [N _]; contradiction).
Qed.

Lemma send_count_app : forall a b, send_count (a ++ b) = (send_count a + send_count b)%nat.
Proof. intros. unfold send_count. now rewrite filter_app, app_length. Qed.
Lemma send_count_cancels : forall l, Forall is_cancel l -> send_count l = 0%nat.
Proof. induction 1 as [|e l E F IH]; [reflexivity|]. unfold is_cancel in E. subst. exact IH. Qed.

Section P.
Variable acts : list al_action.
Variable preds : list str.
Notation sz := (length acts).
Hypothesis OK : list_ok acts.
Notation reach := (reachable acts preds).

(** Once the list has returned: one response, one release, nothing after. *)
Lemma returned : forall s l1 l2, reach s -> al_log s = l1 ++ LFree :: l2 ->
  send_count l2 = 1%nat /\ ~ In LFree l2 /\ Forall is_cancel l1 /\
  (forall i sk t, In (LStart i sk t) l2 -> In (LDone i) l2) /\
  (~ In LCancel l2 -> forall i, (i < sz)%nat -> In (LDone i) l2).
Proof.
  intros s l1 l2 R E. pose proof (reachable_history _ _ OK _ R) as H. rewrite E in H.
  pose proof (history_split _ _ _ _ _ H) as [A [B [C D]]]. split; [assumption|]. split; [assumption|].
  split; [eapply after_free; eassumption|]. split; [assumption|]. intros N. destruct D; [contradiction|assumption].
Qed.
Lemma at_most_one_response : forall s, reach s -> (send_count (al_log s) <= 1)%nat.
Proof.
  intros s R. pose proof (reachable_history _ _ OK _ R) as H. induction (al_log s) as [|e l IH]; [cbn; lia|].
  cbn [history_ok] in H. destruct H as [H1 H2]. specialize (IH H2). rewrite send_count_cons.
  destruct e as [i t d|i sk t|i|[i|] ov|i|i| |]; try (cbn [plus]; exact IH); cbn [event_ok] in H1; destruct H1 as [_ [N _]]; lia.
Qed.

(** ** Blocking *)
Lemma blocked : forall s now d, reach s -> main_step acts preds now d s = AlDisabled -> al_pc_ s <> PDone ->
  exists i, (i < sz)%nat /\ (exists sk t, In (LStart i sk t) (al_log s)) /\ ~ In (LFinish i) (al_log s).
Proof.
  intros s now d R B NP. destruct (reachable_K _ _ OK _ R) as [HD|[_ [H [A0 X]]]]; [destruct HD; contradiction|].
  assert (SF : some_finished s = false).
  { unfold main_step in B. destruct (al_pc_ s); try discriminate.
    - destruct (Nat.ltb_spec i (size acts)) as [L|L].
      + destruct (scan_spec acts preds OK s i now0 d H A0 L) as [s1 [E _]]. congruence.
      + destruct (all_finished acts s); discriminate.
    - destruct (some_finished s) eqn:Q; [|reflexivity]. unfold handle_finished in B. rewrite Q in B. discriminate.
    - destruct (Nat.ltb i (size acts)).
      + destruct (nth_error acts i); [|discriminate]. destruct (_ || _); [discriminate|]. destruct (e_cb _); discriminate.
      + destruct some; [|discriminate]. unfold handle_finished in B. destruct (some_finished s); discriminate.
    - destruct (some_finished s) eqn:Q; [|reflexivity]. unfold handle_finished in B. rewrite Q in B. discriminate.
    - contradiction. }
  unfold some_finished in SF. apply orb_false_iff in SF. destruct SF as [SF _]. apply Z.eqb_neq in SF.
  rewrite (J_pend _ _ _ H) in SF. pose proof (cnt_nonneg (running (al_tbl s)) sz).
  destruct (cnt_pos (running (al_tbl s)) sz) as [i [L Q]]; [lia|]. exists i. split; [assumption|].
  unfold running in Q. apply andb_prop in Q. destruct Q as [Q1 Q2]. split; [now apply (J_start _ _ _ H)|].
  intros F. apply (J_finish _ _ _ H) in F. rewrite F in Q2. discriminate.
Qed.

(** ** Each delay is taken once *)
Fixpoint delays_once (l : list al_event) : Prop :=
  match l with
  | [] => True
  | e :: r => match e with LDelay i _ _ => forall t d, ~ In (LDelay i t d) r | _ => True end /\ delays_once r
  end.
Definition delay_ok (s : al_state) : Prop :=
  delays_once (al_log s) /\
  forall i t d, In (LDelay i t d) (al_log s) -> e_waiting (al_tbl s i) = true \/ e_started (al_tbl s i) = true.
Definition same_flags (t u : nat -> a_entry) : Prop :=
  forall i, e_started (u i) = e_started (t i) /\ e_waiting (u i) = e_waiting (t i) /\ e_finished (u i) = e_finished (t i) /\
            e_time (u i) = e_time (t i).
Lemma same_flags_enter : forall i a s, same_flags (al_tbl s) (al_tbl (enter_callback i a s)).
Proof.
  intros i a s j. unfold enter_callback. cbn [al_tbl]. destruct (Nat.eq_dec j i) as [->|N].
  - rewrite tset_same. auto.
  - rewrite tset_other by assumption. auto.
Qed.
Lemma same_flags_finish : forall i s, same_flags (al_tbl s) (al_tbl (finish_action i s)).
Proof.
  intros i s j. unfold finish_action. cbn [al_tbl]. destruct (Nat.eq_dec j i) as [->|N].
  - rewrite tset_same. auto.
  - rewrite tset_other by assumption. auto.
Qed.
Lemma same_flags_trans : forall t u v, same_flags t u -> same_flags u v -> same_flags t v.
Proof. intros t u v A B i. destruct (A i) as [A1 [A2 [A3 A4]]], (B i) as [B1 [B2 [B3 B4]]]. repeat split; congruence. Qed.
Lemma log_enter : forall i a s, exists new, al_log (enter_callback i a s) = new ++ al_log s /\ forall j t d, ~ In (LDelay j t d) new.
Proof.
  intros i a s. unfold enter_callback. cbn [al_log].
  destruct (aa_cancel a && negb (al_canceled s)), (e_sends (al_tbl s i)).
  - eexists [_; _; _]. split; [reflexivity|]. intros j t d [Q|[Q|[Q|[]]]]; discriminate.
  - eexists [_; _]. split; [reflexivity|]. intros j t d [Q|[Q|[]]]; discriminate.
  - eexists [_; _]. split; [reflexivity|]. intros j t d [Q|[Q|[]]]; discriminate.
  - eexists [_]. split; [reflexivity|]. intros j t d [Q|[]]; discriminate.
Qed.
Lemma once_app : forall new l, delays_once l -> (forall j t d, ~ In (LDelay j t d) new) -> delays_once (new ++ l).
Proof.
  induction new as [|e r IH]; intros l H N; [assumption|]. cbn [app delays_once]. split.
  - destruct e; auto. destruct (N i now d). left. reflexivity.
  - apply IH; [assumption|]. intros j t d X. apply (N j t d). right. assumption.
Qed.
Lemma delay_more : forall s s' new, delay_ok s -> al_log s' = new ++ al_log s -> (forall j t d, ~ In (LDelay j t d) new) ->
  (forall i, e_waiting (al_tbl s i) = true \/ e_started (al_tbl s i) = true ->
             e_waiting (al_tbl s' i) = true \/ e_started (al_tbl s' i) = true) -> delay_ok s'.
Proof.
  intros s s' new [A B] E N M. split.
  - rewrite E. now apply once_app.
  - intros i t d I. rewrite E in I. apply in_app_iff in I. destruct I as [I|I]; [destruct (N _ _ _ I)|]. eauto.
Qed.
Lemma delay_same : forall s s' new, delay_ok s -> al_log s' = new ++ al_log s -> (forall j t d, ~ In (LDelay j t d) new) ->
  same_flags (al_tbl s) (al_tbl s') -> delay_ok s'.
Proof.
  intros s s' new D E N F. apply (delay_more s s' new D E N). intros i. destruct (F i) as [F1 [F2 _]]. now rewrite F1, F2.
Qed.
Lemma delay_pc : forall p s, delay_ok s -> delay_ok (set_pc p s).
Proof. intros p s D. apply (delay_same s _ [] D); [reflexivity|intros j t d []|intros i; auto]. Qed.
Lemma delay_enter : forall i a s, delay_ok s -> delay_ok (enter_callback i a s).
Proof. intros i a s D. destruct (log_enter i a s) as [new [E N]]. apply (delay_same s _ new D E N), same_flags_enter. Qed.
Lemma delay_finish : forall i s, delay_ok s -> delay_ok (finish_action i s).
Proof.
  intros i s D. apply (delay_same s _ [LFinish i] D); [reflexivity| |apply same_flags_finish].
  intros j t d [Q|[]]; discriminate.
Qed.
Lemma fold_flags : forall l t i, e_started (fold_left mark_finished l t i) = e_started (t i) /\ e_waiting (fold_left mark_finished l t i) = e_waiting (t i).
Proof.
  induction l as [|x r IH]; intros t i; cbn [fold_left]; [auto|]. destruct (IH (mark_finished t x) i) as [A B]. rewrite A, B.
  unfold mark_finished. destruct (Nat.eq_dec i x) as [->|N]; [rewrite tset_same|rewrite tset_other by assumption]; auto.
Qed.
Lemma delay_handle : forall p s s', delay_ok s -> handle_finished p s = AlNext s' -> delay_ok s'.
Proof.
  intros p s s' D E. unfold handle_finished in E. destruct (some_finished s); [|discriminate]. injection E as <-.
  apply (delay_more s _ (rev (map LDone (al_fin s))) D); [reflexivity| |].
  - intros j t d Q. apply in_rev in Q. apply in_map_iff in Q. destruct Q as [x [Q _]]. discriminate.
  - intros i. cbn [al_tbl]. destruct (fold_flags (al_fin s) (al_tbl s) i) as [-> ->]. auto.
Qed.
Lemma delay_step : forall x s s', delay_ok s -> al_step acts preds x s = AlNext s' -> delay_ok s'.
Proof.
  intros [now d|i|i|] s s' H E; cbn [al_step] in E.
  - unfold main_step in E. destruct (al_pc_ s) as [|i t| | |i some| | |] eqn:P.
    + injection E as <-. now apply delay_pc.
    + destruct (Nat.ltb i (size acts)).
      * unfold scan_action in E. destruct (nth_error acts i) as [a|] eqn:A; [|discriminate].
        destruct (e_started (al_tbl s i)) eqn:S0; [injection E as <-; now apply delay_pc|].
        destruct (_ && _); [injection E as <-; now apply delay_pc|].
        destruct (deps_status _ _ _ _) as [[[|] k]|]; [| |discriminate].
        2:{ injection E as <-; now apply delay_pc. }
        destruct (e_waiting (al_tbl s i)) eqn:W; cbn [negb andb] in E.
        { destruct (_ && aa_fatal a); [discriminate|].
          match goal with E : context [mkAL (PScan (S i) t) ?a ?b ?c ?d ?e ?f ?g] |- _ =>
            assert (H1 : delay_ok (mkAL (PScan (S i) t) a b c d e f g)) end.
          { match goal with |- delay_ok (mkAL _ _ _ _ _ _ _ (?e :: _)) => apply (delay_more s _ [e] H) end;
              [reflexivity|intros j u v [Q|[]]; discriminate|].
            intros j. cbn [al_tbl]. destruct (Nat.eq_dec j i) as [->|N]; [rewrite tset_same; auto|now rewrite tset_other]. }
          destruct (k || _); injection E as <-; [|assumption]. now apply delay_finish, delay_enter. }
        destruct (aa_delay a).
        { injection E as <-. destruct H as [H1 H2]. split; cbn [al_log al_tbl].
          - cbn [delays_once]. split; [|assumption]. intros u v X. destruct (H2 _ _ _ X); congruence.
          - intros j u v X. destruct (Nat.eq_dec j i) as [->|N]; [rewrite tset_same; auto|rewrite tset_other by assumption].
            destruct X as [X|X]; [congruence|eauto]. }
        destruct (_ && aa_fatal a); [discriminate|].
        match goal with E : context [mkAL (PScan (S i) t) ?a ?b ?c ?d ?e ?f ?g] |- _ =>
          assert (H1 : delay_ok (mkAL (PScan (S i) t) a b c d e f g)) end.
        { match goal with |- delay_ok (mkAL _ _ _ _ _ _ _ (?e :: _)) => apply (delay_more s _ [e] H) end;
            [reflexivity|intros j u v [Q|[]]; discriminate|].
          intros j. cbn [al_tbl]. destruct (Nat.eq_dec j i) as [->|N]; [rewrite tset_same; auto|now rewrite tset_other]. }
        destruct (k || _); injection E as <-; [|assumption]. now apply delay_finish, delay_enter.
      * destruct (all_finished acts s); injection E as <-; now apply delay_pc.
    + destruct (some_finished s); [eauto using delay_handle|]. destruct (timed_wait acts s); [|discriminate].
      injection E as <-. now apply delay_pc.
    + injection E as <-. now apply delay_pc.
    + destruct (Nat.ltb i (size acts)).
      * destruct (nth_error acts i) as [a|] eqn:A; [|discriminate]. destruct (_ || _); [injection E as <-; now apply delay_pc|].
        destruct (e_cb _); try discriminate. injection E as <-. now apply delay_pc, delay_finish, delay_enter.
      * destruct some; [eauto using delay_handle|injection E as <-; now apply delay_pc].
    + destruct (some_finished s); [|discriminate]. destruct (handle_finished PDrain s) eqn:Q; try discriminate.
      injection E as <-. eapply delay_pc, delay_handle; eassumption.
    + injection E as <-. apply (delay_same s _ (LFree :: (if al_early s then [] else [LSend None (al_override s)])) H);
        [reflexivity| |intros i; auto].
      intros j u v [Q|Q]; [discriminate|]. destruct (al_early s); [destruct Q|]. destruct Q as [Q|[]]; discriminate.
    + discriminate.
  - destruct (nth_error acts i) as [a|] eqn:A; [|discriminate]. destruct (_ && _); [|discriminate].
    destruct (e_cb (al_tbl s i)); try discriminate.
    assert (s' = finish_action i (enter_callback i a s) \/ s' = enter_callback i a s) as [-> | ->].
    { destruct (al_pc_ s); try discriminate; destruct (aa_activity a); cbn [scanning] in E; try discriminate; injection E as <-; auto. }
    + now apply delay_finish, delay_enter.
    + now apply delay_enter.
  - destruct (e_cb (al_tbl s i)); try discriminate.
    assert (s' = finish_action i s) as -> by (destruct (al_pc_ s); try discriminate; now injection E as <-).
    now apply delay_finish.
  - destruct (al_canceled s); [discriminate|]. injection E as <-. apply (delay_same s _ [LCancel] H); [reflexivity| |intros i; auto].
    intros j u v [Q|[]]; discriminate.
Qed.
Lemma reach_delay : forall s, reach s -> delay_ok s.
Proof.
  intros s [l E]. assert (G : forall l s s', delay_ok s -> al_run acts preds l s = AlNext s' -> delay_ok s').
  { clear s l E. induction l as [|a r IH]; intros s s' H E; cbn [al_run] in E; [injection E as <-; assumption|].
    destruct (al_step acts preds a s) eqn:Q; try discriminate; eauto using delay_step. }
  eapply G; [|exact E]. split; [exact Logic.I|intros i t d []].
Qed.

(** ** A full scan starts whatever is ready *)
Definition still_waiting (s : al_state) (now : Z) (i : nat) : Prop :=
  e_waiting (al_tbl s i) = true /\
  exists t d, e_time (al_tbl s i) = Some (t + d) /\ In (LDelay i t d) (al_log s) /\ (t = now \/ now < t + d).
Definition scanned (s : al_state) : Prop :=
  match al_pc_ s with
  | PScan k now => forall i a, (i < k)%nat -> act_at acts i a ->
      (forall d, In d (aa_deps a) -> e_finished (al_tbl s d) = true) ->
      e_started (al_tbl s i) = true \/ still_waiting s now i
  | _ => True
  end.
Lemma scanned_same : forall s s', al_pc_ s' = al_pc_ s -> same_flags (al_tbl s) (al_tbl s') ->
  (forall e, In e (al_log s) -> In e (al_log s')) -> scanned s -> scanned s'.
Proof.
  intros s s' P F IN H. unfold scanned in *. rewrite P. destruct (al_pc_ s); auto. intros j a L A D.
  destruct (F j) as [F1 [F2 [F3 F4]]]. destruct (H j a L A) as [Q|[Q1 [u [v [Q2 [Q3 Q4]]]]]].
  - intros d Id. destruct (F d) as [_ [_ [F5 _]]]. rewrite <- F5. auto.
  - left. congruence.
  - right. split; [congruence|]. exists u, v. rewrite F4. auto.
Qed.

(** What one scan step does to the flags. *)
Lemma scan_flags : forall s i now d s' a, J acts preds s -> act_at acts i a -> scan_action acts preds i now d s = AlNext s' ->
  al_pc_ s' = PScan (S i) now /\ (forall e, In e (al_log s) -> In e (al_log s')) /\
  (forall j, j <> i -> e_started (al_tbl s' j) = e_started (al_tbl s j) /\ e_waiting (al_tbl s' j) = e_waiting (al_tbl s j) /\
                       e_time (al_tbl s' j) = e_time (al_tbl s j)) /\
  (forall j, e_finished (al_tbl s' j) = e_finished (al_tbl s j)) /\
  ((forall x, In x (aa_deps a) -> e_finished (al_tbl s x) = true) ->
   e_started (al_tbl s' i) = true \/ still_waiting s' now i).
Proof.
  intros s i now d s' a JJ A E. unfold scan_action in E. unfold act_at in A. rewrite A in E.
  destruct (e_started (al_tbl s i)) eqn:S0.
  { injection E as <-. cbn [set_pc al_pc_ al_tbl al_log]. repeat split; auto. }
  destruct (e_waiting (al_tbl s i) && match e_time (al_tbl s i) with Some t => t >? now | None => true end) eqn:W.
  { injection E as <-. apply andb_prop in W. destruct W as [W1 W2].
    destruct (J_wait _ _ _ JJ i W1) as [_ [t [x [Q1 Q2]]]]. cbn [set_pc al_pc_ al_tbl al_log]. repeat split; auto.
    intros _. right. split; [exact W1|]. exists t, x. cbn [set_pc al_pc_ al_tbl al_log]. split; [assumption|]. split; [assumption|].
    rewrite Q1 in W2. apply Z.gtb_lt in W2. auto. }
  destruct (OK i a A) as [DR NF].
  destruct (deps_spec acts (al_tbl s) (aa_deps a) false DR) as [r [k [Ed [R1 _]]]]. rewrite Ed in E.
  destruct r.
  2:{ injection E as <-. cbn [set_pc al_pc_ al_tbl al_log]. repeat split; auto. intros X. apply R1 in X. discriminate. }
  destruct (negb (e_waiting (al_tbl s i)) && aa_delay a).
  { injection E as <-. cbn [al_pc_ al_tbl al_log]. split; [reflexivity|]. split; [intros e He; right; assumption|].
    split; [intros j N; now rewrite tset_other|]. split.
    - intros j. destruct (Nat.eq_dec j i) as [->|N]; [now rewrite tset_same|now rewrite tset_other].
    - intros _. right. split; cbn [al_tbl al_log]; rewrite tset_same; [reflexivity|]. exists now, d. repeat split; [left; reflexivity|auto]. }
  rewrite NF, andb_false_r in E. destruct (k || negb (subset_of (aa_preds a) preds)); injection E as <-.
  - set (s1 := mkAL _ _ _ _ _ _ _ _).
    pose proof (same_flags_trans _ _ _ (same_flags_enter i a s1) (same_flags_finish i (enter_callback i a s1))) as F.
    split; [reflexivity|]. split.
    { intros e He. cbn [finish_action al_log]. right. destruct (log_enter i a s1) as [new [-> _]]. apply in_app_iff. right. right. assumption. }
    split; [|split].
    + intros j N. destruct (F j) as [F1 [F2 [_ F4]]]. rewrite F1, F2, F4. unfold s1. cbn [al_tbl]. now rewrite tset_other.
    + intros j. destruct (F j) as [_ [_ [F3 _]]]. rewrite F3. unfold s1. cbn [al_tbl].
      destruct (Nat.eq_dec j i) as [->|N]; [now rewrite tset_same|now rewrite tset_other].
    + intros _. left. destruct (F i) as [F1 _]. rewrite F1. unfold s1. cbn [al_tbl]. now rewrite tset_same.
  - cbn [al_pc_ al_tbl al_log]. split; [reflexivity|]. split; [intros e He; right; assumption|].
    split; [intros j N; now rewrite tset_other|].
    split; [|intros _; left; now rewrite tset_same]. intros j. destruct (Nat.eq_dec j i) as [->|N]; [now rewrite tset_same|now rewrite tset_other].
Qed.
Lemma scanned_step : forall s a s', reach s -> scanned s -> al_step acts preds a s = AlNext s' -> scanned s'.
Proof.
  intros s x s' RE H E. destruct x as [now d|i|i|]; cbn [al_step] in E.
  - unfold main_step in E. pose proof H as HS. unfold scanned in H. destruct (al_pc_ s) as [|i t| | |i some| | |] eqn:P.
    + injection E as <-. unfold scanned. cbn [set_pc al_pc_]. intros i a L. lia.
    + destruct (Nat.ltb i (size acts)) eqn:L.
      * apply Nat.ltb_lt in L. destruct (nth_error acts i) as [a|] eqn:A; [|apply nth_error_None in A; unfold size in L; lia].
        destruct (reachable_K _ _ OK _ RE) as [HD|[_ [JJ _]]]; [destruct HD; congruence|].
        destruct (scan_flags s i t d s' a JJ A E) as [P' [IN [F1 [F2 F3]]]]. unfold scanned. rewrite P'.
        intros j b Lj B D. assert (D' : forall x, In x (aa_deps b) -> e_finished (al_tbl s x) = true) by (intros x X; rewrite <- F2; auto).
        destruct (Nat.eq_dec j i) as [->|N].
        -- unfold act_at in B. rewrite A in B. injection B as <-. auto.
        -- destruct (F1 j N) as [G1 [G2 G3]]. destruct (H j b) as [Q|[Q1 [u [v [Q2 [Q3 Q4]]]]]]; auto; [lia|left; congruence|].
           right. split; [congruence|]. exists u, v. rewrite G3. auto.
      * destruct (all_finished acts s); injection E as <-; exact Logic.I.
    + destruct (some_finished s) eqn:Q.
      * unfold handle_finished in E. rewrite Q in E. injection E as <-. exact Logic.I.
      * destruct (timed_wait acts s); [|discriminate]. injection E as <-. exact Logic.I.
    + injection E as <-. unfold scanned. cbn [set_pc al_pc_]. destruct (al_canceled s); exact Logic.I.
    + destruct (Nat.ltb i (size acts)).
      * destruct (nth_error acts i); [|discriminate]. destruct (_ || _); [injection E as <-; exact Logic.I|].
        destruct (e_cb _); try discriminate. injection E as <-. exact Logic.I.
      * destruct some; [|injection E as <-; exact Logic.I].
        unfold handle_finished in E. destruct (some_finished s); [|discriminate]. injection E as <-. exact Logic.I.
    + destruct (some_finished s) eqn:Q; [|discriminate]. unfold handle_finished in E. rewrite Q in E. injection E as <-.
      unfold scanned. cbn [set_pc al_pc_]. destruct (none_running _ _); exact Logic.I.
    + injection E as <-. exact Logic.I.
    + discriminate.
  - destruct (nth_error acts i) as [a|]; [|discriminate]. destruct (_ && _); [|discriminate].
    destruct (e_cb (al_tbl s i)); try discriminate.
    assert (LE : forall e, In e (al_log s) -> In e (al_log (enter_callback i a s))).
    { intros e He. destruct (log_enter i a s) as [new [-> _]]. apply in_app_iff. auto. }
    destruct (aa_activity a).
    + assert (s' = finish_action i (enter_callback i a s)) as ->.
      { destruct (al_pc_ s); try discriminate; cbn [scanning] in E; try discriminate; now injection E as <-. }
      apply (scanned_same s); [reflexivity| |intros e He; right; auto|assumption].
      eapply same_flags_trans; [apply same_flags_enter|apply same_flags_finish].
    + assert (s' = enter_callback i a s) as ->.
      { destruct (al_pc_ s); try discriminate; now injection E as <-. }
      apply (scanned_same s); [reflexivity|apply same_flags_enter|assumption|assumption].
  - destruct (e_cb (al_tbl s i)); try discriminate.
    assert (s' = finish_action i s) as ->.
    { destruct (al_pc_ s); try discriminate; now injection E as <-. }
    apply (scanned_same s); [reflexivity|apply same_flags_finish|intros e He; right; assumption|assumption].
  - destruct (al_canceled s); [discriminate|]. injection E as <-.
    apply (scanned_same s); [reflexivity|intros i; auto|intros e He; right; assumption|assumption].
Qed.
Lemma run_app : forall l1 l2 s s1, al_run acts preds l1 s = AlNext s1 -> al_run acts preds (l1 ++ l2) s = al_run acts preds l2 s1.
Proof.
  induction l1 as [|a r IH]; intros l2 s s1 E; cbn [al_run app] in *; [now injection E as <-|].
  destruct (al_step acts preds a s); try discriminate; eauto.
Qed.
Lemma reach_step : forall s a s', reach s -> al_step acts preds a s = AlNext s' -> reach s'.
Proof. intros s a s' [l E] Q. exists (l ++ [a]). rewrite (run_app _ _ _ _ E). cbn [al_run]. now rewrite Q. Qed.
Lemma reach_scanned : forall s, reach s -> scanned s.
Proof.
  intros s [l E]. assert (G : forall l s s', reach s -> scanned s -> al_run acts preds l s = AlNext s' -> scanned s').
  { clear s l E. induction l as [|a r IH]; intros s s' RE H E; cbn [al_run] in E; [injection E as <-; assumption|].
    destruct (al_step acts preds a s) eqn:Q; try discriminate; eauto using scanned_step, reach_step. }
  eapply G; [| |exact E]; [exists []; reflexivity|exact Logic.I].
Qed.

Lemma ready_started : forall s now, reach s -> al_pc_ s = PScan sz now ->
  forall i a, act_at acts i a -> (forall d, In d (aa_deps a) -> In (LDone d) (al_log s)) ->
  (exists sk t, In (LStart i sk t) (al_log s)) \/
  (exists t d, In (LDelay i t d) (al_log s) /\ (t = now \/ now < t + d)).
Proof.
  intros s now R P i a A D. pose proof (reach_scanned s R) as S0. unfold scanned in S0. rewrite P in S0.
  destruct (reachable_K _ _ OK _ R) as [HD|[_ [H _]]]; [destruct HD; congruence|].
  destruct (S0 i a) as [Q|[_ [t [d [_ [Q1 Q2]]]]]]; auto.
  - apply nth_error_Some. unfold act_at in A. congruence.
  - intros d Id. apply (J_done _ _ _ H), D, Id.
  - left. now apply (J_start _ _ _ H).
  - right. exists t, d. auto.
Qed.

(** Without a dependency cycle something is always in progress. *)
Definition acyclic : Prop := exists rank : nat -> nat, forall i a d, act_at acts i a -> In d (aa_deps a) -> (rank d < rank i)%nat.
Lemma in_progress : acyclic -> forall s now, reach s -> al_pc_ s = PScan sz now ->
  (exists i, (i < sz)%nat /\ ~ In (LDone i) (al_log s)) ->
  exists i, (i < sz)%nat /\ ~ In (LDone i) (al_log s) /\
    ((exists sk t, In (LStart i sk t) (al_log s)) \/
     (exists t d, In (LDelay i t d) (al_log s) /\ (t = now \/ now < t + d))).
Proof.
  intros [rank RK] s now R P [i [Li Ni]].
  destruct (reachable_K _ _ OK _ R) as [HD|[_ [H _]]]; [destruct HD; congruence|].
  assert (DEC : forall j, {In (LDone j) (al_log s)} + {~ In (LDone j) (al_log s)}).
  { intros j. destruct (e_finished (al_tbl s j)) eqn:F; [left; now apply (J_done _ _ _ H)|right].
    intros X. apply (J_done _ _ _ H) in X. congruence. }
  remember (rank i) as n eqn:En. revert i Li Ni En. induction n as [n IH] using lt_wf_ind. intros i Li Ni En.
  destruct (nth_error acts i) as [a|] eqn:A; [|apply nth_error_None in A; lia].
  destruct (Forall_Exists_dec (fun d => In (LDone d) (al_log s)) DEC (aa_deps a)) as [F|F].
  - exists i. split; [assumption|]. split; [assumption|]. apply (ready_started s now R P i a A). now apply Forall_forall.
  - apply Exists_exists in F. destruct F as [d [Id Nd]]. apply (IH (rank d)) with (i := d); auto.
    + subst n. now apply (RK i a d).
    + exact (proj1 (OK i a A) d Id).
Qed.
End P.

(** * Hangs *)
(** InitiateAction returned without completing the action. *)
Definition silent_list : list al_action := [mkAA [] false false false [] (-1) false false true false].
Definition stuck (s : al_state) : Prop :=
  ~ In LFree (al_log s) /\ al_fin s = [] /\ e_finished (al_tbl s 0) = false /\ e_waiting (al_tbl s 0) = false /\ e_cb (al_tbl s 0) = CbNone /\
  (forall i, (1 <= i)%nat -> e_cb (al_tbl s i) = CbNone) /\
  ((e_started (al_tbl s 0) = false /\ al_pending s = 0 /\ (al_pc_ s = PTop \/ exists t, al_pc_ s = PScan 0 t)) \/
   (e_started (al_tbl s 0) = true /\ al_pending s = 1 /\ ((exists t, al_pc_ s = PScan 1 t) \/ al_pc_ s = PWait))).
Lemma stuck_step : forall a s s', stuck s -> al_step silent_list [] a s = AlNext s' -> stuck s'.
Proof.
  intros a s s' [NF [F [Fi [Wa [C [Co H]]]]]] E. destruct a as [now d|i|i|]; cbn [al_step] in E.
  - unfold main_step in E. destruct H as [[S0 [Pe [P|[t P]]]]|[S0 [Pe [[t P]|P]]]]; rewrite P in E.
    + injection E as <-. unfold stuck. cbn [set_pc al_log al_fin al_tbl al_pending al_pc_].
      repeat (split; [assumption|]). left. split; [assumption|]. split; [assumption|]. right. eauto.
    + cbn [Nat.ltb Nat.leb size silent_list length] in E. unfold scan_action in E. cbn [nth_error silent_list] in E.
      rewrite S0, Wa in E. cbn [andb deps_status aa_deps negb aa_delay aa_preds subset_of forallb aa_fatal orb] in E. injection E as <-.
      unfold stuck. cbn [al_log al_fin al_tbl al_pending al_pc_]. split; [cbn [In]; intros [Q|Q]; [discriminate|contradiction]|].
      split; [assumption|]. rewrite tset_same. cbn [e_finished e_waiting e_cb e_started]. split; [assumption|]. split; [reflexivity|].
      split; [assumption|]. split; [intros i Li; rewrite tset_other by lia; auto|]. right. split; [reflexivity|]. split; [lia|]. left. eauto.
    + cbn [Nat.ltb Nat.leb size silent_list length] in E. unfold all_finished in E. cbn [size silent_list length seq forallb] in E.
      rewrite Fi in E. cbn [andb] in E. injection E as <-. unfold stuck. cbn [set_pc al_log al_fin al_tbl al_pending al_pc_].
      repeat (split; [assumption|]). right. split; [assumption|]. split; [assumption|]. right. reflexivity.
    + unfold some_finished in E. rewrite Pe, F in E. cbn in E. unfold timed_wait in E. cbn [size silent_list length seq existsb] in E.
      rewrite Wa in E. cbn [nth_error silent_list aa_timed orb] in E. rewrite andb_false_r in E. discriminate.
  - destruct (nth_error silent_list i) as [b|] eqn:B; [|discriminate]. destruct i as [|i]; [|destruct i; discriminate].
    cbn in B. injection B as <-. cbn [aa_silent negb] in E. rewrite andb_false_r in E. discriminate.
  - destruct i as [|i]; [rewrite C in E; discriminate|]. rewrite Co in E by lia. discriminate.
  - destruct (al_canceled s); [discriminate|]. injection E as <-. unfold stuck. cbn [al_log al_fin al_tbl al_pending al_pc_].
    split; [cbn [In]; intros [Q|Q]; [discriminate|contradiction]|]. repeat (split; [assumption|]). assumption.
Qed.
Lemma silent_hangs : forall l s, al_run silent_list [] l al_init = AlNext s -> ~ In LFree (al_log s).
Proof.
  assert (G : forall l s s', stuck s -> al_run silent_list [] l s = AlNext s' -> stuck s').
  { induction l as [|a r IH]; intros s s' H E; cbn [al_run] in E; [injection E as <-; assumption|].
    destruct (al_step silent_list [] a s) eqn:Q; try discriminate; eauto using stuck_step. }
  intros l s E. assert (I : stuck al_init).
  { unfold stuck. cbn [al_init al_log al_fin al_tbl al_pending al_pc_ entry0 e_finished e_waiting e_cb e_started].
    repeat (split; [auto|]). left. auto. }
  exact (proj1 (G l _ _ I E)).
Qed.

(** A dependency cycle makes the thread spin: it is never blocked and never
    returns unless cancelled. *)
Definition cycle_list : list al_action :=
  [mkAA [1%nat] false false false [] (-1) false false false false;
   mkAA [0%nat] false false false [] (-1) false false false false].
Definition spinning (s : al_state) : Prop :=
  ~ In LFree (al_log s) /\ al_fin s = [] /\ al_pending s = 0 /\ al_canceled s = false /\
  (forall i, al_tbl s i = entry0) /\
  (al_pc_ s = PTop \/ (exists i t, al_pc_ s = PScan i t) \/ al_pc_ s = PWait \/ al_pc_ s = PCheck).
Lemma spin_step : forall a s s', a <> ECancel -> spinning s -> al_step cycle_list [] a s = AlNext s' -> spinning s'.
Proof.
  intros a s s' NC [NF [F [Pe [Ca [T P]]]]] E. destruct a as [now d|i|i|]; cbn [al_step] in E; [| | |congruence].
  - unfold main_step in E. destruct P as [P|[[i [t P]]|[P|P]]]; rewrite P in E.
    + injection E as <-. unfold spinning. cbn [set_pc al_log al_fin al_tbl al_pending al_pc_ al_canceled].
      repeat (split; [assumption|]). right. left. eauto.
    + destruct (Nat.ltb i (size cycle_list)) eqn:L.
      * apply Nat.ltb_lt in L. cbn in L. assert (i = 0 \/ i = 1)%nat as [-> | ->] by lia; unfold scan_action in E;
          cbn [nth_error cycle_list] in E; rewrite !T in E; cbn [e_started e_waiting entry0 andb aa_deps deps_status] in E;
          rewrite !T in E; cbn in E; injection E as <-; unfold spinning; cbn [set_pc al_log al_fin al_tbl al_pending al_pc_ al_canceled];
          repeat (split; [assumption|]); right; left; eauto.
      * unfold all_finished in E. cbn [size cycle_list length seq forallb] in E. rewrite !T in E. cbn in E. injection E as <-.
        unfold spinning. cbn [set_pc al_log al_fin al_tbl al_pending al_pc_ al_canceled]. repeat (split; [assumption|]). auto.
    + unfold some_finished, handle_finished, some_finished in E. rewrite Pe in E. cbn [Z.eqb orb] in E. injection E as <-.
      unfold spinning. cbn [al_log al_fin al_tbl al_pending al_pc_ al_canceled]. rewrite F. cbn [map rev app fold_left].
      repeat (split; [assumption || reflexivity|]). auto.
    + rewrite Ca in E. injection E as <-. unfold spinning. cbn [set_pc al_log al_fin al_tbl al_pending al_pc_ al_canceled].
      repeat (split; [assumption|]). auto.
  - destruct (nth_error cycle_list i); [|discriminate]. rewrite T in E. discriminate.
  - rewrite T in E. discriminate.
Qed.
Lemma cycle_spins : forall l s, ~ In ECancel l -> al_run cycle_list [] l al_init = AlNext s ->
  ~ In LFree (al_log s) /\ (forall now d, main_step cycle_list [] now d s <> AlDisabled).
Proof.
  assert (G : forall l s s', ~ In ECancel l -> spinning s -> al_run cycle_list [] l s = AlNext s' -> spinning s').
  { induction l as [|a r IH]; intros s s' N H E; cbn [al_run] in E; [injection E as <-; assumption|].
    assert (a <> ECancel) by (intros ->; apply N; left; reflexivity).
    assert (~ In ECancel r) by (intros Q; apply N; right; assumption).
    destruct (al_step cycle_list [] a s) eqn:Q; try discriminate; eauto using spin_step. }
  intros l s N E. assert (I : spinning al_init).
  { unfold spinning. cbn [al_init al_log al_fin al_tbl al_pending al_pc_ al_canceled]. repeat (split; [auto|]). auto. }
  destruct (G l _ _ N I E) as [NF [F [Pe [Ca [T P]]]]]. split; [assumption|]. intros now d.
  unfold main_step. destruct P as [P|[[i [t P]]|[P|P]]]; rewrite P; try discriminate.
  - destruct (Nat.ltb i (size cycle_list)) eqn:L; [|destruct (all_finished _ _); discriminate].
    apply Nat.ltb_lt in L. cbn in L. assert (i = 0 \/ i = 1)%nat as [-> | ->] by lia; unfold scan_action;
      cbn [nth_error cycle_list]; rewrite !T; cbn [e_started e_waiting entry0 andb aa_deps deps_status]; rewrite !T; cbn; discriminate.
  - unfold some_finished, handle_finished, some_finished. rewrite Pe. cbn. discriminate.
Qed.

(** * cancel_traffic_when_done *)
Section C.
Variable acts : list al_action.
Variable preds : list str.
Definition cancels (s : al_state) : Prop :=
  (forall i a, act_at acts i a -> aa_cancel a = true -> In (LCall i) (al_log s) -> In LCancel (al_log s)) /\
  (al_canceled s = true -> In LCancel (al_log s)).
Lemma cancels_more : forall s s' new, cancels s -> al_log s' = new ++ al_log s -> al_canceled s' = al_canceled s ->
  (forall i, ~ In (LCall i) new) -> cancels s'.
Proof.
  intros s s' new [A B] E C N. split; rewrite E.
  - intros i a X Y Z. apply in_app_iff. right. apply in_app_iff in Z. destruct Z as [Z|Z]; [destruct (N _ Z)|eauto].
  - rewrite C. intros X. apply in_app_iff. auto.
Qed.
Lemma cancels_pc : forall p s, cancels s -> cancels (set_pc p s).
Proof. intros p s H. eapply (cancels_more s _ []); eauto. Qed.
Lemma cancels_finish : forall i s, cancels s -> cancels (finish_action i s).
Proof. intros i s H. eapply (cancels_more s _ [LFinish i]); eauto. intros j [Q|[]]; discriminate. Qed.
Lemma cancels_enter : forall i a s, act_at acts i a -> cancels s -> cancels (enter_callback i a s).
Proof.
  intros i a s A [H1 H2].
  assert (M : forall e, In e (al_log s) -> In e (al_log (enter_callback i a s))).
  { intros e He. unfold enter_callback. cbn [al_log].
    destruct (aa_cancel a && negb (al_canceled s)); destruct (e_sends (al_tbl s i)); cbn [In]; auto. }
  assert (D : al_canceled s || aa_cancel a = true -> In LCancel (al_log (enter_callback i a s))).
  { intros Q. destruct (al_canceled s) eqn:C; [auto|]. cbn [orb] in Q. unfold enter_callback. cbn [al_log]. rewrite Q, C. left. reflexivity. }
  split; [|exact D]. intros j b B X Y.
  assert (Y' : j = i \/ In (LCall j) (al_log s)).
  { unfold enter_callback in Y. cbn [al_log] in Y.
    destruct (aa_cancel a && negb (al_canceled s)); destruct (e_sends (al_tbl s i)); cbn [In] in Y;
      repeat match goal with Q : _ \/ _ |- _ => destruct Q as [Q|Q] end; try discriminate; auto; injection Y as <-; auto. }
  destruct Y' as [-> |Y']; [|eauto]. unfold act_at in *. rewrite A in B. injection B as <-. apply D. rewrite X. apply orb_true_r.
Qed.
Lemma cancels_handle : forall p s s', cancels s -> handle_finished p s = AlNext s' -> cancels s'.
Proof.
  intros p s s' H E. unfold handle_finished in E. destruct (some_finished s); [|discriminate]. injection E as <-.
  eapply (cancels_more s _ (rev (map LDone (al_fin s)))); eauto.
  intros i Q. apply in_rev in Q. apply in_map_iff in Q. destruct Q as [x [Q _]]. discriminate.
Qed.
Lemma cancels_step : forall x s s', cancels s -> al_step acts preds x s = AlNext s' -> cancels s'.
Proof.
  intros [now d|i|i|] s s' H E; cbn [al_step] in E.
  - unfold main_step in E. destruct (al_pc_ s) as [|i t| | |i some| | |] eqn:P.
    + injection E as <-. now apply cancels_pc.
    + destruct (Nat.ltb i (size acts)).
      * unfold scan_action in E. destruct (nth_error acts i) as [a|] eqn:A; [|discriminate].
        destruct (e_started (al_tbl s i)); [injection E as <-; now apply cancels_pc|].
        destruct (_ && _); [injection E as <-; now apply cancels_pc|].
        destruct (deps_status _ _ _ _) as [[[|] k]|]; [| |discriminate].
        2:{ injection E as <-; now apply cancels_pc. }
        destruct (negb _ && aa_delay a).
        { injection E as <-. eapply (cancels_more s _ [LDelay i t d]); eauto. intros j [Q|[]]; discriminate. }
        destruct (_ && aa_fatal a); [discriminate|].
        match goal with E : context [mkAL (PScan (S i) t) ?a ?b ?c ?d ?e ?f ?g] |- _ =>
          assert (H1 : cancels (mkAL (PScan (S i) t) a b c d e f g)) end.
        { match goal with |- cancels (mkAL _ _ _ _ _ _ _ (?e :: _)) => eapply (cancels_more s _ [e]); eauto end.
          intros j [Q|[]]; discriminate. }
        destruct (k || _); injection E as <-; [|assumption]. now apply cancels_finish, cancels_enter.
      * destruct (all_finished acts s); injection E as <-; now apply cancels_pc.
    + destruct (some_finished s); [eauto using cancels_handle|]. destruct (timed_wait acts s); [|discriminate].
      injection E as <-. now apply cancels_pc.
    + injection E as <-. now apply cancels_pc.
    + destruct (Nat.ltb i (size acts)).
      * destruct (nth_error acts i) as [a|] eqn:A; [|discriminate]. destruct (_ || _); [injection E as <-; now apply cancels_pc|].
        destruct (e_cb _); try discriminate. injection E as <-. now apply cancels_pc, cancels_finish, cancels_enter.
      * destruct some; [eauto using cancels_handle|injection E as <-; now apply cancels_pc].
    + destruct (some_finished s); [|discriminate]. destruct (handle_finished PDrain s) eqn:Q; try discriminate.
      injection E as <-. eapply cancels_pc, cancels_handle; eassumption.
    + injection E as <-. eapply (cancels_more s _ (LFree :: (if al_early s then [] else [LSend None (al_override s)]))); eauto.
      intros j [Q|Q]; [discriminate|]. destruct (al_early s); [destruct Q|]. destruct Q as [Q|[]]; discriminate.
    + discriminate.
  - destruct (nth_error acts i) as [a|] eqn:A; [|discriminate]. destruct (_ && _); [|discriminate].
    destruct (e_cb (al_tbl s i)); try discriminate.
    assert (s' = finish_action i (enter_callback i a s) \/ s' = enter_callback i a s) as [-> | ->].
    { destruct (al_pc_ s); try discriminate; destruct (aa_activity a); cbn [scanning] in E; try discriminate; injection E as <-; auto. }
    + now apply cancels_finish, cancels_enter.
    + now apply cancels_enter.
  - destruct (e_cb (al_tbl s i)); try discriminate.
    assert (s' = finish_action i s) as -> by (destruct (al_pc_ s); try discriminate; now injection E as <-).
    now apply cancels_finish.
  - destruct (al_canceled s); [discriminate|]. injection E as <-. destruct H as [H1 H2].
    split; cbn [al_log al_canceled]; intros; left; reflexivity.
Qed.
Lemma cancel_when_done : forall s, reachable acts preds s -> forall i a, act_at acts i a -> aa_cancel a = true ->
  In (LCall i) (al_log s) -> In LCancel (al_log s).
Proof.
  intros s [l E]. assert (G : forall l s s', cancels s -> al_run acts preds l s = AlNext s' -> cancels s').
  { clear s l E. induction l as [|a r IH]; intros s s' H E; cbn [al_run] in E; [injection E as <-; assumption|].
    destruct (al_step acts preds a s) eqn:Q; try discriminate; eauto using cancels_step. }
  assert (I : cancels al_init) by (split; cbn [al_init al_log al_canceled In]; [tauto|discriminate]).
  exact (proj1 (G l _ _ I E)).
Qed.
End C.

(** * Predicates *)
Lemma predicates_drawn : forall draws p, NoDup (map fst draws) ->
  (forall n, In n (map fst draws) -> starts_with n (s_ "!"%string) = false) ->
  In p (map fst draws) ->
  (In p (draw_predicates draws) <-> In (p, true) draws) /\
  (In (s_ "!"%string ++ p)%list (draw_predicates draws) <-> In (p, false) draws) /\
  (In (p, true) draws <-> ~ In (p, false) draws).
Proof.
  intros draws p ND NB IP.
  assert (BANG : forall n q, In n (map fst draws) -> n <> (s_ "!"%string ++ q)%list).
  { intros n q Hn E. specialize (NB n Hn). rewrite E in NB. destruct q; vm_compute in NB; discriminate. }
  assert (U : forall b c, In (p, b) draws -> In (p, c) draws -> b = c).
  { clear -ND. induction draws as [|[n x] r IH]; intros b c A B; [destruct A|]. cbn [map fst] in ND. inversion_clear ND.
    destruct A as [A|A], B as [B|B].
    - congruence.
    - injection A as -> ->. destruct H. apply in_map_iff. exists (p, c). auto.
    - injection B as -> ->. destruct H. apply in_map_iff. exists (p, b). auto.
    - auto. }
  unfold draw_predicates. split; [|split].
  - split.
    + intros H. apply in_map_iff in H. destruct H as [[n b] [E H]]. cbn [fst snd] in E. destruct b; [now subst n|].
      symmetry in E. destruct (BANG p n IP E).
    + intros H. apply in_map_iff. exists (p, true). auto.
  - split.
    + intros H. apply in_map_iff in H. destruct H as [[n b] [E H]]. cbn [fst snd] in E. destruct b.
      * destruct (BANG n p); [apply in_map_iff; exists (n, true); auto|assumption].
      * apply app_inv_head in E. now subst n.
    + intros H. apply in_map_iff. exists (p, false). auto.
  - apply in_map_iff in IP. destruct IP as [[n b] [E H]]. cbn [fst] in E. subst n. split.
    + intros A B. discriminate (U _ _ A B).
    + intros N. destruct b; [assumption|contradiction].
Qed.
