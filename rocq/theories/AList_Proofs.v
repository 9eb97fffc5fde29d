(** Specification and proofs for AList_Model. *)
From Coq Require Import Ascii String List ZArith Bool Lia Arith.
From Verif Require Import Base_Model Base_Proofs AList_Model.
Import ListNotations.
Open Scope Z_scope.

(** * Specification: what may follow what in the log of an action list
    (newest event first) *)
Definition send_count (l : list al_event) : nat :=
  length (filter (fun e => match e with LSend _ _ => true | _ => false end) l).

Section Spec.
Variable acts : list al_action.
Variable preds : list str.

Definition act_at (i : nat) (a : al_action) : Prop := nth_error acts i = Some a.

(** The override an action brings in: none when it was skipped. *)
Definition own_override (l : list al_event) (i : nat) : Z :=
  if existsb (fun e => match e with LStart j false _ => Nat.eqb j i | _ => false end) l
  then match nth_error acts i with Some a => aa_override a | None => -1 end
  else -1.
(** The override of the last finished action that has one. *)
Fixpoint last_override (l : list al_event) : Z :=
  match l with
  | [] => -1
  | LFinish i :: r => if own_override r i =? -1 then last_override r else own_override r i
  | _ :: r => last_override r
  end.

Definition event_ok (e : al_event) (l : list al_event) : Prop :=
  match e with
  | LDelay i now d => ~ In LFree l /\ (forall sk t, ~ In (LStart i sk t) l) /\ exists a, act_at i a /\ aa_delay a = true /\
                      forall j, In j (aa_deps a) -> In (LDone j) l
  | LStart i skip now =>
      ~ In LFree l /\ (forall sk t, ~ In (LStart i sk t) l) /\
      exists a, act_at i a /\
        (forall j, In j (aa_deps a) -> In (LDone j) l) /\
        (skip = true <-> (exists p, In p (aa_preds a) /\ ~ In p preds) \/
                         (exists j t, In j (aa_deps a) /\ In (LStart j true t) l)) /\
        (aa_delay a = true -> exists t d, In (LDelay i t d) l /\ t + d <= now)
  | LCall i => ~ In LFree l /\ ~ In (LCall i) l /\ exists sk t, In (LStart i sk t) l
  | LSend (Some i) ov =>
      ~ In LFree l /\ send_count l = 0%nat /\ (exists r, l = LCall i :: r) /\
      (exists a, act_at i a /\ (length acts = 1%nat \/ aa_send a = true)) /\
      ov = (if own_override l i =? -1 then last_override l else own_override l i)
  | LSend None ov => ~ In LFree l /\ send_count l = 0%nat /\ ov = last_override l /\
      forall i sk t a, In (LStart i sk t) l -> act_at i a -> length acts <> 1%nat /\ aa_send a = false
  | LFinish i => ~ In LFree l /\ ~ In (LFinish i) l /\ In (LCall i) l
  | LDone i => ~ In LFree l /\ ~ In (LDone i) l /\ In (LFinish i) l
  | LCancel => ~ In LCancel l
  | LFree => ~ In LFree l /\ send_count l = 1%nat /\
      (forall i sk t, In (LStart i sk t) l -> In (LDone i) l) /\
      (In LCancel l \/ forall i, (i < length acts)%nat -> In (LDone i) l)
  end.
Fixpoint history_ok (l : list al_event) : Prop :=
  match l with [] => True | e :: r => event_ok e r /\ history_ok r end.
End Spec.

Lemma history_split : forall acts preds l1 e l2, history_ok acts preds (l1 ++ e :: l2) -> event_ok acts preds e l2.
Proof. induction l1 as [|x l1 IH]; intros e l2 H; cbn [app history_ok] in H; destruct H; auto. Qed.

(** Dependencies name existing actions and every action is of a known kind. *)
Definition list_ok (acts : list al_action) : Prop :=
  forall i a, nth_error acts i = Some a -> (forall d, In d (aa_deps a) -> (d < length acts)%nat) /\ aa_fatal a = false.

(** * Counting *)
Definition cnt (f : nat -> bool) (n : nat) : Z := Z.of_nat (length (filter f (seq 0 n))).
Definition b2z (b : bool) : Z := if b then 1 else 0.
Lemma cnt_S : forall f n, cnt f (S n) = cnt f n + b2z (f n).
Proof.
  intros f n. unfold cnt. rewrite seq_S, filter_app, app_length. cbn [filter plus]. destruct (f n); cbn [length b2z]; lia.
Qed.
Lemma cnt_ext : forall f g n, (forall j, (j < n)%nat -> f j = g j) -> cnt f n = cnt g n.
Proof.
  intros f g. induction n as [|n IH]; intros H; [reflexivity|]. rewrite !cnt_S, IH, H by (intros; auto with arith). reflexivity.
Qed.
Lemma cnt_upd : forall f g i n, (i < n)%nat -> (forall j, j <> i -> f j = g j) -> cnt f n + b2z (g i) = cnt g n + b2z (f i).
Proof.
  intros f g i. induction n as [|n IH]; intros L H; [lia|]. rewrite !cnt_S. destruct (Nat.eq_dec i n) as [->|N].
  - rewrite (cnt_ext f g n) by (intros; apply H; lia). lia.
  - specialize (IH ltac:(lia) H). rewrite (H n) by lia. lia.
Qed.
Lemma cnt_pos : forall f n, 0 < cnt f n -> exists i, (i < n)%nat /\ f i = true.
Proof.
  intros f. induction n as [|n IH]; intros H; [unfold cnt in H; cbn in H; lia|]. rewrite cnt_S in H.
  destruct (f n) eqn:E; [exists n; auto|]. destruct IH as [i [A B]]; [cbn [b2z] in H; lia|]. exists i. auto.
Qed.
Lemma cnt_nonneg : forall f n, 0 <= cnt f n.
Proof. intros. unfold cnt. lia. Qed.

Definition running (t : nat -> a_entry) (i : nat) : bool :=
  e_started (t i) && match e_cb (t i) with CbFinished => false | _ => true end.

Section Proofs.
Variable acts : list al_action.
Variable preds : list str.
Notation sz := (length acts).
Hypothesis OK : list_ok acts.

(** * Invariant *)
Record J (s : al_state) : Prop := mkJ {
  J_out : forall i, (sz <= i)%nat -> al_tbl s i = entry0;
  J_fresh : forall i, e_started (al_tbl s i) = false ->
    e_finished (al_tbl s i) = false /\ e_cb (al_tbl s i) = CbNone /\ e_override (al_tbl s i) = -1 /\ e_sends (al_tbl s i) = false;
  J_fin : forall i, e_finished (al_tbl s i) = true -> e_cb (al_tbl s i) = CbFinished;
  J_list : forall i, In i (al_fin s) <-> e_cb (al_tbl s i) = CbFinished /\ e_finished (al_tbl s i) = false;
  J_nd : NoDup (al_fin s);
  J_pend : al_pending s = cnt (running (al_tbl s)) sz;
  J_start : forall i, e_started (al_tbl s i) = true <-> exists sk now, In (LStart i sk now) (al_log s);
  J_skip : forall i sk now, In (LStart i sk now) (al_log s) -> e_skipped (al_tbl s i) = sk;
  J_done : forall i, e_finished (al_tbl s i) = true <-> In (LDone i) (al_log s);
  J_call : forall i, e_cb (al_tbl s i) <> CbNone <-> In (LCall i) (al_log s);
  J_finish : forall i, e_cb (al_tbl s i) = CbFinished <-> In (LFinish i) (al_log s);
  J_wait : forall i, e_waiting (al_tbl s i) = true -> e_started (al_tbl s i) = false /\ exists t d, e_time (al_tbl s i) = Some (t + d) /\ In (LDelay i t d) (al_log s);
  J_sends : forall i, e_sends (al_tbl s i) = true ->
    al_early s = true /\ exists a, act_at acts i a /\ (sz = 1%nat \/ aa_send a = true);
  J_uniq : forall i j, e_sends (al_tbl s i) = true -> e_sends (al_tbl s j) = true -> i = j;
  J_early : al_early s = true -> exists i, e_sends (al_tbl s i) = true;
  J_late : al_early s = false -> forall i sk t a, In (LStart i sk t) (al_log s) -> act_at acts i a -> sz <> 1%nat /\ aa_send a = false;
  J_sent : send_count (al_log s) = 0%nat \/
           send_count (al_log s) = 1%nat /\ exists i, e_sends (al_tbl s i) = true /\ e_cb (al_tbl s i) <> CbNone;
  J_sent' : forall i, e_sends (al_tbl s i) = true -> e_cb (al_tbl s i) <> CbNone -> send_count (al_log s) = 1%nat;
  J_own : forall i, e_override (al_tbl s i) = own_override acts (al_log s) i;
  J_ov : al_override s = last_override acts (al_log s);
  J_good : history_ok acts preds (al_log s);
  J_nofree : ~ In LFree (al_log s);
  J_can : al_canceled s = true <-> In LCancel (al_log s)
}.

Lemma J_lt : forall s i, J s -> e_started (al_tbl s i) = true -> (i < sz)%nat.
Proof.
  intros s i H E. destruct (le_lt_dec sz i) as [L|L]; [|exact L]. rewrite (J_out _ H i L) in E. discriminate.
Qed.

Lemma J_init : J al_init.
Proof.
  constructor; cbn [al_init al_tbl al_fin al_log al_early al_pending al_override al_canceled entry0
                    e_started e_finished e_cb e_waiting e_sends e_override e_skipped]; try discriminate; try tauto; auto.
  - intros i. cbn. split; [tauto|]. intros [H _]. discriminate.
  - constructor.
  - unfold cnt. induction (seq 0 sz) as [|x r IH]; [reflexivity|]. cbn [filter]. exact IH.
  - intros i. split; [discriminate|]. intros [sk [t []]].
  - intros i sk t [].
  - intros i. split; [discriminate|intros []].
  - intros i. cbn. split; [discriminate|tauto].
  - intros _ i sk t a [].
  - exact I.
  - split; [discriminate|intros []].
Qed.

Lemma J_set_pc : forall p s, J s -> J (set_pc p s).
Proof. intros p s H. destruct H. constructor; assumption. Qed.

Lemma send_count_cons : forall e l, send_count (e :: l) = ((match e with LSend _ _ => 1 | _ => 0 end) + send_count l)%nat.
Proof. intros [] l; reflexivity. Qed.
Lemma own_cons : forall e l i, own_override acts (e :: l) i =
  match e with
  | LStart j false _ => if Nat.eqb j i then match nth_error acts i with Some a => aa_override a | None => -1 end
                        else own_override acts l i
  | _ => own_override acts l i
  end.
Proof.
  intros e l i. unfold own_override. cbn [existsb]. destruct e; try reflexivity. destruct skip; [reflexivity|].
  destruct (Nat.eqb i0 i); reflexivity.
Qed.
Lemma tset_same : forall t i e, tset t i e i = e.
Proof. intros. unfold tset. now rewrite Nat.eqb_refl. Qed.
Lemma tset_other : forall t i e j, j <> i -> tset t i e j = t j.
Proof. intros t i e j N. unfold tset. destruct (Nat.eqb_spec j i); [contradiction|reflexivity]. Qed.

Ltac upd i j := destruct (Nat.eq_dec j i) as [->|?]; [rewrite ?tset_same in *|rewrite ?tset_other in * by assumption];
  cbn [e_started e_finished e_cb e_waiting e_sends e_override e_skipped e_time] in *.

(** ** Delay *)
Lemma J_delay : forall s i a now d p, J s -> act_at acts i a -> aa_delay a = true ->
  e_started (al_tbl s i) = false -> (forall j, In j (aa_deps a) -> e_finished (al_tbl s j) = true) ->
  J (mkAL p (tset (al_tbl s) i (mkEntry false (e_finished (al_tbl s i)) true (e_skipped (al_tbl s i)) (Some (now + d))
                         (e_override (al_tbl s i)) (e_sends (al_tbl s i)) (e_cb (al_tbl s i))))
          (al_fin s) (al_pending s) (al_override s) (al_early s) (al_canceled s) (LDelay i now d :: al_log s)).
Proof.
  intros s i a now d p H A D S0 DP.
  assert (L : (i < sz)%nat) by (apply nth_error_Some; unfold act_at in A; congruence).
  destruct (J_fresh _ H i S0) as [F1 [F2 [F3 F4]]]. rewrite F1, F2, F3, F4.
  constructor; cbn [al_tbl al_fin al_log al_early al_pending al_override al_canceled].
  - intros j Lj. rewrite tset_other by lia. apply (J_out _ H j Lj).
  - intros j. upd i j; [auto|apply (J_fresh _ H)].
  - intros j. upd i j; [discriminate|apply (J_fin _ H)].
  - intros j. rewrite (J_list _ H). upd i j; [|tauto]. rewrite F1, F2. tauto.
  - apply (J_nd _ H).
  - rewrite (J_pend _ H). apply cnt_ext. intros j _. unfold running. upd i j; [now rewrite S0|reflexivity].
  - intros j. cbn [In]. upd i j.
    + split; [discriminate|]. intros [sk [t [E|E]]]; [discriminate|].
      assert (e_started (al_tbl s i) = true) by (apply (J_start _ H); eauto). congruence.
    + rewrite (J_start _ H j). split; intros [sk [t E]]; exists sk, t; [auto|destruct E; [discriminate|assumption]].
  - intros j sk t [E|E]; [discriminate|]. upd i j; apply (J_skip _ H _ _ _ E).
  - intros j. cbn [In]. pose proof (J_done _ H j) as Q. upd i j.
    + rewrite F1 in Q. split; [discriminate|]. intros [E|E]; [discriminate|]. apply Q in E. discriminate.
    + rewrite Q. split; [auto|intros [E|E]; [discriminate|assumption]].
  - intros j. cbn [In]. pose proof (J_call _ H j) as Q. upd i j.
    + rewrite F2 in Q. split; [tauto|]. intros [E|E]; [discriminate|]. now apply Q in E.
    + rewrite Q. split; [auto|intros [E|E]; [discriminate|assumption]].
  - intros j. cbn [In]. pose proof (J_finish _ H j) as Q. upd i j.
    + rewrite F2 in Q. split; [discriminate|]. intros [E|E]; [discriminate|]. apply Q in E. discriminate.
    + rewrite Q. split; [auto|intros [E|E]; [discriminate|assumption]].
  - intros j. cbn [In]. upd i j.
    + intros _. split; [reflexivity|]. exists now, d. auto.
    + intros W. destruct (J_wait _ H j W) as [Q0 [t [x [Q1 Q2]]]]. split; [assumption|]. exists t, x. auto.
  - intros j. upd i j; [discriminate|apply (J_sends _ H)].
  - intros j k. upd i j; [discriminate|]. upd i k; [discriminate|]. apply (J_uniq _ H).
  - intros E. destruct (J_early _ H E) as [j Q]. exists j. upd i j; [congruence|assumption].
  - intros E j sk t b [X|X]; [discriminate|]. apply (J_late _ H E _ _ _ _ X).
  - rewrite send_count_cons. cbn [plus]. destruct (J_sent _ H) as [Q|[Q [j [Q1 Q2]]]]; [auto|right].
    split; [assumption|]. exists j. upd i j; [congruence|auto].
  - intros j. rewrite send_count_cons. cbn [plus]. upd i j; [discriminate|apply (J_sent' _ H)].
  - intros j. rewrite own_cons. rewrite <- (J_own _ H j). upd i j; congruence.
  - apply (J_ov _ H).
  - cbn [history_ok]. split; [|apply (J_good _ H)]. cbn [event_ok]. split; [apply (J_nofree _ H)|]. split.
    + intros sk t E. assert (e_started (al_tbl s i) = true) by (apply (J_start _ H); eauto). congruence.
    + exists a. split; [assumption|]. split; [assumption|]. intros j Q. apply (J_done _ H), DP, Q.
  - cbn [In]. intros [E|E]; [discriminate|]. now apply (J_nofree _ H).
  - cbn [In]. rewrite (J_can _ H). split; [auto|intros [E|E]; [discriminate|assumption]].
Qed.

(** ** Start *)
Lemma J_started : forall s i a now p skip, J s -> act_at acts i a ->
  e_started (al_tbl s i) = false -> (forall j, In j (aa_deps a) -> e_finished (al_tbl s j) = true) ->
  (skip = true <-> (exists p, In p (aa_preds a) /\ ~ In p preds) \/ (exists j, In j (aa_deps a) /\ e_skipped (al_tbl s j) = true)) ->
  (aa_delay a = true -> exists t, e_waiting (al_tbl s i) = true /\ e_time (al_tbl s i) = Some t /\ t <= now) ->
  let sends := negb (al_early s) && (Nat.eqb sz 1 || aa_send a) in
  J (mkAL p (tset (al_tbl s) i (mkEntry true (e_finished (al_tbl s i)) false skip None
                        (if skip then -1 else aa_override a) sends (e_cb (al_tbl s i))))
       (al_fin s) (al_pending s + 1) (al_override s) (al_early s || sends) (al_canceled s)
       (LStart i skip now :: al_log s)).
Proof.
  intros s i a now p skip H A S0 DP SK DL sends.
  assert (L : (i < sz)%nat) by (apply nth_error_Some; unfold act_at in A; congruence).
  destruct (J_fresh _ H i S0) as [F1 [F2 [F3 F4]]]. rewrite F1, F2.
  assert (NS : forall sk t, ~ In (LStart i sk t) (al_log s)).
  { intros sk t E. assert (e_started (al_tbl s i) = true) by (apply (J_start _ H); eauto). congruence. }
  constructor; cbn [al_tbl al_fin al_log al_early al_pending al_override al_canceled].
  - intros j Lj. rewrite tset_other by lia. apply (J_out _ H j Lj).
  - intros j. upd i j; [discriminate|apply (J_fresh _ H)].
  - intros j. upd i j; [discriminate|apply (J_fin _ H)].
  - intros j. rewrite (J_list _ H). upd i j; [|tauto]. rewrite F1, F2. tauto.
  - apply (J_nd _ H).
  - rewrite (J_pend _ H).
    pose proof (cnt_upd (running (tset (al_tbl s) i (mkEntry true false false skip None
      (if skip then -1 else aa_override a) sends CbNone))) (running (al_tbl s)) i sz L) as C.
    assert (N : forall j, j <> i -> running (tset (al_tbl s) i (mkEntry true false false skip None
      (if skip then -1 else aa_override a) sends CbNone)) j = running (al_tbl s) j)
      by (intros j N; unfold running; now rewrite tset_other).
    specialize (C N). unfold running at 2 4 in C. rewrite tset_same, S0 in C. cbn [e_started e_cb andb b2z] in C. lia.
  - intros j. cbn [In]. upd i j.
    + split; [eauto|reflexivity].
    + rewrite (J_start _ H j). split; intros [sk [t E]]; exists sk, t; [auto|destruct E as [E|E]; [congruence|assumption]].
  - intros j sk t [E|E].
    + injection E as <- <- <-. now rewrite tset_same.
    + upd i j; [exfalso; eapply NS; eassumption|apply (J_skip _ H _ _ _ E)].
  - intros j. cbn [In]. pose proof (J_done _ H j) as Q. upd i j.
    + rewrite F1 in Q. split; [discriminate|]. intros [E|E]; [discriminate|]. apply Q in E. discriminate.
    + rewrite Q. split; [auto|intros [E|E]; [discriminate|assumption]].
  - intros j. cbn [In]. pose proof (J_call _ H j) as Q. upd i j.
    + rewrite F2 in Q. split; [tauto|]. intros [E|E]; [discriminate|]. now apply Q in E.
    + rewrite Q. split; [auto|intros [E|E]; [discriminate|assumption]].
  - intros j. cbn [In]. pose proof (J_finish _ H j) as Q. upd i j.
    + rewrite F2 in Q. split; [discriminate|]. intros [E|E]; [discriminate|]. apply Q in E. discriminate.
    + rewrite Q. split; [auto|intros [E|E]; [discriminate|assumption]].
  - intros j. cbn [In]. upd i j; [discriminate|].
    intros W. destruct (J_wait _ H j W) as [Q0 [t [x [Q1 Q2]]]]. split; [assumption|]. exists t, x. auto.
  - intros j. upd i j.
    + intros E. rewrite E, orb_true_r. split; [reflexivity|]. exists a. split; [assumption|].
      unfold sends in E. apply andb_prop in E. destruct E as [_ E]. apply orb_prop in E.
      destruct E as [E|E]; [left; now apply Nat.eqb_eq|auto].
    + intros E. destruct (J_sends _ H j E) as [Q1 Q2]. rewrite Q1. auto.
  - intros j k. upd i j; upd i k; auto.
    + intros E1 E2. destruct (J_sends _ H k E2) as [Q _]. unfold sends in E1. rewrite Q in E1. discriminate.
    + intros E1 E2. destruct (J_sends _ H j E1) as [Q _]. unfold sends in E2. rewrite Q in E2. discriminate.
    + apply (J_uniq _ H).
  - intros E. destruct (al_early s) eqn:Q.
    + destruct (J_early _ H Q) as [j W]. exists j. upd i j; [congruence|assumption].
    + exists i. rewrite tset_same. cbn [orb] in E. exact E.
  - intros E j sk t b [X|X].
    + injection X as <- <- <-. intros B. unfold act_at in *. rewrite A in B. injection B as <-.
      apply orb_false_iff in E. destruct E as [E1 E2]. unfold sends in E2. rewrite E1 in E2. cbn [negb andb] in E2.
      apply orb_false_iff in E2. destruct E2 as [E2 E3]. split; [now apply Nat.eqb_neq|assumption].
    + apply orb_false_iff in E. apply (J_late _ H (proj1 E) _ _ _ _ X).
  - rewrite send_count_cons. cbn [plus]. destruct (J_sent _ H) as [Q|[Q [j [Q1 Q2]]]]; [auto|right].
    split; [assumption|]. exists j. upd i j; [congruence|auto].
  - intros j. rewrite send_count_cons. cbn [plus]. upd i j; [congruence|apply (J_sent' _ H)].
  - intros j. rewrite own_cons. pose proof (J_own _ H j) as Q. upd i j.
    + rewrite Nat.eqb_refl. unfold act_at in A. rewrite A. destruct skip; [congruence|reflexivity].
    + destruct skip; [assumption|]. destruct (Nat.eqb_spec i j); [congruence|assumption].
  - apply (J_ov _ H).
  - cbn [history_ok]. split; [|apply (J_good _ H)]. cbn [event_ok]. split; [apply (J_nofree _ H)|]. split; [exact NS|].
    exists a. split; [assumption|]. split; [intros j Q; apply (J_done _ H), DP, Q|]. split.
    + rewrite SK. split.
      * intros [X|[j [X Y]]]; [auto|]. right. pose proof (DP j X) as Fj. apply (J_fin _ H) in Fj.
        assert (St : e_started (al_tbl s j) = true).
        { destruct (e_started (al_tbl s j)) eqn:Z0; [reflexivity|]. destruct (J_fresh _ H j Z0) as [_ [Z1 _]]. congruence. }
        apply (J_start _ H) in St. destruct St as [sk [t St]]. pose proof (J_skip _ H _ _ _ St) as Z1.
        exists j, t. split; [assumption|]. congruence.
      * intros [X|[j [t [X Y]]]]; [auto|]. right. exists j. split; [assumption|]. apply (J_skip _ H _ _ _ Y).
    + intros D. destruct (DL D) as [t [W [T Le]]]. destruct (J_wait _ H i W) as [_ [t0 [d [Q1 Q2]]]].
      exists t0, d. split; [assumption|]. congruence || (rewrite T in Q1; injection Q1 as ->; assumption).
  - cbn [In]. intros [E|E]; [discriminate|]. now apply (J_nofree _ H).
  - cbn [In]. rewrite (J_can _ H). split; [auto|intros [E|E]; [discriminate|assumption]].
Qed.

(** ** Callback *)
Lemma J_enter : forall s i a, J s -> act_at acts i a -> e_started (al_tbl s i) = true -> e_cb (al_tbl s i) = CbNone ->
  J (enter_callback i a s).
Proof.
  intros s i a H A S0 C. unfold enter_callback.
  set (e := al_tbl s i) in *. set (ov := if e_override e =? -1 then _ else _).
  set (l1 := LCall i :: al_log s). set (l2 := if e_sends e then _ else _).
  set (l3 := if aa_cancel a && negb (al_canceled s) then LCancel :: l2 else l2).
  assert (L : (i < sz)%nat) by (apply nth_error_Some; unfold act_at in A; congruence).
  assert (F1 : e_finished e = false).
  { destruct (e_finished e) eqn:E; [|reflexivity]. apply (J_fin _ H) in E. fold e in E. congruence. }
  assert (IN : forall x, In x l3 <-> x = LCall i \/ In x (al_log s) \/ (e_sends e = true /\ x = LSend (Some i) ov) \/
            (aa_cancel a && negb (al_canceled s) = true /\ x = LCancel)).
  { intros x. unfold l3, l2, l1. destruct (aa_cancel a && negb (al_canceled s)), (e_sends e); cbn [In];
      intuition (try discriminate; try congruence; auto). }
  assert (OWN : forall j, own_override acts l3 j = own_override acts (al_log s) j).
  { intros j. unfold l3, l2, l1. destruct (aa_cancel a && negb (al_canceled s)), (e_sends e); rewrite !own_cons; reflexivity. }
  assert (LAST : last_override acts l3 = last_override acts (al_log s)).
  { unfold l3, l2, l1. destruct (aa_cancel a && negb (al_canceled s)), (e_sends e); reflexivity. }
  assert (SC : send_count l3 = ((if e_sends e then 1 else 0) + send_count (al_log s))%nat).
  { unfold l3, l2, l1. destruct (aa_cancel a && negb (al_canceled s)), (e_sends e); rewrite !send_count_cons; reflexivity. }
  assert (S00 : e_sends e = true -> send_count (al_log s) = 0%nat).
  { intros Q. destruct (J_sent _ H) as [X|[_ [j [Y Z0]]]]; [assumption|]. exfalso.
    assert (i = j) by (apply (J_uniq _ H); assumption). subst j. contradiction. }
  constructor; cbn [al_tbl al_fin al_log al_early al_pending al_override al_canceled].
  - intros j Lj. rewrite tset_other by lia. apply (J_out _ H j Lj).
  - intros j. upd i j; [fold e; congruence|apply (J_fresh _ H)].
  - intros j. upd i j; [congruence|apply (J_fin _ H)].
  - intros j. rewrite (J_list _ H). upd i j; [|tauto]. fold e. rewrite C. split; intros [? ?]; discriminate.
  - apply (J_nd _ H).
  - rewrite (J_pend _ H). apply cnt_ext. intros j _. unfold running. upd i j; [fold e; now rewrite C|reflexivity].
  - intros j. assert (Q : (exists sk now, In (LStart j sk now) l3) <-> (exists sk now, In (LStart j sk now) (al_log s))).
    { split; intros [sk [t X]]; exists sk, t; [apply IN in X; intuition discriminate|apply IN; auto]. }
    rewrite Q, <- (J_start _ H). upd i j; reflexivity.
  - intros j sk t X. apply IN in X. destruct X as [X|[X|[[_ X]|[_ X]]]]; try discriminate.
    upd i j; apply (J_skip _ H _ _ _ X).
  - intros j. rewrite IN. transitivity (e_finished (al_tbl s j) = true); [upd i j; reflexivity|].
    rewrite (J_done _ H). intuition (try discriminate).
  - intros j. rewrite IN. pose proof (J_call _ H j) as Q. upd i j.
    + split; [auto|discriminate].
    + rewrite Q. intuition (try discriminate). congruence.
  - intros j. rewrite IN. pose proof (J_finish _ H j) as Q. upd i j.
    + fold e in Q. rewrite C in Q. split; [discriminate|]. intros [X|[X|[[_ X]|[_ X]]]]; try discriminate. apply Q in X. discriminate.
    + rewrite Q. intuition (try discriminate).
  - intros j W. assert (W' : e_waiting (al_tbl s j) = true) by (upd i j; assumption).
    destruct (J_wait _ H j W') as [Q0 [t [d [Q1 Q2]]]]. split; [upd i j; assumption|]. exists t, d. split; [upd i j; assumption|]. apply IN. auto.
  - intros j. upd i j; apply (J_sends _ H).
  - intros j k E1 E2. apply (J_uniq _ H); [upd i j; assumption|upd i k; assumption].
  - intros E. destruct (J_early _ H E) as [j Q]. exists j. upd i j; assumption.
  - intros E j sk t b X. apply IN in X. destruct X as [X|[X|[[_ X]|[_ X]]]]; try discriminate. apply (J_late _ H E _ _ _ _ X).
  - rewrite SC. destruct (e_sends e) eqn:Q.
    + right. rewrite S00 by reflexivity. split; [reflexivity|]. exists i. rewrite tset_same. cbn [e_sends e_cb]. split; [reflexivity || assumption|discriminate].
    + cbn [plus]. destruct (J_sent _ H) as [X|[X [j [Y Z0]]]]; [auto|right]. split; [assumption|].
      exists j. upd i j; [fold e in Y; congruence|auto].
  - intros j. rewrite SC. upd i j.
    + intros Q _. rewrite Q, S00 by assumption. reflexivity.
    + intros Q1 Q2. pose proof (J_sent' _ H j Q1 Q2). destruct (e_sends e) eqn:Q; [|assumption].
      exfalso. rewrite S00 in H0 by reflexivity. discriminate.
  - intros j. rewrite OWN, <- (J_own _ H). upd i j; reflexivity.
  - rewrite LAST. apply (J_ov _ H).
  - assert (G1 : history_ok acts preds l1).
    { unfold l1. cbn [history_ok]. split; [|apply (J_good _ H)]. cbn [event_ok]. split; [apply (J_nofree _ H)|].
      split; [|apply (J_start _ H); assumption]. intros X. apply (J_call _ H) in X. fold e in X. contradiction. }
    assert (G2 : history_ok acts preds l2).
    { unfold l2. destruct (e_sends e) eqn:Q; [|assumption]. cbn [history_ok]. split; [|assumption]. cbn [event_ok].
      split; [unfold l1; cbn [In]; intros [X|X]; [discriminate|now apply (J_nofree _ H)]|].
      split; [unfold l1; rewrite send_count_cons, S00; reflexivity|]. split; [exists (al_log s); reflexivity|].
      split; [apply (J_sends _ H i Q)|]. unfold l1, ov. rewrite own_cons. cbn [last_override].
      rewrite <- (J_own _ H i), <- (J_ov _ H). reflexivity. }
    unfold l3. destruct (aa_cancel a && negb (al_canceled s)) eqn:Q; [|assumption]. cbn [history_ok]. split; [|assumption].
    cbn [event_ok]. intros X. apply andb_prop in Q. destruct Q as [_ Q].
    assert (Y : In LCancel (al_log s)).
    { unfold l2, l1 in X. destruct (e_sends e); cbn [In] in X; intuition discriminate. }
    apply (J_can _ H) in Y. rewrite Y in Q. discriminate.
  - rewrite IN. intros [X|[X|[[_ X]|[_ X]]]]; try discriminate. now apply (J_nofree _ H).
  - rewrite IN. destruct (al_canceled s) eqn:Q; cbn [orb negb].
    + split; [intros _; right; left; now apply (J_can _ H)|reflexivity].
    + rewrite andb_true_r. split; [auto|]. intros [X|[X|[[_ X]|[X _]]]]; try discriminate; [|assumption].
      apply (J_can _ H) in X. congruence.
Qed.

Lemma J_finish_action : forall s i, J s -> e_cb (al_tbl s i) = CbEntered -> J (finish_action i s).
Proof.
  intros s i H C. unfold finish_action. set (e := al_tbl s i) in *.
  assert (S0 : e_started e = true).
  { destruct (e_started e) eqn:E; [reflexivity|]. destruct (J_fresh _ H i E) as [_ [Q _]]. fold e in Q. congruence. }
  assert (L : (i < sz)%nat) by (apply (J_lt s); assumption).
  assert (F1 : e_finished e = false).
  { destruct (e_finished e) eqn:E; [|reflexivity]. apply (J_fin _ H) in E. fold e in E. congruence. }
  constructor; cbn [al_tbl al_fin al_log al_early al_pending al_override al_canceled].
  - intros j Lj. rewrite tset_other by lia. apply (J_out _ H j Lj).
  - intros j. upd i j; [congruence|apply (J_fresh _ H)].
  - intros j. upd i j; [reflexivity|apply (J_fin _ H)].
  - intros j. rewrite in_app_iff, (J_list _ H). cbn [In]. upd i j.
    + fold e. rewrite C. tauto.
    + intuition congruence.
  - apply NoDup_snoc; [apply (J_nd _ H)|]. rewrite (J_list _ H). fold e. rewrite C. intros [X _]. discriminate.
  - rewrite (J_pend _ H).
    set (t' := tset _ _ _).
    pose proof (cnt_upd (running t') (running (al_tbl s)) i sz L) as Q.
    assert (N : forall j, j <> i -> running t' j = running (al_tbl s) j)
      by (intros j N; unfold running, t'; now rewrite tset_other).
    specialize (Q N). unfold running at 2 4 in Q. unfold t' in Q. rewrite tset_same in Q. fold e in Q. rewrite S0, C in Q.
    cbn [e_started e_cb andb b2z] in Q. unfold t'. rewrite S0. lia.
  - intros j. cbn [In]. transitivity (e_started (al_tbl s j) = true); [upd i j; reflexivity|].
    rewrite (J_start _ H j). split; intros [sk [t E]]; exists sk, t; [auto|destruct E as [E|E]; [discriminate|assumption]].
  - intros j sk t [E|E]; [discriminate|]. upd i j; apply (J_skip _ H _ _ _ E).
  - intros j. cbn [In]. transitivity (e_finished (al_tbl s j) = true); [upd i j; reflexivity|].
    rewrite (J_done _ H j). split; [auto|intros [E|E]; [discriminate|assumption]].
  - intros j. cbn [In]. pose proof (J_call _ H j) as Q. upd i j.
    + fold e in Q. rewrite C in Q. split; [|discriminate]. intros _. right. apply Q. discriminate.
    + rewrite Q. split; [auto|intros [E|E]; [discriminate|assumption]].
  - intros j. cbn [In]. pose proof (J_finish _ H j) as Q. upd i j.
    + split; [auto|reflexivity].
    + rewrite Q. split; [auto|intros [E|E]; [congruence|assumption]].
  - intros j W. assert (W' : e_waiting (al_tbl s j) = true) by (upd i j; assumption).
    destruct (J_wait _ H j W') as [Q0 [t [d [Q1 Q2]]]]. split; [upd i j; assumption|]. exists t, d. split; [upd i j; assumption|]. right. assumption.
  - intros j. upd i j; apply (J_sends _ H).
  - intros j k E1 E2. apply (J_uniq _ H); [upd i j; assumption|upd i k; assumption].
  - intros E. destruct (J_early _ H E) as [j Q]. exists j. upd i j; assumption.
  - intros E j sk t b [X|X]; [discriminate|]. apply (J_late _ H E _ _ _ _ X).
  - rewrite send_count_cons. cbn [plus]. destruct (J_sent _ H) as [X|[X [j [Y Z0]]]]; [auto|right]. split; [assumption|].
    exists j. upd i j; [split; [assumption|discriminate]|auto].
  - intros j. rewrite send_count_cons. cbn [plus]. upd i j; [|apply (J_sent' _ H)].
    intros Q _. apply (J_sent' _ H i Q). fold e. congruence.
  - intros j. rewrite own_cons, <- (J_own _ H). upd i j; reflexivity.
  - cbn [last_override]. rewrite <- (J_own _ H i), <- (J_ov _ H). reflexivity.
  - cbn [history_ok]. split; [|apply (J_good _ H)]. cbn [event_ok]. split; [apply (J_nofree _ H)|]. split.
    + intros X. apply (J_finish _ H) in X. fold e in X. congruence.
    + apply (J_call _ H). fold e. congruence.
  - cbn [In]. intros [E|E]; [discriminate|]. now apply (J_nofree _ H).
  - cbn [In]. rewrite (J_can _ H). split; [auto|intros [E|E]; [discriminate|assumption]].
Qed.

(** ** HandleFinishedActions *)
Definition pop_one (s : al_state) (i : nat) (r : list nat) : al_state :=
  mkAL (al_pc_ s) (mark_finished (al_tbl s) i) r (al_pending s) (al_override s) (al_early s) (al_canceled s)
    (LDone i :: al_log s).
Lemma J_pop : forall s i r, J s -> al_fin s = i :: r -> J (pop_one s i r).
Proof.
  intros s i r H E. unfold pop_one, mark_finished. set (e := al_tbl s i) in *.
  pose proof (J_nd _ H) as ND. rewrite E in ND. inversion ND as [|? ? NI ND']; subst.
  assert (IF : In i (al_fin s)) by (rewrite E; left; reflexivity).
  apply (J_list _ H) in IF. destruct IF as [C F1]. fold e in C, F1.
  assert (S0 : e_started e = true).
  { destruct (e_started e) eqn:Q; [reflexivity|]. destruct (J_fresh _ H i Q) as [_ [X _]]. fold e in X. congruence. }
  assert (L : (i < sz)%nat) by (apply (J_lt s); assumption).
  assert (W0 : forall j, In j r <-> j <> i /\ e_cb (al_tbl s j) = CbFinished /\ e_finished (al_tbl s j) = false).
  { intros j. rewrite <- (J_list _ H), E. cbn [In]. split.
    - intros X. split; [|auto]. intros ->. contradiction.
    - intros [N [X|X]]; [congruence|assumption]. }
  constructor; cbn [al_tbl al_fin al_log al_early al_pending al_override al_canceled].
  - intros j Lj. rewrite tset_other by lia. apply (J_out _ H j Lj).
  - intros j. upd i j; [congruence|apply (J_fresh _ H)].
  - intros j. upd i j; [auto|apply (J_fin _ H)].
  - intros j. rewrite W0. upd i j; [intuition congruence|tauto].
  - assumption.
  - rewrite (J_pend _ H). apply cnt_ext. intros j _. unfold running. upd i j; reflexivity.
  - intros j. cbn [In]. transitivity (e_started (al_tbl s j) = true); [upd i j; reflexivity|].
    rewrite (J_start _ H j). split; intros [sk [t X]]; exists sk, t; [auto|destruct X as [X|X]; [discriminate|assumption]].
  - intros j sk t [X|X]; [discriminate|]. upd i j; apply (J_skip _ H _ _ _ X).
  - intros j. cbn [In]. pose proof (J_done _ H j) as Q. upd i j; [tauto|].
    rewrite Q. split; [auto|intros [X|X]; [congruence|assumption]].
  - intros j. cbn [In]. transitivity (e_cb (al_tbl s j) <> CbNone); [upd i j; reflexivity|].
    rewrite (J_call _ H j). split; [auto|intros [X|X]; [discriminate|assumption]].
  - intros j. cbn [In]. transitivity (e_cb (al_tbl s j) = CbFinished); [upd i j; reflexivity|].
    rewrite (J_finish _ H j). split; [auto|intros [X|X]; [discriminate|assumption]].
  - intros j W. assert (W' : e_waiting (al_tbl s j) = true) by (upd i j; assumption).
    destruct (J_wait _ H j W') as [Q0 [t [d [Q1 Q2]]]]. upd i j.
    + fold e in Q0. congruence.
    + split; [assumption|]. exists t, d. split; [assumption|]. right. assumption.
  - intros j. upd i j; apply (J_sends _ H).
  - intros j k E1 E2. apply (J_uniq _ H); [upd i j; assumption|upd i k; assumption].
  - intros Q. destruct (J_early _ H Q) as [j Q']. exists j. upd i j; assumption.
  - intros Q j sk t b [X|X]; [discriminate|]. apply (J_late _ H Q _ _ _ _ X).
  - rewrite send_count_cons. cbn [plus]. destruct (J_sent _ H) as [X|[X [j [Y Z0]]]]; [auto|right]. split; [assumption|].
    exists j. upd i j; auto.
  - intros j. rewrite send_count_cons. cbn [plus]. upd i j; apply (J_sent' _ H).
  - intros j. rewrite own_cons, <- (J_own _ H). upd i j; reflexivity.
  - apply (J_ov _ H).
  - cbn [history_ok]. split; [|apply (J_good _ H)]. cbn [event_ok]. split; [apply (J_nofree _ H)|]. split.
    + intros X. apply (J_done _ H) in X. fold e in X. congruence.
    + apply (J_finish _ H). assumption.
  - cbn [In]. intros [X|X]; [discriminate|]. now apply (J_nofree _ H).
  - cbn [In]. rewrite (J_can _ H). split; [auto|intros [X|X]; [discriminate|assumption]].
Qed.


Lemma J_handle_all : forall fin s p, al_fin s = fin -> J s ->
  J (mkAL p (fold_left mark_finished fin (al_tbl s)) [] (al_pending s) (al_override s)
       (al_early s) (al_canceled s) (rev (map LDone fin) ++ al_log s)).
Proof.
  induction fin as [|i r IH]; intros s p E H.
  - cbn [fold_left map rev app]. destruct s as [pc t f pe ov ea ca lo]. cbn [al_fin] in E. subst f.
    apply (J_set_pc p) in H. exact H.
  - cbn [fold_left map rev]. rewrite <- app_assoc. cbn [app].
    apply (IH (pop_one s i r) p); [reflexivity|]. apply J_pop; assumption.
Qed.
Lemma J_handle : forall s p s', J s -> handle_finished p s = AlNext s' ->
  J s' /\ al_pc_ s' = p /\ al_fin s' = [] /\ al_canceled s' = al_canceled s /\
  (forall i, e_cb (al_tbl s' i) = e_cb (al_tbl s i)).
Proof.
  intros s p s' H E. unfold handle_finished in E. destruct (some_finished s); [|discriminate]. injection E as <-.
  split; [now apply J_handle_all|]. cbn [al_pc_ al_fin al_canceled al_tbl]. split; [reflexivity|]. split; [reflexivity|].
  split; [reflexivity|]. generalize (al_tbl s). induction (al_fin s) as [|x r IH]; intros t i; [reflexivity|].
  cbn [fold_left]. rewrite IH. unfold mark_finished. destruct (Nat.eq_dec i x) as [->|N]; [now rewrite tset_same|now rewrite tset_other].
Qed.
Lemma J_handled : forall s, J s -> al_fin s = [] -> forall i, e_cb (al_tbl s i) = CbFinished -> e_finished (al_tbl s i) = true.
Proof.
  intros s H E i C. destruct (e_finished (al_tbl s i)) eqn:F; [reflexivity|]. exfalso.
  assert (X : In i (al_fin s)) by (apply (J_list _ H); auto). rewrite E in X. exact X.
Qed.

Lemma J_cancel : forall s, J s -> al_canceled s = false ->
  J (mkAL (al_pc_ s) (al_tbl s) (al_fin s) (al_pending s) (al_override s) (al_early s) true (LCancel :: al_log s)).
Proof.
  intros s H C. destruct H.
  assert (IN : forall x, x <> LCancel -> (In x (LCancel :: al_log s) <-> In x (al_log s))).
  { intros x N. cbn [In]. split; [intros [E|E]; [congruence|assumption]|auto]. }
  constructor; cbn [al_tbl al_fin al_log al_early al_pending al_override al_canceled]; auto.
  - intros i. rewrite J_start0. split; intros [sk [t E]]; exists sk, t; [right; assumption|destruct E as [E|E]; [discriminate|assumption]].
  - intros i sk t [E|E]; [discriminate|eauto].
  - intros i. rewrite IN by discriminate. auto.
  - intros i. rewrite IN by discriminate. auto.
  - intros i. rewrite IN by discriminate. auto.
  - intros i W. destruct (J_wait0 i W) as [Q0 [t [d [Q1 Q2]]]]. split; [assumption|]. exists t, d. split; [assumption|right; assumption].
  - intros E i sk t a [X|X]; [discriminate|eauto].
  - cbn [history_ok event_ok]. split; [|assumption]. intros X. apply J_can0 in X. congruence.
  - rewrite IN by discriminate. assumption.
  - cbn [In]. tauto.
Qed.

Definition act0 (s : al_state) : Prop :=
  forall i a, act_at acts i a -> aa_activity a = true -> e_cb (al_tbl s i) <> CbEntered.
Definition actdone (k : nat) (s : al_state) : Prop :=
  forall i a, (k <= i)%nat -> act_at acts i a -> aa_activity a = true ->
  e_cb (al_tbl s i) = CbFinished -> e_finished (al_tbl s i) = true.
Definition pcx (s : al_state) : Prop :=
  match al_pc_ s with
  | PCheck => actdone 0 s
  | PCancel k some => al_canceled s = true /\ actdone k s /\ (some = true -> al_fin s <> [])
  | PDrain => al_canceled s = true
  | PEnd => (forall i, e_started (al_tbl s i) = true -> e_finished (al_tbl s i) = true) /\
            (al_canceled s = true \/ forall i, (i < sz)%nat -> e_finished (al_tbl s i) = true)
  | _ => True
  end.
Record D (s : al_state) : Prop := mkD {
  D_pc : al_pc_ s = PDone;
  D_good : history_ok acts preds (al_log s);
  D_cb : forall i, e_cb (al_tbl s i) <> CbEntered /\ (e_started (al_tbl s i) = true -> e_cb (al_tbl s i) = CbFinished);
  D_free : In LFree (al_log s);
  D_can : al_canceled s = true <-> In LCancel (al_log s) }.
Definition K (s : al_state) : Prop := D s \/ (al_pc_ s <> PDone /\ J s /\ act0 s /\ pcx s).

Lemma K_init : K al_init.
Proof.
  right. split; [discriminate|]. split; [apply J_init|]. split; [|exact I]. intros i a _ _. discriminate.
Qed.

Lemma deps_spec : forall t deps sk, (forall d, In d deps -> (d < sz)%nat) ->
  exists r k, deps_status acts t deps sk = Some (r, k) /\
    (r = true <-> forall d, In d deps -> e_finished (t d) = true) /\
    (r = true -> (k = true <-> sk = true \/ exists d, In d deps /\ e_skipped (t d) = true)).
Proof.
  intros t. induction deps as [|d r IH]; intros sk H; cbn [deps_status].
  - exists true, sk. split; [reflexivity|]. split; [split; [intros _ ? []|auto]|]. intros _. split; [auto|intros [A|[? [[] _]]]; assumption].
  - unfold size. destruct (Nat.ltb_spec d sz) as [L|L]; [|exfalso; specialize (H d (or_introl eq_refl)); lia].
    destruct (e_finished (t d)) eqn:F.
    + destruct (IH (sk || e_skipped (t d))) as [r' [k [E [A B]]]]; [intros x X; apply H; right; exact X|].
      exists r', k. split; [assumption|]. split.
      * rewrite A. split; [intros Q x [<-|X]; auto|intros Q x X; apply Q; right; exact X].
      * intros Q. rewrite (B Q). rewrite orb_true_iff. split.
        -- intros [[X|X]|[x [X Y]]]; [auto| |]; right; [exists d; split; [left; reflexivity|assumption]|exists x; split; [right; assumption|assumption]].
        -- intros [X|[x [[<-|X] Y]]]; [auto|auto|]. right. exists x. auto.
    + exists false, sk. split; [reflexivity|]. split; [|discriminate]. split; [discriminate|].
      intros Q. rewrite (Q d (or_introl eq_refl)) in F. discriminate.
Qed.

Lemma subset_spec : forall ps qs, subset_of ps qs = true <-> forall p, In p ps -> In p qs.
Proof.
  intros ps qs. unfold subset_of. rewrite forallb_forall. split; intros H p X.
  - apply H, existsb_exists in X. destruct X as [q [A B]]. destruct (str_eqb_spec p q); [now subst|discriminate].
  - apply existsb_exists. exists p. split; [auto|apply str_eqb_refl].
Qed.
Lemma subset_false : forall ps qs, subset_of ps qs = false <-> exists p, In p ps /\ ~ In p qs.
Proof.
  intros ps qs. split.
  - intros H. destruct (forallb_forall (fun p => existsb (str_eqb p) qs) ps) as [_ Q].
    unfold subset_of in H. induction ps as [|p r IH]; [discriminate|]. cbn [forallb] in H.
    destruct (existsb (str_eqb p) qs) eqn:E.
    + cbn [andb] in H. destruct IH as [x [A B]]; [assumption| |exists x; split; [right; assumption|assumption]].
      apply forallb_forall.
    + exists p. split; [left; reflexivity|]. intros X. assert (existsb (str_eqb p) qs = true); [|congruence].
      apply existsb_exists. exists p. split; [assumption|apply str_eqb_refl].
  - intros [p [A B]]. destruct (subset_of ps qs) eqn:E; [|reflexivity]. exfalso. apply B.
    rewrite subset_spec in E. auto.
Qed.

(** Completing a whole callback at once. *)
Lemma J_both : forall s i a, J s -> act_at acts i a -> e_started (al_tbl s i) = true -> e_cb (al_tbl s i) = CbNone ->
  J (finish_action i (enter_callback i a s)).
Proof.
  intros s i a H A S0 C. apply J_finish_action; [now apply J_enter|]. unfold enter_callback. cbn [al_tbl]. now rewrite tset_same.
Qed.
Lemma both_tbl : forall s i a j, j <> i -> al_tbl (finish_action i (enter_callback i a s)) j = al_tbl s j.
Proof. intros s i a j N. unfold finish_action, enter_callback. cbn [al_tbl]. rewrite !tset_other by assumption. reflexivity. Qed.
Lemma both_cb : forall s i a, e_cb (al_tbl (finish_action i (enter_callback i a s)) i) = CbFinished.
Proof. intros s i a. unfold finish_action, enter_callback. cbn [al_tbl]. now rewrite tset_same. Qed.
Lemma enter_tbl : forall s i a j, j <> i -> al_tbl (enter_callback i a s) j = al_tbl s j.
Proof. intros s i a j N. unfold enter_callback. cbn [al_tbl]. now rewrite tset_other. Qed.

Lemma scan_spec : forall s i now d, J s -> act0 s -> (i < sz)%nat ->
  exists s', scan_action acts preds i now d s = AlNext s' /\ J s' /\ act0 s' /\ al_pc_ s' = PScan (S i) now.
Proof.
  intros s i now d H A0 L. unfold scan_action. destruct (nth_error acts i) as [a|] eqn:A; [|apply nth_error_None in A; lia].
  destruct (e_started (al_tbl s i)) eqn:S0.
  { eexists. split; [reflexivity|]. split; [now apply J_set_pc|]. split; [exact A0|reflexivity]. }
  destruct (e_waiting (al_tbl s i) && match e_time (al_tbl s i) with Some t => t >? now | None => true end) eqn:W.
  { eexists. split; [reflexivity|]. split; [now apply J_set_pc|]. split; [exact A0|reflexivity]. }
  destruct (OK i a A) as [DR NF].
  destruct (deps_spec (al_tbl s) (aa_deps a) false DR) as [r [k [E [R1 R2]]]]. rewrite E.
  destruct r; [|eexists; split; [reflexivity|]; split; [now apply J_set_pc|]; split; [exact A0|reflexivity]].
  assert (DP : forall j, In j (aa_deps a) -> e_finished (al_tbl s j) = true) by now apply R1.
  specialize (R2 eq_refl). destruct (J_fresh _ H i S0) as [F1 [F2 [F3 F4]]].
  destruct (negb (e_waiting (al_tbl s i)) && aa_delay a) eqn:DL.
  { apply andb_prop in DL. eexists. split; [reflexivity|]. split; [apply (J_delay s i a); tauto|]. split; [|reflexivity].
    intros j b B AB. cbn [al_tbl]. destruct (Nat.eq_dec j i) as [->|N]; [rewrite tset_same; cbn [e_cb]; congruence|].
    rewrite tset_other by assumption. eapply A0; eassumption. }
  rewrite NF, andb_false_r. unfold size.
  set (skip := k || negb (subset_of (aa_preds a) preds)).
  set (s1 := mkAL _ _ _ _ _ _ _ _).
  assert (J1 : J s1).
  { apply (J_started s i a now (PScan (S i) now) skip H A S0 DP).
    - unfold skip. rewrite orb_true_iff, negb_true_iff, subset_false, R2. split.
      + intros [[X|X]|X]; [discriminate|auto|auto].
      + intros [X|X]; [auto|left; auto].
    - intros De. rewrite De, andb_true_r in DL. apply negb_false_iff in DL. rewrite DL in W. cbn [andb] in W.
      destruct (e_time (al_tbl s i)) as [t|]; [|discriminate]. exists t. rewrite Z.gtb_ltb, Z.ltb_ge in W. auto. }
  assert (N1 : forall j, j <> i -> al_tbl s1 j = al_tbl s j) by (intros j N; unfold s1; cbn [al_tbl]; now rewrite tset_other).
  assert (C1 : e_cb (al_tbl s1 i) = CbNone) by (unfold s1; cbn [al_tbl]; rewrite tset_same; exact F2).
  assert (S1 : e_started (al_tbl s1 i) = true) by (unfold s1; cbn [al_tbl]; now rewrite tset_same).
  destruct skip.
  - eexists. split; [reflexivity|]. split; [now apply J_both|]. split; [|reflexivity].
    intros j b B AB. destruct (Nat.eq_dec j i) as [->|N]; [rewrite both_cb; discriminate|].
    rewrite both_tbl, N1 by assumption. eapply A0; eassumption.
  - eexists. split; [reflexivity|]. split; [assumption|]. split; [|reflexivity].
    intros j b B AB. destruct (Nat.eq_dec j i) as [->|N]; [rewrite C1; discriminate|].
    rewrite N1 by assumption. eapply A0; eassumption.
Qed.

Lemma all_finished_spec : forall s, all_finished acts s = true <-> forall i, (i < sz)%nat -> e_finished (al_tbl s i) = true.
Proof.
  intros s. unfold all_finished, size. rewrite forallb_forall. split; intros H i X; apply H.
  - apply in_seq. lia.
  - apply in_seq in X. lia.
Qed.
Lemma none_running_spec : forall s, J s -> none_running acts s = true <-> forall i, e_started (al_tbl s i) = true -> e_finished (al_tbl s i) = true.
Proof.
  intros s HJ. unfold none_running, size. rewrite forallb_forall. split; intros H i X.
  - assert (Q : In i (seq 0 sz)) by (apply in_seq; pose proof (J_lt _ _ HJ X); lia).
    apply H in Q. rewrite X in Q. exact Q.
  - destruct (e_started (al_tbl s i)) eqn:S0; [|reflexivity]. cbn [negb orb]. auto.
Qed.

Lemma main_spec : forall s now d, K s -> main_step acts preds now d s <> AlCrash /\
  forall s', main_step acts preds now d s = AlNext s' -> K s'.
Proof.
  intros s now d [HD|[NP [H [A0 X]]]].
  { unfold main_step. rewrite (D_pc _ HD). split; discriminate. }
  unfold pcx in X. unfold main_step. destruct (al_pc_ s) as [|i t| | |i some| | |] eqn:P; [| | | | | | |congruence].
  - split; [discriminate|]. intros s' E. injection E as <-. right. split; [discriminate|]. split; [now apply J_set_pc|]. split; [exact A0|exact I].
  - unfold size. destruct (Nat.ltb_spec i sz) as [L|L].
    + destruct (scan_spec s i t d H A0 L) as [s1 [E [J1 [A1 P1]]]]. rewrite E. split; [discriminate|].
      intros s' Q. injection Q as <-. right. split; [congruence|]. split; [assumption|]. split; [assumption|]. unfold pcx. now rewrite P1.
    + destruct (all_finished acts s) eqn:AF.
      * split; [discriminate|]. intros s' E. injection E as <-. right. split; [discriminate|]. split; [now apply J_set_pc|].
        split; [exact A0|]. unfold pcx. cbn [set_pc al_pc_ al_tbl al_canceled]. rewrite all_finished_spec in AF.
        split; [|auto]. intros j Q. apply AF. now apply (J_lt s).
      * split; [discriminate|]. intros s' E. injection E as <-. right. split; [discriminate|]. split; [now apply J_set_pc|]. split; [exact A0|exact I].
  - destruct (some_finished s) eqn:SF.
    + split; [unfold handle_finished; rewrite SF; discriminate|]. intros s' E.
      destruct (J_handle _ _ _ H E) as [J1 [P1 [F1 [C1 B1]]]]. right. split; [congruence|]. split; [assumption|].
      split; [intros i a Q Q'; rewrite B1; eapply A0; eassumption|]. unfold pcx. rewrite P1. intros i a _ _ _. now apply J_handled.
    + destruct (timed_wait acts s); [|split; discriminate]. split; [discriminate|].
      intros s' E. injection E as <-. right. split; [discriminate|]. split; [now apply J_set_pc|]. split; [exact A0|].
      unfold pcx. cbn [set_pc al_pc_]. intros i a _ _ _. cbn [set_pc al_tbl]. apply J_handled; [assumption|].
      unfold some_finished in SF. apply orb_false_iff in SF. destruct SF as [_ SF]. destruct (al_fin s); [reflexivity|discriminate].
  - split; [discriminate|]. intros s' E. injection E as <-. right. destruct (al_canceled s) eqn:C.
    + split; [discriminate|]. split; [now apply J_set_pc|]. split; [exact A0|]. unfold pcx. cbn [set_pc al_pc_ al_canceled].
      split; [assumption|]. split; [exact X|discriminate].
    + split; [discriminate|]. split; [now apply J_set_pc|]. split; [exact A0|exact I].
  - destruct X as [C [AD SO]]. unfold size. destruct (Nat.ltb_spec i sz) as [L|L].
    + destruct (nth_error acts i) as [a|] eqn:A; [|apply nth_error_None in A; lia].
      destruct (e_finished (al_tbl s i) || negb (e_started (al_tbl s i)) || negb (aa_activity a)) eqn:Q.
      * split; [discriminate|]. intros s' E. injection E as <-. right. split; [discriminate|]. split; [now apply J_set_pc|].
        split; [exact A0|]. unfold pcx. cbn [set_pc al_pc_ al_canceled al_fin]. split; [assumption|]. split; [|assumption].
        intros j b Lj. apply AD. lia.
      * apply orb_false_iff in Q. destruct Q as [Q Q3]. apply orb_false_iff in Q. destruct Q as [Q1 Q2].
        apply negb_false_iff in Q2, Q3.
        assert (CB : e_cb (al_tbl s i) = CbNone).
        { destruct (e_cb (al_tbl s i)) eqn:B; [reflexivity| |].
          - exfalso. eapply A0; eassumption.
          - rewrite (AD i a (le_n i) A Q3 B) in Q1. discriminate. }
        rewrite CB. split; [discriminate|]. intros s' E. injection E as <-. right. split; [discriminate|].
        split; [apply J_set_pc; now apply J_both|]. split.
        -- intros j b B AB. cbn [set_pc al_tbl]. destruct (Nat.eq_dec j i) as [->|N]; [rewrite both_cb; discriminate|].
           rewrite both_tbl by assumption. eapply A0; eassumption.
        -- unfold pcx. cbn [set_pc al_pc_ al_canceled al_fin finish_action enter_callback]. split; [now rewrite C|]. split.
           ++ intros j b Lj B AB. cbn [set_pc al_tbl]. rewrite both_tbl by lia. eapply AD; try eassumption. lia.
           ++ intros _ Z0. now apply app_cons_not_nil in Z0 || (symmetry in Z0; now apply app_cons_not_nil in Z0).
    + destruct some.
      * assert (SF : some_finished s = true).
        { unfold some_finished. specialize (SO eq_refl). destruct (al_fin s); [congruence|]. apply orb_true_r. }
        split; [unfold handle_finished; rewrite SF; discriminate|]. intros s' E.
        destruct (J_handle _ _ _ H E) as [J1 [P1 [F1 [C1 B1]]]]. right. split; [congruence|]. split; [assumption|].
        split; [intros j a Q Q'; rewrite B1; eapply A0; eassumption|]. unfold pcx. rewrite P1. congruence.
      * split; [discriminate|]. intros s' E. injection E as <-. right. split; [discriminate|]. split; [now apply J_set_pc|].
        split; [exact A0|exact C].
  - destruct (some_finished s) eqn:SF; [|split; discriminate].
    assert (exists s1, handle_finished PDrain s = AlNext s1) as [s1 E] by (unfold handle_finished; rewrite SF; eauto).
    rewrite E. split; [discriminate|]. intros s' Q. injection Q as <-.
    destruct (J_handle _ _ _ H E) as [J1 [P1 [F1 [C1 B1]]]]. right.
    split; [destruct (none_running acts s1); discriminate|]. split; [now apply J_set_pc|].
    split; [intros j a Q Q'; cbn [set_pc al_tbl]; rewrite B1; eapply A0; eassumption|].
    unfold pcx. cbn [set_pc al_pc_]. destruct (none_running acts s1) eqn:NR; cbn [set_pc al_canceled al_tbl]; [|congruence].
    split; [|left; congruence]. now apply none_running_spec.
  - destruct X as [X1 X2]. split; [discriminate|]. intros s' E. injection E as <-. left.
    assert (SE : al_early s = true -> send_count (al_log s) = 1%nat).
    { intros Q. destruct (J_early _ H Q) as [i Si]. apply (J_sent' _ H i Si).
      destruct (e_started (al_tbl s i)) eqn:St.
      - apply X1 in St. rewrite (J_fin _ H i St). discriminate.
      - destruct (J_fresh _ H i St) as [_ [_ [_ Z0]]]. congruence. }
    assert (SL : al_early s = false -> send_count (al_log s) = 0%nat).
    { intros Q. destruct (J_sent _ H) as [Z0|[_ [i [Si _]]]]; [assumption|]. destruct (J_sends _ H i Si) as [Z0 _]. congruence. }
    set (l := (if al_early s then [] else [LSend None (al_override s)]) ++ al_log s).
    assert (IN : forall x, (forall o, x <> LSend None o) -> In x l <-> In x (al_log s)).
    { intros x N. unfold l. destruct (al_early s); cbn [app In]; [tauto|]. split; [intros [Q|Q]; [exfalso; now apply (N (al_override s))|assumption]|auto]. }
    constructor; cbn [al_pc_ al_log al_tbl al_canceled].
    + reflexivity.
    + cbn [history_ok]. split.
      * cbn [event_ok]. split; [rewrite IN by discriminate; apply (J_nofree _ H)|]. split.
        -- unfold l. destruct (al_early s); [now apply SE|]. cbn [app]. rewrite send_count_cons, SL by reflexivity. reflexivity.
        -- split.
           ++ intros i sk t Q. apply IN in Q; [|discriminate]. apply IN; [discriminate|]. apply (J_done _ H), X1, (J_start _ H). eauto.
           ++ destruct X2 as [X2|X2]; [left|right].
              ** apply IN; [discriminate|]. now apply (J_can _ H).
              ** intros i Li. apply IN; [discriminate|]. now apply (J_done _ H), X2.
      * unfold l. destruct (al_early s) eqn:Q; [apply (J_good _ H)|]. cbn [app history_ok]. split; [|apply (J_good _ H)].
        cbn [event_ok]. split; [apply (J_nofree _ H)|]. split; [now apply SL|]. split; [apply (J_ov _ H)|].
        apply (J_late _ H Q).
    + intros i. destruct (e_started (al_tbl s i)) eqn:St.
      * rewrite (J_fin _ H i (X1 i St)). split; [discriminate|reflexivity].
      * destruct (J_fresh _ H i St) as [_ [Z0 _]]. rewrite Z0. split; [discriminate|discriminate].
    + left. reflexivity.
    + rewrite (J_can _ H). cbn [In]. fold l. rewrite IN by discriminate. split; [auto|intros [Q|Q]; [discriminate|assumption]].
Qed.

Lemma step_spec : forall s a, K s -> al_step acts preds a s <> AlCrash /\
  forall s', al_step acts preds a s = AlNext s' -> K s'.
Proof.
  intros s [now d|i|i|] HK; cbn [al_step].
  - now apply main_spec.
  - destruct (nth_error acts i) as [a|] eqn:A; [|split; discriminate].
    destruct (e_started (al_tbl s i) && negb (aa_silent a)) eqn:S0; [|split; discriminate].
    apply andb_prop in S0. destruct S0 as [S0 _]. destruct HK as [HD|[NP [H [A0 X]]]].
    { destruct (D_cb _ HD i) as [_ Q]. rewrite (Q S0). split; discriminate. }
    destruct (e_cb (al_tbl s i)) eqn:CB; [|split; discriminate|split; discriminate].
    assert (NE : al_pc_ s <> PEnd).
    { intros P. unfold pcx in X. rewrite P in X. destruct X as [X _]. apply X, (J_fin _ H) in S0. congruence. }
    destruct (aa_activity a) eqn:AA.
    + assert (G : forall p, al_pc_ s = p -> p <> PDone ->
        (if scanning p then AlNext (finish_action i (enter_callback i a s)) else AlDisabled) <> AlCrash /\
        forall s', (if scanning p then AlNext (finish_action i (enter_callback i a s)) else AlDisabled) = AlNext s' -> K s').
      { intros p P ND. destruct (scanning p) eqn:SC; [|split; discriminate]. split; [discriminate|].
        intros s' E. injection E as <-. right. cbn [al_pc_ finish_action enter_callback]. split; [congruence|].
        split; [now apply J_both|]. split.
        - intros j b B AB. destruct (Nat.eq_dec j i) as [->|N]; [rewrite both_cb; discriminate|].
          rewrite both_tbl by assumption. eapply A0; eassumption.
        - unfold pcx. cbn [al_pc_ finish_action enter_callback]. rewrite P. destruct p; try discriminate. exact I. }
      destruct (al_pc_ s) eqn:P; try (apply G; [reflexivity|discriminate]). congruence.
    + assert (Q : K (enter_callback i a s)).
      { right. cbn [al_pc_ enter_callback]. split; [assumption|]. split; [now apply J_enter|]. split.
        - intros j b B AB. destruct (Nat.eq_dec j i) as [->|N]; [unfold act_at in B; congruence|].
          rewrite enter_tbl by assumption. eapply A0; eassumption.
        - unfold pcx in *. cbn [al_pc_ enter_callback al_canceled al_fin].
          assert (AD : forall k, actdone k s -> actdone k (enter_callback i a s)).
          { intros k Y j b Lj B AB. destruct (Nat.eq_dec j i) as [->|N]; [unfold act_at in B; congruence|].
            rewrite enter_tbl by assumption. eapply Y; eassumption. }
          destruct (al_pc_ s); auto.
          + destruct X as [X1 [X2 X3]]. rewrite X1. auto.
          + rewrite X. reflexivity. }
      destruct (al_pc_ s) eqn:P; try (split; [discriminate|]; intros s' E; injection E as <-; exact Q). congruence.
  - destruct HK as [HD|[NP [H [A0 X]]]].
    { destruct (D_cb _ HD i) as [Q _]. destruct (e_cb (al_tbl s i)); [split; discriminate|congruence|split; discriminate]. }
    destruct (e_cb (al_tbl s i)) eqn:CB; [split; discriminate| |split; discriminate].
    assert (S0 : e_started (al_tbl s i) = true).
    { destruct (e_started (al_tbl s i)) eqn:E; [reflexivity|]. destruct (J_fresh _ H i E) as [_ [Q _]]. congruence. }
    assert (NE : al_pc_ s <> PEnd).
    { intros P. unfold pcx in X. rewrite P in X. destruct X as [X _]. apply X, (J_fin _ H) in S0. congruence. }
    assert (FT : forall j, j <> i -> al_tbl (finish_action i s) j = al_tbl s j)
      by (intros j N; unfold finish_action; cbn [al_tbl]; now rewrite tset_other).
    assert (Q : K (finish_action i s)).
    { right. cbn [al_pc_ finish_action]. split; [assumption|]. split; [now apply J_finish_action|]. split.
      - intros j b B AB. destruct (Nat.eq_dec j i) as [->|N]; [exfalso; exact (A0 i b B AB CB)|].
        rewrite FT by assumption. eapply A0; eassumption.
      - unfold pcx in *. cbn [al_pc_ finish_action al_canceled al_fin].
        assert (AD : forall k, actdone k s -> actdone k (finish_action i s)).
        { intros k Y j b Lj B AB. destruct (Nat.eq_dec j i) as [->|N]; [exfalso; exact (A0 i b B AB CB)|].
          rewrite FT by assumption. eapply Y; eassumption. }
        destruct (al_pc_ s); auto.
        + destruct X as [X1 [X2 X3]]. split; [assumption|]. split; [auto|]. intros _ Z0.
          destruct (al_fin s); discriminate. }
    destruct (al_pc_ s) eqn:P; try (split; [discriminate|]; intros s' E; injection E as <-; exact Q). congruence.
  - destruct (al_canceled s) eqn:C; [split; discriminate|]. split; [discriminate|]. intros s' E. injection E as <-.
    destruct HK as [HD|[NP [H [A0 X]]]].
    + left. destruct HD. constructor; cbn [al_pc_ al_log al_tbl al_canceled]; auto.
      * cbn [history_ok event_ok]. split; [|assumption]. intros Q. apply D_can0 in Q. congruence.
      * right. assumption.
      * cbn [In]. tauto.
    + right. cbn [al_pc_]. split; [assumption|]. split; [now apply J_cancel|]. split; [exact A0|].
      unfold pcx in *. cbn [al_pc_ al_canceled al_fin al_tbl]. destruct (al_pc_ s); auto.
      * destruct X as [X1 X2]. split; [reflexivity|]. exact X2.
      * destruct X as [X1 X2]. split; [exact X1|auto].
Qed.

Definition reachable (s : al_state) : Prop := exists l, al_run acts preds l al_init = AlNext s.

Lemma run_spec : forall l s, K s -> al_run acts preds l s <> AlCrash /\ forall s', al_run acts preds l s = AlNext s' -> K s'.
Proof.
  induction l as [|a r IH]; intros s HK; cbn [al_run].
  - split; [discriminate|]. intros s' E. injection E as <-. exact HK.
  - destruct (step_spec s a HK) as [N S1]. destruct (al_step acts preds a s) as [| |s1] eqn:E; [now apply IH|congruence|].
    apply IH, S1. reflexivity.
Qed.
Lemma reachable_K : forall s, reachable s -> K s.
Proof. intros s [l E]. exact (proj2 (run_spec l al_init K_init) s E). Qed.
Lemma never_crashes : forall l, exists s, al_run acts preds l al_init = AlNext s.
Proof.
  assert (ND : forall l s, al_run acts preds l s <> AlDisabled).
  { induction l as [|a r IH]; intros s; cbn [al_run]; [discriminate|]. destruct (al_step acts preds a s); auto. discriminate. }
  intros l. pose proof (proj1 (run_spec l al_init K_init)) as N. pose proof (ND l al_init) as N2.
  destruct (al_run acts preds l al_init); [contradiction|contradiction|eauto].
Qed.
Lemma reachable_history : forall s, reachable s -> history_ok acts preds (al_log s).
Proof. intros s R. destruct (reachable_K s R) as [HD|[_ [H _]]]; [apply (D_good _ HD)|apply (J_good _ H)]. Qed.
End Proofs.
