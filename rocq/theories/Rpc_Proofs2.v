(** Specification and proofs for the RPCs in flight (Rpc_Model). *)
From Coq Require Import List ZArith Bool Lia Arith.
From Verif Require Import Rpc_Model.
Import ListNotations.
Open Scope Z_scope.

(** * Specification *)
Definition sent (l : list e_event) : list (nat * nat) := flat_map (fun e => match e with EvSent i k => [(i, k)] | _ => [] end) l.
Definition completed (l : list e_event) : list (nat * nat) := flat_map (fun e => match e with EvCompleted i k => [(i, k)] | _ => [] end) l.
Definition cancels_of (l : list e_event) : list cancel_reason := flat_map (fun e => match e with EvCancel r => [r] | _ => [] end) l.
Definition outstanding (l : list e_event) : Z := Z.of_nat (length (sent l)) - Z.of_nat (length (completed l)).

(** What may follow what (newest first). *)
Definition fly_ok (max : Z) (e : e_event) (l : list e_event) : Prop :=
  match e with
  | EvStart i n => forall m, ~ In (EvStart i m) l
  | EvSent i k => ~ In (EvSent i k) l /\ (exists n, In (EvStart i n) l /\ (k < n)%nat) /\ (forall j, (j < k)%nat -> In (EvSent i j) l)
  | EvRecorded i k => ~ In (EvRecorded i k) l /\ In (EvSent i k) l
  | EvLeft i k => ~ In (EvLeft i k) l /\ In (EvRecorded i k) l
  | EvFinish i => ~ In (EvFinish i) l /\ exists n, In (EvStart i n) l /\ forall k, (k < n)%nat -> In (EvLeft i k) l
  | EvCompleted i k => ~ In (EvCompleted i k) l /\ In (EvLeft i k) l
  | EvCancel r => cancels_of l = [] /\ (r = TooManyRpcs -> outstanding l > max)
  end.
Fixpoint fly_history (max : Z) (l : list e_event) : Prop :=
  match l with [] => True | e :: r => fly_ok max e r /\ fly_history max r end.
Lemma fly_split : forall max l1 e l2, fly_history max (l1 ++ e :: l2) -> fly_ok max e l2.
Proof. induction l1 as [|x l1 IH]; intros e l2 H; cbn [app fly_history] in H; destruct H; auto. Qed.

(** * Counting *)
Definition left_of (i : nat) (l : list e_event) : list nat :=
  flat_map (fun e => match e with EvLeft j k => if Nat.eqb j i then [k] else [] | _ => [] end) l.
Lemma left_in : forall i k l, In k (left_of i l) <-> In (EvLeft i k) l.
Proof.
  intros i k l. unfold left_of. rewrite in_flat_map. split.
  - intros [e [A B]]. destruct e; try destruct B. destruct (Nat.eqb_spec i0 i) as [->|]; [|destruct B]. destruct B as [<-|[]]. assumption.
  - intros H. exists (EvLeft i k). split; [assumption|]. rewrite Nat.eqb_refl. left. reflexivity.
Qed.
Lemma sent_in : forall i k l, In (i, k) (sent l) <-> In (EvSent i k) l.
Proof.
  intros. unfold sent. rewrite in_flat_map. split.
  - intros [e [A B]]. destruct e; try destruct B. injection H as -> ->. assumption. destruct H.
  - intros H. exists (EvSent i k). split; [assumption|]. left. reflexivity.
Qed.
Lemma completed_in : forall i k l, In (i, k) (completed l) <-> In (EvCompleted i k) l.
Proof.
  intros. unfold completed. rewrite in_flat_map. split.
  - intros [e [A B]]. destruct e; try destruct B. injection H as -> ->. assumption. destruct H.
  - intros H. exists (EvCompleted i k). split; [assumption|]. left. reflexivity.
Qed.

(** * Invariant *)
Definition after_send (p : rpc_phase) : Prop := match p with RNone | RCounted => False | _ => True end.
Record FI (max : Z) (s : fly) : Prop := mkFI {
  F_hist : fly_history max (fy_log s);
  F_sent : forall i k, In (EvSent i k) (fy_log s) <-> fy_rpc s i k <> RNone;
  F_rec : forall i k, In (EvRecorded i k) (fy_log s) <-> match fy_rpc s i k with RRecorded | RCounted2 | RDone => True | _ => False end;
  F_left : forall i k, In (EvLeft i k) (fy_log s) <-> match fy_rpc s i k with RCounted2 | RDone => True | _ => False end;
  F_comp : forall i k, In (EvCompleted i k) (fy_log s) <-> fy_rpc s i k = RDone;
  F_pend : fy_pending s = outstanding (fy_log s);
  F_start : forall i n, In (EvStart i n) (fy_log s) <-> fl_targets (fy_iter s i) = Some n;
  F_none : forall i, fl_targets (fy_iter s i) = None ->
    fl_next (fy_iter s i) = 0%nat /\ fl_phase (fy_iter s i) = SIdle /\ (forall k, fy_rpc s i k = RNone) /\ ~ In (EvFinish i) (fy_log s);
  F_some : forall i n, fl_targets (fy_iter s i) = Some n ->
    (fl_next (fy_iter s i) <= n)%nat /\
    (forall k, (k < fl_next (fy_iter s i))%nat -> after_send (fy_rpc s i k)) /\
    (forall k, (fl_next (fy_iter s i) < k)%nat -> fy_rpc s i k = RNone) /\
    match fl_phase (fy_iter s i) with
    | SIdle => fy_rpc s i (fl_next (fy_iter s i)) = RNone
    | SCounted => (fl_next (fy_iter s i) < n)%nat /\ fy_rpc s i (fl_next (fy_iter s i)) = RCounted
    | SInitiated => (fl_next (fy_iter s i) < n)%nat /\ after_send (fy_rpc s i (fl_next (fy_iter s i)))
    end /\
    NoDup (left_of i (fy_log s)) /\
    fl_remaining (fy_iter s i) = Z.of_nat n - Z.of_nat (length (left_of i (fy_log s))) /\
    (In (EvFinish i) (fy_log s) <-> fl_remaining (fy_iter s i) = 0);
  F_canc : cancels_of (fy_log s) = match fy_canceled s with Some r => [r] | None => [] end;
  F_over : fy_pending s > max -> fy_canceled s <> None \/ exists i, fl_phase (fy_iter s i) <> SIdle }.

Lemma si_same : forall f i x, set_iter f i x i = x.
Proof. intros. unfold set_iter. now rewrite Nat.eqb_refl. Qed.
Lemma si_other : forall f i x j, j <> i -> set_iter f i x j = f j.
Proof. intros. unfold set_iter. apply Nat.eqb_neq in H. now rewrite H. Qed.
Lemma sr_same : forall f i k p, set_rpc f i k p i k = p.
Proof. intros. unfold set_rpc. now rewrite !Nat.eqb_refl. Qed.
Lemma sr_other : forall f i k p j l, (j <> i \/ l <> k) -> set_rpc f i k p j l = f j l.
Proof.
  intros f i k p j l H. unfold set_rpc. destruct (Nat.eqb_spec j i), (Nat.eqb_spec l k); cbn [andb]; try reflexivity. subst. tauto.
Qed.
Lemma pair_dec : forall (i k j l : nat), (i = j /\ k = l) \/ (i <> j \/ k <> l).
Proof. intros. destruct (Nat.eq_dec i j), (Nat.eq_dec k l); auto. Qed.

(** An RPC that was sent belongs to a started iteration and is in range. *)
Lemma rpc_range : forall max s i k, FI max s -> fy_rpc s i k <> RNone ->
  exists n, fl_targets (fy_iter s i) = Some n /\ (k < n)%nat /\ (fy_rpc s i k <> RCounted -> (k < fl_next (fy_iter s i))%nat \/ (k = fl_next (fy_iter s i) /\ fl_phase (fy_iter s i) = SInitiated)).
Proof.
  intros max s i k H N. destruct (fl_targets (fy_iter s i)) as [n|] eqn:T.
  - exists n. split; [reflexivity|]. destruct (F_some _ _ H i n T) as [A [B [C [D _]]]].
    destruct (Nat.lt_trichotomy k (fl_next (fy_iter s i))) as [L|[E|G]].
    + split; [lia|]. auto.
    + subst k. destruct (fl_phase (fy_iter s i)).
      * contradiction.
      * destruct D as [D1 D2]. split; [assumption|]. intros X. contradiction.
      * destruct D as [D1 D2]. split; [assumption|]. auto.
    + rewrite (C k G) in N. contradiction.
  - destruct (F_none _ _ H i T) as [_ [_ [X _]]]. rewrite X in N. contradiction.
Qed.

Lemma cancel_FI : forall max r s, FI max s -> (r = TooManyRpcs -> fy_pending s > max) -> FI max (cancel_traffic r s).
Proof.
  intros max r s H R. unfold cancel_traffic. destruct (fy_canceled s) eqn:C; [assumption|].
  pose proof (F_canc _ _ H) as CC. rewrite C in CC.
  constructor; cbn [fy_pending fy_canceled fy_iter fy_rpc fy_log].
  - cbn [fly_history fly_ok]. split; [|apply H]. split; [assumption|]. intros E. rewrite <- (F_pend _ _ H). auto.
  - intros i k. rewrite <- (F_sent _ _ H). cbn [In]. split; [intros [Q|Q]; [discriminate|assumption]|auto].
  - intros i k. rewrite <- (F_rec _ _ H). cbn [In]. split; [intros [Q|Q]; [discriminate|assumption]|auto].
  - intros i k. rewrite <- (F_left _ _ H). cbn [In]. split; [intros [Q|Q]; [discriminate|assumption]|auto].
  - intros i k. rewrite <- (F_comp _ _ H). cbn [In]. split; [intros [Q|Q]; [discriminate|assumption]|auto].
  - rewrite (F_pend _ _ H). reflexivity.
  - intros i n. rewrite <- (F_start _ _ H). cbn [In]. split; [intros [Q|Q]; [discriminate|assumption]|auto].
  - intros i T. destruct (F_none _ _ H i T) as [A [B [D E]]]. repeat (split; [assumption|]). cbn [In]. intros [Q|Q]; [discriminate|auto].
  - intros i n T. destruct (F_some _ _ H i n T) as [A [B [D [E [F [G I]]]]]]. repeat (split; [assumption|]).
    cbn [In]. rewrite <- I. split; [intros [Q|Q]; [discriminate|assumption]|auto].
  - cbn [cancels_of flat_map app]. unfold cancels_of in CC. now rewrite CC.
  - intros _. left. discriminate.
Qed.

Lemma start_FI : forall max i n s, FI max s -> fl_targets (fy_iter s i) = None ->
  FI max (mkF (fy_pending s) (fy_canceled s) (set_iter (fy_iter s) i (mkFly (Some n) 0 SIdle (Z.of_nat n))) (fy_rpc s)
            (if Nat.eqb n 0 then EvFinish i :: EvStart i n :: fy_log s else EvStart i n :: fy_log s)).
Proof.
  intros max i n s H T. destruct (F_none _ _ H i T) as [A [B [D E]]].
  assert (NS : forall m, ~ In (EvStart i m) (fy_log s)) by (intros m X; apply (F_start _ _ H) in X; congruence).
  assert (NL : left_of i (fy_log s) = []).
  { destruct (left_of i (fy_log s)) as [|k r] eqn:L; [reflexivity|]. exfalso.
    assert (X : In k (left_of i (fy_log s))) by (rewrite L; left; reflexivity).
    apply left_in, (F_left _ _ H) in X. rewrite D in X. assumption. }
  set (lg := if Nat.eqb n 0 then EvFinish i :: EvStart i n :: fy_log s else EvStart i n :: fy_log s).
  assert (IN : forall e, In e lg <-> e = EvStart i n \/ (n = 0%nat /\ e = EvFinish i) \/ In e (fy_log s)).
  { intros e. unfold lg. destruct (Nat.eqb_spec n 0) as [->|NZ]; cbn [In].
    - split; [intros [X|[X|X]]|intros [X|[[_ X]|X]]]; subst; auto.
    - split; [intros [X|X]|intros [X|[[X _]|X]]]; subst; auto. contradiction. }
  assert (LF : forall j, left_of j lg = left_of j (fy_log s)) by (intros j; unfold lg; destruct (Nat.eqb n 0); reflexivity).
  constructor; cbn [fy_pending fy_canceled fy_iter fy_rpc fy_log]; fold lg.
  - unfold lg. destruct (Nat.eqb_spec n 0) as [->|NZ]; cbn [fly_history fly_ok].
    + split; [|split; [assumption|apply H]]. split.
      * intros [X|X]; [discriminate|contradiction].
      * exists 0%nat. split; [left; reflexivity|]. intros k X. lia.
    + split; [assumption|apply H].
  - intros j k. rewrite IN, <- (F_sent _ _ H). split; [intros [X|[[_ X]|X]]; try discriminate; assumption|auto].
  - intros j k. rewrite IN, <- (F_rec _ _ H). split; [intros [X|[[_ X]|X]]; try discriminate; assumption|auto].
  - intros j k. rewrite IN, <- (F_left _ _ H). split; [intros [X|[[_ X]|X]]; try discriminate; assumption|auto].
  - intros j k. rewrite IN, <- (F_comp _ _ H). split; [intros [X|[[_ X]|X]]; try discriminate; assumption|auto].
  - rewrite (F_pend _ _ H). unfold lg. destruct (Nat.eqb n 0); reflexivity.
  - intros j m. rewrite IN. destruct (Nat.eq_dec j i) as [->|N].
    + rewrite si_same. cbn [fl_targets]. split; [intros [X|[[_ X]|X]]|intros X; left; congruence]; [congruence|discriminate|].
      destruct (NS _ X).
    + rewrite si_other by assumption. rewrite <- (F_start _ _ H). split; [intros [X|[[_ X]|X]]; [congruence|discriminate|assumption]|auto].
  - intros j. destruct (Nat.eq_dec j i) as [->|N].
    + rewrite si_same. discriminate.
    + rewrite si_other by assumption. intros TJ. destruct (F_none _ _ H j TJ) as [A' [B' [D' E']]]. repeat (split; [assumption|]).
      rewrite IN. intros [X|[[_ X]|X]]; [discriminate|congruence|auto].
  - intros j m. destruct (Nat.eq_dec j i) as [->|N].
    + rewrite si_same. cbn [fl_targets fl_next fl_phase fl_remaining]. intros [= <-].
      split; [lia|]. split; [intros k X; lia|]. split; [auto|]. split; [auto|]. rewrite LF, NL. split; [constructor|].
      split; [cbn [length]; lia|]. rewrite IN. split.
      * intros [X|[[-> _]|X]]; [discriminate|reflexivity|contradiction].
      * intros X. right. left. split; [lia|reflexivity].
    + rewrite si_other by assumption. intros TJ. destruct (F_some _ _ H j m TJ) as [A' [B' [D' [E' [F' [G' I']]]]]].
      repeat (split; [assumption|]). rewrite LF. repeat (split; [assumption|]). rewrite IN, <- I'.
      split; [intros [X|[[_ X]|X]]; [discriminate|congruence|assumption]|auto].
  - rewrite <- (F_canc _ _ H). unfold lg. destruct (Nat.eqb n 0); reflexivity.
  - intros P. destruct (F_over _ _ H P) as [X|[j X]]; [auto|]. right. exists j.
    destruct (Nat.eq_dec j i) as [->|N]; [congruence|]. now rewrite si_other.
Qed.

(** The sending loop. *)
Lemma send_FI : forall max i n s, FI max s -> fl_targets (fy_iter s i) = Some n -> fl_phase (fy_iter s i) = SIdle ->
  (fl_next (fy_iter s i) < n)%nat ->
  FI max (mkF (fy_pending s + 1) (fy_canceled s)
            (set_iter (fy_iter s) i (mkFly (fl_targets (fy_iter s i)) (fl_next (fy_iter s i)) SCounted (fl_remaining (fy_iter s i))))
            (set_rpc (fy_rpc s) i (fl_next (fy_iter s i)) RCounted) (EvSent i (fl_next (fy_iter s i)) :: fy_log s)).
Proof.
  intros max i n s H T P L. set (k0 := fl_next (fy_iter s i)) in *.
  destruct (F_some _ _ H i n T) as [A [B [C [D [E [F G]]]]]]. fold k0 in A, B, C, D. rewrite P in D.
  constructor; cbn [fy_pending fy_canceled fy_iter fy_rpc fy_log].
  - cbn [fly_history fly_ok]. split; [|apply H]. split; [intros X; apply (F_sent _ _ H) in X; contradiction|]. split.
    + exists n. split; [now apply (F_start _ _ H)|assumption].
    + intros j X. apply (F_sent _ _ H). specialize (B j X). intros Q. now rewrite Q in B.
  - intros j k. cbn [In]. destruct (pair_dec j k i k0) as [[-> ->]|N].
    + rewrite sr_same. split; [discriminate|auto].
    + rewrite sr_other by assumption. rewrite <- (F_sent _ _ H). split; [intros [X|X]; [exfalso; injection X as -> ->; tauto|assumption]|auto].
  - intros j k. cbn [In]. destruct (pair_dec j k i k0) as [[-> ->]|N].
    + rewrite sr_same. split; [intros [X|X]; [discriminate|]|contradiction]. apply (F_rec _ _ H) in X. now rewrite D in X.
    + rewrite sr_other by assumption. rewrite <- (F_rec _ _ H). split; [intros [X|X]; [discriminate|assumption]|auto].
  - intros j k. cbn [In]. destruct (pair_dec j k i k0) as [[-> ->]|N].
    + rewrite sr_same. split; [intros [X|X]; [discriminate|]|contradiction]. apply (F_left _ _ H) in X. now rewrite D in X.
    + rewrite sr_other by assumption. rewrite <- (F_left _ _ H). split; [intros [X|X]; [discriminate|assumption]|auto].
  - intros j k. cbn [In]. destruct (pair_dec j k i k0) as [[-> ->]|N].
    + rewrite sr_same. split; [intros [X|X]; [discriminate|]|discriminate]. apply (F_comp _ _ H) in X. congruence.
    + rewrite sr_other by assumption. rewrite <- (F_comp _ _ H). split; [intros [X|X]; [discriminate|assumption]|auto].
  - rewrite (F_pend _ _ H). unfold outstanding, sent, completed. cbn [flat_map app length]. lia.
  - intros j m. cbn [In]. rewrite <- (F_start _ _ H) || idtac. destruct (Nat.eq_dec j i) as [->|N].
    + rewrite si_same. cbn [fl_targets]. rewrite (F_start _ _ H). split; [intros [X|X]; [discriminate|assumption]|auto].
    + rewrite si_other by assumption. rewrite (F_start _ _ H). split; [intros [X|X]; [discriminate|assumption]|auto].
  - intros j. destruct (Nat.eq_dec j i) as [->|N].
    + rewrite si_same. cbn [fl_targets]. congruence.
    + rewrite si_other by assumption. intros TJ. destruct (F_none _ _ H j TJ) as [A' [B' [D' E']]].
      split; [assumption|]. split; [assumption|]. split; [intros k; rewrite sr_other by auto; auto|]. cbn [In]. intros [X|X]; [discriminate|auto].
  - intros j m. destruct (Nat.eq_dec j i) as [->|N].
    + rewrite si_same. cbn [fl_targets fl_next fl_phase fl_remaining]. intros TJ. assert (m = n) as -> by congruence. fold k0.
      split; [assumption|]. split; [intros k X; rewrite sr_other by (right; lia); auto|].
      split; [intros k X; rewrite sr_other by (right; lia); auto|]. split; [split; [assumption|apply sr_same]|].
      split; [exact E|]. split; [exact F|]. rewrite <- G. cbn [In]. split; [intros [X|X]; [discriminate|assumption]|auto].
    + rewrite si_other by assumption. intros TJ. destruct (F_some _ _ H j m TJ) as [A' [B' [D' [E' [F' [G' I']]]]]].
      split; [assumption|]. split; [intros k X; rewrite sr_other by auto; auto|]. split; [intros k X; rewrite sr_other by auto; auto|].
      split; [rewrite sr_other by auto; exact E'|]. split; [exact F'|]. split; [exact G'|]. rewrite <- I'. cbn [In].
      split; [intros [X|X]; [discriminate|assumption]|auto].
  - exact (F_canc _ _ H).
  - intros _. right. exists i. rewrite si_same. discriminate.
Qed.

Lemma initiate_FI : forall max i n s, FI max s -> fl_targets (fy_iter s i) = Some n -> fl_phase (fy_iter s i) = SCounted ->
  FI max (mkF (fy_pending s) (fy_canceled s)
            (set_iter (fy_iter s) i (mkFly (fl_targets (fy_iter s i)) (fl_next (fy_iter s i)) SInitiated (fl_remaining (fy_iter s i))))
            (set_rpc (fy_rpc s) i (fl_next (fy_iter s i)) RFlying) (fy_log s)).
Proof.
  intros max i n s H T P. set (k0 := fl_next (fy_iter s i)) in *.
  destruct (F_some _ _ H i n T) as [A [B [C [D [E [F G]]]]]]. fold k0 in A, B, C, D. rewrite P in D. destruct D as [D0 D].
  constructor; cbn [fy_pending fy_canceled fy_iter fy_rpc fy_log].
  - apply H.
  - intros j k. destruct (pair_dec j k i k0) as [[-> ->]|N].
    + rewrite sr_same, (F_sent _ _ H), D. split; discriminate.
    + rewrite sr_other by assumption. apply H.
  - intros j k. destruct (pair_dec j k i k0) as [[-> ->]|N].
    + rewrite sr_same, (F_rec _ _ H), D. reflexivity.
    + rewrite sr_other by assumption. apply H.
  - intros j k. destruct (pair_dec j k i k0) as [[-> ->]|N].
    + rewrite sr_same, (F_left _ _ H), D. reflexivity.
    + rewrite sr_other by assumption. apply H.
  - intros j k. destruct (pair_dec j k i k0) as [[-> ->]|N].
    + rewrite sr_same, (F_comp _ _ H), D. split; discriminate.
    + rewrite sr_other by assumption. apply H.
  - apply H.
  - intros j m. destruct (Nat.eq_dec j i) as [->|N].
    + rewrite si_same. cbn [fl_targets]. apply H.
    + rewrite si_other by assumption. apply H.
  - intros j. destruct (Nat.eq_dec j i) as [->|N].
    + rewrite si_same. cbn [fl_targets]. congruence.
    + rewrite si_other by assumption. intros TJ. destruct (F_none _ _ H j TJ) as [A' [B' [D' E']]].
      split; [assumption|]. split; [assumption|]. split; [intros k; rewrite sr_other by auto; auto|assumption].
  - intros j m. destruct (Nat.eq_dec j i) as [->|N].
    + rewrite si_same. cbn [fl_targets fl_next fl_phase fl_remaining]. intros TJ. assert (m = n) as -> by congruence. fold k0.
      split; [assumption|]. split; [intros k X; rewrite sr_other by (right; lia); auto|].
      split; [intros k X; rewrite sr_other by (right; lia); auto|]. rewrite sr_same. split; [split; [assumption|exact Logic.I]|]. auto.
    + rewrite si_other by assumption. intros TJ. destruct (F_some _ _ H j m TJ) as [A' [B' [D' [E' [F' [G' I']]]]]].
      split; [assumption|]. split; [intros k X; rewrite sr_other by auto; auto|]. split; [intros k X; rewrite sr_other by auto; auto|].
      split; [rewrite sr_other by auto; exact E'|]. auto.
  - exact (F_canc _ _ H).
  - intros _. right. exists i. rewrite si_same. discriminate.
Qed.

Lemma check_FI : forall max i n s, FI max s -> fl_targets (fy_iter s i) = Some n -> fl_phase (fy_iter s i) = SInitiated ->
  let s' := mkF (fy_pending s) (fy_canceled s)
            (set_iter (fy_iter s) i (mkFly (fl_targets (fy_iter s i)) (S (fl_next (fy_iter s i))) SIdle (fl_remaining (fy_iter s i))))
            (fy_rpc s) (fy_log s) in
  FI max (if fy_pending s >? max then cancel_traffic TooManyRpcs s' else s').
Proof.
  intros max i n s H T P s'. destruct (F_some _ _ H i n T) as [A [B [C [D [E [F G]]]]]]. rewrite P in D. destruct D as [D0 D].
  assert (Q : forall over, (fy_pending s > max -> fy_canceled s <> None \/ over = true) ->
    (over = true -> fy_pending s > max) -> FI max (if over then cancel_traffic TooManyRpcs s' else s')).
  { intros over OV OV2.
    assert (BASE : (fy_pending s > max -> fy_canceled s <> None) -> FI max s').
    { intros NC. unfold s'. constructor; cbn [fy_pending fy_canceled fy_iter fy_rpc fy_log]; try apply H.
      - intros j m. destruct (Nat.eq_dec j i) as [->|N]; [rewrite si_same|rewrite si_other by assumption]; apply H.
      - intros j. destruct (Nat.eq_dec j i) as [->|N]; [rewrite si_same; cbn [fl_targets]; congruence|rewrite si_other by assumption; apply H].
      - intros j m. destruct (Nat.eq_dec j i) as [->|N]; [|rewrite si_other by assumption; apply H].
        rewrite si_same. cbn [fl_targets fl_next fl_phase fl_remaining]. intros TJ. assert (m = n) as -> by congruence.
        split; [lia|]. split.
        { intros k X. destruct (Nat.eq_dec k (fl_next (fy_iter s i))) as [->|NN]; [assumption|apply B; lia]. }
        split; [intros k X; apply C; lia|]. split; [apply C; lia|]. auto.
      - auto. }
    destruct over.
    - destruct (fy_canceled s) eqn:CC.
      + assert (cancel_traffic TooManyRpcs s' = s') as -> by reflexivity.
        apply BASE. intros _. discriminate.
      + (* cancelled now: rebuild through a state whose overload clause holds *)
        pose proof (OV2 eq_refl) as GT. clear OV OV2 BASE.
        assert (X := cancel_FI max TooManyRpcs s H (fun _ => GT)).
        unfold cancel_traffic in X |- *. unfold s'. cbn [fy_canceled]. rewrite CC in X.
        constructor; cbn [fy_pending fy_canceled fy_iter fy_rpc fy_log]; try apply X.
        * intros j m. destruct (Nat.eq_dec j i) as [->|N]; [rewrite si_same|rewrite si_other by assumption]; apply X.
        * intros j. destruct (Nat.eq_dec j i) as [->|N]; [rewrite si_same; cbn [fl_targets]; congruence|rewrite si_other by assumption; apply X].
        * intros j m. destruct (Nat.eq_dec j i) as [->|N]; [|rewrite si_other by assumption; apply X].
          rewrite si_same. cbn [fl_targets fl_next fl_phase fl_remaining]. intros TJ. assert (m = n) as -> by congruence.
          split; [lia|]. split.
          { intros k Y. destruct (Nat.eq_dec k (fl_next (fy_iter s i))) as [->|NN]; [assumption|apply B; lia]. }
          split; [intros k Y; apply C; lia|]. split; [apply C; lia|].
          pose proof (F_some _ _ X i n T) as X'. cbn [fy_iter fy_rpc fy_log] in X'. tauto.
        * intros _. left. discriminate.
    - apply BASE. intros GT. destruct (OV GT); [assumption|discriminate]. }
  apply Q.
  - intros GT. right. apply Z.gtb_lt. lia.
  - intros X. apply Z.gtb_lt in X. lia.
Qed.

(** Completions. *)
Lemma phase_kept : forall (s : fly) i k p, after_send p ->
  fy_rpc s i k <> RNone -> fy_rpc s i k <> RCounted -> forall n max, FI max s -> forall j, fl_targets (fy_iter s j) = Some n ->
  (forall l, (l < fl_next (fy_iter s j))%nat -> after_send (set_rpc (fy_rpc s) i k p j l)) /\
  (forall l, (fl_next (fy_iter s j) < l)%nat -> set_rpc (fy_rpc s) i k p j l = RNone) /\
  match fl_phase (fy_iter s j) with
  | SIdle => set_rpc (fy_rpc s) i k p j (fl_next (fy_iter s j)) = RNone
  | SCounted => (fl_next (fy_iter s j) < n)%nat /\ set_rpc (fy_rpc s) i k p j (fl_next (fy_iter s j)) = RCounted
  | SInitiated => (fl_next (fy_iter s j) < n)%nat /\ after_send (set_rpc (fy_rpc s) i k p j (fl_next (fy_iter s j)))
  end.
Proof.
  intros s i k p AP N1 N2 n max H j T. destruct (F_some _ _ H j n T) as [A [B [C [D _]]]].
  destruct (rpc_range max s i k H N1) as [m [TM [KM RNG]]]. specialize (RNG N2). split; [|split].
  - intros l L. destruct (pair_dec j l i k) as [[-> ->]|NE]; [now rewrite sr_same|rewrite sr_other by assumption; auto].
  - intros l L. destruct (pair_dec j l i k) as [[-> ->]|NE]; [|rewrite sr_other by assumption; auto].
    exfalso. destruct RNG as [R|[R _]]; lia.
  - destruct (pair_dec j (fl_next (fy_iter s j)) i k) as [[-> EK]|NE].
    + rewrite <- EK in RNG |- *. rewrite sr_same. destruct RNG as [R|[_ R]]; [lia|]. rewrite R in D |- *. destruct D. auto.
    + rewrite sr_other by assumption. exact D.
Qed.

Lemma reply_FI : forall max i k s, FI max s -> fy_rpc s i k = RFlying ->
  FI max (mkF (fy_pending s) (fy_canceled s) (fy_iter s) (set_rpc (fy_rpc s) i k RRecorded) (EvRecorded i k :: fy_log s)).
Proof.
  intros max i k s H R. constructor; cbn [fy_pending fy_canceled fy_iter fy_rpc fy_log].
  - cbn [fly_history fly_ok]. split; [|apply H]. split; [rewrite (F_rec _ _ H), R; auto|]. apply (F_sent _ _ H). congruence.
  - intros j l. cbn [In]. destruct (pair_dec j l i k) as [[-> ->]|N].
    + rewrite sr_same, (F_sent _ _ H), R. split; [discriminate|]. intros _. right. discriminate.
    + rewrite sr_other by assumption. rewrite <- (F_sent _ _ H). split; [intros [X|X]; [discriminate|assumption]|auto].
  - intros j l. cbn [In]. destruct (pair_dec j l i k) as [[-> ->]|N].
    + rewrite sr_same. split; auto.
    + rewrite sr_other by assumption. rewrite <- (F_rec _ _ H). split; [intros [X|X]; [exfalso; injection X as -> ->; tauto|assumption]|auto].
  - intros j l. cbn [In]. destruct (pair_dec j l i k) as [[-> ->]|N].
    + rewrite sr_same, (F_left _ _ H), R. split; [intros [X|X]; [discriminate|assumption]|auto].
    + rewrite sr_other by assumption. rewrite <- (F_left _ _ H). split; [intros [X|X]; [discriminate|assumption]|auto].
  - intros j l. cbn [In]. destruct (pair_dec j l i k) as [[-> ->]|N].
    + rewrite sr_same, (F_comp _ _ H), R. split; [intros [X|X]; discriminate|discriminate].
    + rewrite sr_other by assumption. rewrite <- (F_comp _ _ H). split; [intros [X|X]; [discriminate|assumption]|auto].
  - rewrite (F_pend _ _ H). reflexivity.
  - intros j n. cbn [In]. rewrite <- (F_start _ _ H). split; [intros [X|X]; [discriminate|assumption]|auto].
  - intros j T. destruct (F_none _ _ H j T) as [A [B [C D]]]. split; [assumption|]. split; [assumption|]. split.
    + intros l. rewrite sr_other; [auto|]. left. intros ->. rewrite C in R. discriminate.
    + cbn [In]. intros [X|X]; [discriminate|auto].
  - intros j n T. destruct (F_some _ _ H j n T) as [A [_ [_ [_ [E [F G]]]]]].
    destruct (phase_kept s i k RRecorded Logic.I ltac:(congruence) ltac:(congruence) n max H j T) as [B [C D]].
    split; [assumption|]. split; [assumption|]. split; [assumption|]. split; [assumption|]. split; [exact E|]. split; [exact F|].
    rewrite <- G. cbn [In]. split; [intros [X|X]; [discriminate|assumption]|auto].
  - exact (F_canc _ _ H).
  - exact (F_over _ _ H).
Qed.

Lemma complete_FI : forall max i k s, FI max s -> fy_rpc s i k = RCounted2 ->
  FI max (mkF (fy_pending s - 1) (fy_canceled s) (fy_iter s) (set_rpc (fy_rpc s) i k RDone) (EvCompleted i k :: fy_log s)).
Proof.
  intros max i k s H R. constructor; cbn [fy_pending fy_canceled fy_iter fy_rpc fy_log].
  - cbn [fly_history fly_ok]. split; [|apply H]. split; [rewrite (F_comp _ _ H), R; discriminate|]. apply (F_left _ _ H). now rewrite R.
  - intros j l. cbn [In]. destruct (pair_dec j l i k) as [[-> ->]|N].
    + rewrite sr_same, (F_sent _ _ H), R. split; [discriminate|]. intros _. right. discriminate.
    + rewrite sr_other by assumption. rewrite <- (F_sent _ _ H). split; [intros [X|X]; [discriminate|assumption]|auto].
  - intros j l. cbn [In]. destruct (pair_dec j l i k) as [[-> ->]|N].
    + rewrite sr_same, (F_rec _ _ H), R. split; auto.
    + rewrite sr_other by assumption. rewrite <- (F_rec _ _ H). split; [intros [X|X]; [discriminate|assumption]|auto].
  - intros j l. cbn [In]. destruct (pair_dec j l i k) as [[-> ->]|N].
    + rewrite sr_same, (F_left _ _ H), R. split; [intros [X|X]; [discriminate|assumption]|auto].
    + rewrite sr_other by assumption. rewrite <- (F_left _ _ H). split; [intros [X|X]; [discriminate|assumption]|auto].
  - intros j l. cbn [In]. destruct (pair_dec j l i k) as [[-> ->]|N].
    + rewrite sr_same. split; auto.
    + rewrite sr_other by assumption. rewrite <- (F_comp _ _ H). split; [intros [X|X]; [exfalso; injection X as -> ->; tauto|assumption]|auto].
  - rewrite (F_pend _ _ H). unfold outstanding, sent, completed. cbn [flat_map app length]. lia.
  - intros j n. cbn [In]. rewrite <- (F_start _ _ H). split; [intros [X|X]; [discriminate|assumption]|auto].
  - intros j T. destruct (F_none _ _ H j T) as [A [B [C D]]]. split; [assumption|]. split; [assumption|]. split.
    + intros l. rewrite sr_other; [auto|]. left. intros ->. rewrite C in R. discriminate.
    + cbn [In]. intros [X|X]; [discriminate|auto].
  - intros j n T. destruct (F_some _ _ H j n T) as [A [_ [_ [_ [E [F G]]]]]].
    destruct (phase_kept s i k RDone Logic.I ltac:(congruence) ltac:(congruence) n max H j T) as [B [C D]].
    split; [assumption|]. split; [assumption|]. split; [assumption|]. split; [assumption|]. split; [exact E|]. split; [exact F|].
    rewrite <- G. cbn [In]. split; [intros [X|X]; [discriminate|assumption]|auto].
  - exact (F_canc _ _ H).
  - intros X. apply (F_over _ _ H). lia.
Qed.

Lemma nodup_full : forall n (l : list nat), NoDup l -> (forall k, In k l -> (k < n)%nat) ->
  (length l <= n)%nat /\ (length l = n -> forall k, (k < n)%nat -> In k l).
Proof.
  intros n l ND R. assert (I : incl l (seq 0 n)) by (intros k K; apply in_seq; specialize (R k K); lia). split.
  - rewrite <- (seq_length n 0). now apply NoDup_incl_length.
  - intros E k K. assert (X : incl (seq 0 n) l) by (apply NoDup_length_incl; [assumption|rewrite seq_length; lia|assumption]).
    apply X. apply in_seq. lia.
Qed.

Lemma leave_FI : forall max i k s, FI max s -> fy_rpc s i k = RRecorded ->
  let left := fl_remaining (fy_iter s i) - 1 in
  FI max (mkF (fy_pending s) (fy_canceled s)
            (set_iter (fy_iter s) i (mkFly (fl_targets (fy_iter s i)) (fl_next (fy_iter s i)) (fl_phase (fy_iter s i)) left))
            (set_rpc (fy_rpc s) i k RCounted2)
            (if left =? 0 then EvFinish i :: EvLeft i k :: fy_log s else EvLeft i k :: fy_log s)).
Proof.
  intros max i k s H R left.
  destruct (rpc_range max s i k H ltac:(congruence)) as [n [T [KN RNG]]].
  destruct (F_some _ _ H i n T) as [A [_ [_ [_ [E [F G]]]]]].
  assert (NL : ~ In k (left_of i (fy_log s))).
  { intros X. apply left_in, (F_left _ _ H) in X. now rewrite R in X. }
  assert (RG : forall l, In l (left_of i (fy_log s)) -> (l < n)%nat).
  { intros l X. apply left_in, (F_left _ _ H) in X. destruct (rpc_range max s i l H) as [m [TM [LM _]]].
    - intros Q. now rewrite Q in X.
    - assert (m = n) by congruence. now subst. }
  destruct (nodup_full n (k :: left_of i (fy_log s))) as [LEN FULL].
  { now constructor. }
  { intros l [<-|X]; auto. }
  cbn [length] in LEN, FULL.
  assert (NF : ~ In (EvFinish i) (fy_log s)) by (rewrite G; lia).
  set (lg := if left =? 0 then EvFinish i :: EvLeft i k :: fy_log s else EvLeft i k :: fy_log s).
  assert (IN : forall e, In e lg <-> e = EvLeft i k \/ (left = 0 /\ e = EvFinish i) \/ In e (fy_log s)).
  { intros e. unfold lg. destruct (Z.eqb_spec left 0) as [Z0|NZ]; cbn [In].
    - split; [intros [X|[X|X]]|intros [X|[[_ X]|X]]]; subst; auto.
    - split; [intros [X|X]|intros [X|[[X _]|X]]]; subst; auto. contradiction. }
  assert (LFI : left_of i lg = k :: left_of i (fy_log s)).
  { unfold lg. destruct (left =? 0); unfold left_of; cbn [flat_map]; rewrite Nat.eqb_refl; reflexivity. }
  assert (LFO : forall j, j <> i -> left_of j lg = left_of j (fy_log s)).
  { intros j N. unfold lg, left_of. assert (Nat.eqb i j = false) as NE by (apply Nat.eqb_neq; auto).
    destruct (left =? 0); cbn [flat_map]; rewrite NE; reflexivity. }
  constructor; cbn [fy_pending fy_canceled fy_iter fy_rpc fy_log]; fold lg.
  - assert (OKL : fly_ok max (EvLeft i k) (fy_log s)).
    { cbn [fly_ok]. split; [rewrite <- left_in; assumption|]. apply (F_rec _ _ H). now rewrite R. }
    unfold lg. destruct (Z.eqb_spec left 0) as [Z0|NZ]; cbn [fly_history]; [|split; [assumption|apply H]].
    split; [|split; [assumption|apply H]]. cbn [fly_ok]. split; [intros [X|X]; [discriminate|contradiction]|].
    exists n. split; [right; now apply (F_start _ _ H)|]. intros l L. apply FULL in L; [|unfold left in Z0; lia].
    destruct L as [<-|L]; [left; reflexivity|right; now apply left_in].
  - intros j l. rewrite IN. destruct (pair_dec j l i k) as [[-> ->]|N].
    + rewrite sr_same, (F_sent _ _ H), R. split; [discriminate|]. intros _. right. right. discriminate.
    + rewrite sr_other by assumption. rewrite <- (F_sent _ _ H). split; [intros [X|[[_ X]|X]]; try discriminate; assumption|auto].
  - intros j l. rewrite IN. destruct (pair_dec j l i k) as [[-> ->]|N].
    + rewrite sr_same, (F_rec _ _ H), R. split; auto.
    + rewrite sr_other by assumption. rewrite <- (F_rec _ _ H). split; [intros [X|[[_ X]|X]]; try discriminate; assumption|auto].
  - intros j l. rewrite IN. destruct (pair_dec j l i k) as [[-> ->]|N].
    + rewrite sr_same. split; auto.
    + rewrite sr_other by assumption. rewrite <- (F_left _ _ H).
      split; [intros [X|[[_ X]|X]]; [exfalso; injection X as -> ->; tauto|discriminate|assumption]|auto].
  - intros j l. rewrite IN. destruct (pair_dec j l i k) as [[-> ->]|N].
    + rewrite sr_same, (F_comp _ _ H), R. split; [intros [X|[[_ X]|X]]; discriminate|discriminate].
    + rewrite sr_other by assumption. rewrite <- (F_comp _ _ H). split; [intros [X|[[_ X]|X]]; try discriminate; assumption|auto].
  - rewrite (F_pend _ _ H). unfold lg. destruct (left =? 0); reflexivity.
  - intros j m. rewrite IN. assert (TT : fl_targets (set_iter (fy_iter s) i (mkFly (fl_targets (fy_iter s i)) (fl_next (fy_iter s i)) (fl_phase (fy_iter s i)) left) j) = fl_targets (fy_iter s j)).
    { destruct (Nat.eq_dec j i) as [->|N]; [now rewrite si_same|now rewrite si_other]. }
    rewrite TT, <- (F_start _ _ H). split; [intros [X|[[_ X]|X]]; try discriminate; assumption|auto].
  - intros j. destruct (Nat.eq_dec j i) as [->|N].
    + rewrite si_same. cbn [fl_targets]. congruence.
    + rewrite si_other by assumption. intros TJ. destruct (F_none _ _ H j TJ) as [A' [B' [C' D']]]. split; [assumption|]. split; [assumption|].
      split; [intros l; rewrite sr_other by auto; auto|]. rewrite IN. intros [X|[[_ X]|X]]; [discriminate|congruence|auto].
  - intros j m. destruct (Nat.eq_dec j i) as [->|N].
    + rewrite si_same. cbn [fl_targets fl_next fl_phase fl_remaining]. intros TJ. assert (m = n) as -> by congruence.
      destruct (phase_kept s i k RCounted2 Logic.I ltac:(congruence) ltac:(congruence) n max H i T) as [B [C D]].
      split; [assumption|]. split; [assumption|]. split; [assumption|]. split; [assumption|]. rewrite LFI.
      split; [now constructor|]. split; [cbn [length]; unfold left; lia|]. rewrite IN. split.
      * intros [X|[[X _]|X]]; [discriminate|assumption|contradiction].
      * intros X. auto.
    + rewrite si_other by assumption. intros TJ. destruct (F_some _ _ H j m TJ) as [A' [_ [_ [_ [E' [F' G']]]]]].
      destruct (phase_kept s i k RCounted2 Logic.I ltac:(congruence) ltac:(congruence) m max H j TJ) as [B [C D]].
      split; [assumption|]. split; [assumption|]. split; [assumption|]. split; [assumption|]. rewrite (LFO j N).
      split; [assumption|]. split; [assumption|]. rewrite IN, <- G'.
      split; [intros [X|[[_ X]|X]]; [discriminate|congruence|assumption]|auto].
  - rewrite <- (F_canc _ _ H). unfold lg. destruct (left =? 0); reflexivity.
  - intros X. destruct (F_over _ _ H X) as [Y|[j Y]]; [auto|]. right. exists j.
    destruct (Nat.eq_dec j i) as [->|N]; [now rewrite si_same|now rewrite si_other].
Qed.

Lemma step_FI : forall max a s s', FI max s -> fly_step max a s = Some s' -> FI max s'.
Proof.
  intros max a s s' H E. destruct a as [i n|i|i k ex|i k|i k|]; cbn [fly_step] in E.
  - destruct (fl_targets (fy_iter s i)) eqn:T; [discriminate|]. injection E as <-. now apply start_FI.
  - destruct (fl_targets (fy_iter s i)) as [n|] eqn:T; [|discriminate]. rewrite <- T in E. destruct (fl_phase (fy_iter s i)) eqn:P.
    + destruct (Nat.ltb (fl_next (fy_iter s i)) n) eqn:L; [|discriminate]. injection E as <-. apply Nat.ltb_lt in L. now apply (send_FI max i n).
    + injection E as <-. now apply (initiate_FI max i n).
    + assert (X : forall (x y : fly), Some x = Some y -> x = y) by congruence. apply X in E. rewrite <- E. now apply (check_FI max i n).
  - destruct (fy_rpc s i k) eqn:R; try discriminate.
    set (s1 := if ex then cancel_traffic PeerReported s else s) in *.
    assert (H1 : FI max s1) by (unfold s1; destruct ex; [apply cancel_FI; [assumption|discriminate]|assumption]).
    assert (R1 : fy_rpc s1 i k = RFlying).
    { unfold s1. destruct ex; [|assumption]. unfold cancel_traffic. now destruct (fy_canceled s). }
    injection E as <-. now apply reply_FI.
  - destruct (fy_rpc s i k) eqn:R; try discriminate. assert (X : forall (x y : fly), Some x = Some y -> x = y) by congruence.
    apply X in E. rewrite <- E. now apply leave_FI.
  - destruct (fy_rpc s i k) eqn:R; try discriminate. injection E as <-. now apply complete_FI.
  - injection E as <-. apply cancel_FI; [assumption|discriminate].
Qed.
Lemma init_FI : forall max, 0 <= max -> FI max fly0.
Proof.
  intros max M. constructor; cbn [fly0 fy_pending fy_canceled fy_iter fy_rpc fy_log fl_targets fl_next fl_phase fl_remaining In].
  - exact Logic.I.
  - intros. split; [tauto|congruence].
  - tauto.
  - tauto.
  - intros. split; [tauto|discriminate].
  - reflexivity.
  - intros. split; [tauto|discriminate].
  - auto.
  - discriminate.
  - reflexivity.
  - lia.
Qed.
Lemma run_FI : forall max l, 0 <= max -> FI max (fly_run max l fly0).
Proof.
  intros max l M. assert (G : forall l s, FI max s -> FI max (fly_run max l s)).
  { clear l. induction l as [|a r IH]; intros s H; cbn [fly_run]; [assumption|]. apply IH.
    destruct (fly_step max a s) eqn:E; [eauto using step_FI|assumption]. }
  apply G. now apply init_FI.
Qed.

(** * Results *)
Lemma history_nodup : forall max l, fly_history max l -> NoDup (sent l) /\ NoDup (completed l) /\ incl (completed l) (sent l).
Proof.
  intros max. induction l as [|e l IH]; intros H; [repeat split; try constructor; intros x []|].
  cbn [fly_history] in H. destruct H as [E H]. destruct (IH H) as [A [B C]].
  destruct e; unfold sent, completed in *; cbn [flat_map app]; try (repeat split; assumption).
  - cbn [fly_ok] in E. destruct E as [N _]. repeat split; [constructor; [|assumption]|assumption|].
    + intros X. apply N. now apply sent_in.
    + intros x X. right. now apply C.
  - cbn [fly_ok] in E. destruct E as [N L]. repeat split; [assumption|constructor; [|assumption]|].
    + intros X. apply N. now apply completed_in.
    + intros x [<-|X]; [|now apply C]. clear -H L. apply sent_in.
      assert (REC : In (EvRecorded i k) l).
      { apply in_split in L. destruct L as [l1 [l2 ->]]. pose proof (fly_split _ _ _ _ H) as [_ X]. apply in_app_iff. right. right. assumption. }
      apply in_split in REC. destruct REC as [l1 [l2 ->]]. pose proof (fly_split _ _ _ _ H) as [_ X]. apply in_app_iff. right. right. assumption.
Qed.

Lemma pending_counts : forall max l, 0 <= max -> let s := fly_run max l fly0 in
  fy_pending s = Z.of_nat (length (sent (fy_log s))) - Z.of_nat (length (completed (fy_log s))) /\
  NoDup (sent (fy_log s)) /\ NoDup (completed (fy_log s)) /\ incl (completed (fy_log s)) (sent (fy_log s)) /\ 0 <= fy_pending s /\
  (incl (sent (fy_log s)) (completed (fy_log s)) -> fy_pending s = 0).
Proof.
  intros max l M s. pose proof (run_FI max l M) as H. fold s in H. destruct (history_nodup _ _ (F_hist _ _ H)) as [A [B C]].
  pose proof (F_pend _ _ H) as P. unfold outstanding in P. pose proof (NoDup_incl_length B C). repeat split; try assumption; try lia.
  intros I. pose proof (NoDup_incl_length A I). lia.
Qed.
Lemma overload_cancels : forall max l, 0 <= max -> let s := fly_run max l fly0 in
  fy_pending s > max -> (forall i, fl_phase (fy_iter s i) = SIdle) -> fy_canceled s <> None.
Proof.
  intros max l M s P Q. pose proof (run_FI max l M) as H. fold s in H. destruct (F_over _ _ H P) as [X|[i X]]; [assumption|].
  now rewrite Q in X.
Qed.
Lemma cancel_unique : forall max l, 0 <= max -> let s := fly_run max l fly0 in
  cancels_of (fy_log s) = match fy_canceled s with Some r => [r] | None => [] end.
Proof. intros max l M s. apply (F_canc _ _ (run_FI max l M)). Qed.
Lemma cancel_kept_step : forall max a s s' r, fly_step max a s = Some s' -> fy_canceled s = Some r -> fy_canceled s' = Some r.
Proof.
  intros max a s s' r E C. assert (K : forall x s0, fy_canceled s0 = Some r -> fy_canceled (cancel_traffic x s0) = Some r).
  { intros x s0 X. unfold cancel_traffic. now rewrite X. }
  destruct a as [i n|i|i k ex|i k|i k|]; cbn [fly_step] in E.
  - destruct (fl_targets (fy_iter s i)); [discriminate|]. injection E as <-. assumption.
  - destruct (fl_targets (fy_iter s i)); [|discriminate]. destruct (fl_phase (fy_iter s i)).
    + destruct (Nat.ltb _ _); [|discriminate]. injection E as <-. assumption.
    + injection E as <-. assumption.
    + injection E as <-. destruct (fy_pending s >? max); [apply K|]; assumption.
  - destruct (fy_rpc s i k); try discriminate. injection E as <-. cbn [fy_canceled]. destruct ex; [now apply K|assumption].
  - destruct (fy_rpc s i k); try discriminate. injection E as <-. assumption.
  - destruct (fy_rpc s i k); try discriminate. injection E as <-. assumption.
  - injection E as <-. now apply K.
Qed.
Lemma cancel_kept : forall max l s r, fy_canceled s = Some r -> fy_canceled (fly_run max l s) = Some r.
Proof.
  intros max. induction l as [|a t IH]; intros s r C; cbn [fly_run]; [assumption|]. apply IH.
  destruct (fly_step max a s) eqn:E; [eauto using cancel_kept_step|assumption].
Qed.
Lemma iteration_finishes : forall max l, 0 <= max -> let s := fly_run max l fly0 in
  forall i n, In (EvStart i n) (fy_log s) -> (forall k, (k < n)%nat -> In (EvLeft i k) (fy_log s)) -> In (EvFinish i) (fy_log s).
Proof.
  intros max l M s i n S0 L. pose proof (run_FI max l M) as H. fold s in H. apply (F_start _ _ H) in S0.
  destruct (F_some _ _ H i n S0) as [_ [_ [_ [_ [E [F G]]]]]]. apply G. rewrite F.
  assert (X : (n <= length (left_of i (fy_log s)))%nat).
  { rewrite <- (seq_length n 0). apply NoDup_incl_length; [apply seq_NoDup|]. intros k K. apply left_in, L. apply in_seq in K. lia. }
  assert (Y : (length (left_of i (fy_log s)) <= n)%nat).
  { apply (nodup_full n _ E). intros k K. apply left_in, (F_left _ _ H) in K. destruct (rpc_range max s i k H) as [m [TM [LM _]]].
    - intros Q. now rewrite Q in K.
    - assert (m = n) by congruence. now subst. }
  lia.
Qed.
