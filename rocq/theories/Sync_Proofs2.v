(** Proofs about the overload monitor and the iteration state cache. *)
From Coq Require Import List ZArith Bool Lia.
From Verif Require Import Base_Model Sync_Model Sync_Proofs.
Import ListNotations.
Open Scope Z_scope.

(** ** Overload monitor: what a history says *)
(** Registered threads that have not ended. *)
Fixpoint live (l : list ov_event) : Z :=
  match l with
  | [] => 0
  | VStart _ :: r => live r + 1
  | VExit _ :: r => live r - 1
  | _ :: r => live r
  end.
(** The threshold is [n] and has not fired since it was set. *)
Definition armed_by (l : list ov_event) (n : Z) : Prop :=
  exists l1 l2, l = l1 ++ VArm n :: l2 /\ (forall m, ~ In (VArm m) l1) /\ (forall t, ~ In (VTrigger t) l1).
(** Callback [c] is registered, and no threshold of zero was set since. *)
Definition registered_by (l : list ov_event) (c : nat) : Prop :=
  exists l1 l2, l = l1 ++ VCallback (Some c) :: l2 /\ (forall x, ~ In (VCallback x) l1) /\ ~ In (VArm 0) l1.
(** Starting thread [t] after history [l] must fire. *)
Definition must_fire (l : list ov_event) (t : nat) : Prop :=
  exists n c, armed_by l n /\ n <> 0 /\ n < live (VStart t :: l) /\ registered_by l c.

(** Executable versions. *)
Fixpoint armed (l : list ov_event) : Z :=
  match l with [] => 0 | VArm n :: _ => n | VTrigger _ :: _ => 0 | _ :: r => armed r end.
Fixpoint registered (l : list ov_event) : option nat :=
  match l with
  | [] => None
  | VCallback c :: _ => c
  | VArm n :: r => if n =? 0 then None else registered r
  | _ :: r => registered r
  end.
Lemma armed_spec : forall l n, n <> 0 -> (armed l = n <-> armed_by l n).
Proof.
  intros l n N. split.
  - induction l as [|e r IH]; cbn [armed]; intros E; [congruence|].
    destruct e as [m|c|t|t|t c|t]; try congruence;
      try (destruct (IH E) as [l1 [l2 [-> [A B]]]];
           match goal with |- armed_by (?e :: _) _ => exists (e :: l1), l2 end; split; [reflexivity|];
           split; [intros m [Q|Q]; [discriminate|apply (A m Q)]|intros u [Q|Q]; [discriminate|apply (B u Q)]]).
    subst m. exists [], r. split; [reflexivity|]. split; intros m [].
  - intros [l1 [l2 [-> [A B]]]]. induction l1 as [|e r IH]; [reflexivity|]. cbn [app armed].
    destruct e as [m|c|t|t|t c|t]; try (apply IH; intros ? ?; [eapply A|eapply B]; right; eassumption).
    + destruct (A m). left. reflexivity.
    + destruct (B t). left. reflexivity.
Qed.
Lemma registered_spec : forall l c, registered l = Some c <-> registered_by l c.
Proof.
  intros l c. split.
  - induction l as [|e r IH]; cbn [registered]; intros E; [congruence|].
    destruct e as [m|x|t|t|t x|t]; try congruence.
    2:{ subst x. exists [], r. split; [reflexivity|]. split; [intros x []|intros []]. }
    1: destruct (Z.eqb_spec m 0) as [->|N0]; [discriminate|].
    all: destruct (IH E) as [l1 [l2 [-> [A B]]]];
      match goal with |- registered_by (?e :: _) _ => exists (e :: l1), l2 end; split; [reflexivity|];
      split; [intros y [Q|Q]; [discriminate|apply (A y Q)]|intros [Q|Q]; [congruence|apply (B Q)]].
  - intros [l1 [l2 [-> [A B]]]]. induction l1 as [|e r IH]; [reflexivity|]. cbn [app registered].
    assert (R : registered (r ++ VCallback (Some c) :: l2) = Some c).
    { apply IH; [intros x I; apply (A x); right; assumption|intros I; apply B; right; assumption]. }
    destruct e as [m|x|t|t|t x|t]; auto.
    + destruct (Z.eqb_spec m 0) as [->|N0]; [destruct B; left; reflexivity|assumption].
    + destruct (A x). left. reflexivity.
Qed.
Definition fires (l : list ov_event) (t : nat) : Prop :=
  armed l <> 0 /\ armed l < live l + 1 /\ registered l <> None.
Lemma fires_spec : forall l t, fires l t <-> must_fire l t.
Proof.
  intros l t. unfold fires, must_fire. cbn [live]. split.
  - intros [A [B C]]. destruct (registered l) as [c|] eqn:R; [|congruence]. exists (armed l), c.
    split; [apply armed_spec; auto|]. split; [assumption|]. split; [assumption|]. now apply registered_spec.
  - intros [n [c [A [N [L R]]]]]. apply armed_spec in A; [|assumption]. apply registered_spec in R. rewrite A, R. repeat split; auto. discriminate.
Qed.

Fixpoint starts_ok (l : list ov_event) : Prop :=
  match l with
  | [] => True
  | VTrigger t :: r =>
      match r with
      | VStart u :: r' => u = t /\ fires r' t /\ starts_ok r'
      | _ => False
      end
  | VStart t :: r => ~ fires r t /\ starts_ok r
  | _ :: r => starts_ok r
  end.
Definition ov_event_ok (e : ov_event) (l : list ov_event) : Prop :=
  match e with
  | VStart t => ~ In (VStart t) l
  | VTrigger t => In (VStart t) l /\ ~ In (VTrigger t) l
  | VCall t c => In (VTrigger t) l /\ (forall d, ~ In (VCall t d) l) /\ ~ In (VExit t) l
  | VExit t => In (VStart t) l /\ ~ In (VExit t) l
  | _ => True
  end.
Fixpoint ov_history (l : list ov_event) : Prop :=
  match l with [] => True | e :: r => ov_event_ok e r /\ ov_history r end.
Lemma ov_history_split : forall l1 e l2, ov_history (l1 ++ e :: l2) -> ov_event_ok e l2.
Proof. induction l1 as [|x l1 IH]; intros e l2 H; cbn [app ov_history] in H; [apply H|apply IH, H]. Qed.
Definition ov_thread_ok (t : nat) (p : ov_phase) (l : list ov_event) : Prop :=
  (match p with
   | OvNone => ~ In (VStart t) l /\ ~ In (VTrigger t) l /\ ~ In (VExit t) l
   | OvGone => In (VStart t) l
   | _ => In (VStart t) l /\ ~ In (VExit t) l
   end) /\
  (match p with
   | OvStarted true | OvCheck | OvCalling => In (VTrigger t) l /\ (forall c, ~ In (VCall t c) l)
   | OvStarted false => ~ In (VTrigger t) l
   | _ => True
   end).
Record OI (s : ov) : Prop := {
  O_max : ov_max s = armed (ov_log s);
  O_cur : ov_cur s = live (ov_log s);
  O_cb : ov_cb s = registered (ov_log s);
  O_th : forall t, ov_thread_ok t (ov_th s t) (ov_log s);
  O_starts : starts_ok (ov_log s);
  O_hist : ov_history (ov_log s) }.
Lemma OI0 : OI ov0.
Proof. split; try reflexivity; try exact Logic.I. intros t. split; [repeat split; intros []|exact Logic.I]. Qed.

(** Events about another thread, or about none, do not matter to a thread. *)
Definition about (e : ov_event) : option nat :=
  match e with VStart t | VTrigger t | VCall t _ | VExit t => Some t | _ => None end.
Lemma thread_other : forall t p l e, about e <> Some t -> ov_thread_ok t p l -> ov_thread_ok t p (e :: l).
Proof.
  intros t p l e N [A B]. unfold ov_thread_ok. split.
  - destruct p; cbn [In]; repeat split; try (right; apply A); try (intros [Q|Q]; [subst e; cbn in N; congruence|tauto]).
  - destruct p as [|[|]| | | |]; cbn [In]; auto.
    + split; [right; apply B|]. intros c [Q|Q]; [subst e; cbn in N; congruence|apply (proj2 B c Q)].
    + intros [Q|Q]; [subst e; cbn in N; congruence|apply B; exact Q].
    + split; [right; apply B|]. intros c [Q|Q]; [subst e; cbn in N; congruence|apply (proj2 B c Q)].
    + split; [right; apply B|]. intros c [Q|Q]; [subst e; cbn in N; congruence|apply (proj2 B c Q)].
Qed.
Lemma call_has_trigger : forall l t c, ov_history l -> In (VCall t c) l -> In (VTrigger t) l.
Proof.
  intros l t c H I. apply in_split in I. destruct I as [l1 [l2 ->]]. pose proof (ov_history_split _ _ _ H) as [Q _].
  apply in_app_iff. right. right. exact Q.
Qed.

Lemma ov_step_OI : forall a s s', OI s -> ov_step a s = OvNext s' -> OI s'.
Proof.
  intros [n|c|t|t] s s' H E; cbn [ov_step] in E.
  - injection E as <-. destruct H as [A B C D F G]. split; cbn [ov_max ov_cur ov_cb ov_th ov_log armed live registered starts_ok ov_history ov_event_ok]; auto.
    + destruct (n =? 0); auto.
    + intros t. apply thread_other; [discriminate|auto].
  - injection E as <-. destruct H as [A B C D F G]. split; cbn [ov_max ov_cur ov_cb ov_th ov_log armed live registered starts_ok ov_history ov_event_ok]; auto.
    intros t. apply thread_other; [discriminate|auto].
  - destruct (ov_th s t) eqn:P; try discriminate. injection E as <-. destruct H as [A B C D F G].
    pose proof (D t) as Dt. rewrite P in Dt. destruct Dt as [[D1 [D2 D3]] _].
    set (fire := _ && _ && _).
    assert (FS : fire = true <-> fires (ov_log s) t).
    { unfold fire, fires. rewrite <- A, <- B, <- C. rewrite !andb_true_iff, negb_true_iff, Z.eqb_neq, Z.gtb_lt.
      destruct (ov_cb s); split; intros X; decompose [and] X; repeat split; auto; try discriminate; congruence. }
    split; cbn [ov_max ov_cur ov_cb ov_th ov_log].
    + destruct fire; cbn [armed]; auto.
    + destruct fire; cbn [live]; lia.
    + destruct fire; cbn [registered]; auto.
    + intros u. cases u t.
      * unfold ov_thread_ok. destruct fire; cbn [In]; split; try tauto.
        -- split; [tauto|]. intros [Q|[Q|Q]]; try discriminate; auto.
        -- split; [tauto|]. intros c [Q|[Q|Q]]; try discriminate. apply D2. eapply call_has_trigger; eassumption.
        -- split; [tauto|]. intros [Q|Q]; try discriminate; auto.
        -- intros [Q|Q]; try discriminate; auto.
      * destruct fire; [apply thread_other; [cbn; congruence|]|]; (apply thread_other; [cbn; congruence|apply D]).
    + destruct fire; cbn [starts_ok].
      * split; [reflexivity|]. split; [apply FS; reflexivity|assumption].
      * split; [|assumption]. intros X. apply FS in X. discriminate.
    + destruct fire; cbn [ov_history ov_event_ok]; repeat split; auto; [left; reflexivity|].
      intros [Q|Q]; [discriminate|auto].
  - destruct (ov_th s t) eqn:P; try discriminate.
    + injection E as <-. destruct H as [A B C D F G]. split; cbn [ov_max ov_cur ov_cb ov_th ov_log]; auto.
      intros u. cases u t; [|apply D]. specialize (D t). rewrite P in D. destruct D as [D1 D2].
      destruct notify; split; cbn; auto.
    + injection E as <-. destruct H as [A B C D F G]. split; cbn [ov_max ov_cur ov_cb ov_th ov_log]; auto.
      intros u. cases u t; [|apply D]. specialize (D t). rewrite P in D. destruct D as [D1 D2].
      destruct (ov_cb s); split; cbn; auto.
    + destruct (ov_cb s) as [c|] eqn:CB; [|discriminate]. injection E as <-. destruct H as [A B C D F G].
      pose proof (D t) as Dt. rewrite P in Dt. destruct Dt as [[D1 D2] [D3 D4]].
      split; cbn [ov_max ov_cur ov_cb ov_th ov_log armed live registered starts_ok ov_history ov_event_ok]; auto.
      * congruence.
      * intros u. cases u t.
        -- split; cbn [In]; [|exact Logic.I]. split; [tauto|]. intros [Q|Q]; [discriminate|auto].
        -- apply thread_other; [cbn; congruence|apply D].
    + injection E as <-. destruct H as [A B C D F G].
      pose proof (D t) as Dt. rewrite P in Dt. destruct Dt as [[D1 D2] _].
      split; cbn [ov_max ov_cur ov_cb ov_th ov_log armed live registered starts_ok ov_history ov_event_ok]; auto.
      * lia.
      * intros u. cases u t; [split; cbn [In]; tauto|apply thread_other; [cbn; congruence|apply D]].
Qed.
Definition ov_reach (s : ov) : Prop := exists l, ov_run l ov0 = OvNext s.
Lemma ov_reach_OI : forall s, ov_reach s -> OI s.
Proof.
  intros s [l E]. assert (G : forall l s s', OI s -> ov_run l s = OvNext s' -> OI s').
  { clear s l E. induction l as [|a r IH]; intros s s' H E; cbn [ov_run] in E; [injection E as <-; assumption|].
    destruct (ov_step a s) eqn:Q; try discriminate; [|eauto]. eapply IH; [|exact E]. eapply ov_step_OI; eassumption. }
  eapply G; [exact OI0|exact E].
Qed.
Lemma starts_split : forall l1 t l2, starts_ok (l1 ++ VStart t :: l2) ->
  (fires l2 t <-> exists l0, l1 = l0 ++ [VTrigger t]).
Proof.
  assert (E1 : forall e (t : nat), (exists l0, [e] = l0 ++ [VTrigger t]) -> e = VTrigger t).
  { intros e t [[|x l0] Q]; [now injection Q as ->|]. destruct l0; discriminate. }
  assert (E2 : forall (x y : ov_event) r t, (exists l0, x :: y :: r = l0 ++ [VTrigger t]) <-> exists l0, y :: r = l0 ++ [VTrigger t]).
  { intros x y r t. split; intros [l0 Q].
    - destruct l0 as [|z l0]; [discriminate|]. injection Q as -> Q. exists l0. exact Q.
    - exists (x :: l0). cbn. now rewrite Q. }
  intros l1. remember (length l1) as n eqn:L. revert l1 L. induction n as [n IH] using lt_wf_ind. intros l1 L t l2 H. subst n.
  destruct l1 as [|e [|y r]].
  - cbn [app starts_ok] in H. destruct H as [H _]. split; [contradiction|]. intros [[|x l0] Q]; discriminate.
  - cbn [app] in H. destruct e as [m|x|u|u|u x|u]; cbn [starts_ok] in H;
      try (split; [destruct H; contradiction|]; intros Q; apply E1 in Q; discriminate).
    + destruct H as [_ [H _]]. split; [contradiction|]. intros Q. apply E1 in Q. discriminate.
    + destruct H as [-> [H _]]. split; [|auto]. intros _. exists []. reflexivity.
  - rewrite E2. destruct e as [m|x|u|u|u x|u].
    4:{ cbn [app starts_ok] in H. destruct y as [m|x|u'|u'|u' x|u']; try contradiction. destruct H as [-> [_ H]].
        destruct r as [|z r].
        - cbn [app starts_ok] in H. destruct H as [H _]. split; [contradiction|]. intros Q. apply E1 in Q. discriminate.
        - rewrite E2. apply (IH (length (z :: r))); [cbn; lia|reflexivity|exact H]. }
    all: apply (IH (length (y :: r))); [cbn; lia|reflexivity|]; cbn [app starts_ok] in H; tauto.
Qed.
Lemma trigger_after_start : forall l1 t l2, starts_ok (l1 ++ VTrigger t :: l2) -> exists r, l2 = VStart t :: r.
Proof.
  intros l1. remember (length l1) as n eqn:L. revert l1 L. induction n as [n IH] using lt_wf_ind. intros l1 L t l2 H. subst n.
  destruct l1 as [|e r].
  - cbn [app starts_ok] in H. destruct l2 as [|[m|x|u|u|u x|u] r]; try contradiction. destruct H as [-> _]. eauto.
  - destruct e as [m|x|u|u|u x|u].
    4:{ cbn [app starts_ok] in H. destruct r as [|[m|x|u'|u'|u' x|u'] r]; try contradiction. cbn [app] in H. destruct H as [_ [_ H]].
        apply (IH (length r) ltac:(cbn; lia) r eq_refl t l2 H). }
    all: apply (IH (length r) ltac:(cbn; lia) r eq_refl t l2); cbn [app starts_ok] in H; tauto.
Qed.

(** ** Iteration state cache *)
Definition free_between (l : list ic_event) : Prop :=
  forall l1 o f l2 g l3, l = l1 ++ IvAlloc o f :: l2 ++ IvAlloc o g :: l3 -> In (IvFree o) l2.
(** Held according to the history: the last event about the object. *)
Fixpoint held (l : list ic_event) (o : nat) : bool :=
  match l with
  | [] => false
  | IvAlloc x _ :: r => if Nat.eqb x o then true else held r o
  | IvFree x :: r => if Nat.eqb x o then false else held r o
  end.
Fixpoint allocs_ok (l : list ic_event) : Prop :=
  match l with
  | [] => True
  | IvAlloc o f :: r => f = it_fresh /\ held r o = false /\ allocs_ok r
  | IvFree o :: r => held r o = true /\ allocs_ok r
  end.
Record II (cap : nat) (s : ic) : Prop := {
  I_nodup : NoDup (ic_cache s ++ ic_used s ++ ic_freeing s);
  I_next : forall o, In o (ic_cache s ++ ic_used s ++ ic_freeing s) -> (o < ic_next s)%nat;
  I_cached : forall o, In o (ic_cache s) -> ic_heap s o = it_fresh;
  I_freeing : forall o, In o (ic_freeing s) -> it_rpcs (ic_heap s o) = [];
  I_bound : (length (ic_cache s) <= cap)%nat;
  I_held : forall o, In o (ic_used s) <-> held (ic_log s) o = true;
  I_log : allocs_ok (ic_log s) }.
Lemma II0 : forall cap, II cap ic0.
Proof. intros cap. split; cbn; try constructor; try contradiction; try lia. Qed.
Lemma mem_In : forall o l, mem o l = true <-> In o l.
Proof.
  intros o l. unfold mem. rewrite existsb_exists. split.
  - intros [x [A B]]. apply Nat.eqb_eq in B. now subst.
  - intros A. exists o. split; [assumption|apply Nat.eqb_refl].
Qed.
Lemma rm_In : forall o l x, In x (rm o l) <-> In x l /\ x <> o.
Proof. intros o l x. unfold rm. rewrite filter_In, negb_true_iff, Nat.eqb_neq. tauto. Qed.
Lemma rm_NoDup : forall o l, NoDup l -> NoDup (rm o l).
Proof. intros o l. apply NoDup_filter. Qed.
(** A list without duplicates, described by its three parts. *)
Lemma nodup3 : forall (a b c : list nat), NoDup (a ++ b ++ c) <->
  NoDup a /\ NoDup b /\ NoDup c /\ (forall x, In x a -> ~ In x b) /\ (forall x, In x a -> ~ In x c) /\ (forall x, In x b -> ~ In x c).
Proof.
  assert (P : forall (a b : list nat), NoDup (a ++ b) <-> NoDup a /\ NoDup b /\ (forall x, In x a -> ~ In x b)).
  { induction a as [|y a IH]; intros b; cbn [app].
    - split; [intros H; repeat split; auto; constructor|tauto].
    - split.
      + intros H. inversion H as [|? ? N1 N2]; subst. apply IH in N2. destruct N2 as [A [B C]]. rewrite in_app_iff in N1.
        split; [constructor; tauto|]. split; [assumption|]. intros x [<-|X]; [tauto|auto].
      + intros [A [B C]]. inversion A as [|? ? N1 N2]; subst. constructor.
        * rewrite in_app_iff. intros [X|X]; [auto|]. apply (C y); [left; reflexivity|assumption].
        * apply IH. split; [assumption|]. split; [assumption|]. intros x X. apply C. right. assumption. }
  intros a b c. rewrite !P. split.
  - intros [A [[B [C D]] E]]. repeat split; auto; intros x X Y; apply (E x X); apply in_app_iff; auto.
  - intros [A [B [C [D [E F]]]]]. repeat split; auto. intros x X Y. apply in_app_iff in Y. destruct Y; [eapply D|eapply E]; eassumption.
Qed.
Lemma ic_step_II : forall cap a s s', II cap s -> ic_step cap a s = Some s' -> II cap s'.
Proof.
  intros cap [|o f|o|o] s s' H E; cbn [ic_step] in E.
  - destruct (ic_cache s) as [|o r] eqn:Q.
    + injection E as <-. destruct H as [A B C D F G K]. rewrite Q in *. cbn [app] in *.
      assert (NU : ~ In (ic_next s) (ic_used s)) by (intros X; specialize (B _ (proj2 (in_app_iff _ _ _) (or_introl X))); lia).
      split; cbn [ic_cache ic_used ic_freeing ic_heap ic_next ic_log app].
      * constructor; [|assumption]. intros X. specialize (B _ X). lia.
      * intros o [<-|X]; [lia|]. specialize (B o X). lia.
      * intros o [].
      * intros o X. rewrite upd_other; [auto|]. specialize (B o (proj2 (in_app_iff _ _ _) (or_intror X))). lia.
      * assumption.
      * intros o. cbn [held In]. destruct (Nat.eqb_spec (ic_next s) o) as [->|N]; [tauto|]. rewrite <- G. tauto.
      * cbn [allocs_ok]. repeat split; auto. destruct (held (ic_log s) (ic_next s)) eqn:X; [|reflexivity]. apply G in X. contradiction.
    + injection E as <-. destruct H as [A B C D F G K]. rewrite Q in *. apply nodup3 in A. destruct A as [A1 [A2 [A3 [A4 [A5 A6]]]]].
      inversion A1 as [|? ? N1 N2]; subst.
      assert (NU : ~ In o (ic_used s)) by (apply A4; left; reflexivity).
      split; cbn [ic_cache ic_used ic_freeing ic_heap ic_next ic_log app].
      * apply (nodup3 r (o :: ic_used s)). repeat split; auto.
        -- constructor; auto.
        -- intros x X [<-|Y]; [contradiction|]. apply (A4 x); [right; assumption|assumption].
        -- intros x X. apply A5. right. assumption.
        -- intros x [<-|X]; [apply A5; left; reflexivity|auto].
      * intros x X. apply B. rewrite in_app_iff in X. rewrite in_app_iff. cbn [In] in X |- *. tauto.
      * intros x X. apply C. right. assumption.
      * assumption.
      * cbn in F. lia.
      * intros x. cbn [held In]. destruct (Nat.eqb_spec o x) as [->|N]; [tauto|]. rewrite <- G. tauto.
      * cbn [allocs_ok]. repeat split; auto; [apply C; left; reflexivity|].
        destruct (held (ic_log s) o) eqn:X; [|reflexivity]. apply G in X. contradiction.
  - destruct (mem o (ic_used s)) eqn:M; [|discriminate]. apply mem_In in M. injection E as <-. destruct H as [A B C D F G K].
    pose proof A as A'. apply nodup3 in A. destruct A as [A1 [A2 [A3 [A4 [A5 A6]]]]].
    split; cbn [ic_cache ic_used ic_freeing ic_heap ic_next ic_log]; auto.
    + intros x X. rewrite upd_other; [auto|]. intros ->. apply (A4 o X M).
    + intros x X. rewrite upd_other; [auto|]. intros ->. apply (A6 o M X).
  - destruct (mem o (ic_used s)) eqn:M; [|discriminate]. apply mem_In in M. injection E as <-. destruct H as [A B C D F G K].
    apply nodup3 in A. destruct A as [A1 [A2 [A3 [A4 [A5 A6]]]]].
    split; cbn [ic_cache ic_used ic_freeing ic_heap ic_next ic_log]; auto.
    + apply nodup3. repeat split; auto.
      * now apply rm_NoDup.
      * constructor; auto.
      * intros x X Y. apply rm_In in Y. apply (A4 x X), Y.
      * intros x X [<-|Y]; [apply (A4 o X M)|apply (A5 x X Y)].
      * intros x X. apply rm_In in X. destruct X as [X N]. intros [<-|Y]; [contradiction|apply (A6 x X Y)].
    + intros x X. rewrite !in_app_iff in X. cbn [In] in X. rewrite rm_In in X. apply B. rewrite !in_app_iff.
      destruct X as [X|[[X _]|[<-|X]]]; auto.
    + intros x X. rewrite upd_other; [auto|]. intros ->. apply (A4 o X M).
    + intros x X. cases x o; [reflexivity|]. destruct X as [->|X]; [contradiction|auto].
    + intros x. cbn [held]. rewrite rm_In, G. destruct (Nat.eqb_spec o x) as [->|N]; split; try tauto; try discriminate.
      intros X. split; [assumption|congruence].
    + cbn [allocs_ok]. split; [now apply G|assumption].
  - destruct (mem o (ic_freeing s)) eqn:M; [|discriminate]. apply mem_In in M. destruct H as [A B C D F G K].
    apply nodup3 in A. destruct A as [A1 [A2 [A3 [A4 [A5 A6]]]]].
    destruct (Nat.ltb_spec (length (ic_cache s)) cap) as [L|L]; injection E as <-.
    + split; cbn [ic_cache ic_used ic_freeing ic_heap ic_next ic_log]; auto.
      * apply nodup3. repeat split; auto.
        -- constructor; [|assumption]. intros X. apply (A5 o X M).
        -- now apply rm_NoDup.
        -- intros x [<-|X] Y; [apply (A6 o Y M)|apply (A4 x X Y)].
        -- intros x [<-|X] Y; apply rm_In in Y; destruct Y as [Y N]; [contradiction|apply (A5 x X Y)].
        -- intros x X Y. apply rm_In in Y. destruct Y as [Y N]. apply (A6 x X Y).
      * intros x X. rewrite !in_app_iff in X. cbn [In] in X. rewrite rm_In in X. apply B. rewrite !in_app_iff.
        destruct X as [[<-|X]|[X|[X _]]]; auto.
      * intros x X. cases x o; [rewrite (D o M); reflexivity|]. destruct X as [->|X]; [contradiction|auto].
      * intros x X. apply rm_In in X. destruct X as [X N]. rewrite upd_other by assumption. auto.
    + split; cbn [ic_cache ic_used ic_freeing ic_heap ic_next ic_log]; auto.
      * apply nodup3. repeat split; auto.
        -- now apply rm_NoDup.
        -- intros x X Y. apply rm_In in Y. destruct Y as [Y N]. apply (A5 x X Y).
        -- intros x X Y. apply rm_In in Y. destruct Y as [Y N]. apply (A6 x X Y).
      * intros x X. rewrite !in_app_iff in X. rewrite rm_In in X. apply B. rewrite !in_app_iff. tauto.
      * intros x X. apply rm_In in X. apply D, X.
Qed.
Lemma ic_run_II : forall cap l s, II cap s -> II cap (ic_run cap l s).
Proof.
  intros cap. induction l as [|a r IH]; intros s H; cbn [ic_run]; [assumption|]. apply IH.
  destruct (ic_step cap a s) eqn:E; [eapply ic_step_II; eassumption|assumption].
Qed.
Lemma allocs_split : forall l1 e l2, allocs_ok (l1 ++ e :: l2) -> allocs_ok (e :: l2).
Proof.
  induction l1 as [|x r IH]; intros e l2 H; [exact H|]. apply IH. cbn [app] in H. destruct x; cbn [allocs_ok] in H; tauto.
Qed.
Lemma held_until_freed : forall l o f r, held (l ++ IvAlloc o f :: r) o = false -> In (IvFree o) l.
Proof.
  induction l as [|x l IH]; intros o f r H; cbn [app held] in H.
  - rewrite Nat.eqb_refl in H. discriminate.
  - destruct x as [x y|x]; destruct (Nat.eqb_spec x o) as [->|N]; try discriminate.
    + right. eapply IH; eassumption.
    + left. reflexivity.
    + right. eapply IH; eassumption.
Qed.
