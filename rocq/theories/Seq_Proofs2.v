(** Concurrent test sequences: invariants over all schedules. *)
From Coq Require Import List Bool Arith Lia.
From Verif Require Import Seq_Model.
Import ListNotations.

Definition executing (p : pc) : Prop := p = PRun \/ p = PRan \/ p = PNotified.

(** The caller whose tests are running according to the log (newest event
    first); None if the log is not serial. *)
Fixpoint serial (log : list event) : option (option nat) :=
  match log with
  | [] => Some None
  | e :: past =>
      match serial past, e with
      | Some None, EStart t => Some (Some t)
      | Some (Some c), ETest t => if Nat.eqb c t then Some (Some c) else None
      | Some (Some c), EEnd t => if Nat.eqb c t then Some None else None
      | Some cur, ECancel _ _ => Some cur
      | _, _ => None
      end
  end.

Record seq_inv (s : seq_state) : Prop := mkSeqInv {
  si_ctx : forall c, q_ctx s = Some c -> executing (q_pc s c);
  si_exec : forall t, executing (q_pc s t) -> q_ctx s = Some t;
  si_notif : forall c, q_ctx s = Some c -> q_notif s = Some c;
  si_notif_done : forall n, q_notif s = Some n -> q_ctx s = Some n \/ q_notified s n = true;
  si_notified : forall t, q_notified s t = true -> q_pc s t = PNotified \/ q_pc s t = PDone;
  si_pc_notified : forall t, q_pc s t = PNotified -> q_notified s t = true;
  si_wait : forall t n, q_pc s t = PWait (Some n) -> q_ctx s = Some n \/ q_notified s n = true;
  si_log : serial (q_log s) = Some (match q_ctx s with
                                    | Some c => match q_pc s c with PRun => Some c | _ => None end
                                    | None => None end);
  si_cancel : forall b c, In (ECancel b c) (q_log s) -> q_cancelled s c = true;
  si_quiet : forall l1 l2 b c, q_log s = l1 ++ ECancel b c :: l2 -> ~ In (ETest c) l1;
  si_started : forall t, In (EStart t) (q_log s) -> executing (q_pc s t) \/ q_pc s t = PDone;
  si_once : forall l1 l2 t, q_log s = l1 ++ EStart t :: l2 -> ~ In (EStart t) l1 }.

Lemma upd_same {A} (f : nat -> A) t a : upd f t a t = a.
Proof. unfold upd. rewrite Nat.eqb_refl. reflexivity. Qed.
Lemma upd_other {A} (f : nat -> A) t a x : x <> t -> upd f t a x = f x.
Proof. unfold upd. destruct (Nat.eqb_spec x t); [contradiction|reflexivity]. Qed.

Lemma init_inv : seq_inv seq_init.
Proof.
  constructor; cbn; try discriminate; try tauto; auto.
  - intros t [H|[H|H]]; discriminate.
  - intros l1 l2 b c H. destruct l1; discriminate.
  - intros l1 l2 t H. destruct l1; discriminate.
Qed.

Lemma not_exec_simpl p : p = PIdle \/ p = PLoop \/ (exists n, p = PWait n) \/ p = PRelock \/ p = PDone -> ~ executing p.
Proof. intros H X. destruct H as [->|[->|[(n & ->)|[->| ->]]]]; destruct X as [X|[X|X]]; discriminate. Qed.

(** A step that only moves thread [t] between non executing points. *)
Lemma move_inv s t p : seq_inv s -> ~ executing (q_pc s t) -> ~ executing p ->
  (q_pc s t = PDone -> p = PDone) -> (forall n, p = PWait (Some n) -> q_ctx s = Some n \/ q_notified s n = true) ->
  seq_inv (set_pc t p s).
Proof.
  intros [] N1 N2 D W. constructor; cbn [set_pc q_pc q_ctx q_notif q_notified q_cancelled q_log]; auto.
  - intros c H. destruct (Nat.eq_dec c t) as [->|N]; [destruct (N1 (si_ctx0 t H))|]. rewrite upd_other by exact N. auto.
  - intros x H. destruct (Nat.eq_dec x t) as [->|N]; [rewrite upd_same in H; contradiction|].
    rewrite upd_other in H by exact N. auto.
  - intros x H. destruct (Nat.eq_dec x t) as [->|N].
    + rewrite upd_same. destruct (si_notified0 t H) as [K|K]; [|auto]. exfalso. apply N1. right. right. exact K.
    + rewrite upd_other by exact N. auto.
  - intros x H. destruct (Nat.eq_dec x t) as [->|N].
    + rewrite upd_same in H. exfalso. apply N2. right. right. exact H.
    + rewrite upd_other in H by exact N. auto.
  - intros x n H. destruct (Nat.eq_dec x t) as [->|N].
    + rewrite upd_same in H. auto.
    + rewrite upd_other in H by exact N. eauto.
  - rewrite si_log0. destruct (q_ctx s) as [c|] eqn:E; [|reflexivity].
    destruct (Nat.eq_dec c t) as [->|N]; [destruct (N1 (si_ctx0 t eq_refl))|]. rewrite upd_other by exact N. reflexivity.
  - intros x H. destruct (Nat.eq_dec x t) as [->|N].
    + rewrite upd_same. destruct (si_started0 t H) as [K|K]; [contradiction|auto].
    + rewrite upd_other by exact N. auto.
Qed.

Lemma cancel_inv s t c : seq_inv s -> q_ctx s = Some c ->
  seq_inv (mkSeq (q_pc s) (q_ctx s) (q_notif s) (q_notified s) (upd (q_cancelled s) c true) (ECancel t c :: q_log s)).
Proof.
  intros [] E. constructor; cbn [q_pc q_ctx q_notif q_notified q_cancelled q_log]; auto.
  - cbn [serial]. rewrite si_log0. destruct (match q_ctx s with Some _ => _ | None => _ end); reflexivity.
  - intros b x [H|H]; [injection H as -> ->; apply upd_same|]. unfold upd. destruct (Nat.eqb x c); [reflexivity|eauto].
  - intros l1 l2 b x H. destruct l1 as [|e l1]; [intros []|]. injection H as <- H. intros [K|K]; [discriminate|].
    eapply si_quiet0; eauto.
  - intros x [H|H]; [discriminate|auto].
  - intros l1 l2 x H. destruct l1 as [|e l1]; [intros []|]. injection H as <- H. intros [K|K]; [discriminate|]. eapply si_once0; eauto.
Qed.

Lemma loop_inv s t r : seq_inv s -> q_pc s t = PLoop \/ q_pc s t = PRelock -> loop_body t s = r ->
  exists s', r = Next s' /\ seq_inv s'.
Proof.
  intros I P <-. unfold loop_body. destruct (q_ctx s) as [c|] eqn:E.
  - assert (X : executing (q_pc s c)) by (apply (si_ctx s I c E)).
    assert (W : seq_inv (set_pc t (PWait (q_notif s))
               (mkSeq (q_pc s) (q_ctx s) (q_notif s) (q_notified s) (upd (q_cancelled s) c true)
                      (ECancel t c :: q_log s)))).
    { apply move_inv; cbn [q_pc q_ctx q_notified].
      - apply cancel_inv; assumption.
      - apply not_exec_simpl. intuition.
      - apply not_exec_simpl. eauto 6.
      - intros K. destruct P as [P|P]; congruence.
      - intros n [= K]. apply (si_notif_done s I), K. }
    rewrite E in W. destruct X as [X|[X|X]]; rewrite X; eauto.
  - eexists. split; [reflexivity|]. apply move_inv; auto.
    + apply not_exec_simpl. intuition.
    + apply not_exec_simpl. eauto 6.
    + intros K. destruct P as [P|P]; congruence.
    + intros n [= K]. apply (si_notif_done s I), K.
Qed.

Lemma step_safe a s : seq_inv s -> seq_step a s <> Crash /\ forall s', seq_step a s = Next s' -> seq_inv s'.
Proof.
  intros I. destruct a as [t|t|t|t|t|t|t|t|t|t]; cbn [seq_step].
  - (* AArrive *) destruct (q_pc s t) eqn:P; (split; [discriminate|]); intros s' [= <-].
    apply move_inv; auto; try (rewrite P; apply not_exec_simpl; auto); try (apply not_exec_simpl; auto); try congruence.
  - (* AReject *) destruct (q_pc s t) eqn:P; (split; [discriminate|]); intros s' [= <-].
    apply move_inv; auto; try (rewrite P; apply not_exec_simpl; auto); try (apply not_exec_simpl; auto 6); try congruence.
  - (* AEnter *) destruct (q_pc s t) eqn:P; try (split; [discriminate|]; intros s' [=]; fail).
    destruct (loop_inv s t _ I (or_introl P) eq_refl) as (s1 & -> & I1). split; [discriminate|]. intros s' [= <-]. exact I1.
  - (* AWake *)
    assert (M : forall n, q_pc s t = PWait n -> seq_inv (set_pc t PRelock s)).
    { intros n P. apply move_inv; auto; try (rewrite P; apply not_exec_simpl; eauto 6); try (apply not_exec_simpl; auto 6); try congruence. }
    destruct (q_pc s t) as [| |[n|]| | | | |] eqn:P; try (split; [discriminate|]; intros s' [=]; fail).
    + destruct (q_notified s n); (split; [discriminate|]); intros s' [= <-]. eauto.
    + split; [discriminate|]. intros s' [= <-]. eauto.
  - (* ARelock *) destruct (q_pc s t) eqn:P; try (split; [discriminate|]; intros s' [=]; fail).
    destruct (q_ctx s) as [c|] eqn:E.
    { destruct (loop_inv s t _ I (or_intror P) eq_refl) as (s1 & -> & I1). split; [discriminate|]. intros s' [= <-]. exact I1. }
    split; [discriminate|]. intros s' [= <-]. destruct I.
    constructor; cbn [q_pc q_ctx q_notif q_notified q_cancelled q_log].
    + intros c [= <-]. rewrite upd_same. left. reflexivity.
    + intros x H. destruct (Nat.eq_dec x t) as [->|N]; [reflexivity|]. rewrite upd_other in H by exact N.
      apply si_exec0 in H. congruence.
    + auto.
    + intros n [= <-]. auto.
    + intros x H. destruct (Nat.eq_dec x t) as [->|N].
      * apply si_notified0 in H. rewrite P in H. destruct H; discriminate.
      * rewrite upd_other by exact N. auto.
    + intros x H. destruct (Nat.eq_dec x t) as [->|N]; [rewrite upd_same in H; discriminate|].
      rewrite upd_other in H by exact N. auto.
    + intros x n H. destruct (Nat.eq_dec x t) as [->|N]; [rewrite upd_same in H; discriminate|].
      rewrite upd_other in H by exact N. destruct (si_wait0 x n H) as [K|K]; [congruence|auto].
    + cbn [serial]. rewrite si_log0, E, upd_same. reflexivity.
    + intros b c [H|H]; [discriminate|eauto].
    + intros l1 l2 b c H. destruct l1 as [|e l1]; [intros []|]. injection H as <- H. intros [K|K]; [discriminate|].
      eapply si_quiet0; eauto.
    + intros x [H|H].
      * injection H as ->. rewrite upd_same. left. left. reflexivity.
      * destruct (Nat.eq_dec x t) as [->|N]; [rewrite upd_same; left; left; reflexivity|].
        rewrite upd_other by exact N. auto.
    + intros l1 l2 x H. destruct l1 as [|e l1]; [intros []|]. injection H as <- H. intros [K|K]; [|eapply si_once0; eauto].
      injection K as ->. assert (In (EStart x) (q_log s)) as Q by (rewrite H; apply in_or_app; right; left; reflexivity).
      apply si_started0 in Q. rewrite P in Q. destruct Q as [[K|[K|K]]|K]; discriminate.
  - (* ACheck *) destruct (q_pc s t) eqn:P; try (split; [discriminate|]; intros s' [=]; fail).
    assert (E : q_ctx s = Some t) by (apply (si_exec s I); left; exact P). rewrite E, P.
    destruct (q_cancelled s t) eqn:C; (split; [discriminate|]); intros s' [= <-]; destruct I.
    + constructor; cbn [set_pc q_pc q_ctx q_notif q_notified q_cancelled q_log]; auto.
      * intros c [= <-]. rewrite upd_same. right. left. reflexivity.
      * intros x H. destruct (Nat.eq_dec x t) as [->|N]; [reflexivity|]. rewrite upd_other in H by exact N.
        rewrite <- E. auto.
      * intros c K. rewrite <- E in K. auto.
      * intros n K. rewrite <- E. auto.
      * intros x H. destruct (Nat.eq_dec x t) as [->|N].
        -- apply si_notified0 in H. rewrite P in H. destruct H; discriminate.
        -- rewrite upd_other by exact N. auto.
      * intros x H. destruct (Nat.eq_dec x t) as [->|N]; [rewrite upd_same in H; discriminate|].
        rewrite upd_other in H by exact N. auto.
      * intros x n H. destruct (Nat.eq_dec x t) as [->|N]; [rewrite upd_same in H; discriminate|].
        rewrite upd_other in H by exact N. rewrite <- E. eauto.
      * cbn [serial]. rewrite si_log0, E, P, upd_same, Nat.eqb_refl. reflexivity.
      * intros b c [H|H]; [discriminate|eauto].
      * intros l1 l2 b c H. destruct l1 as [|e l1]; [intros []|]. injection H as <- H. intros [K|K]; [discriminate|].
        eapply si_quiet0; eauto.
      * intros x [H|H]; [discriminate|]. destruct (Nat.eq_dec x t) as [->|N].
        -- rewrite upd_same. left. right. left. reflexivity.
        -- rewrite upd_other by exact N. auto.
      * intros l1 l2 x H. destruct l1 as [|e l1]; [intros []|]. injection H as <- H. intros [K|K]; [discriminate|]. eapply si_once0; eauto.
    + constructor; cbn [q_pc q_ctx q_notif q_notified q_cancelled q_log]; auto.
      * intros c K. rewrite <- E in K. auto.
      * intros x K. rewrite <- E. auto.
      * intros c K. rewrite <- E in K. auto.
      * intros n K. rewrite <- E. auto.
      * intros x n K. rewrite <- E. eauto.
      * cbn [serial]. rewrite si_log0, E, P, Nat.eqb_refl. reflexivity.
      * intros b c [H|H]; [discriminate|eauto].
      * intros l1 l2 b c H. destruct l1 as [|e l1]; [intros []|]. injection H as <- H. intros [K|K].
        -- injection K as <-. assert (In (ECancel b t) (q_log s)) as Q by (rewrite H; apply in_or_app; right; left; reflexivity).
           apply si_cancel0 in Q. congruence.
        -- eapply si_quiet0; eauto.
      * intros x [H|H]; [discriminate|auto].
      * intros l1 l2 x H. destruct l1 as [|e l1]; [intros []|]. injection H as <- H. intros [K|K]; [discriminate|]. eapply si_once0; eauto.
  - (* AReturn *) destruct (q_pc s t) eqn:P; (split; [discriminate|]); intros s' [= <-].
    assert (E : q_ctx s = Some t) by (apply (si_exec s I); left; exact P). destruct I.
    constructor; cbn [set_pc q_pc q_ctx q_notif q_notified q_cancelled q_log]; auto.
    + intros c K. assert (c = t) as -> by congruence. rewrite upd_same. right. left. reflexivity.
    + intros x H. destruct (Nat.eq_dec x t) as [->|N]; [exact E|]. rewrite upd_other in H by exact N. auto.
    + intros x H. destruct (Nat.eq_dec x t) as [->|N].
      * apply si_notified0 in H. rewrite P in H. destruct H; discriminate.
      * rewrite upd_other by exact N. auto.
    + intros x H. destruct (Nat.eq_dec x t) as [->|N]; [rewrite upd_same in H; discriminate|].
      rewrite upd_other in H by exact N. auto.
    + intros x n H. destruct (Nat.eq_dec x t) as [->|N]; [rewrite upd_same in H; discriminate|].
      rewrite upd_other in H by exact N. eauto.
    + cbn [serial]. rewrite si_log0, E, P, upd_same, Nat.eqb_refl. reflexivity.
    + intros b c [H|H]; [discriminate|eauto].
    + intros l1 l2 b c H. destruct l1 as [|e l1]; [intros []|]. injection H as <- H. intros [K|K]; [discriminate|].
      eapply si_quiet0; eauto.
    + intros x [H|H]; [discriminate|]. destruct (Nat.eq_dec x t) as [->|N].
      * rewrite upd_same. left. right. left. reflexivity.
      * rewrite upd_other by exact N. auto.
    + intros l1 l2 x H. destruct l1 as [|e l1]; [intros []|]. injection H as <- H. intros [K|K]; [discriminate|]. eapply si_once0; eauto.
  - (* ANotify *) destruct (q_pc s t) eqn:P; try (split; [discriminate|]; intros s' [=]; fail).
    destruct (q_notified s t) eqn:Nt.
    { apply (si_notified s I) in Nt. rewrite P in Nt. destruct Nt; discriminate. }
    split; [discriminate|]. intros s' [= <-].
    assert (E : q_ctx s = Some t) by (apply (si_exec s I); right; left; exact P). destruct I.
    constructor; cbn [set_pc q_pc q_ctx q_notif q_notified q_cancelled q_log]; auto.
    + intros c K. assert (c = t) as -> by congruence. rewrite upd_same. right. right. reflexivity.
    + intros x H. destruct (Nat.eq_dec x t) as [->|N]; [exact E|]. rewrite upd_other in H by exact N. auto.
    + intros n K. unfold upd. destruct (Nat.eqb n t); auto.
    + intros x H. destruct (Nat.eq_dec x t) as [->|N]; [rewrite upd_same; auto|].
      rewrite upd_other in H by exact N. rewrite upd_other by exact N. auto.
    + intros x H. destruct (Nat.eq_dec x t) as [->|N]; [apply upd_same|].
      rewrite upd_other in H by exact N. rewrite upd_other by exact N. auto.
    + intros x n H. destruct (Nat.eq_dec x t) as [->|N]; [rewrite upd_same in H; discriminate|].
      rewrite upd_other in H by exact N. destruct (si_wait0 x n H) as [K|K]; [auto|].
      right. unfold upd. destruct (Nat.eqb n t); auto.
    + rewrite si_log0, E, P, upd_same. reflexivity.
    + intros x H. destruct (Nat.eq_dec x t) as [->|N].
      * rewrite upd_same. left. right. right. reflexivity.
      * rewrite upd_other by exact N. auto.
  - (* AClear *) destruct (q_pc s t) eqn:P; (split; [discriminate|]); intros s' [= <-].
    assert (E : q_ctx s = Some t) by (apply (si_exec s I); right; right; exact P).
    assert (Nt : q_notified s t = true) by (apply (si_pc_notified s I), P). destruct I.
    constructor; cbn [set_pc q_pc q_ctx q_notif q_notified q_cancelled q_log]; auto; try discriminate.
    + intros x H. destruct (Nat.eq_dec x t) as [->|N].
      * rewrite upd_same in H. destruct H as [H|[H|H]]; discriminate.
      * rewrite upd_other in H by exact N. apply si_exec0 in H. congruence.
    + intros n K. destruct (si_notif_done0 n K) as [Q|Q]; [|auto]. right. congruence.
    + intros x H. destruct (Nat.eq_dec x t) as [->|N]; [rewrite upd_same; auto|].
      rewrite upd_other by exact N. auto.
    + intros x H. destruct (Nat.eq_dec x t) as [->|N]; [exact Nt|].
      rewrite upd_other in H by exact N. auto.
    + intros x n H. destruct (Nat.eq_dec x t) as [->|N]; [rewrite upd_same in H; discriminate|].
      rewrite upd_other in H by exact N. destruct (si_wait0 x n H) as [K|K]; [|auto]. right. congruence.
    + rewrite si_log0, E, P. reflexivity.
    + intros x H. destruct (Nat.eq_dec x t) as [->|N].
      * rewrite upd_same. auto.
      * rewrite upd_other by exact N. auto.
  - (* AClientCancel *)
    assert (G : seq_inv (mkSeq (q_pc s) (q_ctx s) (q_notif s) (q_notified s) (upd (q_cancelled s) t true) (q_log s))).
    { destruct I. constructor; cbn [q_pc q_ctx q_notif q_notified q_cancelled q_log]; auto.
      intros b c H. unfold upd. destruct (Nat.eqb c t); [reflexivity|eauto]. }
    destruct (q_pc s t); (split; [discriminate|]); intros s' [= <-]; exact G.
Qed.

Lemma run_safe l : forall s, seq_inv s -> exists s', seq_run l s = Some s' /\ seq_inv s'.
Proof.
  induction l as [|a l IH]; intros s I; cbn [seq_run]; [eauto|].
  destruct (step_safe a s I) as [C N]. destruct (seq_step a s) as [| |s1]; [auto|contradiction|]. apply IH, N. reflexivity.
Qed.

Definition reachable (s : seq_state) : Prop := exists l, seq_run l seq_init = Some s.
Lemma reachable_seq_inv s : reachable s -> seq_inv s.
Proof. intros (l & E). destruct (run_safe l seq_init init_inv) as (s' & E' & I). congruence. Qed.

(** ** Everybody can finish *)
Lemma run_app l1 : forall l2 s, seq_run (l1 ++ l2) s = match seq_run l1 s with Some s' => seq_run l2 s' | None => None end.
Proof.
  induction l1 as [|a l1 IH]; intros l2 s; cbn [app seq_run]; [reflexivity|].
  destruct (seq_step a s); auto.
Qed.

Lemma run_disabled a l s : seq_step a s = Disabled -> seq_run (a :: l) s = seq_run l s.
Proof. intros E. cbn [seq_run]. rewrite E. reflexivity. Qed.

Lemma finish_running s c : seq_inv s -> executing (q_pc s c) ->
  exists s', seq_run [AReturn c; ANotify c; AClear c] s = Some s' /\ q_pc s' c = PDone /\ q_ctx s' = None /\
    (forall t, t <> c -> q_pc s' t = q_pc s t).
Proof.
  intros I X.
  assert (F : forall s1, q_pc s1 c = PNotified -> exists s', seq_run [AClear c] s1 = Some s' /\ q_pc s' c = PDone /\
     q_ctx s' = None /\ (forall t, t <> c -> q_pc s' t = q_pc s1 t)).
  { intros s1 P. cbn [seq_run seq_step]. rewrite P. eexists. split; [reflexivity|].
    cbn [set_pc q_pc q_ctx]. split; [apply upd_same|]. split; [reflexivity|]. intros t N. apply upd_other, N. }
  assert (G : forall s1, seq_inv s1 -> q_pc s1 c = PRan -> exists s', seq_run [ANotify c; AClear c] s1 = Some s' /\
     q_pc s' c = PDone /\ q_ctx s' = None /\ (forall t, t <> c -> q_pc s' t = q_pc s1 t)).
  { intros s1 I1 P. cbn [seq_run]. destruct (step_safe (ANotify c) s1 I1) as [C _].
    cbn [seq_step] in *. rewrite P in *. destruct (q_notified s1 c); [contradiction|].
    edestruct (F (set_pc c PNotified (mkSeq (q_pc s1) (q_ctx s1) (q_notif s1) (upd (q_notified s1) c true)
       (q_cancelled s1) (q_log s1)))) as (s' & E & A & B & D); [cbn [set_pc q_pc]; apply upd_same|].
    cbn [seq_run seq_step] in E. exists s'. split; [exact E|]. split; [exact A|]. split; [exact B|].
    intros t N. rewrite D by exact N. cbn [set_pc q_pc]. apply upd_other, N. }
  destruct X as [P|[P|P]].
  - destruct (step_safe (AReturn c) s I) as [_ N]. change [AReturn c; ANotify c; AClear c] with ([AReturn c] ++ [ANotify c; AClear c]).
    rewrite run_app. cbn [seq_run]. cbn [seq_step] in *. rewrite P in *. specialize (N _ eq_refl).
    destruct (G _ N) as (s' & E & A & B & D); [cbn [set_pc q_pc]; apply upd_same|].
    exists s'. split; [exact E|]. split; [exact A|]. split; [exact B|]. intros t Nt. rewrite D by exact Nt.
    cbn [set_pc q_pc]. apply upd_other, Nt.
  - rewrite run_disabled by (cbn [seq_step]; rewrite P; reflexivity). apply (G s I P).
  - rewrite !run_disabled by (cbn [seq_step]; rewrite P; reflexivity). apply (F s P).
Qed.

Lemma start_waiting s t : seq_inv s -> q_ctx s = None ->
  q_pc s t = PLoop \/ (exists n, q_pc s t = PWait n) \/ q_pc s t = PRelock ->
  exists s', seq_run [AEnter t; AWake t; ARelock t] s = Some s' /\ q_pc s' t = PRun.
Proof.
  intros I E H.
  assert (R : forall s1, q_ctx s1 = None -> q_pc s1 t = PRelock -> exists s', seq_run [ARelock t] s1 = Some s' /\ q_pc s' t = PRun).
  { intros s1 E1 P. cbn [seq_run seq_step]. rewrite P, E1. eexists. split; [reflexivity|]. cbn [q_pc]. apply upd_same. }
  assert (W : forall s1 n, seq_inv s1 -> q_ctx s1 = None -> q_pc s1 t = PWait n ->
     exists s', seq_run [AWake t; ARelock t] s1 = Some s' /\ q_pc s' t = PRun).
  { intros s1 n I1 E1 P. change [AWake t; ARelock t] with ([AWake t] ++ [ARelock t]). rewrite run_app.
    assert (M : seq_step (AWake t) s1 = Next (set_pc t PRelock s1)).
    { cbn [seq_step]. rewrite P. destruct n as [n|]; [|reflexivity].
      destruct (si_wait s1 I1 t n P) as [K|K]; [congruence|]. rewrite K. reflexivity. }
    cbn [seq_run]. rewrite M. apply (R (set_pc t PRelock s1)); [exact E1|]. cbn [set_pc q_pc]. apply upd_same. }
  destruct H as [P|[(n & P)|P]].
  - change [AEnter t; AWake t; ARelock t] with ([AEnter t] ++ [AWake t; ARelock t]). rewrite run_app.
    destruct (step_safe (AEnter t) s I) as [_ N].
    assert (M : seq_step (AEnter t) s = Next (set_pc t (PWait (q_notif s)) s)).
    { cbn [seq_step]. rewrite P. unfold loop_body. rewrite E. reflexivity. }
    rewrite M in N. specialize (N _ eq_refl). cbn [seq_run]. rewrite M.
    apply (W (set_pc t (PWait (q_notif s)) s) (q_notif s) N E). cbn [set_pc q_pc]. apply upd_same.
  - destruct (W s n I E P) as (s' & A & B). exists s'. split; [|exact B].
    rewrite run_disabled by (cbn [seq_step]; rewrite P; reflexivity). exact A.
  - destruct (R s E P) as (s' & A & B). exists s'. split; [|exact B].
    rewrite !run_disabled by (cbn [seq_step]; rewrite P; reflexivity). exact A.
Qed.

Lemma can_finish s t : seq_inv s -> q_pc s t <> PIdle ->
  exists l s', seq_run l s = Some s' /\ q_pc s' t = PDone.
Proof.
  intros I H.
  assert (G : forall s0, seq_inv s0 -> q_ctx s0 = None -> q_pc s0 t <> PIdle -> exists l s', seq_run l s0 = Some s' /\ q_pc s' t = PDone).
  { intros s0 I0 E0 H0. destruct (q_pc s0 t) as [| |n| | | | |] eqn:P; try contradiction.
    7:{ exists [], s0. auto. }
    4,5,6: assert (K : q_ctx s0 = Some t) by (apply (si_exec s0 I0); rewrite P; unfold executing; auto); congruence.
    all: destruct (start_waiting s0 t I0 E0) as (s1 & R1 & P1); [rewrite P; eauto|].
    all: destruct (run_safe [AEnter t; AWake t; ARelock t] s0 I0) as (s1' & R1' & I1); rewrite R1 in R1'; injection R1' as <-.
    all: destruct (finish_running s1 t I1) as (s2 & R2 & P2 & _); [left; exact P1|].
    all: exists ([AEnter t; AWake t; ARelock t] ++ [AReturn t; ANotify t; AClear t]), s2; rewrite run_app, R1; auto. }
  destruct (q_ctx s) as [c|] eqn:E; [|auto].
  pose proof (si_ctx s I c E) as X. destruct (finish_running s c I X) as (s1 & R1 & P1 & E1 & O1).
  destruct (run_safe [AReturn c; ANotify c; AClear c] s I) as (s1' & R1' & I1). rewrite R1 in R1'. injection R1' as <-.
  destruct (G s1 I1 E1) as (l & s2 & R2 & P2).
  { destruct (Nat.eq_dec t c) as [->|N]; [rewrite P1; discriminate|]. rewrite O1 by exact N. exact H. }
  exists ([AReturn c; ANotify c; AClear c] ++ l), s2. rewrite run_app, R1. auto.
Qed.

Lemma never_crashes l : seq_run l seq_init <> None.
Proof. destruct (run_safe l seq_init init_inv) as (s & E & _). congruence. Qed.
Lemma mutual_exclusion s t1 t2 : reachable s -> executing (q_pc s t1) -> executing (q_pc s t2) -> t1 = t2.
Proof.
  intros R H1 H2. apply reachable_seq_inv in R. apply (si_exec s R) in H1. apply (si_exec s R) in H2. congruence.
Qed.
