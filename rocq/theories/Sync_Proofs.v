(** Proofs about SafeNotification, CancelTraffic and the dictionary. *)
From Coq Require Import List ZArith Bool Lia.
From Verif Require Import Base_Model Base_Proofs Iter_Model Sync_Model.
Import ListNotations.
Open Scope Z_scope.

Lemma upd_same {A} (f : nat -> A) i x : upd f i x i = x.
Proof. unfold upd. now rewrite Nat.eqb_refl. Qed.
Lemma upd_other {A} (f : nat -> A) i j x : j <> i -> upd f i x j = f j.
Proof. intros N. unfold upd. apply Nat.eqb_neq in N. now rewrite N. Qed.

(** ** SafeNotification *)
Definition sn_holds (p : sn_pc) : Prop :=
  match p with SnSecond | SnNotify | SnUnlock _ => True | _ => False end.
Definition sn_past (p : sn_pc) : Prop := match p with SnUnlock _ | SnRet _ => True | _ => False end.
Definition sn_wins (p : sn_pc) : Prop := match p with SnUnlock true | SnRet true => True | _ => False end.
Record NI (s : sn) : Prop := {
  N_own : forall t, sn_owner s = Some t <-> sn_holds (sn_th s t);
  N_notify : forall t, sn_th s t = SnNotify -> sn_flag s = false;
  N_past : forall t, sn_past (sn_th s t) -> sn_flag s = true;
  N_one : forall t u, sn_wins (sn_th s t) -> sn_wins (sn_th s u) -> t = u;
  N_win : sn_flag s = true -> exists w, sn_wins (sn_th s w) }.
Lemma NI0 : NI sn0.
Proof. split; cbn; try discriminate; try contradiction; intros; split; intros; try discriminate; contradiction. Qed.

Lemma sn_wins_past : forall p, sn_wins p -> sn_past p.
Proof. destruct p; cbn; auto. Qed.

(** Moving a thread that neither holds nor gains anything. *)
Lemma NI_move : forall s t p, NI s -> (sn_holds p <-> sn_holds (sn_th s t)) -> (p = SnNotify -> sn_flag s = false) ->
  (sn_past p -> sn_flag s = true) -> (sn_wins p <-> sn_wins (sn_th s t)) ->
  NI (mkSn (sn_flag s) (sn_owner s) (upd (sn_th s) t p)).
Proof.
  intros s t p [A B C D E] H1 H2 H3 H4. split; cbn [sn_flag sn_owner sn_th].
  - intros u. destruct (Nat.eq_dec u t) as [->|N]; [rewrite upd_same, H1; apply A|rewrite upd_other by assumption; apply A].
  - intros u. destruct (Nat.eq_dec u t) as [->|N]; [rewrite upd_same; assumption|rewrite upd_other by assumption; apply B].
  - intros u. destruct (Nat.eq_dec u t) as [->|N]; [rewrite upd_same; assumption|rewrite upd_other by assumption; apply C].
  - assert (G : forall u, sn_wins (upd (sn_th s) t p u) -> sn_wins (sn_th s u)).
    { intros u. destruct (Nat.eq_dec u t) as [->|N]; [rewrite upd_same; apply H4|now rewrite upd_other by assumption]. }
    intros u v X Y. eauto.
  - intros F. destruct (E F) as [w W]. exists w. destruct (Nat.eq_dec w t) as [->|N]; [rewrite upd_same; now apply H4|now rewrite upd_other].
Qed.

Lemma sn_step_ok : forall t s, NI s ->
  match sn_step t s with SnNext s' => NI s' | SnCrash => False | SnStuck => True end.
Proof.
  intros t s H. unfold sn_step. destruct (sn_th s t) eqn:P.
  - apply NI_move; rewrite ?P; cbn; try tauto; discriminate.
  - destruct (sn_flag s) eqn:F.
    + rewrite <- F. apply NI_move; rewrite ?P; cbn; try tauto; discriminate.
    + rewrite <- F. apply NI_move; rewrite ?P; cbn; try tauto; discriminate.
  - destruct (sn_owner s) eqn:O0; [exact Logic.I|]. destruct H as [A B C D E].
    assert (NH : forall u, ~ sn_holds (sn_th s u)) by (intros u X; apply A in X; congruence).
    split; cbn [sn_flag sn_owner sn_th].
    + intros u. destruct (Nat.eq_dec u t) as [->|N]; [rewrite upd_same; cbn; tauto|rewrite upd_other by assumption].
      split; [intros Q; congruence|intros X; destruct (NH _ X)].
    + intros u. destruct (Nat.eq_dec u t) as [->|N]; [rewrite upd_same; discriminate|rewrite upd_other by assumption; apply B].
    + intros u. destruct (Nat.eq_dec u t) as [->|N]; [rewrite upd_same; contradiction|rewrite upd_other by assumption; apply C].
    + assert (G : forall u, sn_wins (upd (sn_th s) t SnSecond u) -> sn_wins (sn_th s u)).
      { intros u. destruct (Nat.eq_dec u t) as [->|N]; [rewrite upd_same; contradiction|now rewrite upd_other by assumption]. }
      intros u v X Y. eauto.
    + intros F. destruct (E F) as [w W]. exists w. destruct (Nat.eq_dec w t) as [->|N]; [rewrite P in W; destruct W|now rewrite upd_other].
  - destruct (sn_flag s) eqn:F.
    + rewrite <- F. apply NI_move; rewrite ?P; cbn; try tauto; discriminate.
    + rewrite <- F. apply NI_move; rewrite ?P; cbn; try tauto; discriminate.
  - destruct (sn_flag s) eqn:F; [specialize (N_notify _ H t P); congruence|].
    destruct H as [A B C D E]. assert (NP : forall u, ~ sn_past (sn_th s u)) by (intros u X; specialize (C u X); congruence).
    split; cbn [sn_flag sn_owner sn_th].
    + intros u. destruct (Nat.eq_dec u t) as [->|N]; [rewrite upd_same, A, P; cbn; tauto|rewrite upd_other by assumption; apply A].
    + intros u. destruct (Nat.eq_dec u t) as [->|N]; [rewrite upd_same; discriminate|rewrite upd_other by assumption]. intros Q.
      exfalso. apply N. assert (X : sn_owner s = Some u) by (apply A; rewrite Q; exact Logic.I).
      assert (Y : sn_owner s = Some t) by (apply A; rewrite P; exact Logic.I). congruence.
    + reflexivity.
    + assert (G : forall u, sn_wins (upd (sn_th s) t (SnUnlock true) u) -> u = t).
      { intros u. destruct (Nat.eq_dec u t) as [->|N]; [auto|rewrite upd_other by assumption]. intros X. destruct (NP u). now apply sn_wins_past. }
      intros u v X Y. rewrite (G u X), (G v Y). reflexivity.
    + intros _. exists t. rewrite upd_same. exact Logic.I.
  - destruct H as [A B C D E].
    assert (OW : sn_owner s = Some t) by (apply A; rewrite P; exact Logic.I).
    assert (F : sn_flag s = true) by (apply (C t); rewrite P; exact Logic.I).
    split; cbn [sn_flag sn_owner sn_th].
    + intros u. destruct (Nat.eq_dec u t) as [->|N]; [rewrite upd_same; cbn; split; [discriminate|contradiction]|rewrite upd_other by assumption].
      split; [discriminate|]. intros X. apply A in X. congruence.
    + intros u. destruct (Nat.eq_dec u t) as [->|N]; [rewrite upd_same; discriminate|rewrite upd_other by assumption; apply B].
    + auto.
    + assert (G : forall u, sn_wins (upd (sn_th s) t (SnRet won) u) -> sn_wins (sn_th s u)).
      { intros u. destruct (Nat.eq_dec u t) as [->|N]; [rewrite upd_same, P; destruct won; auto|now rewrite upd_other by assumption]. }
      intros u v X Y. eauto.
    + intros _. destruct (E F) as [w W]. exists w. destruct (Nat.eq_dec w t) as [->|N]; [rewrite upd_same; rewrite P in W; exact W|now rewrite upd_other].
  - exact Logic.I.
Qed.
Lemma sn_run_ok : forall l s, NI s -> match sn_run l s with SnNext s' => NI s' | SnCrash => False | SnStuck => True end.
Proof.
  induction l as [|t r IH]; intros s H; cbn [sn_run]; [assumption|]. pose proof (sn_step_ok t s H) as Q.
  destruct (sn_step t s); [apply IH; exact Q|contradiction|apply IH; exact H].
Qed.
Definition sn_reach (s : sn) : Prop := exists l, sn_run l sn0 = SnNext s.
Lemma sn_reach_NI : forall s, sn_reach s -> NI s.
Proof. intros s [l E]. pose proof (sn_run_ok l sn0 NI0) as Q. now rewrite E in Q. Qed.

Lemma sn_flag_mono : forall l s s', sn_run l s = SnNext s' -> sn_flag s = true -> sn_flag s' = true.
Proof.
  induction l as [|t r IH]; intros s s' E F; cbn [sn_run] in E; [now injection E as <-|].
  destruct (sn_step t s) as [s1| |] eqn:Q; try discriminate; [|eauto]. apply (IH s1 s' E). clear IH E.
  unfold sn_step in Q. destruct (sn_th s t); try discriminate; rewrite ?F in Q; try (injection Q as <-; first [assumption|reflexivity]); try discriminate.
  destruct (sn_owner s); [discriminate|]. injection Q as <-. reflexivity.
Qed.

Lemma sn_run_cons : forall t l s s1, sn_step t s = SnNext s1 -> sn_run (t :: l) s = sn_run l s1.
Proof. intros t l s s1 E. cbn [sn_run]. now rewrite E. Qed.
(** A thread that runs alone gets out of the critical section. *)
Lemma sn_release : forall s u, NI s -> sn_owner s = Some u -> exists l s',
  sn_run l s = SnNext s' /\ sn_owner s' = None /\ sn_past (sn_th s' u) /\ ~ sn_holds (sn_th s' u) /\
  (forall v, v <> u -> sn_th s' v = sn_th s v).
Proof.
  intros s u H OW. pose proof (proj1 (N_own _ H u) OW) as HO.
  assert (U : forall w s1, sn_th s1 u = SnUnlock w -> exists s', sn_run [u] s1 = SnNext s' /\ sn_owner s' = None /\
    sn_past (sn_th s' u) /\ ~ sn_holds (sn_th s' u) /\ (forall v, v <> u -> sn_th s' v = sn_th s1 v)).
  { intros w s1 Q. eexists. cbn [sn_run]. unfold sn_step. rewrite Q. split; [reflexivity|]. cbn [sn_owner sn_th].
    rewrite upd_same. repeat split; cbn; auto. intros v N. now rewrite upd_other. }
  assert (V : forall s1, sn_th s1 u = SnNotify -> sn_flag s1 = false -> exists s', sn_run [u; u] s1 = SnNext s' /\ sn_owner s' = None /\
    sn_past (sn_th s' u) /\ ~ sn_holds (sn_th s' u) /\ (forall v, v <> u -> sn_th s' v = sn_th s1 v)).
  { intros s1 Q F. destruct (U true (mkSn true (sn_owner s1) (upd (sn_th s1) u (SnUnlock true)))) as [s' [E1 [E2 [E3 [E4 E5]]]]];
      [cbn [sn_th]; now rewrite upd_same|].
    exists s'. split.
    - rewrite <- E1. apply sn_run_cons. unfold sn_step. rewrite Q, F. reflexivity.
    - repeat split; auto. intros v N. rewrite E5 by assumption. cbn [sn_th]. now rewrite upd_other. }
  destruct (sn_th s u) eqn:P; cbn in HO; try contradiction.
  - destruct (sn_flag s) eqn:F.
    + destruct (U false (mkSn true (sn_owner s) (upd (sn_th s) u (SnUnlock false)))) as [s' [E1 [E2 [E3 [E4 E5]]]]];
        [cbn [sn_th]; now rewrite upd_same|].
      exists [u; u], s'. split.
      * rewrite <- E1. apply sn_run_cons. unfold sn_step. rewrite P, F. reflexivity.
      * repeat split; auto. intros v N. rewrite E5 by assumption. cbn [sn_th]. now rewrite upd_other.
    + destruct (V (mkSn false (sn_owner s) (upd (sn_th s) u SnNotify))) as [s' [E1 [E2 [E3 [E4 E5]]]]];
        [cbn [sn_th]; now rewrite upd_same|reflexivity|].
      exists [u; u; u], s'. split.
      * rewrite <- E1. apply sn_run_cons. unfold sn_step. rewrite P, F. reflexivity.
      * repeat split; auto. intros v N. rewrite E5 by assumption. cbn [sn_th]. now rewrite upd_other.
  - destruct (V s P (N_notify _ H u P)) as [s' E]. exists [u; u], s'. exact E.
  - destruct (U won s P) as [s' E]. exists [u], s'. exact E.
Qed.
Lemma sn_run_app : forall l1 l2 s s1, sn_run l1 s = SnNext s1 -> sn_run (l1 ++ l2) s = sn_run l2 s1.
Proof.
  induction l1 as [|a r IH]; intros l2 s s1 E; cbn [sn_run app] in *; [now injection E as <-|].
  destruct (sn_step a s); try discriminate; eauto.
Qed.
Lemma sn_finishes : forall s t, NI s -> exists l s', sn_run l s = SnNext s' /\ exists b, sn_th s' t = SnRet b.
Proof.
  assert (A : forall s t, NI s -> sn_owner s = None -> exists l s', sn_run l s = SnNext s' /\ exists b, sn_th s' t = SnRet b).
  { intros s t H OW.
    assert (L : forall s, NI s -> sn_owner s = None -> sn_th s t = SnLock -> exists l s', sn_run l s = SnNext s' /\ exists b, sn_th s' t = SnRet b).
    { clear s H OW. intros s H OW P. set (s1 := mkSn (sn_flag s) (Some t) (upd (sn_th s) t SnSecond)).
      assert (E1 : sn_step t s = SnNext s1) by (unfold sn_step; rewrite P, OW; reflexivity).
      pose proof (sn_step_ok t s H) as H1. rewrite E1 in H1. destruct (sn_release s1 t H1 eq_refl) as [l [s' [E2 [_ [G1 [G2 _]]]]]].
      exists (t :: l), s'. cbn [sn_run]. rewrite E1. split; [assumption|]. destruct (sn_th s' t); cbn in *; try contradiction; eauto. }
    assert (F : forall s, NI s -> sn_owner s = None -> sn_th s t = SnFirst -> exists l s', sn_run l s = SnNext s' /\ exists b, sn_th s' t = SnRet b).
    { clear s H OW. intros s H OW P. destruct (sn_flag s) eqn:Q.
      - exists [t]. eexists. cbn [sn_run]. unfold sn_step. rewrite P, Q. split; [reflexivity|]. exists false. cbn [sn_th]. apply upd_same.
      - pose proof (sn_step_ok t s H) as H1. unfold sn_step in H1. rewrite P, Q in H1.
        destruct (L _ H1 OW) as [l [s' [E R]]]; [cbn [sn_th]; apply upd_same|]. exists (t :: l), s'. split; [|assumption].
        cbn [sn_run]. unfold sn_step. rewrite P, Q. assumption. }
    destruct (sn_th s t) eqn:P; try (pose proof (proj2 (N_own _ H t)) as X; rewrite P in X; specialize (X Logic.I); congruence); eauto.
    - pose proof (sn_step_ok t s H) as H1. unfold sn_step in H1. rewrite P in H1.
      destruct (F _ H1 OW) as [l [s' [E R]]]; [cbn [sn_th]; apply upd_same|]. exists (t :: l), s'. split; [|assumption].
      cbn [sn_run]. unfold sn_step. rewrite P. assumption.
    - exists [], s. split; [reflexivity|eauto]. }
  intros s t H. destruct (sn_owner s) as [u|] eqn:OW; [|eauto].
  destruct (sn_release s u H OW) as [l [s1 [E [O1 _]]]]. pose proof (sn_run_ok l s H) as H1. rewrite E in H1.
  destruct (A s1 t H1 O1) as [l2 [s2 [E2 R]]]. exists (l ++ l2), s2. split; [|assumption]. now rewrite (sn_run_app _ _ _ _ E).
Qed.

(** ** CancelTraffic *)
Definition is_reason (e : cx_event) : bool := match e with CvReason _ _ => true | _ => false end.
Definition is_deadline (e : cx_event) : bool := match e with CvDeadline _ _ => true | _ => false end.
(** Reason [r] and deadline [d] were set by call [w] before. *)
Definition in_force (w : nat) (r : str) (d : Z) (l : list cx_event) : Prop :=
  In (CvReason w r) l /\ In (CvDeadline w d) l.
(** What each event may follow; [l] is the past. *)
Definition cx_event_ok (e : cx_event) (l : list cx_event) : Prop :=
  match e with
  | CvCall _ _ _ | CvEnter _ => True
  | CvReason t r => (exists g, In (CvCall t r g) l) /\ (forall u x, ~ In (CvReason u x) l) /\ forall u, ~ In (CvReturn u) l
  | CvDeadline t d => (exists r, In (CvReason t r) l) /\ (forall u x, ~ In (CvDeadline u x) l) /\ forall u, ~ In (CvReturn u) l
  | CvReturn t => (exists r g, In (CvCall t r g) l) /\ exists w r d, in_force w r d l
  | CvRefuse t r now => In (CvEnter t) l /\ exists w d, in_force w r d l /\ d < now
  | CvPass t (Some now) => In (CvEnter t) l /\ exists w r d, in_force w r d l /\ now <= d
  | CvPass t None => In (CvEnter t) l /\ forall c, ~ In (CvReturn c) l
  | CvLogs (Some r) => exists w, In (CvReason w r) l
  | CvLogs None => forall w r, In (CvReason w r) l -> r = []
  end.
Fixpoint cx_history (l : list cx_event) : Prop :=
  match l with [] => True | e :: r => cx_event_ok e r /\ cx_history r end.
Lemma cx_history_split : forall l1 e l2, cx_history (l1 ++ e :: l2) -> cx_event_ok e l2.
Proof. induction l1 as [|x l1 IH]; intros e l2 H; cbn [app cx_history] in H; [apply H|apply IH, H]. Qed.

Definition cx_holds (p : cx_pc) : Prop :=
  match p with CxTry _ _ | CxWrite1 _ _ | CxWrite2 _ | CxUnlock | HxDecide | HxUnlock => True | _ => False end.
Definition cx_link (p : cx_pc) (q : sn_pc) : Prop :=
  match p with
  | CxIdle | CxLock _ _ | HxCheck | HxLock | HxDecide | HxUnlock | HxDone => q = SnIdle
  | CxTry _ _ => forall b, q <> SnRet b
  | CxWrite1 _ _ | CxWrite2 _ => q = SnRet true
  | CxUnlock | CxDone => exists b, q = SnRet b
  end.
Definition cx_called (p : cx_pc) (t : nat) (l : list cx_event) : Prop :=
  match p with
  | CxLock r g | CxTry r g | CxWrite1 r g => In (CvCall t r g) l
  | CxWrite2 g => exists r, In (CvCall t r g) l
  | CxUnlock => exists r g, In (CvCall t r g) l
  | HxCheck | HxLock | HxDecide => In (CvEnter t) l
  | _ => True
  end.
Definition no_reason (l : list cx_event) : Prop := forall t r, ~ In (CvReason t r) l.
Definition no_deadline (l : list cx_event) : Prop := forall t d, ~ In (CvDeadline t d) l.
Definition no_return (l : list cx_event) : Prop := forall t, ~ In (CvReturn t) l.
Inductive cx_stage (s : cx) : Prop :=
| St0 : sn_flag (cx_sn s) = false -> no_reason (cx_log s) -> no_deadline (cx_log s) -> no_return (cx_log s) ->
        cx_reason s = [] -> cx_stage s
| St1 w : sn_flag (cx_sn s) = true -> no_reason (cx_log s) -> no_deadline (cx_log s) -> no_return (cx_log s) ->
        cx_reason s = [] -> sn_wins (sn_th (cx_sn s) w) -> (exists r g, cx_th s w = CxTry r g \/ cx_th s w = CxWrite1 r g) -> cx_stage s
| St2 w g : sn_flag (cx_sn s) = true -> In (CvReason w (cx_reason s)) (cx_log s) -> no_deadline (cx_log s) -> no_return (cx_log s) ->
        cx_th s w = CxWrite2 g -> cx_stage s
| St3 w : sn_flag (cx_sn s) = true -> in_force w (cx_reason s) (cx_time s) (cx_log s) ->
        sn_th (cx_sn s) w = SnRet true -> (cx_th s w = CxUnlock \/ cx_th s w = CxDone) -> cx_stage s.
Record CI (s : cx) : Prop := {
  C_sn : NI (cx_sn s);
  C_mu : forall t, cx_mu s = Some t <-> cx_holds (cx_th s t);
  C_link : forall t, cx_link (cx_th s t) (sn_th (cx_sn s) t);
  C_called : forall t, cx_called (cx_th s t) t (cx_log s);
  C_seen : forall t, cx_th s t = HxLock \/ cx_th s t = HxDecide -> sn_flag (cx_sn s) = true;
  C_past : forall t r, In (CvReason t r) (cx_log s) -> r = cx_reason s;
  C_stage : cx_stage s;
  C_hist : cx_history (cx_log s) }.
Lemma CI0 : CI cx0.
Proof.
  split; cbn [cx0 cx_sn cx_mu cx_th cx_log]; try exact NI0; try exact Logic.I.
  - intros t. cbn. split; [discriminate|contradiction].
  - intros t. reflexivity.
  - intros t. exact Logic.I.
  - intros t [Q|Q]; discriminate.
  - intros t r [].
  - apply St0; try reflexivity; [intros t r []|intros t r []|intros t []].
Qed.

Ltac cases u t := destruct (Nat.eq_dec u t) as [->|?]; [rewrite ?upd_same in *|rewrite ?upd_other in * by assumption].

Lemma called_more : forall p t l e, cx_called p t l -> cx_called p t (e ++ l).
Proof.
  intros p t l e H. destruct p; cbn [cx_called] in *; auto.
  all: try (apply in_app_iff; auto). all: try (destruct H as [r H]; exists r; try (destruct H as [g H]; exists g); apply in_app_iff; auto).
Qed.
Definition quiet (e : cx_event) : Prop :=
  match e with CvReason _ _ | CvDeadline _ _ | CvReturn _ => False | _ => True end.
(** A step of thread [t] that leaves the notification alone and adds no
    event of CancelTraffic. *)
Lemma CI_go : forall s t p e, CI s -> (cx_holds p <-> cx_holds (cx_th s t)) -> cx_link p (sn_th (cx_sn s) t) ->
  cx_link (cx_th s t) SnIdle ->
  cx_called p t (e ++ cx_log s) -> (p = HxLock \/ p = HxDecide -> sn_flag (cx_sn s) = true) ->
  Forall quiet e -> cx_history (e ++ cx_log s) ->
  (forall r g, cx_th s t <> CxTry r g) ->
  CI (mkCx (cx_sn s) (cx_mu s) (cx_reason s) (cx_time s) (upd (cx_th s) t p) (e ++ cx_log s)).
Proof.
  intros s t p e [A B C D E F G H] H1 H2 H3 H4 H5 H6 H7 H8.
  assert (K : forall x, ~ quiet x -> In x (e ++ cx_log s) -> In x (cx_log s)).
  { intros x Nx I. apply in_app_iff in I. destruct I as [I|I]; [|assumption]. rewrite Forall_forall in H6. destruct (Nx (H6 x I)). }
  split; cbn [cx_sn cx_mu cx_th cx_log cx_reason cx_time]; auto.
  - intros u. cases u t; [rewrite H1|]; apply B.
  - intros u. cases u t; auto.
  - intros u. cases u t; auto. now apply called_more.
  - intros u. cases u t; auto. apply E.
  - intros u r I. apply (F u r), K; auto.
  - assert (NR : no_reason (cx_log s) -> no_reason (e ++ cx_log s)) by (intros X u r I; apply K in I; [apply (X u r I)|auto]).
    assert (ND : no_deadline (cx_log s) -> no_deadline (e ++ cx_log s)) by (intros X u r I; apply K in I; [apply (X u r I)|auto]).
    assert (NT : no_return (cx_log s) -> no_return (e ++ cx_log s)) by (intros X u I; apply K in I; [apply (X u I)|auto]).
    destruct G as [P1 P2 P3 P4 P5|w P1 P2 P3 P4 P5 P6 P7|w g P1 P2 P3 P4 P5|w P1 [P2 P2'] P3 P4].
    + apply St0; cbn; auto.
    + destruct (Nat.eq_dec w t) as [->|N].
      * exfalso. destruct P7 as [r [g [P7|P7]]]; [eapply H8; eassumption|]. rewrite P7 in H3. discriminate.
      * apply (St1 _ w); cbn; auto. now rewrite upd_other.
    + destruct (Nat.eq_dec w t) as [->|N]; [rewrite P5 in H3; discriminate|].
      apply (St2 _ w g); cbn; auto; [apply in_app_iff; auto|now rewrite upd_other].
    + destruct (Nat.eq_dec w t) as [->|N]; [destruct P4 as [P4|P4]; rewrite P4 in H3; destruct H3; discriminate|].
      apply (St3 _ w); cbn; auto; [split; apply in_app_iff; auto|now rewrite upd_other].
Qed.
(** Taking and releasing cancelation_mutex_. *)
Lemma CI_lock : forall s t p, CI s -> cx_mu s = None -> cx_holds p -> (cx_th s t = HxLock \/ exists r g, cx_th s t = CxLock r g) ->
  cx_link p (sn_th (cx_sn s) t) -> cx_called p t (cx_log s) -> (p = HxDecide -> sn_flag (cx_sn s) = true) -> p <> HxLock ->
  CI (mkCx (cx_sn s) (Some t) (cx_reason s) (cx_time s) (upd (cx_th s) t p) (cx_log s)).
Proof.
  intros s t p [A B C D E F G H] M H1 H0 H2 H4 H5 H6.
  assert (NH : forall u, ~ cx_holds (cx_th s u)) by (intros u X; apply B in X; congruence).
  split; cbn [cx_sn cx_mu cx_th cx_log cx_reason cx_time]; auto.
  - intros u. cases u t; [tauto|]. split; [congruence|]. intros X. destruct (NH u X).
  - intros u. cases u t; auto.
  - intros u. cases u t; auto.
  - intros u. cases u t; [|apply E]. intros [Q|Q]; [contradiction|auto].
  - destruct G as [P1 P2 P3 P4 P5|w P1 P2 P3 P4 P5 P6 P7|w g P1 P2 P3 P4 P5|w P1 [P2 P2'] P3 P4].
    + apply St0; cbn; auto.
    + exfalso. apply (NH w). destruct P7 as [r [g [-> | ->]]]; exact Logic.I.
    + exfalso. apply (NH w). rewrite P5. exact Logic.I.
    + destruct (Nat.eq_dec w t) as [->|N].
      * exfalso. destruct H0 as [Q|[r [g Q]]], P4 as [P4|P4]; congruence.
      * apply (St3 _ w); cbn; auto; [split; auto|now rewrite upd_other].
Qed.
Lemma sn_step_others : forall t s s', sn_step t s = SnNext s' -> forall u, u <> t -> sn_th s' u = sn_th s u.
Proof.
  intros t s s' E u N. unfold sn_step in E.
  destruct (sn_th s t); try discriminate; try destruct (sn_flag s); try destruct (sn_owner s); try discriminate;
    injection E as <-; cbn [sn_th]; now rewrite upd_other.
Qed.
Lemma sn_step_mono : forall t s s', sn_step t s = SnNext s' -> sn_flag s = true -> sn_flag s' = true.
Proof. intros t s s' E. apply (sn_flag_mono [t]). cbn [sn_run]. now rewrite E. Qed.

Lemma C_same : forall s t u, CI s -> cx_holds (cx_th s t) -> cx_holds (cx_th s u) -> t = u.
Proof. intros s t u H A B. apply (C_mu _ H) in A. apply (C_mu _ H) in B. congruence. Qed.
Lemma wins_flag : forall s t, CI s -> sn_past (sn_th (cx_sn s) t) -> sn_flag (cx_sn s) = true.
Proof. intros s t H. apply (N_past _ (C_sn _ H)). Qed.
(** With cancelation_mutex_ held by a thread outside TryToNotify and the
    stores, the stores are complete or the flag is not set. *)
Lemma C_settled : forall s t, CI s -> cx_holds (cx_th s t) -> sn_flag (cx_sn s) = true ->
  (forall r g, cx_th s t <> CxTry r g) -> (forall r g, cx_th s t <> CxWrite1 r g) -> (forall g, cx_th s t <> CxWrite2 g) ->
  exists w, in_force w (cx_reason s) (cx_time s) (cx_log s) /\ sn_th (cx_sn s) w = SnRet true /\
            (cx_th s w = CxUnlock \/ cx_th s w = CxDone).
Proof.
  intros s t H HO F N1 N2 N3. destruct (C_stage _ H) as [P1 P2 P3 P4 P5|w P1 P2 P3 P4 P5 P6 P7|w g P1 P2 P3 P4 P5|w P1 P2 P3 P4].
  - congruence.
  - exfalso. destruct P7 as [r [g P7]].
    assert (w = t) as -> by (eapply C_same; eauto; destruct P7 as [-> | ->]; exact Logic.I). destruct P7; [eapply N1|eapply N2]; eassumption.
  - exfalso. assert (w = t) as -> by (eapply C_same; eauto; rewrite P5; exact Logic.I). eapply N3; eassumption.
  - exists w. auto.
Qed.

Lemma cx_step_ok : forall a s, CI s ->
  match cx_step a s with CxNext s' => CI s' | CxCrash => False | CxStuck => True end.
Proof.
  intros [t r g|t| |t now] s H; cbn [cx_step].
  - destruct (cx_th s t) eqn:P; try exact Logic.I.
    pose proof (C_link _ H t) as L. rewrite P in L. cbn in L.
    apply (CI_go s t (CxLock r g) [CvCall t r g] H); rewrite ?P; cbn; try tauto; try congruence.
    + intros [Q|Q]; discriminate.
    + repeat constructor.
    + split; [exact Logic.I|apply (C_hist _ H)].
  - destruct (cx_th s t) eqn:P; try exact Logic.I.
    pose proof (C_link _ H t) as L. rewrite P in L. cbn in L.
    apply (CI_go s t HxCheck [CvEnter t] H); rewrite ?P; cbn; try tauto; try congruence.
    + intros [Q|Q]; discriminate.
    + repeat constructor.
    + split; [exact Logic.I|apply (C_hist _ H)].
  - set (e := CvLogs _). assert (OK : cx_event_ok e (cx_log s)).
    { unfold e. cbn [cx_event_ok]. destruct (cx_reason s) as [|c r] eqn:R.
      - intros w x I. rewrite <- R. apply (C_past _ H w x I).
      - destruct (C_stage _ H) as [P1 P2 P3 P4 P5|w P1 P2 P3 P4 P5 P6 P7|w g P1 P2 P3 P4 P5|w P1 [P2 P2'] P3 P4]; try congruence; exists w; congruence. }
    destruct H as [A B C D E F G HH]. split; cbn [cx_sn cx_mu cx_th cx_log cx_reason cx_time]; auto.
    + intros u. apply (called_more _ _ _ [e]), D.
    + intros u r [Q|I]; [unfold e in Q; discriminate|eauto].
    + assert (NR : no_reason (cx_log s) -> no_reason (e :: cx_log s)) by (intros X u r [Q|I]; [discriminate|apply (X u r I)]).
      assert (ND : no_deadline (cx_log s) -> no_deadline (e :: cx_log s)) by (intros X u r [Q|I]; [discriminate|apply (X u r I)]).
      assert (NT : no_return (cx_log s) -> no_return (e :: cx_log s)) by (intros X u [Q|I]; [discriminate|apply (X u I)]).
      destruct G as [P1 P2 P3 P4 P5|w P1 P2 P3 P4 P5 P6 P7|w g P1 P2 P3 P4 P5|w P1 [P2 P2'] P3 P4].
      * apply St0; cbn; auto.
      * apply (St1 _ w); cbn; auto.
      * apply (St2 _ w g); cbn; auto.
      * apply (St3 _ w); cbn; auto. split; right; assumption.
    + split; assumption.
  - pose proof (C_link _ H t) as L. pose proof (C_called _ H t) as CA. destruct (cx_th s t) eqn:P; cbn [cx_link cx_called] in L, CA.
    + exact Logic.I.
    + destruct (cx_mu s) eqn:M; [exact Logic.I|]. apply CI_lock; auto; try congruence; cbn; eauto.
    + (* CxTry *)
      pose proof (sn_step_ok t _ (C_sn _ H)) as SO. destruct (sn_step t (cx_sn s)) as [n| |] eqn:ST; [|contradiction|exact Logic.I].
      pose proof (sn_step_others _ _ _ ST) as OT. pose proof (sn_step_mono _ _ _ ST) as MO.
      set (p := match sn_th n t with SnRet true => CxWrite1 reason grace | SnRet false => CxUnlock | _ => CxTry reason grace end).
      assert (HP : cx_holds p) by (unfold p; destruct (sn_th n t) as [| | | | | |[|]]; exact Logic.I).
      assert (LP : cx_link p (sn_th n t)).
      { unfold p. destruct (sn_th n t) as [| | | | | |[|]]; cbn; try discriminate; eauto. }
      assert (CP : cx_called p t (cx_log s)) by (unfold p; destruct (sn_th n t) as [| | | | | |[|]]; cbn; eauto).
      assert (SP : p <> HxLock /\ p <> HxDecide) by (unfold p; destruct (sn_th n t) as [| | | | | |[|]]; split; discriminate).
      assert (HT : cx_holds (cx_th s t)) by (rewrite P; exact Logic.I).
      pose proof (fun u => C_same s u t H) as CS. pose proof (C_stage _ H) as G.
      destruct H as [A B C D E F _ HH]. split; cbn [cx_sn cx_mu cx_th cx_log cx_reason cx_time]; auto.
      * intros u. cases u t; [split; [auto|intros _; now apply B]|apply B].
      * intros u. cases u t; [assumption|]. rewrite OT by assumption. apply C.
      * intros u. cases u t; [assumption|apply D].
      * intros u. cases u t; [intros [Q|Q]; destruct SP; contradiction|]. intros X. apply MO, (E u X).
      * destruct G as [P1 P2 P3 P4 P5|w P1 P2 P3 P4 P5 P6 P7|w g P1 P2 P3 P4 P5|w P1 P2 P3 P4].
        -- destruct (sn_flag n) eqn:FN; [|apply St0; cbn; auto].
           apply (St1 _ t); cbn [cx_sn cx_mu cx_th cx_log cx_reason cx_time]; auto; rewrite ?upd_same.
           ++ unfold sn_step in ST. rewrite P1 in ST. destruct (sn_th (cx_sn s) t) eqn:Q; try destruct (sn_owner (cx_sn s)); try discriminate;
                injection ST as <-; cbn [sn_flag] in FN; try congruence; cbn [sn_th]; rewrite ?upd_same; cbn; auto.
           ++ exists reason, grace. unfold p. unfold sn_step in ST. rewrite P1 in ST.
              destruct (sn_th (cx_sn s) t) eqn:Q; try destruct (sn_owner (cx_sn s)); try discriminate;
                injection ST as <-; cbn [sn_flag] in FN; try congruence; cbn [sn_th]; rewrite ?upd_same; auto.
        -- assert (w = t) as ->. { apply CS; [|assumption]. destruct P7 as [r [g [-> | ->]]]; exact Logic.I. }
           assert (Q : sn_th (cx_sn s) t = SnUnlock true).
           { destruct (sn_th (cx_sn s) t) as [| | | | |[|]|[|]]; cbn in P6; try contradiction; [reflexivity|destruct (L true eq_refl)]. }
           unfold sn_step in ST. rewrite Q in ST. injection ST as <-.
           apply (St1 _ t); cbn [cx_sn cx_mu cx_th cx_log cx_reason cx_time sn_flag sn_th]; auto; rewrite ?upd_same; cbn; auto.
           exists reason, grace. right. unfold p. cbn [sn_th]. now rewrite upd_same.
        -- exfalso. assert (w = t) as -> by (apply CS; [rewrite P5; exact Logic.I|assumption]). congruence.
        -- assert (w <> t) by (intros ->; destruct (L true P3)).
           apply (St3 _ w); cbn [cx_sn cx_mu cx_th cx_log cx_reason cx_time]; auto; rewrite ?upd_other by assumption; auto. rewrite OT; auto.
    + (* CxWrite1 *)
      assert (HT : cx_holds (cx_th s t)) by (rewrite P; exact Logic.I).
      assert (W : sn_wins (sn_th (cx_sn s) t)) by (rewrite L; exact Logic.I).
      assert (FL : sn_flag (cx_sn s) = true) by (apply (wins_flag s t H), sn_wins_past, W).
      assert (Q : no_reason (cx_log s) /\ no_deadline (cx_log s) /\ no_return (cx_log s)).
      { destruct (C_stage _ H) as [P1 P2 P3 P4 P5|w P1 P2 P3 P4 P5 P6 P7|w g P1 P2 P3 P4 P5|w P1 P2 P3 P4]; auto.
        - exfalso. assert (w = t) as -> by (apply (C_same s); auto; rewrite P5; exact Logic.I). congruence.
        - exfalso. assert (w = t) as -> by (apply (N_one _ (C_sn _ H)); auto; rewrite P3; exact Logic.I). destruct P4; congruence. }
      destruct Q as [Q1 [Q2 Q3]]. pose proof (C_called _ H) as D.
      destruct H as [A B C _ E F _ HH]. split; cbn [cx_sn cx_mu cx_th cx_log cx_reason cx_time]; auto.
      * intros u. cases u t; [|apply B]. split; [intros _; exact Logic.I|]. intros _. apply B, HT.
      * intros u. cases u t; auto.
      * intros u. cases u t; [exists reason; right; assumption|]. apply (called_more _ _ _ [CvReason t reason]), D.
      * intros u r [X|X]; [congruence|]. destruct (Q1 _ _ X).
      * apply (St2 _ t grace); cbn [cx_sn cx_mu cx_th cx_log cx_reason cx_time]; rewrite ?upd_same; auto; [left; reflexivity| |].
        -- intros u d [X|X]; [discriminate|apply (Q2 _ _ X)].
        -- intros u [X|X]; [discriminate|apply (Q3 _ X)].
      * split; [|assumption]. cbn [cx_event_ok]. split; [eauto|]. split; [exact Q1|exact Q3].
    + (* CxWrite2 *)
      assert (HT : cx_holds (cx_th s t)) by (rewrite P; exact Logic.I).
      assert (W : sn_wins (sn_th (cx_sn s) t)) by (rewrite L; exact Logic.I).
      assert (FL : sn_flag (cx_sn s) = true) by (apply (wins_flag s t H), sn_wins_past, W).
      assert (Q : In (CvReason t (cx_reason s)) (cx_log s) /\ no_deadline (cx_log s) /\ no_return (cx_log s)).
      { destruct (C_stage _ H) as [P1 P2 P3 P4 P5|w P1 P2 P3 P4 P5 P6 P7|w g P1 P2 P3 P4 P5|w P1 P2 P3 P4].
        - congruence.
        - exfalso. assert (w = t) as -> by (apply (N_one _ (C_sn _ H)); auto). destruct P7 as [r [g [X|X]]]; congruence.
        - assert (w = t) as -> by (apply (C_same s); auto; rewrite P5; exact Logic.I). auto.
        - exfalso. assert (w = t) as -> by (apply (N_one _ (C_sn _ H)); auto; rewrite P3; exact Logic.I). destruct P4; congruence. }
      destruct Q as [Q1 [Q2 Q3]]. pose proof (C_called _ H) as D.
      destruct H as [A B C _ E F _ HH]. split; cbn [cx_sn cx_mu cx_th cx_log cx_reason cx_time]; auto.
      * intros u. cases u t; [|apply B]. split; [intros _; exact Logic.I|]. intros _. apply B, HT.
      * intros u. cases u t; cbn; eauto.
      * intros u. cases u t; [destruct CA as [r CA]; exists r, grace; right; assumption|]. apply (called_more _ _ _ [CvDeadline t (now + grace)]), D.
      * intros u r [X|X]; [discriminate|eauto].
      * apply (St3 _ t); cbn [cx_sn cx_mu cx_th cx_log cx_reason cx_time]; rewrite ?upd_same; auto. split; [right; assumption|left; reflexivity].
      * split; [|assumption]. cbn [cx_event_ok]. split; [eauto|]. split; [exact Q2|exact Q3].
    + (* CxUnlock *)
      destruct L as [b L].
      assert (HT : cx_holds (cx_th s t)) by (rewrite P; exact Logic.I).
      assert (FL : sn_flag (cx_sn s) = true) by (apply (wins_flag s t H); rewrite L; exact Logic.I).
      destruct (C_settled s t H HT FL) as [w [Q1 [Q2 Q3]]]; try (rewrite P; discriminate).
      pose proof (C_called _ H) as D. pose proof (fun u => C_same s u t H) as CS.
      destruct H as [A B C _ E F _ HH]. split; cbn [cx_sn cx_mu cx_th cx_log cx_reason cx_time]; auto.
      * intros u. cases u t; [cbn; split; [discriminate|contradiction]|]. split; [discriminate|]. intros X. specialize (CS u X HT). contradiction.
      * intros u. cases u t; cbn; eauto.
      * intros u. cases u t; [exact Logic.I|]. apply (called_more _ _ _ [CvReturn t]), D.
      * intros u r [X|X]; [discriminate|eauto].
      * apply (St3 _ w); cbn [cx_sn cx_mu cx_th cx_log cx_reason cx_time]; auto.
        -- destruct Q1 as [X Y]. split; right; assumption.
        -- cases w t; auto.
      * split; [|assumption]. cbn [cx_event_ok]. split; [exact CA|eauto].
    + exact Logic.I.
    + (* HxCheck *)
      destruct (sn_flag (cx_sn s)) eqn:FL.
      * apply (CI_go s t HxLock [] H); rewrite ?P; cbn; try tauto; try congruence; try constructor. apply (C_hist _ H).
      * apply (CI_go s t HxDone [CvPass t None] H); rewrite ?P; cbn; try tauto; try congruence.
        -- intros [Q|Q]; discriminate.
        -- repeat constructor.
        -- split; [|apply (C_hist _ H)]. split; [assumption|]. destruct (C_stage _ H); try congruence. assumption.
    + destruct (cx_mu s) eqn:M; [exact Logic.I|]. apply CI_lock; auto; try congruence; cbn; auto.
      intros _. apply (C_seen _ H t). auto.
    + (* HxDecide *)
      assert (HT : cx_holds (cx_th s t)) by (rewrite P; exact Logic.I).
      assert (FL : sn_flag (cx_sn s) = true) by (apply (C_seen _ H t); auto).
      destruct (C_settled s t H HT FL) as [w [Q1 [Q2 Q3]]]; try (rewrite P; discriminate).
      destruct (now >? cx_time s) eqn:TI.
      * apply Z.gtb_lt in TI. apply (CI_go s t HxUnlock [CvRefuse t (cx_reason s) now] H); rewrite ?P; cbn; try tauto; try congruence.
        -- repeat constructor.
        -- split; [|apply (C_hist _ H)]. split; [assumption|]. exists w, (cx_time s). auto.
      * assert (TL : now <= cx_time s) by (destruct (Z.gtb_spec now (cx_time s)); [discriminate|assumption]).
        apply (CI_go s t HxUnlock [CvPass t (Some now)] H); rewrite ?P; cbn; try tauto; try congruence.
        -- repeat constructor.
        -- split; [|apply (C_hist _ H)]. split; [assumption|]. exists w, (cx_reason s), (cx_time s). auto.
    + (* HxUnlock *)
      assert (HT : cx_holds (cx_th s t)) by (rewrite P; exact Logic.I).
      pose proof (fun u => C_same s u t H) as CS. pose proof (C_stage _ H) as G.
      destruct H as [A B C D E F _ HH]. split; cbn [cx_sn cx_mu cx_th cx_log cx_reason cx_time]; auto.
      * intros u. cases u t; [cbn; split; [discriminate|contradiction]|]. split; [discriminate|]. intros X. specialize (CS u X HT). contradiction.
      * intros u. cases u t; cbn; eauto.
      * intros u. cases u t; [exact Logic.I|apply D].
      * intros u. cases u t; [intros [X|X]; discriminate|apply E].
      * destruct G as [P1 P2 P3 P4 P5|w P1 P2 P3 P4 P5 P6 P7|w g P1 P2 P3 P4 P5|w P1 P2 P3 P4].
        -- apply St0; cbn; auto.
        -- apply (St1 _ w); cbn; auto. destruct P7 as [r [g P7]]. exists r, g. cases w t; [destruct P7; congruence|assumption].
        -- apply (St2 _ w g); cbn; auto. cases w t; [congruence|assumption].
        -- apply (St3 _ w); cbn; auto. cases w t; [destruct P4; congruence|assumption].
    + exact Logic.I.
Qed.
Lemma cx_run_ok : forall l s, CI s -> match cx_run l s with CxNext s' => CI s' | CxCrash => False | CxStuck => True end.
Proof.
  induction l as [|a r IH]; intros s H; cbn [cx_run]; [assumption|]. pose proof (cx_step_ok a s H) as Q.
  destruct (cx_step a s); [apply IH; exact Q|contradiction|apply IH; exact H].
Qed.
Definition cx_reach (s : cx) : Prop := exists l, cx_run l cx0 = CxNext s.
Lemma cx_reach_CI : forall s, cx_reach s -> CI s.
Proof. intros s [l E]. pose proof (cx_run_ok l cx0 CI0) as Q. now rewrite E in Q. Qed.
(** Whenever a thread is under way, some thread can move. *)
Lemma cx_no_deadlock : forall s t, CI s -> cx_th s t <> CxIdle -> cx_th s t <> CxDone -> cx_th s t <> HxDone ->
  forall now, exists u s', cx_step (CaStep u now) s = CxNext s'.
Proof.
  intros s t H N1 N2 N3 now. destruct (cx_mu s) as [u|] eqn:M.
  - exists u. pose proof (proj1 (C_mu _ H u) M) as HO. cbn [cx_step]. pose proof (C_link _ H u) as L.
    pose proof (sn_step_ok u _ (C_sn _ H)) as SO. destruct (cx_th s u) eqn:P; cbn [cx_holds cx_link] in HO, L; try contradiction; eauto.
    + destruct (sn_step u (cx_sn s)) eqn:ST; [eauto|contradiction|]. exfalso. clear SO.
      unfold sn_step in ST. destruct (sn_th (cx_sn s) u) eqn:Q; try discriminate; try (destruct (sn_flag (cx_sn s)); discriminate).
      * destruct (sn_owner (cx_sn s)) as [v|] eqn:OW; [|discriminate].
        pose proof (proj1 (N_own _ (C_sn _ H) v) OW) as HV. pose proof (C_link _ H v) as LV.
        assert (v = u).
        { apply (C_same s); [assumption| |rewrite P; exact Logic.I].
          destruct (cx_th s v); cbn in LV |- *; auto; try (rewrite LV in HV; destruct HV). destruct LV as [b LV]. rewrite LV in HV. destruct HV. }
        subst v. rewrite Q in HV. destruct HV.
      * destruct (L won eq_refl).
    + destruct (now >? cx_time s); eauto.
  - exists t. cbn [cx_step].
    assert (NH : ~ cx_holds (cx_th s t)) by (intros X; apply (C_mu _ H) in X; congruence).
    rewrite M. destruct (cx_th s t) eqn:P; try congruence; try (destruct NH; exact Logic.I); eauto.
    destruct (sn_flag (cx_sn s)); eauto.
Qed.

(** ** Dictionary *)
Record DI (d : dict) : Prop := {
  D_nodup : NoDup (dc_contents d);
  D_map : forall t i, map_find t (dc_map d) = Some i <-> 0 <= i /\ nth_error (dc_contents d) (Z.to_nat i) = Some t }.
Lemma DI0 : DI dict0.
Proof.
  split; cbn.
  - repeat constructor. intros [].
  - intros t i. destruct (str_eqb_spec t []) as [->|N]; split.
    + intros E. injection E as <-. split; [lia|reflexivity].
    + intros [A B]. destruct (Z.to_nat i) eqn:Z0; [f_equal; lia|]. destruct n; discriminate.
    + discriminate.
    + intros [A B]. destruct (Z.to_nat i) eqn:Z0; [injection B as <-; contradiction|]. destruct n; discriminate.
Qed.
Lemma dict_in : forall d t, DI d -> In t (dc_contents d) <-> map_find t (dc_map d) <> None.
Proof.
  intros d t [A B]. split.
  - intros I. apply In_nth_error in I. destruct I as [n I]. assert (Q : map_find t (dc_map d) = Some (Z.of_nat n)).
    { apply B. rewrite Nat2Z.id. split; [lia|assumption]. } congruence.
  - destruct (map_find t (dc_map d)) eqn:E; [|congruence]. intros _. apply B in E. destruct E as [_ E]. eapply nth_error_In; eassumption.
Qed.
Lemma int32_small : forall i, 0 <= i < 2147483648 -> to_int32 i = i.
Proof. intros i H. unfold to_int32. rewrite Z.mod_small by lia. lia. Qed.
(** One call. *)
Lemma dict_index_spec : forall t d, DI d -> Z.of_nat (length (dc_contents d)) < 2147483648 ->
  exists i d', dict_index t d = (i, d') /\ DI d' /\ 0 <= i /\ nth_error (dc_contents d') (Z.to_nat i) = Some t /\
    ((dc_contents d' = dc_contents d /\ In t (dc_contents d)) \/
     (dc_contents d' = dc_contents d ++ [t] /\ ~ In t (dc_contents d))).
Proof.
  intros t d H B. unfold dict_index. destruct (map_find t (dc_map d)) as [i|] eqn:F.
  - pose proof (proj1 (D_map _ H t i) F) as [X Y].
    assert (L : (Z.to_nat i < length (dc_contents d))%nat) by (apply nth_error_Some; congruence).
    exists i, d. rewrite int32_small by lia. split; [reflexivity|]. split; [assumption|]. split; [assumption|]. split; [assumption|]. left. split; [reflexivity|]. eapply nth_error_In; eassumption.
  - assert (NI_ : ~ In t (dc_contents d)) by (intros I; apply (dict_in d t H) in I; congruence).
    rewrite app_length. cbn [length]. replace (Z.of_nat (length (dc_contents d) + 1) - 1) with (Z.of_nat (length (dc_contents d))) by lia.
    rewrite int32_small by lia. eexists _, _. split; [reflexivity|]. cbn [dc_contents dc_map].
    assert (E : nth_error (dc_contents d ++ [t]) (Z.to_nat (Z.of_nat (length (dc_contents d)))) = Some t).
    { rewrite Nat2Z.id, nth_error_app2 by lia. now rewrite Nat.sub_diag. }
    split; [|split; [lia|]; split; [assumption|]; right; auto]. split; cbn [dc_contents dc_map].
    + apply NoDup_snoc; [apply H|assumption].
    + intros u i. destruct (str_eqb_spec u t) as [->|N].
      * rewrite map_find_set_same. split.
        -- intros Q. injection Q as <-. split; [lia|assumption].
        -- intros [X Y]. f_equal. assert (ND : NoDup (dc_contents d ++ [t])) by (apply NoDup_snoc; [apply H|assumption]).
           rewrite NoDup_nth_error in ND. assert (Z.to_nat (Z.of_nat (length (dc_contents d))) = Z.to_nat i); [|lia].
           apply ND; [|congruence]. rewrite app_length. cbn [length]. lia.
      * rewrite map_find_set_other by assumption. rewrite (D_map _ H). split; intros [X Y]; (split; [assumption|]).
        -- rewrite nth_error_app1; [assumption|]. apply nth_error_Some. congruence.
        -- destruct (Nat.lt_ge_cases (Z.to_nat i) (length (dc_contents d))) as [L|L].
           ++ now rewrite nth_error_app1 in Y.
           ++ rewrite nth_error_app2 in Y by lia. destruct (Z.to_nat i - length (dc_contents d))%nat as [|[|k]]; cbn in Y; congruence.
Qed.
(** A sequence of calls. *)
Lemma dict_run_spec : forall l d, DI d -> Z.of_nat (length (dc_contents d)) + Z.of_nat (length l) < 2147483648 ->
  exists is_ d' more, dict_run l d = (is_, d') /\ DI d' /\ dc_contents d' = dc_contents d ++ more /\ length is_ = length l /\
    (forall k t, nth_error l k = Some t -> exists i, nth_error is_ k = Some i /\ 0 <= i /\ nth_error (dc_contents d') (Z.to_nat i) = Some t) /\
    (forall t, In t (dc_contents d') <-> In t (dc_contents d) \/ In t l).
Proof.
  induction l as [|t r IH]; intros d H B.
  - exists [], d, []. cbn [dict_run]. rewrite app_nil_r. split; [reflexivity|]. split; [assumption|]. split; [reflexivity|].
    split; [reflexivity|]. split; [intros [|k] t; discriminate|cbn; tauto].
  - cbn [length] in B. destruct (dict_index_spec t d H) as [i [d1 [E1 [H1 [I1 [G1 C1]]]]]]; [lia|].
    assert (L1 : (length (dc_contents d1) <= length (dc_contents d) + 1)%nat).
    { destruct C1 as [[-> _]|[-> _]]; [lia|rewrite app_length; cbn; lia]. }
    destruct (IH d1 H1) as [is_ [d2 [more [E2 [H2 [C2 [LN [R2 S2]]]]]]]]; [lia|].
    assert (P : exists m1, dc_contents d1 = dc_contents d ++ m1).
    { destruct C1 as [[-> _]|[-> _]]; [exists []; now rewrite app_nil_r|exists [t]; reflexivity]. }
    destruct P as [m1 P]. exists (i :: is_), d2, (m1 ++ more). cbn [dict_run]. rewrite E1, E2.
    split; [reflexivity|]. split; [assumption|]. split; [rewrite C2, P, app_assoc; reflexivity|]. split; [cbn; congruence|]. split.
    + intros [|k] u; cbn [nth_error].
      * intros Q. injection Q as <-. exists i. repeat split; auto. rewrite C2. rewrite nth_error_app1; [assumption|].
        apply nth_error_Some. congruence.
      * apply R2.
    + intros u. rewrite S2. cbn [In]. destruct C1 as [[Q1 Q2]|[Q1 Q2]]; rewrite Q1.
      * split; [tauto|]. intros [X|[X|X]]; auto. subst u. auto.
      * rewrite in_app_iff. cbn [In]. tauto.
Qed.
