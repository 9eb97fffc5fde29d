(** Proofs about the thread pools. *)
From Coq Require Import List ZArith Bool Lia.
From Verif Require Import Base_Model Sync_Model Sync_Proofs Pool_Model.
Import ListNotations.

(** ** What a history may look like *)
Definition p_event_ok (fifo : bool) (e : p_event) (l : list p_event) : Prop :=
  match e with
  | PAdd k => ~ In (PAdd k) l
  | PTake k => In (PAdd k) l /\ ~ In (PTake k) l /\ ~ In (PStart k) l /\ (fifo = true -> forall j, (j < k)%nat -> In (PTake j) l)
  | PStart k => In (PAdd k) l /\ ~ In (PStart k) l /\ (fifo = true -> In (PTake k) l)
  | PEnd k => In (PStart k) l /\ ~ In (PEnd k) l
  | PDestroyed => forall k, In (PAdd k) l -> In (PEnd k) l
  end.
Fixpoint p_history (fifo : bool) (l : list p_event) : Prop :=
  match l with [] => True | e :: r => p_event_ok fifo e r /\ p_history fifo r end.
Lemma p_history_split : forall b l1 e l2, p_history b (l1 ++ e :: l2) -> p_event_ok b e l2.
Proof. intros b. induction l1 as [|x l1 IH]; intros e l2 H; cbn [app p_history] in H; [apply H|apply IH, H]. Qed.

(** ** Counting threads *)
Fixpoint cnt (p : th_phase -> bool) (f : nat -> th_phase) (n : nat) : Z :=
  match n with O => 0 | S m => cnt p f m + (if p (f m) then 1 else 0) end%Z.
Lemma cnt_nonneg : forall p f n, (0 <= cnt p f n)%Z.
Proof. induction n; cbn [cnt]; [lia|]. destruct (p (f n)); lia. Qed.
Lemma cnt_ext : forall p f g n, (forall t, (t < n)%nat -> f t = g t) -> cnt p f n = cnt p g n.
Proof. induction n; intros H; cbn [cnt]; [reflexivity|]. rewrite IHn, (H n) by (intros; auto with arith; lia). reflexivity. Qed.
Lemma cnt_upd : forall p f n t x, (t < n)%nat ->
  cnt p (upd f t x) n = (cnt p f n - (if p (f t) then 1 else 0) + (if p x then 1 else 0))%Z.
Proof.
  induction n; intros t x L; [lia|]. cbn [cnt]. destruct (Nat.eq_dec t n) as [->|N].
  - rewrite upd_same. rewrite (cnt_ext p (upd f n x) f n) by (intros u U; apply upd_other; lia). lia.
  - rewrite IHn by lia. rewrite upd_other by lia. lia.
Qed.
Lemma cnt_new : forall p f n x, cnt p (upd f n x) (S n) = (cnt p f n + (if p x then 1 else 0))%Z.
Proof. intros. cbn [cnt]. rewrite upd_same. rewrite (cnt_ext p (upd f n x) f n) by (intros u U; apply upd_other; lia). reflexivity. Qed.
Lemma cnt_pos : forall p f n, (0 < cnt p f n)%Z -> exists t, (t < n)%nat /\ p (f t) = true.
Proof.
  induction n; cbn [cnt]; intros H; [lia|]. destruct (p (f n)) eqn:E; [exists n; auto|].
  destruct IHn as [t [A B]]; [lia|]. exists t. auto.
Qed.
Lemma cnt_ge : forall p f n t, (t < n)%nat -> p (f t) = true -> (1 <= cnt p f n)%Z.
Proof.
  induction n; intros t L E; [lia|]. cbn [cnt]. pose proof (cnt_nonneg p f n). destruct (Nat.eq_dec t n) as [->|N]; [rewrite E; lia|].
  specialize (IHn t ltac:(lia) E). destruct (p (f n)); lia.
Qed.
Definition liveb (p : th_phase) : bool := match p with ThNone | ThGone => false | _ => true end.
Definition waitb (p : th_phase) : bool := match p with ThWait _ => true | _ => false end.
Definition lockb (p : th_phase) : bool := match p with ThLock true => true | _ => false end.

(** ** Where the tasks are *)
Definition holds (p : th_phase) (k : nat) : Prop := p = ThHas k \/ p = ThRun k.
Definition empty_handed (p : th_phase) : Prop := forall k, ~ holds p k.
Record TI (fifo : bool) (q : list nat) (next : nat) (th : nat -> th_phase) (nth : nat) (log : list p_event) : Prop := {
  T_queue : q = seq (next - length q) (length q) /\ (length q <= next)%nat;
  T_qs : forall k, In k q -> ~ In (PStart k) log;
  T_has : forall t k, th t = ThHas k -> (k < next)%nat /\ ~ In k q /\ ~ In (PStart k) log;
  T_run : forall t k, th t = ThRun k -> In (PStart k) log /\ ~ In (PEnd k) log;
  T_own : forall t u k, holds (th t) k -> holds (th u) k -> t = u;
  T_all : forall k, (k < next)%nat -> In k q \/ (exists t, holds (th t) k) \/ In (PEnd k) log;
  T_start : forall k, In (PStart k) log -> (k < next)%nat;
  T_end : forall k, In (PEnd k) log -> In (PStart k) log;
  T_add : forall k, In (PAdd k) log <-> (k < next)%nat;
  T_take : fifo = true -> forall k, In (PTake k) log <-> (k < next - length q)%nat;
  T_notake : fifo = false -> forall k, ~ In (PTake k) log;
  T_new : forall t, (nth <= t)%nat -> th t = ThNone;
  T_hist : p_history fifo log }.

Lemma TI_q : forall b q next th n log k, TI b q next th n log -> In k q -> (k < next)%nat.
Proof. intros b q next th n log k H I. destruct (T_queue _ _ _ _ _ _ H) as [A B]. rewrite A in I. apply in_seq in I. lia. Qed.

Lemma TI0 : forall b th n, (forall t, empty_handed (th t)) -> (forall t, (n <= t)%nat -> th t = ThNone) -> TI b [] 0 th n [].
Proof.
  intros b th n H N. split; cbn; try contradiction; auto; try lia.
  - intros t k E. destruct (H t k). left. assumption.
  - intros t k E. destruct (H t k). right. assumption.
  - intros t u k E. destruct (H t k E).
Qed.
Lemma holds_upd : forall th t p u k, holds (upd th t p u) k -> (u = t /\ holds p k) \/ (u <> t /\ holds (th u) k).
Proof. intros th t p u k H. destruct (Nat.eq_dec u t) as [->|N]; [rewrite upd_same in H|rewrite upd_other in H by assumption]; auto. Qed.
(** A thread with no task changes to another such phase. *)
Lemma TI_move : forall b q next th n log t p, TI b q next th n log -> (t < n)%nat -> empty_handed (th t) -> empty_handed p ->
  TI b q next (upd th t p) n log.
Proof.
  intros b q next th n log t p [A B C D E F G G2 H I I2 J K] L Et Ep. split; auto.
  - intros u k. cases u t; [intros Q; destruct (Ep k); left; assumption|apply C].
  - intros u k. cases u t; [intros Q; destruct (Ep k); right; assumption|apply D].
  - intros u v k X Y. apply holds_upd in X. apply holds_upd in Y. destruct X as [[_ X]|[_ X]]; [destruct (Ep k X)|].
    destruct Y as [[_ Y]|[_ Y]]; [destruct (Ep k Y)|]. eapply E; eassumption.
  - intros k L2. destruct (F k L2) as [X|[[u X]|X]]; auto. right. left. exists u. cases u t; [destruct (Et k X)|assumption].
  - intros u U. cases u t; [lia|auto].
Qed.
Lemma TI_start : forall b q next th n log t k, TI b q next th n log -> th t = ThHas k ->
  TI b q next (upd th t (ThRun k)) n (PStart k :: log).
Proof.
  intros b q next th n log t k [A B C D E F G G2 H I I2 J K] P. destruct (C t k P) as [C1 [C2 C3]].
  assert (HT : holds (th t) k) by (left; assumption).
  assert (TN : (t < n)%nat) by (destruct (Nat.lt_ge_cases t n) as [X|X]; [assumption|rewrite (J t X) in P; discriminate]).
  split; auto.
  - intros j X [Q|Q]; [injection Q as <-; auto|apply (B j X Q)].
  - intros u j Q. cases u t; [discriminate|]. destruct (C u j Q) as [X [Y Z]]. repeat split; auto. intros [W|W]; [|auto].
    injection W as <-. assert (u = t) by (apply (E u t k); [left; assumption|assumption]). contradiction.
  - intros u j Q. cases u t.
    + injection Q as <-. split; [left; reflexivity|]. intros [W|W]; [discriminate|]. apply C3, G2, W.
    + destruct (D u j Q) as [X Y]. split; [right; assumption|]. intros [W|W]; [discriminate|auto].
  - intros u v j X Y. apply holds_upd in X. apply holds_upd in Y.
    assert (S0 : forall j, holds (ThRun k) j -> j = k) by (intros i [Q|Q]; [discriminate|now injection Q]).
    destruct X as [[-> X]|[X1 X]], Y as [[-> Y]|[Y1 Y]]; auto.
    + apply S0 in X. subst j. symmetry. apply (E v t k); assumption.
    + apply S0 in Y. subst j. apply (E u t k); assumption.
    + eapply E; eassumption.
  - intros j L. destruct (F j L) as [X|[[u X]|X]]; [auto| |right; right; right; assumption]. right. left. exists u. cases u t; [|assumption].
    destruct X as [X|X]; rewrite P in X; [injection X as <-; right; reflexivity|discriminate].
  - intros j [Q|Q]; [injection Q as <-; assumption|auto].
  - intros j [Q|Q]; [discriminate|right; auto].
  - intros j. rewrite <- H. cbn [In]. split; [intros [Q|Q]; [discriminate|assumption]|auto].
  - intros Q j. rewrite <- (I Q). cbn [In]. split; [intros [W|W]; [discriminate|assumption]|auto].
  - intros Q j [W|W]; [discriminate|apply (I2 Q j W)].
  - intros u U. cases u t; [lia|auto].
  - split; [|assumption]. cbn [p_event_ok]. split; [now apply H|]. split; [assumption|]. intros Q. apply (I Q).
    destruct (Nat.lt_ge_cases k (next - length q)) as [X|X]; [assumption|]. destruct C2. destruct A as [A1 A2]. rewrite A1. apply in_seq. lia.
Qed.
Lemma TI_end : forall b q next th n log t k p, TI b q next th n log -> th t = ThRun k -> empty_handed p ->
  TI b q next (upd th t p) n (PEnd k :: log).
Proof.
  intros b q next th n log t k p [A B C D E F G G2 H I I2 J K] P Ep. destruct (D t k P) as [D1 D2].
  assert (HT : holds (th t) k) by (right; assumption).
  assert (TN : (t < n)%nat) by (destruct (Nat.lt_ge_cases t n) as [X|X]; [assumption|rewrite (J t X) in P; discriminate]).
  split; auto.
  - intros j X [Q|Q]; [discriminate|apply (B j X Q)].
  - intros u j Q. cases u t; [destruct (Ep j); left; assumption|]. destruct (C u j Q) as [X [Y Z]]. repeat split; auto. intros [W|W]; [discriminate|auto].
  - intros u j Q. cases u t; [destruct (Ep j); right; assumption|].
    destruct (D u j Q) as [X Y]. split; [right; assumption|]. intros [W|W]; [|auto]. injection W as <-.
    assert (u = t) by (apply (E u t k); [right; assumption|assumption]). contradiction.
  - intros u v j X Y. apply holds_upd in X. apply holds_upd in Y. destruct X as [[_ X]|[_ X]]; [destruct (Ep j X)|].
    destruct Y as [[_ Y]|[_ Y]]; [destruct (Ep j Y)|]. eapply E; eassumption.
  - intros j L. destruct (F j L) as [X|[[u X]|X]]; [auto| |right; right; right; assumption]. right.
    destruct (Nat.eq_dec u t) as [->|N].
    + right. destruct X as [X|X]; rewrite P in X; [discriminate|injection X as <-; left; reflexivity].
    + left. exists u. now rewrite upd_other.
  - intros j [Q|Q]; [discriminate|auto].
  - intros j [Q|Q]; [injection Q as <-; right; assumption|right; auto].
  - intros j. rewrite <- H. cbn [In]. split; [intros [Q|Q]; [discriminate|assumption]|auto].
  - intros Q j. rewrite <- (I Q). cbn [In]. split; [intros [W|W]; [discriminate|assumption]|auto].
  - intros Q j [W|W]; [discriminate|apply (I2 Q j W)].
  - intros u U. cases u t; [lia|auto].
  - split; [|assumption]. split; assumption.
Qed.
(** AddTask puts task [next] at the end of the queue. *)
Lemma TI_add : forall b q next th n log, TI b q next th n log ->
  TI b (q ++ [next]) (S next) th n (PAdd next :: log).
Proof.
  intros b q next th n log [A B C D E F G G2 H I I2 J K].
  assert (LN : length (q ++ [next]) = S (length q)) by (rewrite app_length; cbn; lia).
  assert (NA : ~ In (PAdd next) log) by (intros X; apply H in X; lia).
  split; auto.
  - destruct A as [A1 A2]. rewrite LN. split; [|lia]. replace (S next - S (length q))%nat with (next - length q)%nat by lia.
    rewrite seq_S, <- A1. f_equal. f_equal. lia.
  - intros k X [Q|Q]; [discriminate|]. apply in_app_iff in X. destruct X as [X|[<-|[]]]; [apply (B k X Q)|]. apply G in Q. lia.
  - intros t k Q. destruct (C t k Q) as [X [Y Z]]. split; [lia|]. split.
    + intros W. apply in_app_iff in W. destruct W as [W|[W|[]]]; [auto|lia].
    + intros [W|W]; [discriminate|auto].
  - intros t k Q. destruct (D t k Q) as [X Y]. split; [right; assumption|]. intros [W|W]; [discriminate|auto].
  - intros k L. destruct (Nat.eq_dec k next) as [->|N]; [left; apply in_app_iff; right; left; reflexivity|].
    destruct (F k ltac:(lia)) as [X|[X|X]]; [left; apply in_app_iff; auto|auto|right; right; right; assumption].
  - intros k [Q|Q]; [discriminate|]. specialize (G k Q). lia.
  - intros k [Q|Q]; [discriminate|right; auto].
  - intros k. cbn [In]. rewrite H. split; [intros [Q|Q]; [injection Q as <-; lia|lia]|].
    intros L. destruct (Nat.eq_dec k next) as [->|N]; [auto|right; lia].
  - intros Q k. rewrite LN. cbn [In]. rewrite (I Q). split; [intros [W|W]; [discriminate|lia]|intros W; right; lia].
  - intros Q j [W|W]; [discriminate|apply (I2 Q j W)].
  - split; assumption.
Qed.
(** Taking the front of the queue: the thread had no task, possibly it is new. *)
Lemma TI_take : forall k q next th n log t n', TI true (k :: q) next th n log -> empty_handed (th t) ->
  (n' = n /\ (t < n)%nat \/ n' = S n /\ t = n) ->
  TI true q next (upd th t (ThHas k)) n' (PTake k :: log).
Proof.
  intros k q next th n log t n' [A B C D E F G G2 H I I2 J K] Et NT. destruct A as [A1 A2]. cbn [length] in A1, A2. cbn [seq] in A1.
  injection A1 as A0 A1.
  assert (NQ : ~ In k q) by (rewrite A1; intros X; apply in_seq in X; lia).
  assert (NK : forall u, ~ holds (th u) k).
  { intros u [X|X]; [destruct (C u k X) as [_ [Y _]]; apply Y; left; reflexivity|].
    destruct (D u k X) as [Y _]. apply (B k); [left; reflexivity|assumption]. }
  assert (S0 : forall j, holds (ThHas k) j -> j = k) by (intros i [Q|Q]; [now injection Q|discriminate]).
  split; auto.
  - split; [|lia]. rewrite A1 at 1. f_equal. lia.
  - intros j X [Q|Q]; [discriminate|]. apply (B j); [right; assumption|assumption].
  - intros u j Q. cases u t.
    + injection Q as <-. split; [lia|]. split; [assumption|]. intros [W|W]; [discriminate|]. apply (B k); [left; reflexivity|assumption].
    + destruct (C u j Q) as [X [Y Z]]. split; [assumption|]. split; [intros W; apply Y; right; assumption|]. intros [W|W]; [discriminate|auto].
  - intros u j Q. cases u t; [discriminate|]. destruct (D u j Q) as [X Y]. split; [right; assumption|]. intros [W|W]; [discriminate|auto].
  - intros u v j X Y. apply holds_upd in X. apply holds_upd in Y.
    destruct X as [[-> X]|[X1 X]], Y as [[-> Y]|[Y1 Y]]; auto.
    + apply S0 in X. subst j. destruct (NK v Y).
    + apply S0 in Y. subst j. destruct (NK u X).
    + eapply E; eassumption.
  - intros j L. destruct (F j L) as [[<-|X]|[[u X]|X]]; [|auto| |right; right; right; assumption].
    + right. left. exists t. rewrite upd_same. left. reflexivity.
    + right. left. exists u. cases u t; [destruct (Et j X)|assumption].
  - intros j [Q|Q]; [discriminate|auto].
  - intros j [Q|Q]; [discriminate|right; auto].
  - intros j. rewrite <- H. cbn [In]. split; [intros [Q|Q]; [discriminate|assumption]|auto].
  - intros Q j. cbn [In]. rewrite (I Q). cbn [length]. split; [intros [W|W]; [injection W as <-; lia|lia]|].
    intros W. destruct (Nat.eq_dec j k) as [->|N]; [auto|right; lia].
  - discriminate.
  - intros u U. assert (u <> t) by (destruct NT as [[-> NT]|[-> ->]]; lia). rewrite upd_other by assumption. apply J. destruct NT as [[-> NT]|[-> NT]]; lia.
  - split; [|assumption]. cbn [p_event_ok]. split; [apply H; lia|]. split; [|split].
    + rewrite (I eq_refl). cbn [length]. lia.
    + apply B. left. reflexivity.
    + intros _ j L. apply (I eq_refl). cbn [length]. lia.
Qed.
(** NullThreadpool::AddTask: the task goes straight to a new thread. *)
Lemma TI_spawn : forall next th n log, TI false [] next th n log ->
  TI false [] (S next) (upd th n (ThHas next)) (S n) (PAdd next :: log).
Proof.
  intros next th n log [A B C D E F G G2 H I I2 J K].
  assert (NA : ~ In (PAdd next) log) by (intros X; apply H in X; lia).
  assert (NK : forall u, ~ holds (th u) next).
  { intros u [X|X]; [destruct (C u next X) as [Y _]; lia|]. destruct (D u next X) as [Y _]. apply G in Y. lia. }
  assert (S0 : forall j, holds (ThHas next) j -> j = next) by (intros i [Q|Q]; [now injection Q|discriminate]).
  split; auto.
  - cbn. split; [reflexivity|lia].
  - intros u j Q. cases u n.
    + injection Q as <-. split; [lia|]. split; [intros []|]. intros [W|W]; [discriminate|]. apply G in W. lia.
    + destruct (C u j Q) as [X [Y Z]]. split; [lia|]. split; [assumption|]. intros [W|W]; [discriminate|auto].
  - intros u j Q. cases u n; [discriminate|]. destruct (D u j Q) as [X Y]. split; [right; assumption|]. intros [W|W]; [discriminate|auto].
  - intros u v j X Y. apply holds_upd in X. apply holds_upd in Y.
    destruct X as [[-> X]|[X1 X]], Y as [[-> Y]|[Y1 Y]]; auto.
    + apply S0 in X. subst j. destruct (NK v Y).
    + apply S0 in Y. subst j. destruct (NK u X).
    + eapply E; eassumption.
  - intros k L. destruct (Nat.eq_dec k next) as [->|N]; [right; left; exists n; rewrite upd_same; left; reflexivity|].
    destruct (F k ltac:(lia)) as [[]|[[u X]|X]]; [|right; right; right; assumption]. right. left. exists u.
    cases u n; [|assumption]. rewrite (J n (le_n n)) in X. destruct X; discriminate.
  - intros k [Q|Q]; [discriminate|]. specialize (G k Q). lia.
  - intros k [Q|Q]; [discriminate|right; auto].
  - intros k. cbn [In]. rewrite H. split; [intros [Q|Q]; [injection Q as <-; lia|lia]|].
    intros L. destruct (Nat.eq_dec k next) as [->|N]; [auto|right; lia].
  - discriminate.
  - intros Q j [W|W]; [discriminate|apply (I2 Q j W)].
  - intros u U. rewrite upd_other by lia. apply J. lia.
  - split; assumption.
Qed.
Lemma TI_destroyed : forall b next th n log, TI b [] next th n log -> (forall t, empty_handed (th t)) ->
  TI b [] next th n (PDestroyed :: log).
Proof.
  intros b next th n log [A B C D E F G G2 H I I2 J K] N.
  split; auto.
  - intros t k Q. destruct (N t k). left. assumption.
  - intros t k Q. destruct (N t k). right. assumption.
  - intros k L. destruct (F k L) as [X|[X|X]]; auto. right. right. right. assumption.
  - intros k [Q|Q]; [discriminate|auto].
  - intros k [Q|Q]; [discriminate|right; auto].
  - intros j. rewrite <- H. cbn [In]. split; [intros [Q|Q]; [discriminate|assumption]|auto].
  - intros Q j. rewrite <- (I Q). cbn [In]. split; [intros [W|W]; [discriminate|assumption]|auto].
  - intros Q j [W|W]; [discriminate|apply (I2 Q j W)].
  - split; [|assumption]. cbn [p_event_ok]. intros k X. apply H in X. destruct (F k X) as [[]|[[t Y]|Y]]; [destruct (N t k Y)|assumption].
Qed.

(** ** Invariant of all pools *)
Record PV (fifo : bool) (s : pool) : Prop := {
  V_tasks : TI fifo (po_queue s) (po_next s) (po_th s) (po_nth s) (po_log s);
  V_active : po_active s = cnt liveb (po_th s) (po_nth s);
  V_queue : po_queue s <> [] -> (0 < po_active s)%Z;
  V_gone : po_gone s = true -> po_shutdown s = true /\ po_active s = 0%Z }.

Lemma live_bound : forall b s t, PV b s -> liveb (po_th s t) = true -> (t < po_nth s)%nat.
Proof.
  intros b s t H L. destruct (Nat.lt_ge_cases t (po_nth s)) as [X|X]; [assumption|].
  rewrite (T_new _ _ _ _ _ _ (V_tasks _ _ H) t X) in L. discriminate.
Qed.
Lemma live_pos : forall b s t, PV b s -> liveb (po_th s t) = true -> (0 < po_active s)%Z.
Proof. intros b s t H L. rewrite (V_active _ _ H). pose proof (cnt_ge liveb _ _ t (live_bound b s t H L) L). lia. Qed.
Lemma all_gone : forall b s, PV b s -> po_active s = 0%Z -> po_queue s = [] /\ forall t, empty_handed (po_th s t).
Proof.
  intros b s H Z0. split.
  - destruct (po_queue s) eqn:Q; [reflexivity|]. assert (0 < po_active s)%Z by (apply (V_queue _ _ H); rewrite Q; discriminate). lia.
  - intros t k X. assert (L : liveb (po_th s t) = true) by (destruct X as [-> | ->]; reflexivity).
    pose proof (live_pos b s t H L). lia.
Qed.
Lemma eh_lock : forall d, empty_handed (ThLock d). Proof. intros d k [Q|Q]; discriminate. Qed.
Lemma eh_wait : forall d, empty_handed (ThWait d). Proof. intros d k [Q|Q]; discriminate. Qed.
Lemma eh_gone : empty_handed ThGone. Proof. intros k [Q|Q]; discriminate. Qed.
Lemma eh_none : empty_handed ThNone. Proof. intros k [Q|Q]; discriminate. Qed.
#[export] Hint Resolve eh_lock eh_wait eh_gone eh_none : core.

Lemma PV_start : forall b s t k, PV b s -> po_th s t = ThHas k -> PV b (p_start t k s).
Proof.
  intros b s t k H P. pose proof (live_bound b s t H ltac:(rewrite P; reflexivity)) as L. destruct H as [A B C D].
  split; cbn [p_start po_queue po_next po_th po_nth po_log po_active po_gone po_shutdown]; auto.
  - now apply TI_start.
  - rewrite cnt_upd by assumption. rewrite P. cbn [liveb]. lia.
Qed.
Lemma PV_end : forall b s t k p, PV b s -> po_th s t = ThRun k -> empty_handed p -> liveb p = true -> PV b (p_end t k p s).
Proof.
  intros b s t k p H P Ep Lp. pose proof (live_bound b s t H ltac:(rewrite P; reflexivity)) as L. destruct H as [A B C D].
  split; cbn [p_end po_queue po_next po_th po_nth po_log po_active po_gone po_shutdown]; auto.
  - now apply TI_end.
  - rewrite cnt_upd by assumption. rewrite P, Lp. cbn [liveb]. lia.
Qed.
Lemma PV_shutdown : forall b s s', PV b s -> p_shutdown s = Some s' -> PV b s'.
Proof.
  intros b s s' [A B C D] E. unfold p_shutdown in E. destruct (po_shutdown s); [discriminate|]. injection E as <-.
  split; cbn [po_queue po_next po_th po_nth po_log po_active po_gone po_shutdown]; auto. intros Q. split; [reflexivity|apply D; assumption].
Qed.
Lemma PV_destroyed : forall b s s', PV b s -> p_destroyed s = Some s' -> PV b s'.
Proof.
  intros b s s' H E. unfold p_destroyed in E. destruct (_ && _) eqn:Q; [|discriminate]. injection E as <-.
  apply andb_prop in Q. destruct Q as [_ Q]. apply Z.eqb_eq in Q. destruct (all_gone b s H Q) as [Q1 Q2]. destruct H as [A B C D].
  split; cbn [po_queue po_next po_th po_nth po_log po_active po_gone po_shutdown]; auto.
  rewrite Q1 in *. now apply TI_destroyed.
Qed.
(** A live thread without a task leaves, with the queue empty. *)
Lemma PV_leave : forall b s t id ct, PV b s -> po_queue s = [] -> liveb (po_th s t) = true -> empty_handed (po_th s t) ->
  PV b (mkPool [] (po_next s) (po_active s - 1) id ct (upd (po_th s) t ThGone) (po_nth s) (po_shutdown s) (po_gone s) (po_log s)).
Proof.
  intros b s t id ct H Q L E. pose proof (live_bound b s t H L) as LB. pose proof (live_pos b s t H L) as LP. destruct H as [A B C D].
  split; cbn [po_queue po_next po_th po_nth po_log po_active po_gone po_shutdown].
  - rewrite <- Q. apply TI_move; auto.
  - rewrite cnt_upd by assumption. rewrite L. cbn [liveb]. lia.
  - congruence.
  - intros X. destruct (D X). lia.
Qed.
Lemma may_add_gone : forall b s who, PV b s -> may_add who s = true -> po_gone s = false.
Proof.
  intros b s who H M. destruct (po_gone s) eqn:G; [|reflexivity]. destruct (V_gone _ _ H G) as [X Y]. exfalso.
  destruct who as [t|]; cbn [may_add] in M.
  - assert (L : liveb (po_th s t) = true) by (destruct (po_th s t); try discriminate; reflexivity). pose proof (live_pos b s t H L). lia.
  - rewrite X in M. discriminate.
Qed.

(** ** Null pool *)
Lemma null_PV : forall a s s', PV false s -> po_queue s = [] -> null_step a s = Some s' -> PV false s' /\ po_queue s' = [].
Proof.
  intros [who|t|t| |] s s' H QE E; cbn [null_step] in E.
  - destruct (may_add who s) eqn:M; [|discriminate]. cbn [negb] in E. pose proof (may_add_gone _ _ _ H M) as NG. injection E as <-.
    split; [|reflexivity]. destruct H as [A B C D]. split; cbn [po_queue po_next po_th po_nth po_log po_active po_gone po_shutdown]; auto.
    + rewrite QE in A. now apply TI_spawn.
    + rewrite cnt_new. cbn [liveb]. lia.
    + congruence.
    + congruence.
  - destruct (po_th s t) eqn:P; try discriminate; injection E as <-.
    + split; [now apply PV_start|assumption].
    + split; [now apply PV_end|assumption].
    + split; [|reflexivity]. apply PV_leave; rewrite ?P; auto.
  - discriminate.
  - split; [eapply PV_shutdown; eassumption|]. unfold p_shutdown in E. destruct (po_shutdown s); [discriminate|]. injection E as <-. assumption.
  - split; [eapply PV_destroyed; eassumption|]. unfold p_destroyed in E. destruct (_ && _); [|discriminate]. injection E as <-. assumption.
Qed.
Lemma null0_PV : PV false null0 /\ po_queue null0 = [].
Proof.
  split; [|reflexivity]. split; cbn; try reflexivity; try congruence. apply TI0; intros; auto.
Qed.

(** ** Simple pool *)
Record SV (n : nat) (s : pool) : Prop := {
  S_pv : PV true s;
  S_threads : po_shutdown s = false -> po_active s = Z.of_nat n }.
Lemma simple_SV : forall n a s s', (0 < n)%nat -> SV n s -> simple_step a s = Some s' -> SV n s'.
Proof.
  intros n [who|t|t| |] s s' NP [H TH] E; cbn [simple_step] in E.
  - destruct (may_add who s) eqn:M; [|discriminate]. cbn [negb] in E. pose proof (may_add_gone _ _ _ H M) as NG. injection E as <-.
    assert (AP : (0 < po_active s)%Z).
    { destruct who as [t|]; cbn [may_add] in M.
      - apply (live_pos true s t H). destruct (po_th s t); try discriminate; reflexivity.
      - apply negb_true_iff in M. rewrite (TH M). lia. }
    split; cbn [po_queue po_next po_th po_nth po_log po_active po_gone po_shutdown]; auto.
    destruct H as [A B C D]. split; cbn [po_queue po_next po_th po_nth po_log po_active po_gone po_shutdown]; auto. now apply TI_add.
  - destruct (po_th s t) eqn:P; try discriminate.
    + injection E as <-. split; [now apply PV_start|assumption].
    + injection E as <-. split; [now apply PV_end|assumption].
    + pose proof (live_bound true s t H ltac:(rewrite P; reflexivity)) as L.
      pose proof (live_pos true s t H ltac:(rewrite P; reflexivity)) as LP.
      destruct (po_queue s) as [|k r] eqn:Q.
      * destruct (po_shutdown s) eqn:SD; [|discriminate]. injection E as <-.
        split; cbn [po_queue po_next po_th po_nth po_log po_active po_gone po_shutdown]; [|discriminate].
        pose proof (PV_leave true s t 0%Z 0%Z H Q ltac:(rewrite P; reflexivity) ltac:(rewrite P; auto)) as X. rewrite SD in X. exact X.
      * injection E as <-. split; cbn [po_queue po_next po_th po_nth po_log po_active po_gone po_shutdown]; [|assumption].
        destruct H as [A B C D]. split; cbn [po_queue po_next po_th po_nth po_log po_active po_gone po_shutdown]; auto.
        -- rewrite Q in A. eapply TI_take; [eassumption|rewrite P; auto|auto].
        -- rewrite cnt_upd by assumption. rewrite P. cbn [liveb]. lia.
  - discriminate.
  - split; [eapply PV_shutdown; eassumption|]. unfold p_shutdown in E. destruct (po_shutdown s); [discriminate|]. injection E as <-. discriminate.
  - split; [eapply PV_destroyed; eassumption|]. unfold p_destroyed in E. destruct (_ && _); [|discriminate]. injection E as <-. discriminate.
Qed.
Lemma simple0_SV : forall n, SV n (simple0 n).
Proof.
  intros n. split; [|reflexivity]. split; cbn [simple0 po_queue po_next po_th po_nth po_log po_active po_gone po_shutdown]; try congruence.
  - apply TI0; intros t; destruct (Nat.ltb_spec t n); auto. intros; lia.
  - assert (G : forall m, (m <= n)%nat -> cnt liveb (fun t => if Nat.ltb t n then ThWait false else ThNone) m = Z.of_nat m).
    { induction m; intros L; [reflexivity|]. cbn [cnt]. rewrite IHm by lia. destruct (Nat.ltb_spec m n); [cbn [liveb]; lia|lia]. }
    rewrite G; lia.
Qed.

(** ** Elastic pool *)
Fixpoint ends (l : list p_event) : Z := match l with [] => 0 | PEnd _ :: r => ends r + 1 | _ :: r => ends r end%Z.
Record EV (max : nat) (s : pool) : Prop := {
  E_pv : PV true s;
  E_idle : po_idle s = cnt waitb (po_th s) (po_nth s);
  E_len : (length (po_queue s) <= max)%nat;
  E_count : (po_count s + cnt lockb (po_th s) (po_nth s) = ends (po_log s))%Z }.
Lemma elastic_take_EV : forall max t idle count s,
  EV max s -> liveb (po_th s t) = true -> empty_handed (po_th s t) -> available s = true ->
  idle = (po_idle s - (if waitb (po_th s t) then 1 else 0))%Z -> count = (po_count s + (if lockb (po_th s t) then 1 else 0))%Z ->
  EV max (elastic_take t idle count s).
Proof.
  intros max t idle count s [H ID LN CT] L E AV -> ->. pose proof (live_bound true s t H L) as LB. pose proof (live_pos true s t H L) as LP.
  assert (Z0 : waitb (po_th s t) = true -> lockb (po_th s t) = false) by (destruct (po_th s t); auto; discriminate).
  unfold elastic_take. destruct (po_queue s) as [|k r] eqn:Q.
  - split; cbn [po_queue po_next po_th po_nth po_log po_active po_gone po_shutdown po_idle po_count].
    + apply PV_leave; auto.
    + rewrite cnt_upd by assumption. cbn [waitb]. lia.
    + cbn. lia.
    + rewrite cnt_upd by assumption. cbn [lockb]. lia.
  - cbn [length] in LN. pose proof H as H'. destruct H as [A B C D]. rewrite Q in A.
    assert (A1 : TI true r (po_next s) (upd (po_th s) t (ThHas k)) (po_nth s) (PTake k :: po_log s)) by (eapply TI_take; eauto).
    assert (B1 : cnt liveb (upd (po_th s) t (ThHas k)) (po_nth s) = po_active s).
    { rewrite cnt_upd by assumption. rewrite L. cbn [liveb]. lia. }
    assert (W1 : cnt waitb (upd (po_th s) t (ThHas k)) (po_nth s) = (po_idle s - (if waitb (po_th s t) then 1 else 0))%Z).
    { rewrite cnt_upd by assumption. cbn [waitb]. lia. }
    assert (K1 : cnt lockb (upd (po_th s) t (ThHas k)) (po_nth s) = (cnt lockb (po_th s) (po_nth s) - (if lockb (po_th s t) then 1 else 0))%Z).
    { rewrite cnt_upd by assumption. cbn [lockb]. lia. }
    assert (GN : po_gone s = true -> False) by (intros X; destruct (D X); lia).
    destruct r as [|j r'].
    + split; cbn [po_queue po_next po_th po_nth po_log po_active po_gone po_shutdown po_idle po_count length ends]; auto; try lia.
      split; cbn [po_queue po_next po_th po_nth po_log po_active po_gone po_shutdown]; auto; intros X; destruct (GN X).
    + cbn [length] in LN. destruct (_ =? 0)%Z.
      * split; cbn [po_queue po_next po_th po_nth po_log po_active po_gone po_shutdown po_idle po_count length ends]; rewrite ?cnt_new; cbn [waitb lockb]; try lia.
        split; cbn [po_queue po_next po_th po_nth po_log po_active po_gone po_shutdown]; rewrite ?cnt_new; cbn [liveb]; try lia; try (intros X; destruct (GN X); fail).
        -- eapply TI_take; [eassumption| |auto]. rewrite upd_other by lia. rewrite (T_new _ _ _ _ _ _ A (po_nth s)) by lia. auto.
      * split; cbn [po_queue po_next po_th po_nth po_log po_active po_gone po_shutdown po_idle po_count length ends]; auto; try lia.
        split; cbn [po_queue po_next po_th po_nth po_log po_active po_gone po_shutdown]; auto; intros X; destruct (GN X).
Qed.
Lemma elastic_EV : forall max a s s', EV max s -> elastic_step max a s = Some s' -> EV max s'.
Proof.
  intros max [who|t|t| |] s s' HE E; cbn [elastic_step] in E.
  - destruct (may_add who s) eqn:M; [|discriminate]. cbn [negb] in E. destruct HE as [H ID LN CT].
    pose proof (may_add_gone _ _ _ H M) as NG. destruct (Nat.leb_spec (length (po_queue s) + 1) max) as [LM|LM]; [|discriminate].
    destruct H as [A B C D]. pose proof (TI_add _ _ _ _ _ _ A) as A1.
    destruct ((po_idle s =? 0)%Z || _) eqn:G; destruct (po_queue s ++ [po_next s]) as [|k r] eqn:Q; injection E as <-;
      try (exfalso; eapply app_cons_not_nil; symmetry; exact Q).
    + assert (LQ : length (k :: r) = (length (po_queue s) + 1)%nat) by (rewrite <- Q, app_length; reflexivity). cbn [length] in LQ.
      split; cbn [po_queue po_next po_th po_nth po_log po_active po_gone po_shutdown po_idle po_count ends]; rewrite ?cnt_new; cbn [waitb lockb]; try lia.
      split; cbn [po_queue po_next po_th po_nth po_log po_active po_gone po_shutdown]; rewrite ?cnt_new; cbn [liveb]; try lia; try congruence.
      * eapply TI_take; [exact A1| |auto]. rewrite (T_new _ _ _ _ _ _ A (po_nth s)) by lia. auto.
      * intros _. pose proof (cnt_nonneg liveb (po_th s) (po_nth s)). lia.
    + assert (LQ : length (k :: r) = (length (po_queue s) + 1)%nat) by (rewrite <- Q, app_length; reflexivity).
      apply orb_false_elim in G. destruct G as [G _]. apply Z.eqb_neq in G.
      split; cbn [po_queue po_next po_th po_nth po_log po_active po_gone po_shutdown po_idle po_count ends]; auto; try lia.
      split; cbn [po_queue po_next po_th po_nth po_log po_active po_gone po_shutdown]; auto; try congruence.
      intros _. rewrite B. pose proof (cnt_nonneg waitb (po_th s) (po_nth s)).
      destruct (cnt_pos waitb (po_th s) (po_nth s)) as [t [T1 T2]]; [lia|].
      pose proof (cnt_ge liveb (po_th s) (po_nth s) t T1). destruct (po_th s t); try discriminate. cbn in H0. specialize (H0 eq_refl). lia.
  - destruct (po_th s t) eqn:P; try discriminate.
    + injection E as <-. destruct HE as [H ID LN CT]. pose proof (live_bound true s t H ltac:(rewrite P; reflexivity)) as L.
      split; cbn [p_start po_queue po_next po_th po_nth po_log po_active po_gone po_shutdown po_idle po_count ends]; auto.
      * now apply PV_start.
      * rewrite cnt_upd by assumption. rewrite P. cbn [waitb]. lia.
      * rewrite cnt_upd by assumption. rewrite P. cbn [lockb]. lia.
    + injection E as <-. destruct HE as [H ID LN CT]. pose proof (live_bound true s t H ltac:(rewrite P; reflexivity)) as L.
      split; cbn [p_end po_queue po_next po_th po_nth po_log po_active po_gone po_shutdown po_idle po_count ends]; auto.
      * now apply PV_end.
      * rewrite cnt_upd by assumption. rewrite P. cbn [waitb]. lia.
      * rewrite cnt_upd by assumption. rewrite P. cbn [lockb]. lia.
    + pose proof (live_bound true s t (E_pv _ _ HE) ltac:(rewrite P; reflexivity)) as L.
      destruct (available s) eqn:AV; injection E as <-.
      * apply elastic_take_EV; rewrite ?P; auto; [cbn [waitb]; lia|]. destruct did; cbn [lockb]; lia.
      * destruct HE as [H ID LN CT].
        split; cbn [p_end po_queue po_next po_th po_nth po_log po_active po_gone po_shutdown po_idle po_count ends]; auto.
        -- destruct H as [A B C D]. split; cbn [po_queue po_next po_th po_nth po_log po_active po_gone po_shutdown]; auto.
           ++ apply TI_move; auto. rewrite P. auto.
           ++ rewrite cnt_upd by assumption. rewrite P. cbn [liveb]. lia.
        -- rewrite cnt_upd by assumption. rewrite P. cbn [waitb]. lia.
        -- rewrite cnt_upd by assumption. rewrite P. cbn [lockb]. destruct did; lia.
    + destruct (available s) eqn:AV; [|discriminate]. injection E as <-.
      apply elastic_take_EV; rewrite ?P; auto. cbn [lockb]. lia.
  - destruct (po_th s t) as [| | | |[|]|] eqn:P; try discriminate. destruct (available s) eqn:AV; [discriminate|].
    pose proof (live_bound true s t (E_pv _ _ HE) ltac:(rewrite P; reflexivity)) as L. destruct HE as [H ID LN CT].
    assert (Q : po_queue s = []) by (unfold available in AV; destruct (po_queue s); [reflexivity|discriminate]).
    destruct (_ >=? _)%Z; injection E as <-.
    + split; cbn [po_queue po_next po_th po_nth po_log po_active po_gone po_shutdown po_idle po_count]; auto.
      * rewrite Q. apply PV_leave; auto; rewrite P; auto.
      * rewrite cnt_upd by assumption. rewrite P. cbn [waitb]. lia.
      * rewrite cnt_upd by assumption. rewrite P. cbn [lockb]. lia.
    + split; cbn [po_queue po_next po_th po_nth po_log po_active po_gone po_shutdown po_idle po_count]; auto.
      * destruct H as [A B C D]. split; cbn [po_queue po_next po_th po_nth po_log po_active po_gone po_shutdown]; auto.
        -- apply TI_move; auto. rewrite P. auto.
        -- rewrite cnt_upd by assumption. rewrite P. cbn [liveb]. lia.
      * rewrite cnt_upd by assumption. rewrite P. cbn [waitb]. lia.
      * rewrite cnt_upd by assumption. rewrite P. cbn [lockb]. lia.
  - destruct HE as [H ID LN CT]. pose proof (PV_shutdown _ _ _ H E) as H'. unfold p_shutdown in E. destruct (po_shutdown s); [discriminate|].
    injection E as <-. split; auto.
  - destruct HE as [H ID LN CT]. pose proof (PV_destroyed _ _ _ H E) as H'. unfold p_destroyed in E. destruct (_ && _); [|discriminate].
    injection E as <-. split; auto.
Qed.
Lemma elastic0_EV : forall max, EV max elastic0.
Proof.
  intros max. split; cbn; try reflexivity; try lia. split; cbn; try reflexivity; try congruence. apply TI0; intros; auto.
Qed.

(** ** Runs *)
Lemma p_run_inv : forall (I : pool -> Prop) step, (forall a s s', I s -> step a s = Some s' -> I s') ->
  forall l s, I s -> I (p_run step l s).
Proof.
  intros I step H. induction l as [|a r IH]; intros s S0; cbn [p_run]; [assumption|]. apply IH.
  destruct (step a s) eqn:E; [eauto|assumption].
Qed.

(** ** All three at once *)
Definition fifo_kind (k : pool_kind) : bool := match k with PoolNull => false | _ => true end.
Definition kind_ok (k : pool_kind) : Prop := match k with PoolSimple n | PoolElastic n => (0 < n)%nat | PoolNull => True end.
Definition KI (k : pool_kind) (s : pool) : Prop :=
  match k with PoolSimple n => SV n s | PoolElastic n => EV n s | PoolNull => PV false s /\ po_queue s = [] end.
Lemma KI_PV : forall k s, KI k s -> PV (fifo_kind k) s.
Proof. intros [n|n|] s H; cbn in *; [apply S_pv with n|apply E_pv with n|]; apply H. Qed.
Lemma KI_step : forall k, kind_ok k -> forall a s s', KI k s -> pool_step k a s = Some s' -> KI k s'.
Proof. intros [n|n|] K a s s' H E; cbn in *; [eapply simple_SV|eapply elastic_EV|eapply null_PV]; eauto; apply H. Qed.
Lemma KI_init : forall k, KI k (pool_init k).
Proof. intros [n|n|]; [apply simple0_SV|apply elastic0_EV|apply null0_PV]. Qed.
Lemma KI_run : forall k l, kind_ok k -> KI k (p_run (pool_step k) l (pool_init k)).
Proof. intros k l K. apply p_run_inv; [now apply KI_step|apply KI_init]. Qed.

(** A live thread can make a step when something is available. *)
Lemma live_enabled : forall k s t, KI k s -> liveb (po_th s t) = true -> available s = true -> (forall d, k <> PoolNull -> po_th s t <> ThLock d \/ exists n, k = PoolElastic n) ->
  (k = PoolNull -> forall d, po_th s t <> ThWait d) -> pool_step k (QThread t) s <> None.
Proof.
  intros k s t H L AV LK WT. destruct k as [n|n|]; cbn [pool_step simple_step elastic_step null_step]; destruct (po_th s t) eqn:P; try discriminate.
  - destruct (LK did ltac:(discriminate)) as [X|[m X]]; [congruence|discriminate].
  - destruct (po_queue s) eqn:Q; [|discriminate]. unfold available in AV. rewrite Q in AV. rewrite AV. discriminate.
  - rewrite AV. discriminate.
  - rewrite AV. discriminate.
  - destruct (WT eq_refl timed eq_refl).
Qed.
(** Which phases occur in which pool. *)
Definition phase_ok (k : pool_kind) (p : th_phase) : Prop :=
  match k, p with PoolSimple _, ThLock _ => False | PoolNull, ThWait _ => False | _, _ => True end.
Lemma phases_step : forall k a s s', (forall t, phase_ok k (po_th s t)) -> pool_step k a s = Some s' -> forall t, phase_ok k (po_th s' t).
Proof.
  assert (U : forall k f i p, phase_ok k p -> (forall t, phase_ok k (f t)) -> forall t, phase_ok k (upd f i p t)).
  { intros k f i p P H t. cases t i; auto. }
  intros k a s s' H E. destruct k as [n|n|]; destruct a as [who|u|u| |]; cbn [pool_step simple_step elastic_step null_step] in E;
    try (unfold p_shutdown in E; destruct (po_shutdown s); [discriminate|]; injection E as <-; exact H);
    try (unfold p_destroyed in E; destruct (_ && _); [|discriminate]; injection E as <-; exact H); try discriminate;
    try (intros t; destruct (po_th s' t); exact I);
    repeat match goal with
    | E : (if ?b then _ else _) = Some _ |- _ => destruct b; try discriminate
    | E : match ?x with _ => _ end = Some _ |- _ => destruct x eqn:?; try discriminate
    end; injection E as <-; try exact H; apply U; auto; exact I.
Qed.
Lemma phases_run : forall k l t, phase_ok k (po_th (p_run (pool_step k) l (pool_init k)) t).
Proof.
  intros k l. apply (p_run_inv (fun s => forall t, phase_ok k (po_th s t))).
  - intros a s s'. apply phases_step.
  - intros t. destruct k; cbn [pool_init simple0 elastic0 null0 po_th]; [destruct (Nat.ltb t n)|..]; exact I.
Qed.
Lemma progress_task : forall k l i, kind_ok k -> let s := p_run (pool_step k) l (pool_init k) in
  In (PAdd i) (po_log s) -> ~ In (PEnd i) (po_log s) -> exists t, pool_step k (QThread t) s <> None.
Proof.
  intros k l i K s A N. pose proof (KI_run k l K) as H. fold s in H. pose proof (phases_run k l) as PH. fold s in PH.
  pose proof (KI_PV _ _ H) as V. apply (T_add _ _ _ _ _ _ (V_tasks _ _ V)) in A.
  destruct (T_all _ _ _ _ _ _ (V_tasks _ _ V) i A) as [Q|[[t Q]|Q]]; [| |contradiction].
  - assert (AV : available s = true) by (unfold available; destruct (po_queue s); [destruct Q|reflexivity]).
    assert (P : (0 < po_active s)%Z) by (apply (V_queue _ _ V); intros X; rewrite X in Q; destruct Q).
    rewrite (V_active _ _ V) in P. destruct (cnt_pos _ _ _ P) as [t [T1 T2]]. exists t. specialize (PH t).
    apply live_enabled; auto.
    + intros d NK. destruct k as [n|n|]; [left; intros X; rewrite X in PH; exact PH|right; eauto|congruence].
    + intros -> d X. rewrite X in PH. exact PH.
  - exists t. destruct Q as [Q|Q]; destruct k as [n|n|]; cbn [pool_step simple_step elastic_step null_step]; rewrite Q; discriminate.
Qed.
Lemma progress_destructor : forall k l, kind_ok k -> let s := p_run (pool_step k) l (pool_init k) in
  po_shutdown s = true -> po_gone s = false -> pool_step k QDestroyed s <> None \/ exists t, pool_step k (QThread t) s <> None.
Proof.
  intros k l K s SD GN. pose proof (KI_run k l K) as H. fold s in H. pose proof (phases_run k l) as PH. fold s in PH.
  pose proof (KI_PV _ _ H) as V. destruct (Z.eq_dec (po_active s) 0) as [Z0|NZ].
  - left. destruct k; cbn; unfold p_destroyed; rewrite SD, GN, Z0; discriminate.
  - right. assert (AV : available s = true) by (unfold available; destruct (po_queue s); [assumption|reflexivity]).
    pose proof (cnt_nonneg liveb (po_th s) (po_nth s)). rewrite (V_active _ _ V) in NZ.
    destruct (cnt_pos liveb (po_th s) (po_nth s)) as [t [T1 T2]]; [lia|]. exists t. specialize (PH t).
    apply live_enabled; auto.
    + intros d NK. destruct k as [n|n|]; [left; intros X; rewrite X in PH; exact PH|right; eauto|congruence].
    + intros -> d X. rewrite X in PH. exact PH.
Qed.
Lemma after_destroyed : forall k s a, KI k s -> po_gone s = true -> pool_step k a s = None.
Proof.
  intros k s a H G. pose proof (KI_PV _ _ H) as V. destruct (V_gone _ _ V G) as [SD Z0].
  assert (NA : forall who, may_add who s = false).
  { intros who. destruct (may_add who s) eqn:M; [|reflexivity]. rewrite (may_add_gone _ _ _ V M) in G. discriminate. }
  assert (NL : forall t, liveb (po_th s t) = false).
  { intros t. destruct (liveb (po_th s t)) eqn:L; [|reflexivity]. pose proof (live_pos _ _ _ V L). lia. }
  destruct k as [n|n|]; destruct a as [who|t|t| |]; cbn [pool_step simple_step elastic_step null_step]; try reflexivity;
    try (rewrite NA; reflexivity); try (specialize (NL t); destruct (po_th s t); try discriminate; reflexivity);
    try (unfold p_shutdown; rewrite SD; reflexivity); unfold p_destroyed; rewrite SD, G; reflexivity.
Qed.

(** ** Work left *)
Definition weight (p : th_phase) : nat :=
  match p with ThNone | ThGone => 0 | ThWait _ => 1 | ThLock _ => 2 | ThRun _ => 3 | ThHas _ => 4 end.
Fixpoint weights (f : nat -> th_phase) (n : nat) : nat := match n with O => 0 | S m => weights f m + weight (f m) end.
Definition work (s : pool) : nat := 5 * length (po_queue s) + weights (po_th s) (po_nth s).
Lemma weights_ext : forall f g n, (forall t, (t < n)%nat -> f t = g t) -> weights f n = weights g n.
Proof. induction n; intros H; cbn [weights]; [reflexivity|]. rewrite IHn, (H n) by (intros; auto with arith; lia). reflexivity. Qed.
Lemma weights_upd : forall f n t x, (t < n)%nat -> (weights (upd f t x) n + weight (f t) = weights f n + weight x)%nat.
Proof.
  induction n; intros t x L; [lia|]. cbn [weights]. destruct (Nat.eq_dec t n) as [->|N].
  - rewrite upd_same. rewrite (weights_ext (upd f n x) f n) by (intros u U; apply upd_other; lia). lia.
  - specialize (IHn t x ltac:(lia)). rewrite upd_other by lia. lia.
Qed.
Lemma weights_new : forall f n x, weights (upd f n x) (S n) = (weights f n + weight x)%nat.
Proof. intros. cbn [weights]. rewrite upd_same. rewrite (weights_ext (upd f n x) f n) by (intros u U; apply upd_other; lia). reflexivity. Qed.
Lemma work_step : forall k s t s', KI k s -> pool_step k (QThread t) s = Some s' -> (work s' < work s)%nat.
Proof.
  intros k s t s' H E. pose proof (KI_PV _ _ H) as V.
  assert (L : po_th s t <> ThNone -> (t < po_nth s)%nat).
  { intros X. destruct (Nat.lt_ge_cases t (po_nth s)) as [Y|Y]; [assumption|].
    destruct (X (T_new _ _ _ _ _ _ (V_tasks _ _ V) t Y)). }
  destruct k as [n|n|]; cbn [pool_step simple_step elastic_step null_step] in E.
  - unfold work. destruct (po_th s t) eqn:P; try discriminate; specialize (L ltac:(discriminate)).
    + injection E as <-. cbn [p_start po_queue po_th po_nth]. pose proof (weights_upd (po_th s) _ t (ThRun k) L). rewrite P in H0. cbn [weight] in H0. lia.
    + injection E as <-. cbn [p_end po_queue po_th po_nth]. pose proof (weights_upd (po_th s) _ t (ThWait false) L). rewrite P in H0. cbn [weight] in H0. lia.
    + destruct (po_queue s) as [|k r] eqn:Q; [destruct (po_shutdown s); [|discriminate]|]; injection E as <-; cbn [po_queue po_th po_nth].
      * pose proof (weights_upd (po_th s) _ t ThGone L). rewrite P in H0. cbn [weight] in H0. cbn [length]. lia.
      * pose proof (weights_upd (po_th s) _ t (ThHas k) L). rewrite P in H0. cbn [weight] in H0. cbn [length]. lia.
  - assert (TK : forall idle count, (1 <= weight (po_th s t))%nat -> (t < po_nth s)%nat -> (work (elastic_take t idle count s) < work s)%nat).
    { intros idle count W LT. unfold elastic_take, work. destruct (po_queue s) as [|k r] eqn:Q.
      - cbn [po_queue po_th po_nth]. pose proof (weights_upd (po_th s) _ t ThGone LT) as X. cbn [weight] in X. cbn [length]. lia.
      - pose proof (weights_upd (po_th s) _ t (ThHas k) LT) as X. cbn [weight] in X.
        destruct r as [|j r]; [|destruct (_ =? _)%Z]; cbn [po_queue po_th po_nth length]; rewrite ?weights_new; cbn [weight]; lia. }
    destruct (po_th s t) eqn:P; try discriminate; specialize (L ltac:(discriminate)); unfold work.
    + injection E as <-. cbn [p_start po_queue po_th po_nth]. pose proof (weights_upd (po_th s) _ t (ThRun k) L). rewrite P in H0. cbn [weight] in H0. lia.
    + injection E as <-. cbn [p_end po_queue po_th po_nth]. pose proof (weights_upd (po_th s) _ t (ThLock true) L). rewrite P in H0. cbn [weight] in H0. lia.
    + destruct (available s); injection E as <-; [apply TK; cbn [weight]; auto; lia|]. cbn [po_queue po_th po_nth].
      pose proof (weights_upd (po_th s) _ t (ThWait (po_idle s + 1 >? Z.of_nat n)%Z) L). rewrite P in H0. cbn [weight] in H0. lia.
    + destruct (available s); [|discriminate]. injection E as <-. apply TK; cbn [weight]; auto.
  - unfold work. destruct H as [_ Q]. destruct (po_th s t) eqn:P; try discriminate; specialize (L ltac:(discriminate)); injection E as <-.
    + cbn [p_start po_queue po_th po_nth]. pose proof (weights_upd (po_th s) _ t (ThRun k) L). rewrite P in H. cbn [weight] in H. lia.
    + cbn [p_end po_queue po_th po_nth]. pose proof (weights_upd (po_th s) _ t (ThLock true) L). rewrite P in H. cbn [weight] in H. lia.
    + cbn [po_queue po_th po_nth]. rewrite Q. pose proof (weights_upd (po_th s) _ t ThGone L). rewrite P in H. cbn [weight] in H. lia.
Qed.
(** Threads making steps, nothing else happening. *)
Inductive thread_steps (k : pool_kind) : nat -> pool -> pool -> Prop :=
| TS0 : forall s, thread_steps k 0 s s
| TS1 : forall t n s s' s'', pool_step k (QThread t) s = Some s' -> thread_steps k n s' s'' -> thread_steps k (S n) s s''.
Lemma thread_steps_bound : forall k n s s', kind_ok k -> KI k s -> thread_steps k n s s' -> (n + work s' <= work s)%nat /\ KI k s'.
Proof.
  intros k n s s' K H T. induction T as [s|t n s s1 s2 E T IH]; [auto|]. pose proof (work_step k s t s1 H E).
  destruct IH as [A B]; [eapply KI_step; eassumption|]. split; [lia|assumption].
Qed.

(** ** With nobody idle the elastic queue has room *)
Definition room (max : nat) (s : pool) : Prop := po_idle s = 0%Z -> (length (po_queue s) + 1 <= max)%nat.
Lemma room_step : forall max a s s', (0 < max)%nat -> EV max s -> room max s -> elastic_step max a s = Some s' -> room max s'.
Proof.
  intros max a s s' MP H R E. pose proof (E_len _ _ H) as LN.
  assert (TK : forall t i c, (i = po_idle s \/ i = po_idle s - 1)%Z -> available s = true -> room max (elastic_take t i c s)).
  { intros t i c D AV. unfold room, elastic_take. unfold room in R. destruct (po_queue s) as [|k r] eqn:Q; [cbn; lia|]. cbn [length] in *.
    destruct r as [|j r]; [cbn; lia|]. cbn [length] in *. destruct (Z.eqb_spec i 0); cbn [po_queue po_idle length]; lia. }
  destruct a as [who|t|t| |]; cbn [elastic_step] in E.
  - destruct (negb _); [discriminate|]. destruct (Nat.leb_spec (length (po_queue s) + 1) max); [|discriminate].
    unfold room. destruct (po_idle s =? 0)%Z eqn:G.
    + cbn [orb] in E. destruct (po_queue s ++ [po_next s]) as [|k r] eqn:Q; injection E as <-; cbn [po_queue po_idle];
        pose proof (f_equal (@length nat) Q) as LQ; rewrite app_length in LQ; cbn [length] in *; lia.
    + apply Z.eqb_neq in G. cbn [orb] in E.
      destruct (_ && _), (po_queue s ++ [po_next s]); injection E as <-; cbn [po_idle]; intros X; destruct (G X).
  - destruct (po_th s t); try discriminate.
    + injection E as <-. exact R.
    + injection E as <-. exact R.
    + destruct (available s) eqn:AV; injection E as <-; [apply TK; auto|]. unfold room. cbn [po_queue po_idle]. intros _.
      unfold available in AV. destruct (po_queue s); [cbn; lia|discriminate].
    + destruct (available s) eqn:AV; [|discriminate]. injection E as <-. apply TK; auto.
  - destruct (po_th s t) as [| | | |[|]|]; try discriminate. destruct (available s) eqn:AV; [discriminate|].
    unfold available in AV. destruct (po_queue s) eqn:Q; [|discriminate].
    destruct (_ >=? _)%Z; injection E as <-; unfold room; cbn [po_queue po_idle length]; lia.
  - unfold p_shutdown in E. destruct (po_shutdown s); [discriminate|]. injection E as <-. exact R.
  - unfold p_destroyed in E. destruct (_ && _); [|discriminate]. injection E as <-. exact R.
Qed.
Lemma room_run : forall max l, (0 < max)%nat -> room max (p_run (elastic_step max) l elastic0).
Proof.
  intros max l MP. apply (p_run_inv (fun s => EV max s /\ room max s)).
  - intros a s s' [A B] E. split; [eapply elastic_EV; eassumption|eapply room_step; eassumption].
  - split; [apply elastic0_EV|]. intros _. cbn. lia.
Qed.
