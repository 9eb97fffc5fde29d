(** Property C87: the timed waits of RealClock. *)
From Coq Require Import List ZArith Bool Arith Lia.
From Verif Require Import Clock_Model Clock_Proofs.
Import ListNotations.
Open Scope Z_scope.

(** What is assumed of the mutex and the clocks.  A blocking wait returns false
    only after its deadline, never for absl::InfiniteFuture.  Between the start
    and the return of the last wait the thread cannot have used more CPU time
    than has passed. *)
Record lawful (deadline : option Z) (rd : readings) : Prop := {
  w_last : rd_last rd = false -> exists d, deadline = Some d /\ d <= rd_last_wall rd;
  w_cpu_last : forall y, In y (rd_tries rd) -> ty_cpu y - rd_cpu rd <= rd_last_wall rd - rd_start rd }.

(** Locking: the mutex is held on return, was never locked twice and never
    released without being held; waiting: held before and after. *)
Theorem C87_lock_held : forall deadline spin rd r ops w n,
  lock_when_with_deadline deadline spin rd = Returned r ops w n -> holds false ops = Some true.
Proof.
  intros dl spin rd r ops w n H. unfold lock_when_with_deadline in H. destruct spin; [|injection H as <- <- <- <-; reflexivity].
  rewrite lock_loop in H. pose proof (loop_ops [MLock] [MLock; MUnlock] false eq_refl eq_refl (spin_until dl rd) (rd_tries rd) [] 0%nat false eq_refl) as K.
  destruct (loop _ _ _ _ _ _) as [[[[ops' w'] m]|[ops' m]]|]; [injection H as <- <- <- <-; exact K| |discriminate].
  injection H as <- <- <- <-. rewrite (holds_app _ _ _ K). reflexivity.
Qed.
Theorem C87_await_held : forall deadline spin rd r ops w n,
  await_with_deadline deadline spin rd = Returned r ops w n -> holds true ops = Some true.
Proof.
  intros dl spin rd r ops w n H. unfold await_with_deadline in H. destruct spin; [|injection H as <- <- <- <-; reflexivity].
  rewrite await_loop in H. pose proof (loop_ops [MAwait] [MAwait] true eq_refl eq_refl (spin_until dl rd) (rd_tries rd) [] 0%nat true eq_refl) as K.
  destruct (loop _ _ _ _ _ _) as [[[[ops' w'] m]|[ops' m]]|]; [injection H as <- <- <- <-; exact K| |discriminate].
  injection H as <- <- <- <-. rewrite (holds_app _ _ _ K). reflexivity.
Qed.

(** The two waits give the same answer at the same time. *)
Theorem C87_same : forall deadline spin rd r w n,
  (exists ops, lock_when_with_deadline deadline spin rd = Returned r ops w n) <->
  (exists ops, await_with_deadline deadline spin rd = Returned r ops w n).
Proof.
  intros dl spin rd r w n. unfold lock_when_with_deadline, await_with_deadline. destruct spin.
  - assert (K : forall l t o1 o2 k, match spin_lock t l o1 k, spin_await t l o2 k with
               | Some (inl (_, w1, n1)), Some (inl (_, w2, n2)) => w1 = w2 /\ n1 = n2
               | Some (inr (_, n1)), Some (inr (_, n2)) => n1 = n2
               | None, None => True
               | _, _ => False end).
    { induction l as [|y l IH]; intros t o1 o2 k; cbn [spin_lock spin_await]; [exact I|]. destruct (ty_true y); [auto|].
      destruct (before (ty_cpu y) t); [apply IH|reflexivity]. }
    specialize (K (rd_tries rd) (spin_until dl rd) [] [] 0%nat).
    destruct (spin_lock _ _ _ _) as [[[[o1 w1] n1]|[o1 n1]]|], (spin_await _ _ _ _) as [[[[o2 w2] n2]|[o2 n2]]|]; try contradiction.
    + destruct K as [-> ->]. split; intros [ops H]; injection H as <- <- <- <-; eauto.
    + subst n2. split; intros [ops H]; injection H as <- <- <- <-; eauto.
    + split; intros [ops H]; discriminate.
  - split; intros [ops H]; injection H as <- <- <- <-; eauto.
Qed.

(** True means that the condition held at the last evaluation, false that it
    did not; all evaluations before it were false. *)
Theorem C87_result : forall deadline spin rd r ops w n,
  lock_when_with_deadline deadline spin rd = Returned r ops w n ->
  Forall (fun y => ty_true y = false) (firstn (pred n) (rd_tries rd)) /\
  ((r = rd_last rd /\ w = rd_last_wall rd /\ Forall (fun y => ty_true y = false) (firstn n (rd_tries rd))) \/
   (exists y, nth_error (rd_tries rd) (pred n) = Some y /\ r = true /\ ty_true y = true /\ w = ty_wall y /\ (0 < n)%nat)).
Proof.
  intros dl spin rd r ops w n H. unfold lock_when_with_deadline in H.
  destruct spin; [|injection H as <- <- <- <-; cbn [pred firstn]; split; [constructor|left; auto]].
  rewrite lock_loop in H. pose proof (loop_saw [MLock] [MLock; MUnlock] (spin_until dl rd) (rd_tries rd) [] 0%nat) as K.
  destruct (loop _ _ _ _ _ _) as [[[[ops' w'] m]|[ops' m]]|]; [| |discriminate]; injection H as <- <- <- <-;
    destruct K as (l1 & y & l2 & E & A & B & C & D); subst m; rewrite Nat.add_0_l; cbn [pred]; rewrite E.
  - rewrite firstn_app, Nat.sub_diag, firstn_all. cbn [firstn]. rewrite app_nil_r. split; [eapply Forall_impl; [|exact D]; intros z [Z _]; exact Z|].
    right. exists y. rewrite nth_error_app2, Nat.sub_diag by lia. repeat split; auto. lia.
  - assert (F : Forall (fun z => ty_true z = false) l1) by (eapply Forall_impl; [|exact D]; intros z [Z _]; exact Z).
    assert (P1 : firstn (length l1) (l1 ++ y :: l2) = l1) by (rewrite firstn_app, Nat.sub_diag, firstn_all; apply app_nil_r).
    assert (P2 : firstn (S (length l1)) (l1 ++ y :: l2) = l1 ++ [y]).
    { rewrite firstn_app. replace (S (length l1) - length l1)%nat with 1%nat by lia. rewrite firstn_all2 by lia. reflexivity. }
    rewrite P1, P2. split; [exact F|]. left. split; [reflexivity|]. split; [reflexivity|].
    apply Forall_app. split; [exact F|]. constructor; [exact A|constructor].
Qed.

(** A wait never times out early. *)
Theorem C87_never_early : forall deadline spin rd ops w n, lawful deadline rd ->
  lock_when_with_deadline deadline spin rd = Returned false ops w n -> exists d, deadline = Some d /\ d <= w.
Proof.
  intros dl spin rd ops w n L H. destruct (C87_result _ _ _ _ _ _ _ H) as [_ [(E & -> & _)|(y & _ & E & _)]]; [|discriminate].
  apply (w_last _ _ L). congruence.
Qed.
(** A spinning wait never goes to sleep before its deadline: once it stops
    spinning, the deadline has passed. *)
Theorem C87_spins_on : forall deadline rd r ops w n, lawful deadline rd ->
  lock_when_with_deadline deadline true rd = Returned r ops w n ->
  (exists y, In y (rd_tries rd) /\ ty_true y = true /\ r = true /\ w = ty_wall y) \/
  (exists d, deadline = Some d /\ d <= w /\ (0 < n)%nat).
Proof.
  intros dl rd r ops w n L H. unfold lock_when_with_deadline in H. rewrite lock_loop in H.
  pose proof (loop_saw [MLock] [MLock; MUnlock] (spin_until dl rd) (rd_tries rd) [] 0%nat) as K.
  destruct (loop _ _ _ _ _ _) as [[[[ops' w'] m]|[ops' m]]|]; [| |discriminate]; injection H as <- <- <- <-;
    destruct K as (l1 & y & l2 & E & A & B & C & D).
  - left. exists y. rewrite E. repeat split; auto. apply in_or_app. right. left. reflexivity.
  - right. unfold spin_until, before in B. destruct dl as [d|]; [|discriminate]. apply Z.ltb_ge in B. exists d.
    split; [reflexivity|]. assert (In y (rd_tries rd)) by (rewrite E; apply in_or_app; right; left; reflexivity).
    pose proof (w_cpu_last _ _ L y H). lia.
Qed.
(** Without a deadline it spins until the condition holds. *)
Theorem C87_no_deadline : forall rd r ops w n,
  lock_when_with_deadline None true rd = Returned r ops w n -> r = true /\ exists y, In y (rd_tries rd) /\ ty_true y = true /\ w = ty_wall y.
Proof.
  intros rd r ops w n H. unfold lock_when_with_deadline in H. rewrite lock_loop in H.
  pose proof (loop_saw [MLock] [MLock; MUnlock] (spin_until None rd) (rd_tries rd) [] 0%nat) as K.
  destruct (loop _ _ _ _ _ _) as [[[[ops' w'] m]|[ops' m]]|]; [| |discriminate]; injection H as <- <- <- <-;
    destruct K as (l1 & y & l2 & E & A & B & C & D); [|discriminate].
  split; [reflexivity|]. exists y. rewrite E. repeat split; auto. apply in_or_app. right. left. reflexivity.
Qed.
(** With one it takes at most one turn per unit of CPU time if every turn uses
    some, and at least one turn even when the deadline is over. *)
Theorem C87_turns : forall d rd,
  (forall l1 y l2, rd_tries rd = l1 ++ y :: l2 -> rd_cpu rd + Z.of_nat (S (length l1)) <= ty_cpu y) ->
  Z.max 1 (d - rd_start rd) <= Z.of_nat (length (rd_tries rd)) ->
  exists r ops w n, lock_when_with_deadline (Some d) true rd = Returned r ops w n /\ 1 <= Z.of_nat n <= Z.max 1 (d - rd_start rd).
Proof.
  intros d rd U L. unfold lock_when_with_deadline. rewrite lock_loop.
  pose proof (loop_saw [MLock] [MLock; MUnlock] (spin_until (Some d) rd) (rd_tries rd) [] 0%nat) as K.
  assert (B : forall l1 y l2, rd_tries rd = l1 ++ y :: l2 -> Forall (fun z => ty_true z = false /\ before (ty_cpu z) (spin_until (Some d) rd) = true) l1 ->
     Z.of_nat (length l1) < Z.max 1 (d - rd_start rd)).
  { intros l1 y l2 E F. destruct l1 as [|x l1' _] using rev_ind; [cbn [length]; lia|].
    rewrite <- app_assoc in E. pose proof (U _ _ _ E) as Uz. apply Forall_app in F. destruct F as [_ F]. inversion F as [|? ? [_ Fz] _]. subst.
    unfold spin_until, before in Fz. apply Z.ltb_lt in Fz. rewrite app_length. cbn [length] in *. lia. }
  destruct (loop _ _ _ _ _ _) as [[[[ops' w'] m]|[ops' m]]|].
  - destruct K as (l1 & y & l2 & E & _ & _ & -> & D). eexists _, _, _, _. split; [reflexivity|]. specialize (B _ _ _ E D). lia.
  - destruct K as (l1 & y & l2 & E & _ & _ & -> & D). eexists _, _, _, _. split; [reflexivity|]. specialize (B _ _ _ E D). lia.
  - exfalso. destruct (rd_tries rd) as [|x l _] using rev_ind; [cbn [length] in L; lia|].
    pose proof (U l x [] eq_refl) as Ux. apply Forall_app in K. destruct K as [_ K]. inversion K as [|? ? [_ Kz] _]; subst.
    unfold spin_until, before in Kz. apply Z.ltb_lt in Kz. rewrite app_length in L. cbn [length] in *. lia.
Qed.

(** The spin is measured in CPU time: a thread that is not scheduled goes on
    spinning however long ago the deadline was, and may still return true. *)
Definition ex_tardy (late : Z) : readings :=
  {| rd_start := 0; rd_cpu := 0;
     rd_tries := [ {| ty_true := false; ty_wall := 100 + late; ty_cpu := 1 |};
                   {| ty_true := false; ty_wall := 101 + late; ty_cpu := 2 |};
                   {| ty_true := true; ty_wall := 102 + late; ty_cpu := 3 |} ];
     rd_last := false; rd_last_wall := 103 + late |}.
Theorem C87_on_time_refuted : forall late, 0 <= late -> exists deadline rd ops w n, lawful (Some deadline) rd /\
  lock_when_with_deadline (Some deadline) true rd = Returned true ops w n /\
  Forall (fun y => deadline + late <= ty_wall y) (rd_tries rd) /\ (1 < n)%nat.
Proof.
  intros late L. exists 100, (ex_tardy late). eexists _, _, _. split; [|split; [reflexivity|split; [|lia]]].
  - split.
    + intros _. exists 100. split; [reflexivity|]. cbn [ex_tardy rd_last_wall]. lia.
    + intros y [<-|[<-|[<-|[]]]]; cbn [ex_tardy ty_cpu rd_cpu rd_last_wall rd_start]; lia.
  - cbn [ex_tardy rd_tries]. repeat constructor; cbn [ty_wall]; lia.
Qed.

(** SpinFor returns at the first reading that shows the wanted CPU time used,
    so not before that time has passed. *)
Theorem C87_spin_for : forall start d l n, spin_for d (Some start :: l) = SpunFor n ->
  exists l1 now l2, l = map Some l1 ++ Some now :: l2 /\ n = S (length l1) /\ start + d <= now /\ Forall (fun x => x < start + d) l1.
Proof.
  intros start d l n H. unfold spin_for in H. pose proof (spin_loop_saw start d l 0) as K. rewrite H in K.
  destruct K as (l1 & now & l2 & -> & -> & A & B). exists l1, now, l2. repeat split; [lia|]. eapply Forall_impl; [|exact B]. cbn beta. intros x; lia.
Qed.
Theorem C87_spin_for_ends : forall start d l, spin_for d (Some start :: l) = SpunOn -> Forall (fun x => exists t, x = Some t /\ t < start + d) l.
Proof.
  intros start d l H. unfold spin_for in H. pose proof (spin_loop_saw start d l 0) as K. rewrite H in K.
  destruct K as (l1 & -> & B). apply Forall_forall. intros x Hx. apply in_map_iff in Hx. destruct Hx as (t & <- & Ht). exists t. split; [reflexivity|].
  rewrite Forall_forall in B. specialize (B _ Ht). lia.
Qed.
(** It ends the process exactly when it reads a clock that fails. *)
Theorem C87_spin_for_crash : forall start d l, spin_for d (start :: l) = SpunCrash <->
  start = None \/ exists t l1 l2, start = Some t /\ l = map Some l1 ++ None :: l2 /\ Forall (fun x => x < t + d) l1.
Proof.
  intros [t|] d l; [|split; [left; reflexivity|reflexivity]]. unfold spin_for. split.
  - intros H. right. pose proof (spin_loop_saw t d l 0) as K. rewrite H in K. destruct K as (l1 & l2 & -> & B). exists t, l1, l2.
    repeat split. eapply Forall_impl; [|exact B]. cbn beta. intros x; lia.
  - intros [E|(t' & l1 & l2 & E & -> & F)]; [discriminate|]. injection E as <-. generalize 0%nat.
    induction F as [|x l1 Hx F IH]; intros k; cbn [map app spin_loop]; [reflexivity|].
    destruct (Z.ltb_spec (x - t) d); [apply IH|lia].
Qed.

(** A wait of 5 that turns three times and then blocks on an expired deadline. *)
Definition ex_rd : readings :=
  {| rd_start := 1000; rd_cpu := 50;
     rd_tries := [ {| ty_true := false; ty_wall := 1001; ty_cpu := 51 |};
                   {| ty_true := false; ty_wall := 1003; ty_cpu := 53 |};
                   {| ty_true := false; ty_wall := 1006; ty_cpu := 55 |};
                   {| ty_true := true; ty_wall := 1007; ty_cpu := 56 |} ];
     rd_last := false; rd_last_wall := 1008 |}.
Lemma ex_rd_lawful : lawful (Some 1005) ex_rd.
Proof.
  split.
  - intros _. exists 1005. split; [reflexivity|]. cbn [ex_rd rd_last_wall]. lia.
  - intros y [<-|[<-|[<-|[<-|[]]]]]; cbn [ex_rd ty_cpu rd_cpu rd_last_wall rd_start]; lia.
Qed.
Example C87_example :
  lawful (Some 1005) ex_rd /\
  lock_when_with_deadline (Some 1005) true ex_rd = Returned false [MLock; MUnlock; MLock; MUnlock; MLock; MUnlock; MLock] 1008 3 /\
  await_with_deadline (Some 1005) true ex_rd = Returned false [MAwait; MAwait; MAwait; MAwait] 1008 3 /\
  lock_when_with_deadline (Some 1005) false ex_rd = Returned false [MLock] 1008 0 /\
  lock_when_with_deadline None true ex_rd = Returned true [MLock; MUnlock; MLock; MUnlock; MLock; MUnlock; MLock] 1007 4 /\
  lock_when_with_deadline (Some 900) true ex_rd = Returned false [MLock; MUnlock; MLock] 1008 1.
Proof. split; [exact ex_rd_lawful|]. vm_compute. auto. Qed.
Example C87_turns_example :
  (forall l1 y l2, rd_tries ex_rd = l1 ++ y :: l2 -> rd_cpu ex_rd + Z.of_nat (S (length l1)) <= ty_cpu y) /\
  Z.max 1 (1004 - rd_start ex_rd) <= Z.of_nat (length (rd_tries ex_rd)).
Proof.
  split; [|vm_compute; discriminate]. intros l1 y l2 E. cbn [ex_rd rd_tries rd_cpu] in *.
  destruct l1 as [|a [|b [|c [|d l1]]]]; cbn [app] in E; injection E; intros; subst; cbn [ty_cpu length]; try lia.
  all: destruct l1; discriminate.
Qed.
Example C87_spin_for_example :
  spin_for 5 [Some 10; Some 11; Some 14; Some 17; None] = SpunFor 3 /\
  spin_for 5 [Some 10; Some 11; None; Some 17] = SpunCrash /\
  spin_for 5 [Some 10; Some 11; Some 12] = SpunOn.
Proof. repeat split. Qed.

Print Assumptions C87_lock_held.
Print Assumptions C87_await_held.
Print Assumptions C87_same.
Print Assumptions C87_result.
Print Assumptions C87_never_early.
Print Assumptions C87_spins_on.
Print Assumptions C87_no_deadline.
Print Assumptions C87_turns.
Print Assumptions C87_on_time_refuted.
Print Assumptions C87_spin_for.
Print Assumptions C87_spin_for_ends.
Print Assumptions C87_spin_for_crash.
