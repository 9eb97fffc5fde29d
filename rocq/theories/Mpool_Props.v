(** C98: tasks and heap objects of the thread pool over Mercury's. *)
From Coq Require Import List Bool Arith Lia Permutation.
From Verif Require Import Mpool_Model Mpool_Proofs.
Import ListNotations.
Open Scope nat_scope.

(** The tasks given to AddTask, in order. *)
Fixpoint given (l : list mev) : list nat := match l with [] => [] | MAdd t _ :: r => t :: given r | _ :: r => given r end.
Lemma given_added l : given l = added l.
Proof. induction l as [|[] l IH]; cbn [given]; rewrite ?IH; reflexivity. Qed.
Lemma reached n l p : mp_run l (mp_make true n) = Done p -> inv l p.
Proof. intros H. exact (run_inv l [] _ _ (inv_make n) H). Qed.

(** Every task given was called once, or is yet to be called once; those called
    have returned, or are running. *)
Theorem C98_once : forall n l p, mp_run l (mp_make true n) = Done p ->
  exists waiting running, Permutation (given l) (p_started p ++ waiting) /\ Permutation (p_started p) (p_finished p ++ running) /\ length waiting + length running <= length (p_queue p) + n.
Proof.
  intros n l p H. pose proof (reached n l p H) as I. exists (tasks_at (p_heap p) (flat_map to_call (p_workers p)) ++ tasks_at (p_heap p) (p_queue p)), (tasks_at (p_heap p) (flat_map in_call (p_workers p))).
  rewrite given_added. split; [exact (i_tasks _ _ I)|]. split; [exact (i_run _ _ I)|].
  assert (W : length (p_workers p) = n).
  { clear I. rewrite <- (repeat_length (@None (nat * phase)) n). change (repeat None n) with (p_workers (mp_make true n)). revert H. generalize (mp_make true n). induction l as [|e l IH]; intros q H; cbn [mp_run] in H; [injection H as <-; reflexivity|].
    destruct (mp_step q e) as [q1| |] eqn:E; try discriminate H. rewrite (IH _ H). exact (workers_length _ _ _ E). }
  assert (T : forall h q, length (tasks_at h q) <= length q).
  { intros h q. unfold tasks_at. induction q as [|a q IH]; [cbn; lia|]. cbn [flat_map]. rewrite app_length. cbn [length]. unfold task_at at 1. destruct (find_obj a h); cbn [length]; lia. }
  assert (C : forall ws : list (option (nat * phase)), length (flat_map to_call ws) + length (flat_map in_call ws) <= length ws).
  { induction ws as [|[[a []]|] ws IH]; cbn [flat_map to_call in_call app length]; lia. }
  rewrite app_length. pose proof (T (p_heap p) (flat_map to_call (p_workers p))). pose proof (T (p_heap p) (flat_map in_call (p_workers p))). pose proof (T (p_heap p) (p_queue p)). pose proof (C (p_workers p)). lia.
Qed.
(** Nothing undefined happens, as long as the pool is not used after it was
    destroyed. *)
Theorem C98_safe : forall n l p e, mp_run l (mp_make true n) = Done p -> mp_step p e = Undefined -> In MDestroy l /\ ((exists t a, e = MAdd t a) \/ e = MDestroy).
Proof.
  intros n l p e H U. destruct (safe l p e (reached n l p H) U) as [D E]. split; [|exact E]. clear U E.
  assert (G : forall l q, mp_run l q = Done p -> p_destroyed q = true \/ In MDestroy l); [|destruct (G l _ H) as [K|K]; [discriminate K|exact K]].
  clear - D. induction l as [|e l IH]; intros q H; cbn [mp_run] in H; [injection H as ->; auto|]. destruct (mp_step q e) as [q1| |] eqn:E; try discriminate H. destruct (IH _ H) as [K|K]; [|right; right; exact K].
  destruct e as [t a|w|w|w|w|]; try (right; left; reflexivity); left; unfold mp_step in E.
  - destruct (_ && _); [|discriminate E]. destruct (find_obj _ _); [discriminate E|]. injection E as <-. exact K.
  - destruct (nth_error _ _) as [[x|]|]; try discriminate E. destruct (p_queue q); [discriminate E|]. injection E as <-. exact K.
  - destruct (nth_error _ _) as [[[a []]|]|]; try discriminate E. destruct (find_obj _ _); [|discriminate E]. injection E as <-. exact K.
  - destruct (nth_error _ _) as [[[a []]|]|]; try discriminate E. destruct (find_obj _ _); [|discriminate E]. injection E as <-. exact K.
  - destruct (nth_error _ _) as [[[a []]|]|]; try discriminate E. destruct (find_obj _ _); [|discriminate E]. injection E as <-. exact K.
Qed.
(** When the destructor returns every task has returned, and no object is left. *)
Theorem C98_destroyed : forall n l p, mp_run l (mp_make true n) = Done p -> p_destroyed p = true -> Permutation (given l) (p_finished p) /\ p_heap p = [].
Proof.
  intros n l p H D. pose proof (reached n l p H) as I. destruct (i_end _ _ I D) as [Q B]. pose proof (i_heap _ _ I) as P. rewrite Q, B in P. apply Permutation_sym, Permutation_nil in P.
  assert (E : p_heap p = []) by (destruct (p_heap p); [reflexivity|discriminate P]). split; [|exact E]. rewrite given_added. pose proof (i_tasks _ _ I) as T. pose proof (i_run _ _ I) as R. rewrite Q, E in T. rewrite E in R.
  assert (Z : forall q, tasks_at [] q = []) by (intros q; unfold tasks_at; induction q as [|a q IH]; [reflexivity|exact IH]). rewrite !Z in T. rewrite Z in R. rewrite !app_nil_r in *. eapply perm_trans; eassumption.
Qed.
(** So it is once the destructor has returned, whatever happens then; and any
    further use of the pool is undefined. *)
Theorem C98_gone : forall n l p, mp_run l (mp_make true n) = Done p -> In MDestroy l ->
  Permutation (given l) (p_finished p) /\ p_heap p = [] /\ (forall t a, mp_step p (MAdd t a) = Undefined) /\ mp_step p MDestroy = Undefined.
Proof.
  intros n l p H I. assert (D : p_destroyed p = true).
  { assert (G : forall l q, mp_run l q = Done p -> p_destroyed q = true \/ In MDestroy l -> p_destroyed p = true); [|exact (G l _ H (or_intror I))].
    clear. induction l as [|e l IH]; intros q H K; cbn [mp_run] in H; [injection H as <-; destruct K as [K|[]]; exact K|].
    destruct (mp_step q e) as [q1| |] eqn:E; try discriminate H. apply (IH _ H). destruct K as [K|[->|K]]; [left|left|right; exact K].
    - destruct e as [t a|w|w|w|w|]; unfold mp_step in E.
      + destruct (_ && _); [|discriminate E]. destruct (find_obj _ _); [discriminate E|]. injection E as <-. exact K.
      + destruct (nth_error _ _) as [[x|]|]; try discriminate E. destruct (p_queue q); [discriminate E|]. injection E as <-. exact K.
      + destruct (nth_error _ _) as [[[a []]|]|]; try discriminate E. destruct (find_obj _ _); [|discriminate E]. injection E as <-. exact K.
      + destruct (nth_error _ _) as [[[a []]|]|]; try discriminate E. destruct (find_obj _ _); [|discriminate E]. injection E as <-. exact K.
      + destruct (nth_error _ _) as [[[a []]|]|]; try discriminate E. destruct (find_obj _ _); [|discriminate E]. injection E as <-. exact K.
      + destruct (p_valid q && _); [|discriminate E]. destruct (_ && _); [|discriminate E]. injection E as <-. reflexivity.
    - cbn [mp_step] in E. destruct (p_valid q && _); [|discriminate E]. destruct (_ && _); [|discriminate E]. injection E as <-. reflexivity. }
  destruct (C98_destroyed n l p H D) as [P Q]. split; [exact P|]. split; [exact Q|]. unfold mp_step. rewrite D. cbn [negb]. rewrite andb_false_r. split; reflexivity.
Qed.
(** What the workers do ends: whatever they do, after finitely many steps the
    destructor gets through, and until then one of them can go on. *)
Theorem C98_drains : forall n l p, 0 < n -> mp_run l (mp_make true n) = Done p -> p_destroyed p = false ->
  forall l' p', (forall e, In e l' -> match e with MAdd _ _ | MDestroy => False | _ => True end) -> mp_run l' p = Done p' ->
  length l' <= 4 * length (p_heap p) /\
  ((exists p2, mp_step p' MDestroy = Done p2) \/ exists e p2, match e with MAdd _ _ | MDestroy => False | _ => True end /\ mp_step p' e = Done p2).
Proof.
  intros n l p N H D l' p' F H'. pose proof (reached n l p H) as I. pose proof (run_inv l' l p p' I H') as I'.
  assert (W : forall l q q', mp_run l q = Done q' -> length (p_workers q') = length (p_workers q)).
  { clear. induction l as [|e l IH]; intros q q' H; cbn [mp_run] in H; [injection H as <-; reflexivity|]. destruct (mp_step q e) as [q1| |] eqn:E; try discriminate H. rewrite (IH _ _ H). exact (workers_length _ _ _ E). }
  assert (D' : p_destroyed p' = false).
  { clear - D F H'. revert p D F H'. induction l' as [|e l IH]; intros q D F H; cbn [mp_run] in H; [injection H as <-; exact D|]. destruct (mp_step q e) as [q1| |] eqn:E; try discriminate H.
    apply (IH q1); [|intros e' K; apply F; right; exact K|exact H]. specialize (F e (or_introl eq_refl)). destruct e as [t a|w|w|w|w|]; try destruct F; unfold mp_step in E.
    - destruct (nth_error _ _) as [[x|]|]; try discriminate E. destruct (p_queue q); [discriminate E|]. injection E as <-. exact D.
    - destruct (nth_error _ _) as [[[a []]|]|]; try discriminate E. destruct (find_obj _ _); [|discriminate E]. injection E as <-. exact D.
    - destruct (nth_error _ _) as [[[a []]|]|]; try discriminate E. destruct (find_obj _ _); [|discriminate E]. injection E as <-. exact D.
    - destruct (nth_error _ _) as [[[a []]|]|]; try discriminate E. destruct (find_obj _ _); [|discriminate E]. injection E as <-. exact D. }
  split.
  - assert (M : length l' + left_to_do p' = left_to_do p).
    { clear - F H'. revert p F H'. induction l' as [|e l IH]; intros q F H; cbn [mp_run] in H; [injection H as <-; reflexivity|]. destruct (mp_step q e) as [q1| |] eqn:E; try discriminate H.
      rewrite <- (step_measure q e q1 (F e (or_introl eq_refl)) E). cbn [length]. rewrite <- (IH q1); [lia|intros e' K; apply F; right; exact K|exact H]. }
    assert (B : left_to_do p <= 4 * length (p_heap p)); [|lia]. pose proof (Permutation_length (i_heap _ _ I)) as P. rewrite map_length, app_length in P. rewrite P. unfold left_to_do.
    assert (K : forall ws, list_sum (map steps_of ws) <= 4 * length (flat_map busy ws)); [|specialize (K (p_workers p)); lia].
    clear. induction ws as [|[[a []]|] ws IH]; [apply le_n|..]; cbn [map flat_map]; change (list_sum (?x :: ?r)) with (x + list_sum r); rewrite app_length; cbn [steps_of busy length]; lia.
  - destruct (Nat.eq_dec (left_to_do p') 0) as [Z|Z].
    + left. unfold mp_step. rewrite (i_valid _ _ I'), D'. cbn [andb negb]. unfold left_to_do in Z. destruct (p_queue p'); cbn [length] in Z; [|lia].
      assert (A : forallb idle (p_workers p') = true); [|rewrite A; eexists; reflexivity]. clear - Z. induction (p_workers p') as [|[[a []]|] ws IH]; [reflexivity|..]; cbn [map] in Z; change (list_sum (?x :: ?r)) with (x + list_sum r) in Z; cbn [steps_of] in Z; [lia|lia|lia|exact (IH Z)].
    + right. assert (Wk : length (p_workers p') = n) by (rewrite (W _ _ _ H'), (W _ _ _ H); apply repeat_length). destruct (progress _ _ I') as (e & p2 & K & E); [lia|lia|]. exists e, p2. split; [exact K|exact E].
Qed.
(** One worker calls the tasks in the order in which they were given. *)
Theorem C98_order : forall l p, mp_run l (mp_make true 1) = Done p -> exists waiting, given l = p_started p ++ waiting.
Proof.
  intros l p H. assert (O : in_order [] (mp_make true 1)) by (exists None; split; reflexivity). destruct (run_order l [] _ _ (inv_make 1) O H) as (x & _ & E). rewrite given_added. eexists. exact E.
Qed.
(** Finding: if hg_thread_pool_init fails, the pointer it did not set is used all
    the same, if only by the destructor. *)
Theorem C98_init_refuted : forall n task addr, mp_step (mp_make false n) (MAdd task addr) = Undefined /\ mp_step (mp_make false n) MDestroy = Undefined.
Proof. intros n task addr. split; reflexivity. Qed.

Print Assumptions C98_once.
Print Assumptions C98_safe.
Print Assumptions C98_destroyed.
Print Assumptions C98_gone.
Print Assumptions C98_drains.
Print Assumptions C98_order.
Print Assumptions C98_init_refuted.

(** ** Examples *)
(** Two workers, three tasks; an address is used again once it is free; the
    second task returns first. *)
Definition ex_events : list mev := [MAdd 7 100; MAdd 8 101; MTake 0; MTake 1; MCall 0; MCall 1; MReturn 1; MDelete 1; MAdd 9 101; MReturn 0].
Definition seen (o : outcome) : option (list nat * list nat * list object * list nat) := match o with Done p => Some (p_started p, p_finished p, p_heap p, p_queue p) | _ => None end.
Example C98_once_ex : seen (mp_run ex_events (mp_make true 2)) = Some ([7; 8], [8; 7], [mkObj 101 9; mkObj 100 7], [101]).
Proof. reflexivity. Qed.
Example C98_destroyed_ex : mp_run (ex_events ++ [MDestroy]) (mp_make true 2) = Waits /\
  seen (mp_run (ex_events ++ [MDelete 0; MTake 1; MCall 1; MReturn 1; MDelete 1; MDestroy]) (mp_make true 2)) = Some ([7; 8; 9], [8; 7; 9], [], []).
Proof. split; reflexivity. Qed.
Example C98_safe_ex : mp_run [MDestroy; MAdd 7 100] (mp_make true 2) = Undefined /\ mp_run [MAdd 7 100; MAdd 8 100] (mp_make true 2) = Waits.
Proof. split; reflexivity. Qed.
Example C98_gone_ex : exists p, mp_run (ex_events ++ [MDelete 0; MTake 1; MCall 1; MReturn 1; MDelete 1; MDestroy]) (mp_make true 2) = Done p /\ p_finished p = [8; 7; 9].
Proof. eexists. split; vm_compute; reflexivity. Qed.
Example C98_drains_ex : exists p, mp_run ex_events (mp_make true 2) = Done p /\ p_destroyed p = false /\ length (p_heap p) = 2 /\ mp_step p MDestroy = Waits.
Proof. eexists. split; [vm_compute; reflexivity|]. repeat split. Qed.
Example C98_order_ex :
  seen (mp_run [MAdd 7 100; MAdd 8 101; MAdd 9 102; MTake 0; MCall 0; MReturn 0; MDelete 0; MTake 0; MCall 0] (mp_make true 1)) = Some ([7; 8], [7], [mkObj 102 9; mkObj 101 8], [102]).
Proof. reflexivity. Qed.
