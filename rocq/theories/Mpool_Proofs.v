From Coq Require Import List Bool Arith Lia Permutation.
From Verif Require Import Mpool_Model.
Import ListNotations.
Open Scope nat_scope.

Lemma set_worker_at l : forall w x y, nth_error l w = Some x -> exists a b, l = a ++ x :: b /\ set_worker w y l = a ++ y :: b.
Proof.
  induction l as [|z l IH]; intros [|w] x y H; cbn [nth_error] in H; try discriminate H.
  - injection H as ->. exists [], l. auto.
  - destruct (IH _ _ y H) as (a & b & -> & E). exists (z :: a), b. split; [reflexivity|]. cbn [set_worker app]. rewrite E. reflexivity.
Qed.
Definition busy (x : option (nat * phase)) : list nat := match x with Some (a, _) => [a] | None => [] end.
Definition in_call (x : option (nat * phase)) : list nat := match x with Some (a, Calling) => [a] | _ => [] end.
Definition to_call (x : option (nat * phase)) : list nat := match x with Some (a, ToCall) => [a] | _ => [] end.
Definition task_at (h : list object) (a : nat) : list nat := match find_obj a h with Some o => [b_task o] | None => [] end.
Definition tasks_at (h : list object) (l : list nat) : list nat := flat_map (task_at h) l.
Definition added (l : list mev) : list nat := flat_map (fun e => match e with MAdd t _ => [t] | _ => [] end) l.
Record inv (l : list mev) (p : mpool) : Prop := {
  i_valid : p_valid p = true;
  i_nodup : NoDup (map b_addr (p_heap p));
  i_heap : Permutation (map b_addr (p_heap p)) (p_queue p ++ flat_map busy (p_workers p));
  i_tasks : Permutation (added l) (p_started p ++ tasks_at (p_heap p) (flat_map to_call (p_workers p)) ++ tasks_at (p_heap p) (p_queue p));
  i_run : Permutation (p_started p) (p_finished p ++ tasks_at (p_heap p) (flat_map in_call (p_workers p)));
  i_end : p_destroyed p = true -> p_queue p = [] /\ flat_map busy (p_workers p) = [] }.

Lemma find_in a h : In a (map b_addr h) -> exists o, find_obj a h = Some o /\ b_addr o = a.
Proof.
  intros H. apply in_map_iff in H. destruct H as (o & E & I). unfold find_obj. destruct (find (fun o0 => b_addr o0 =? a) h) as [o'|] eqn:F.
  - exists o'. split; [reflexivity|]. apply find_some in F. apply Nat.eqb_eq. exact (proj2 F).
  - exfalso. apply (find_none _ _ F) in I. rewrite E, Nat.eqb_refl in I. discriminate I.
Qed.
Lemma find_not a h : find_obj a h = None -> ~ In a (map b_addr h).
Proof. intros F I. destruct (find_in _ _ I) as (o & E & _). congruence. Qed.
Lemma task_other a o h : b_addr o <> a -> task_at (o :: h) a = task_at h a.
Proof. intros N. unfold task_at, find_obj. cbn [find]. apply Nat.eqb_neq in N. rewrite N. reflexivity. Qed.
Lemma tasks_other o h l : ~ In (b_addr o) l -> tasks_at (o :: h) l = tasks_at h l.
Proof. intros N. unfold tasks_at. induction l as [|a l IH]; [reflexivity|]. cbn [flat_map]. rewrite task_other, IH; [reflexivity| |]; intros H; apply N; [right; exact H|left; auto]. Qed.
Lemma task_removed a b h : a <> b -> task_at (remove_obj b h) a = task_at h a.
Proof.
  intros N. unfold task_at, find_obj, remove_obj. induction h as [|o h IH]; [reflexivity|]. cbn [filter]. destruct (b_addr o =? b) eqn:E; cbn [negb].
  - rewrite IH. cbn [find]. apply Nat.eqb_eq in E. assert (Q : (b_addr o =? a) = false) by (apply Nat.eqb_neq; congruence). rewrite Q. reflexivity.
  - cbn [find]. destruct (b_addr o =? a); [reflexivity|exact IH].
Qed.
Lemma tasks_removed b h l : ~ In b l -> tasks_at (remove_obj b h) l = tasks_at h l.
Proof. intros N. unfold tasks_at. induction l as [|a l IH]; [reflexivity|]. cbn [flat_map]. rewrite task_removed, IH; [reflexivity| |]; intros H; apply N; [right; exact H|left; auto]. Qed.
Lemma removed_addrs b h : NoDup (map b_addr h) -> In b (map b_addr h) -> Permutation (map b_addr h) (b :: map b_addr (remove_obj b h)).
Proof.
  unfold remove_obj. induction h as [|o h IH]; intros N I; [destruct I|]. cbn [map] in N, I |- *. inversion N as [|x y N1 N2]; subst. cbn [filter]. destruct (b_addr o =? b) eqn:E; cbn [negb map].
  - apply Nat.eqb_eq in E. subst b. apply perm_skip. assert (K : filter (fun o0 => negb (b_addr o0 =? b_addr o)) h = h).
    { clear IH N N2 I. induction h as [|z h IH]; [reflexivity|]. cbn [filter map In] in *. destruct (b_addr z =? b_addr o) eqn:Q; [apply Nat.eqb_eq in Q; destruct N1; left; exact Q|]. cbn [negb]. f_equal. apply IH. intros H. apply N1. right. exact H. }
    rewrite K. apply Permutation_refl.
  - apply Nat.eqb_neq in E. destruct I as [I|I]; [congruence|]. eapply perm_trans; [apply perm_skip, (IH N2 I)|]. apply perm_swap.
Qed.
Lemma tasks_app h a b : tasks_at h (a ++ b) = tasks_at h a ++ tasks_at h b.
Proof. apply flat_map_app. Qed.
Lemma to_call_busy l a : In a (flat_map to_call l) -> In a (flat_map busy l).
Proof. intros H. apply in_flat_map in H. destruct H as (x & I & K). apply in_flat_map. exists x. split; [exact I|]. destruct x as [[b []]|]; cbn in *; tauto. Qed.
Lemma in_call_busy l a : In a (flat_map in_call l) -> In a (flat_map busy l).
Proof. intros H. apply in_flat_map in H. destruct H as (x & I & K). apply in_flat_map. exists x. split; [exact I|]. destruct x as [[b []]|]; cbn in *; tauto. Qed.
Lemma inv_make n : inv [] (mp_make true n).
Proof.
  assert (R : forall (f : option (nat * phase) -> list nat), f None = [] -> flat_map f (repeat None n) = []) by (intros f E; induction n as [|n IH]; [reflexivity|]; cbn [repeat flat_map]; rewrite E; exact IH).
  constructor; cbn [mp_make p_valid p_heap p_queue p_workers p_started p_finished p_destroyed]; try reflexivity; try discriminate; rewrite ?(R busy eq_refl), ?(R to_call eq_refl), ?(R in_call eq_refl); try apply Permutation_refl.
  apply NoDup_nil.
Qed.
Lemma added_app l e : added (l ++ [e]) = added l ++ match e with MAdd t _ => [t] | _ => [] end.
Proof. unfold added. rewrite flat_map_app. cbn [flat_map]. rewrite app_nil_r. reflexivity. Qed.
Ltac at_worker H y := let a := fresh "u" in let b := fresh "v" in let E1 := fresh "W" in let E2 := fresh "X" in destruct (set_worker_at _ _ _ y H) as (a & b & E1 & E2).
Lemma busy_in_heap l p a : inv l p -> In a (p_queue p ++ flat_map busy (p_workers p)) -> In a (map b_addr (p_heap p)).
Proof. intros I H. eapply Permutation_in; [apply Permutation_sym, (i_heap _ _ I)|exact H]. Qed.
Lemma step_inv l p e p' : inv l p -> mp_step p e = Done p' -> inv (l ++ [e]) p'.
Proof.
  intros I H. destruct p as [valid heap queue workers destroyed started finished].
  destruct I as [V N P T R D]. cbn [p_valid p_heap p_queue p_workers p_started p_finished p_destroyed] in *. unfold mp_step in H. cbn [p_valid p_heap p_queue p_workers p_started p_finished p_destroyed] in H.
  destruct e as [task addr|w|w|w|w|].
  - destruct (valid && negb destroyed) eqn:C; [|discriminate H]. destruct (find_obj addr heap) eqn:F; [discriminate H|]. injection H as <-. apply find_not in F.
    assert (F' : forall a, In a (queue ++ flat_map busy workers) -> a <> addr) by (intros a A ->; apply F; eapply Permutation_in; [apply Permutation_sym, P|exact A]).
    assert (K1 : tasks_at (mkObj addr task :: heap) (flat_map to_call workers) = tasks_at heap (flat_map to_call workers)) by (apply tasks_other; cbn [b_addr]; intros A; apply (F' addr); [apply in_or_app; right; apply to_call_busy; exact A|reflexivity]).
    assert (K2 : tasks_at (mkObj addr task :: heap) (flat_map in_call workers) = tasks_at heap (flat_map in_call workers)) by (apply tasks_other; cbn [b_addr]; intros A; apply (F' addr); [apply in_or_app; right; apply in_call_busy; exact A|reflexivity]).
    assert (K3 : tasks_at (mkObj addr task :: heap) queue = tasks_at heap queue) by (apply tasks_other; cbn [b_addr]; intros A; apply (F' addr); [apply in_or_app; left; exact A|reflexivity]).
    assert (K4 : tasks_at (mkObj addr task :: heap) [addr] = [task]) by (unfold tasks_at, task_at, find_obj; cbn [flat_map find b_addr]; rewrite Nat.eqb_refl; reflexivity).
    constructor; cbn [p_valid p_heap p_queue p_workers p_started p_finished p_destroyed map b_addr].
    + exact V.
    + apply NoDup_cons; assumption.
    + rewrite <- app_assoc. cbn [app]. apply Permutation_cons_app. exact P.
    + rewrite added_app, tasks_app, K1, K3, K4. rewrite !app_assoc. apply Permutation_app_tail. rewrite <- app_assoc. exact T.
    + rewrite K2. exact R.
    + intros E. subst destroyed. rewrite andb_false_r in C. discriminate C.
  - destruct (nth_error workers w) as [[x|]|] eqn:A; try discriminate H. destruct queue as [|a q]; [discriminate H|]. injection H as <-. at_worker A (Some (a, ToCall)). rewrite X. subst workers.
    rewrite !flat_map_app in *. cbn [flat_map busy to_call in_call app] in *. constructor; cbn [p_valid p_heap p_queue p_workers p_started p_finished p_destroyed]; rewrite ?flat_map_app; cbn [flat_map busy to_call in_call app].
    + exact V.
    + exact N.
    + eapply perm_trans; [exact P|]. rewrite !app_assoc. apply Permutation_cons_app. apply Permutation_refl.
    + rewrite added_app, app_nil_r. eapply perm_trans; [exact T|]. apply Permutation_app_head. rewrite !tasks_app. change (tasks_at heap (a :: q)) with (task_at heap a ++ tasks_at heap q).
      change (tasks_at heap (a :: flat_map to_call v)) with (task_at heap a ++ tasks_at heap (flat_map to_call v)). rewrite <- !app_assoc. apply Permutation_app_head.
      rewrite !app_assoc. apply Permutation_app_tail. apply Permutation_app_comm.
    + exact R.
    + intros E. destruct (D E) as [K _]. discriminate K.
  - destruct (nth_error workers w) as [[[a []]|]|] eqn:A; try discriminate H. destruct (find_obj a heap) as [o|] eqn:F; [|discriminate H]. injection H as <-. at_worker A (Some (a, Calling)). rewrite X. subst workers.
    rewrite !flat_map_app in *. cbn [flat_map busy to_call in_call app] in *. assert (K : task_at heap a = [b_task o]) by (unfold task_at; rewrite F; reflexivity).
    constructor; cbn [p_valid p_heap p_queue p_workers p_started p_finished p_destroyed]; rewrite ?flat_map_app; cbn [flat_map busy to_call in_call app].
    + exact V.
    + exact N.
    + exact P.
    + rewrite added_app, app_nil_r. eapply perm_trans; [exact T|]. rewrite !tasks_app. change (tasks_at heap (a :: flat_map to_call v)) with (task_at heap a ++ tasks_at heap (flat_map to_call v)). rewrite K. rewrite <- !app_assoc. apply Permutation_app_head. cbn [app].
      apply Permutation_sym, Permutation_middle.
    + rewrite tasks_app in R |- *. change (tasks_at heap (a :: flat_map in_call v)) with (task_at heap a ++ tasks_at heap (flat_map in_call v)). rewrite K. cbn [app].
      eapply perm_trans; [apply Permutation_app_comm|]. cbn [app]. rewrite app_assoc. apply Permutation_cons_app. rewrite <- app_assoc. exact R.
    + exact D.
  - destruct (nth_error workers w) as [[[a []]|]|] eqn:A; try discriminate H. destruct (find_obj a heap) as [o|] eqn:F; [|discriminate H]. injection H as <-. at_worker A (Some (a, ToDelete)). rewrite X. subst workers.
    rewrite !flat_map_app in *. cbn [flat_map busy to_call in_call app] in *. assert (K : task_at heap a = [b_task o]) by (unfold task_at; rewrite F; reflexivity).
    constructor; cbn [p_valid p_heap p_queue p_workers p_started p_finished p_destroyed]; rewrite ?flat_map_app; cbn [flat_map busy to_call in_call app].
    + exact V.
    + exact N.
    + exact P.
    + rewrite added_app, app_nil_r. exact T.
    + eapply perm_trans; [exact R|]. rewrite !tasks_app. change (tasks_at heap (a :: flat_map in_call v)) with (task_at heap a ++ tasks_at heap (flat_map in_call v)). rewrite K. rewrite <- !app_assoc. apply Permutation_app_head. cbn [app].
      apply Permutation_sym, Permutation_middle.
    + exact D.
  - destruct (nth_error workers w) as [[[a []]|]|] eqn:A; try discriminate H. destruct (find_obj a heap) as [o|] eqn:F; [|discriminate H]. injection H as <-. at_worker A (@None (nat * phase)). rewrite X. subst workers.
    rewrite !flat_map_app in *. cbn [flat_map busy to_call in_call app] in *.
    assert (M : NoDup (queue ++ flat_map busy u ++ a :: flat_map busy v)) by (eapply Permutation_NoDup; [exact P|exact N]).
    assert (Q : ~ In a (queue ++ flat_map busy u ++ flat_map busy v)) by (rewrite app_assoc in M |- *; exact (NoDup_remove_2 _ _ _ M)).
    assert (Ia : In a (map b_addr heap)) by (eapply Permutation_in; [apply Permutation_sym, P|]; rewrite app_assoc; apply in_elt).
    assert (Q1 : ~ In a (flat_map to_call u ++ flat_map to_call v)) by (intros Z; apply Q; apply in_or_app; right; apply in_app_iff in Z; apply in_or_app; destruct Z as [Z|Z]; apply to_call_busy in Z; auto).
    assert (Q2 : ~ In a (flat_map in_call u ++ flat_map in_call v)) by (intros Z; apply Q; apply in_or_app; right; apply in_app_iff in Z; apply in_or_app; destruct Z as [Z|Z]; apply in_call_busy in Z; auto).
    assert (Q3 : ~ In a queue) by (intros Z; apply Q; apply in_or_app; left; exact Z).
    pose proof (removed_addrs a heap N Ia) as G.
    constructor; cbn [p_valid p_heap p_queue p_workers p_started p_finished p_destroyed]; rewrite ?flat_map_app; cbn [flat_map busy to_call in_call app].
    + exact V.
    + apply (Permutation_NoDup G) in N. inversion N; assumption.
    + apply Permutation_cons_inv with a. eapply perm_trans; [apply Permutation_sym, G|]. eapply perm_trans; [exact P|]. rewrite !app_assoc. apply Permutation_sym, Permutation_middle.
    + rewrite added_app, app_nil_r, !tasks_removed by assumption. exact T.
    + rewrite tasks_removed by assumption. exact R.
    + intros E. destruct (D E) as [_ K]. destruct (flat_map busy u); discriminate K.
  - destruct (valid && negb destroyed) eqn:C; [|discriminate H]. destruct (forallb idle workers && _) eqn:E; [|discriminate H]. injection H as <-. apply andb_true_iff in E. destruct E as [E1 E2]. destruct queue; [|discriminate E2].
    constructor; cbn [p_valid p_heap p_queue p_workers p_started p_finished p_destroyed]; try assumption; [rewrite added_app, app_nil_r; exact T|]. intros _. split; [reflexivity|].
    clear - E1. induction workers as [|[x|] r IH]; cbn [forallb idle] in E1; [reflexivity|discriminate E1|exact (IH E1)].
Qed.
Lemma run_inv l2 : forall l p p', inv l p -> mp_run l2 p = Done p' -> inv (l ++ l2) p'.
Proof.
  induction l2 as [|e l2 IH]; intros l p p' I H; cbn [mp_run] in H; [injection H as <-; rewrite app_nil_r; exact I|]. destruct (mp_step p e) as [p1| |] eqn:E; try discriminate H.
  specialize (IH (l ++ [e]) p1 p' (step_inv _ _ _ _ I E) H). rewrite <- app_assoc in IH. exact IH.
Qed.
Lemma safe l p e : inv l p -> mp_step p e = Undefined -> p_destroyed p = true /\ ((exists t a, e = MAdd t a) \/ e = MDestroy).
Proof.
  intros I H. pose proof (i_valid _ _ I) as V.
  assert (B : forall w a q, nth_error (p_workers p) w = Some (Some (a, q)) -> find_obj a (p_heap p) <> None).
  { intros w a q A F. apply find_not in F. apply F. apply (busy_in_heap _ _ _ I). apply in_or_app. right. apply in_flat_map. exists (Some (a, q)). split; [exact (nth_error_In _ _ A)|left; reflexivity]. }
  unfold mp_step in H. rewrite V in H. cbn [andb] in H. destruct e as [t a|w|w|w|w|].
  - destruct (p_destroyed p); [split; eauto|]. cbn [negb] in H. destruct (find_obj a (p_heap p)); discriminate H.
  - destruct (nth_error (p_workers p) w) as [[x|]|]; try discriminate H. destruct (p_queue p); discriminate H.
  - destruct (nth_error (p_workers p) w) as [[[a []]|]|] eqn:A; try discriminate H. destruct (find_obj a (p_heap p)) eqn:F; [discriminate H|destruct (B _ _ _ A F)].
  - destruct (nth_error (p_workers p) w) as [[[a []]|]|] eqn:A; try discriminate H. destruct (find_obj a (p_heap p)) eqn:F; [discriminate H|destruct (B _ _ _ A F)].
  - destruct (nth_error (p_workers p) w) as [[[a []]|]|] eqn:A; try discriminate H. destruct (find_obj a (p_heap p)) eqn:F; [discriminate H|destruct (B _ _ _ A F)].
  - destruct (p_destroyed p); [auto|]. cbn [negb] in H. destruct (_ && _); discriminate H.
Qed.
(** ** Progress *)
Definition works (e : mev) : Prop := match e with MAdd _ _ | MDestroy => False | _ => True end.
Definition steps_of (x : option (nat * phase)) : nat := match x with None => 0 | Some (_, ToCall) => 3 | Some (_, Calling) => 2 | Some (_, ToDelete) => 1 end.
Definition left_to_do (p : mpool) : nat := 4 * length (p_queue p) + list_sum (map steps_of (p_workers p)).
Lemma step_measure p e p' : works e -> mp_step p e = Done p' -> S (left_to_do p') = left_to_do p.
Proof.
  intros Wk H. destruct p as [valid heap queue workers destroyed started finished]. unfold mp_step in H. cbn [p_valid p_heap p_queue p_workers p_started p_finished p_destroyed] in H. unfold left_to_do.
  destruct e as [task addr|w|w|w|w|]; try destruct Wk.
  - destruct (nth_error workers w) as [[x|]|] eqn:A; try discriminate H. destruct queue as [|a q]; [discriminate H|]. injection H as <-. at_worker A (Some (a, ToCall)). cbn [p_queue p_workers length]. rewrite X, W, !map_app, !list_sum_app. cbn [map steps_of list_sum fold_right]. lia.
  - destruct (nth_error workers w) as [[[a []]|]|] eqn:A; try discriminate H. destruct (find_obj a heap); [|discriminate H]. injection H as <-. at_worker A (Some (a, Calling)). cbn [p_queue p_workers]. rewrite X, W, !map_app, !list_sum_app. cbn [map steps_of list_sum fold_right]. lia.
  - destruct (nth_error workers w) as [[[a []]|]|] eqn:A; try discriminate H. destruct (find_obj a heap); [|discriminate H]. injection H as <-. at_worker A (Some (a, ToDelete)). cbn [p_queue p_workers]. rewrite X, W, !map_app, !list_sum_app. cbn [map steps_of list_sum fold_right]. lia.
  - destruct (nth_error workers w) as [[[a []]|]|] eqn:A; try discriminate H. destruct (find_obj a heap); [|discriminate H]. injection H as <-. at_worker A (@None (nat * phase)). cbn [p_queue p_workers]. rewrite X, W, !map_app, !list_sum_app. cbn [map steps_of list_sum fold_right]. lia.
Qed.
Lemma workers_length p e p' : mp_step p e = Done p' -> length (p_workers p') = length (p_workers p).
Proof.
  intros H. destruct p as [valid heap queue workers destroyed started finished]. unfold mp_step in H. cbn [p_valid p_heap p_queue p_workers p_started p_finished p_destroyed] in *.
  assert (L : forall w x, length (set_worker w x workers) = length workers) by (clear; induction workers as [|y r IH]; intros [|w] x; cbn [set_worker length]; auto).
  destruct e as [task addr|w|w|w|w|].
  - destruct (_ && _); [|discriminate H]. destruct (find_obj addr heap); [discriminate H|]. injection H as <-. reflexivity.
  - destruct (nth_error workers w) as [[x|]|]; try discriminate H. destruct queue; [discriminate H|]. injection H as <-. apply L.
  - destruct (nth_error workers w) as [[[a []]|]|]; try discriminate H. destruct (find_obj a heap); [|discriminate H]. injection H as <-. apply L.
  - destruct (nth_error workers w) as [[[a []]|]|]; try discriminate H. destruct (find_obj a heap); [|discriminate H]. injection H as <-. apply L.
  - destruct (nth_error workers w) as [[[a []]|]|]; try discriminate H. destruct (find_obj a heap); [|discriminate H]. injection H as <-. apply L.
  - destruct (_ && _); [|discriminate H]. destruct (_ && _); [|discriminate H]. injection H as <-. reflexivity.
Qed.
Lemma progress l p : inv l p -> 0 < length (p_workers p) -> 0 < left_to_do p -> exists e p', works e /\ mp_step p e = Done p'.
Proof.
  intros I L M.
  assert (C : (exists w a q, nth_error (p_workers p) w = Some (Some (a, q))) \/ forall w, nth_error (p_workers p) w = Some None \/ nth_error (p_workers p) w = None).
  { clear. induction (p_workers p) as [|[[a q]|] r IH]; [right; intros [|w]; right; reflexivity|left; exists 0, a, q; reflexivity|].
    destruct IH as [(w & a & q & E)|H]; [left; exists (S w), a, q; exact E|right; intros [|w]; [left; reflexivity|exact (H w)]]. }
  destruct C as [(w & a & q & E)|C].
  - assert (F : find_obj a (p_heap p) <> None).
    { intros F. apply find_not in F. apply F. apply (busy_in_heap _ _ _ I). apply in_or_app. right. apply in_flat_map. exists (Some (a, q)). split; [exact (nth_error_In _ _ E)|left; reflexivity]. }
    destruct (find_obj a (p_heap p)) as [o|] eqn:G; [|destruct (F eq_refl)].
    destruct q; [exists (MCall w)|exists (MReturn w)|exists (MDelete w)]; eexists; (split; [exact Logic.I|]); unfold mp_step; rewrite E, G; reflexivity.
  - destruct (C 0) as [E|E]; [|apply nth_error_None in E; lia]. exists (MTake 0). unfold mp_step. rewrite E. destruct (p_queue p) as [|a qs] eqn:Q; [|eexists; split; [exact Logic.I|reflexivity]].
    exfalso. unfold left_to_do in M. rewrite Q in M. cbn [length] in M. assert (Z : list_sum (map steps_of (p_workers p)) = 0); [|lia].
    clear - C. induction (p_workers p) as [|x r IH]; [reflexivity|]. destruct (C 0) as [H|H]; cbn [nth_error] in H; [injection H as ->|discriminate H]. cbn [map list_sum fold_right steps_of]. apply IH. intros w. exact (C (S w)).
Qed.
(** ** One worker *)
Definition in_order (l : list mev) (p : mpool) : Prop := exists x, p_workers p = [x] /\ added l = p_started p ++ tasks_at (p_heap p) (to_call x) ++ tasks_at (p_heap p) (p_queue p).
Lemma step_order l p e p' : inv l p -> in_order l p -> mp_step p e = Done p' -> in_order (l ++ [e]) p'.
Proof.
  intros I (x & Wx & O) H. pose proof (busy_in_heap l p) as BH. pose proof (i_nodup _ _ I) as ND. pose proof (i_heap _ _ I) as PH. destruct p as [valid heap queue workers destroyed started finished].
  cbn [p_valid p_heap p_queue p_workers p_started p_finished p_destroyed] in *. subst workers. cbn [flat_map] in *. rewrite app_nil_r in *.
  assert (B : forall a, In a (queue ++ busy x) -> In a (map b_addr heap)) by (intros a; apply BH; exact I). clear BH.
  unfold mp_step in H. cbn [p_valid p_heap p_queue p_workers p_started p_finished p_destroyed] in H. unfold in_order.
  destruct e as [task addr|[|w]|[|w]|[|w]|[|w]|]; cbn [nth_error] in H; try (destruct w; discriminate H).
  - destruct (valid && negb destroyed); [|discriminate H]. destruct (find_obj addr heap) eqn:F; [discriminate H|]. injection H as <-. apply find_not in F. exists x. split; [reflexivity|].
    cbn [p_heap p_queue p_started]. rewrite added_app, O, tasks_app, (tasks_other _ heap (to_call x)), (tasks_other _ heap queue); cbn [b_addr].
    + replace (tasks_at (mkObj addr task :: heap) [addr]) with [task] by (unfold tasks_at, task_at, find_obj; cbn [flat_map find b_addr]; rewrite Nat.eqb_refl; reflexivity). rewrite <- !app_assoc. reflexivity.
    + intros A. apply F, B, in_or_app. left. exact A.
    + intros A. apply F, B, in_or_app. right. destruct x as [[a []]|]; cbn in *; tauto.
  - destruct x as [y|]; [discriminate H|]. destruct queue as [|a q]; [discriminate H|]. injection H as <-. exists (Some (a, ToCall)). split; [reflexivity|]. cbn [p_heap p_queue p_started]. rewrite added_app, app_nil_r, O. cbn [to_call tasks_at flat_map]. rewrite app_nil_r. reflexivity.
  - destruct x as [[a []]|]; try discriminate H. destruct (find_obj a heap) as [o|] eqn:F; [|discriminate H]. injection H as <-. exists (Some (a, Calling)). split; [reflexivity|]. cbn [p_heap p_queue p_started]. rewrite added_app, app_nil_r, O. cbn [to_call tasks_at flat_map].
    unfold task_at at 1. rewrite F. cbn [app]. rewrite <- !app_assoc. reflexivity.
  - destruct x as [[a []]|]; try discriminate H. destruct (find_obj a heap) as [o|] eqn:F; [|discriminate H]. injection H as <-. exists (Some (a, ToDelete)). split; [reflexivity|]. cbn [p_heap p_queue p_started]. rewrite added_app, app_nil_r, O. reflexivity.
  - destruct x as [[a []]|]; try discriminate H. destruct (find_obj a heap) as [o|] eqn:F; [|discriminate H]. injection H as <-. exists None. split; [reflexivity|]. cbn [p_heap p_queue p_started]. rewrite added_app, app_nil_r, O. cbn [to_call tasks_at flat_map app]. f_equal.
    change (tasks_at heap queue = tasks_at (remove_obj a heap) queue). rewrite tasks_removed; [reflexivity|]. cbn [busy] in PH. apply (Permutation_NoDup PH) in ND. apply NoDup_remove_2 in ND. rewrite app_nil_r in ND. exact ND.
  - destruct (valid && negb destroyed); [|discriminate H]. destruct (_ && _); [|discriminate H]. injection H as <-. exists x. split; [reflexivity|]. cbn [p_heap p_queue p_started]. rewrite added_app, app_nil_r, O. reflexivity.
Qed.
Lemma run_order l2 : forall l p p', inv l p -> in_order l p -> mp_run l2 p = Done p' -> in_order (l ++ l2) p'.
Proof.
  induction l2 as [|e l2 IH]; intros l p p' I O H; cbn [mp_run] in H; [injection H as <-; rewrite app_nil_r; exact O|]. destruct (mp_step p e) as [p1| |] eqn:E; try discriminate H.
  specialize (IH (l ++ [e]) p1 p' (step_inv _ _ _ _ I E) (step_order _ _ _ _ I O E) H). rewrite <- app_assoc in IH. exact IH.
Qed.
