(** Property C26, continued: actions that start with no iteration at all. *)
From Coq Require Import List ZArith Bool Lia.
From Verif Require Import Base_Model Iter_Model.
Import ListNotations.
Open Scope Z_scope.

(** Finding: the number of iterations that start at once is the smaller of
    max_parallel_iterations and the count, kept in 32 bits.  When that is zero,
    nothing ever starts and the action never completes, cancelled or not,
    whatever its time limit; so with max_parallel_iterations = 0, and with a
    multiple of 2^32. *)
Theorem C26_no_copies_refuted : forall c now0 first sch s0 s, ic_period c = None ->
  Z.min (ic_parallel c) (ic_limit c) mod 2 ^ 32 = 0 ->
  initiate c now0 first = ItNext s0 -> it_run c sch s0 = ItNext s -> it_log s = [] \/ it_log s = [ICancel].
Proof.
  intros c now0 first sch s0 s P M E R. unfold initiate in E. rewrite P in E.
  assert (T : to_int32 (Z.min (ic_parallel c) (ic_limit c)) = 0).
  { unfold to_int32. change (2 ^ 32) with 4294967296 in M. rewrite Zplus_mod, M. reflexivity. }
  rewrite T in E. cbn in E. injection E as <-.
  assert (G : forall sch s s', it_live s = [] -> it_calls s = 0%nat ->
    (it_canceled s = false /\ it_log s = [] \/ it_canceled s = true /\ it_log s = [ICancel]) ->
    it_run c sch s = ItNext s' -> it_log s' = [] \/ it_log s' = [ICancel]).
  { clear s R sch. induction sch as [|a r IH]; intros s s' L C X E; cbn [it_run] in E.
    - injection E as <-. tauto.
    - destruct (it_step c a s) as [| | |s1] eqn:A; try discriminate; [eauto|].
      apply (IH s1 s'); auto; destruct a as [k|k now|now gap| |]; cbn [it_step] in A; rewrite ?L, ?C, ?P in A;
      cbn [live_get Nat.eqb] in A; try discriminate;
      destruct X as [[X Y]|[X Y]]; rewrite X in A; try discriminate; injection A as <-; cbn [it_live it_calls it_canceled it_log]; auto.
      rewrite Y. auto. }
  eapply G; [| | |exact R]; auto.
Qed.
Print Assumptions C26_no_copies_refuted.
(** Finding: without a count, 2^31 parallel iterations, or any number that is
    negative in 32 bits, throw, though the number is positive. *)
Theorem C26_many_copies_refuted : forall par, 0 <= par < 2 ^ 32 -> par >= 2 ^ 31 ->
  forall time_limit warmup now first, initiate (mkIter (iteration_limit true None) par time_limit None warmup false) now first = ItThrow.
Proof.
  intros par P Q tl w now first. unfold initiate. cbn [ic_period ic_parallel ic_limit iteration_limit].
  change (2 ^ 32) with 4294967296 in P. change (2 ^ 31) with 2147483648 in Q.
  rewrite Z.min_l by (unfold int64_max; lia). unfold to_int32.
  replace (par + 2147483648) with (par - 2147483648 + 1 * 4294967296) by lia. rewrite Z_mod_plus_full, Z.mod_small by lia.
  destruct (Z.ltb_spec (par - 2147483648 - 2147483648) 0); [reflexivity|lia].
Qed.
Print Assumptions C26_many_copies_refuted.

Example C26_ex_no_copies : exists c1 c2 s1 s2, ic_parallel c1 = 0 /\ ic_limit c1 = 10 /\ ic_parallel c2 = 2 ^ 32 /\ ic_limit c2 = iteration_limit true None /\
  Z.min (ic_parallel c1) (ic_limit c1) mod 2 ^ 32 = 0 /\ Z.min (ic_parallel c2) (ic_limit c2) mod 2 ^ 32 = 0 /\
  initiate c1 5 0 = ItNext s1 /\ initiate c2 5 0 = ItNext s2 /\ it_run c2 [ACancel; AHandled] s2 <> ItNext s2.
Proof.
  exists (mkIter 10 0 (Some 100) None 0 false), (mkIter (iteration_limit true None) (2 ^ 32) (Some 100) None 0 false). eexists. eexists.
  repeat (split; [vm_compute; reflexivity|]). intros X. vm_compute in X. discriminate X.
Qed.
