(** C29, C30, C57: sampling and logs. *)
From Coq Require Import Ascii String List ZArith Bool Arith Lia Permutation Sorted.
From Verif Require Import Base_Model Base_Proofs Sync_Model Sync_Proofs Log_Model Log_Proofs Log_Proofs2.
Import ListNotations.
Open Scope nat_scope.

(** ** C29 *)
(** A state reached by recorders running in any order. *)
Definition recorded (size : nat) (draw : nat -> nat) (l : list nat) : rsv := rsv_run size draw l (rsv0 size).
(** No slot is read before it was written, and no two recorders ever use the
    same slot at the same time. *)
Definition uses (s : rsv) (t i : nat) : Prop := rv_th s t = RFill i \/ exists n, rv_th s t = RIn n i.
Theorem C29_no_race : forall size draw l t u i, let s := recorded size draw l in
  rv_bad s = false /\ (uses s t i -> uses s u i -> t = u).
Proof.
  intros size draw l t u i s. assert (H : RI size draw s) by apply RI_run, RI0. split; [apply (R_bad _ _ _ H)|].
  assert (G : forall a b n, rv_th s a = RFill i -> rv_th s b = RIn n i -> False).
  { intros a b n A B. pose proof (R_want _ _ _ H b n i (or_intror B)) as Z. destruct (R_fill _ _ _ H a i A) as [LS _].
    pose proof (all_subs _ _ _ H Z i LS) as X. apply (R_subs _ _ _ H) in X. destruct X as [_ [_ X]].
    destruct (R_num _ _ _ H a i ltac:(rewrite A; reflexivity)) as [_ Y]. congruence. }
  intros [A|[n A]] [B|[m B]].
  - destruct (R_num _ _ _ H t i ltac:(rewrite A; reflexivity)) as [_ X]. destruct (R_num _ _ _ H u i ltac:(rewrite B; reflexivity)) as [_ Y]. congruence.
  - destruct (G t u m A B).
  - destruct (G u t n B A).
  - assert (X : rv_lock s = Some t) by (apply (R_lock _ _ _ H); eauto). assert (Y : rv_lock s = Some u) by (apply (R_lock _ _ _ H); eauto). congruence.
Qed.
Print Assumptions C29_no_race.
(** Numbers are given out without gaps or repeats. *)
Theorem C29_numbers : forall size draw l, let s := recorded size draw l in
  (forall n, n < rv_number s -> r_num (rv_th s (rv_own s n)) = Some n)
  /\ (forall t n, r_num (rv_th s t) = Some n -> n < rv_number s /\ rv_own s n = t).
Proof. intros size draw l s. assert (H : RI size draw s) by apply RI_run, RI0. split; [apply (R_own _ _ _ H)|apply (R_num _ _ _ H)]. Qed.
Print Assumptions C29_numbers.
(** When all are done: with no more RPCs than the limit all are kept, in the
    order of their numbers. *)
Theorem C29_all_kept : forall size draw l key, let s := recorded size draw l in at_rest s -> rv_number s <= size ->
  unpack_order size key s = Some (map (rv_own s) (seq 0 (rv_number s))).
Proof.
  intros size draw l key s R L. assert (H : RI size draw s) by apply RI_run, RI0. unfold unpack_order.
  destruct (Nat.leb_spec (rv_number s) size); [|lia].
  assert (G : forall k a, a + k <= rv_number s -> read_slots (rv_slot s) (seq a k) = Some (map (rv_own s) (seq a k))).
  { induction k as [|k IH]; intros a K; cbn [seq read_slots map]; [reflexivity|].
    destruct (rest_slot size draw s a H R) as [m [A [B [C D]]]]; [lia|lia|]. rewrite A, IH by lia.
    assert (m = a) by (unfold target in C; destruct (Nat.ltb_spec m size); lia). now subst m. }
  apply G. lia.
Qed.
Print Assumptions C29_all_kept.
(** With more, exactly [size] different RPCs are kept: those whose number is
    the largest among the numbers aimed at their slot; they come sorted by end
    time. *)
Theorem C29_sampled : forall size draw l key, let s := recorded size draw l in at_rest s -> size < rv_number s ->
  exists ts, unpack_order size key s = Some ts /\ length ts = size /\ NoDup ts /\ StronglySorted (by_key key) ts
    /\ forall t, In t ts <-> exists m, kept_number size draw (rv_number s) m /\ rv_own s m = t.
Proof.
  intros size draw l key s R L. assert (H : RI size draw s) by apply RI_run, RI0. unfold unpack_order.
  destruct (Nat.leb_spec (rv_number s) size); [lia|].
  destruct (rest_read size draw s size H R) as [ts [A [B [C D]]]]; [lia|lia|auto|]. rewrite A. exists (sort_end key ts).
  pose proof (sort_end_perm nat key ts) as P. split; [reflexivity|]. split; [rewrite (Permutation_length P); assumption|].
  split; [eapply Permutation_NoDup; [symmetry; exact P|assumption]|]. split; [apply sort_end_sorted|].
  intros t. rewrite <- D. split; intros X; [exact (Permutation_in _ P X)|exact (Permutation_in _ (Permutation_sym P) X)].
Qed.
Print Assumptions C29_sampled.
(** What is kept depends on the numbers and the draws only, not on who came
    first to the reservoir. *)
Theorem C29_schedule_independent : forall size draw l1 l2, let s1 := recorded size draw l1 in let s2 := recorded size draw l2 in
  at_rest s1 -> at_rest s2 -> rv_number s1 = rv_number s2 -> (forall n, n < rv_number s1 -> rv_own s1 n = rv_own s2 n) ->
  forall i, rv_slot s1 i = rv_slot s2 i.
Proof.
  intros size draw l1 l2 s1 s2 R1 R2 NE OW i. assert (H1 : RI size draw s1) by apply RI_run, RI0. assert (H2 : RI size draw s2) by apply RI_run, RI0.
  destruct (Nat.lt_ge_cases i size) as [A|A]; [destruct (Nat.lt_ge_cases i (rv_number s1)) as [B|B]|].
  - destruct (rest_slot size draw s1 i H1 R1 A B) as [m [X1 [X2 [X3 X4]]]]. destruct (rest_slot size draw s2 i H2 R2 A ltac:(lia)) as [m' [Y1 [Y2 [Y3 Y4]]]].
    assert (m = m') by (assert (m <= m') by (apply Y4; [lia|assumption]); assert (m' <= m) by (apply X4; [lia|assumption]); lia). subst m'.
    rewrite X1, Y1, OW by assumption. reflexivity.
  - rewrite (rest_empty size draw s1 i H1), (rest_empty size draw s2 i H2) by (right; lia). reflexivity.
  - rewrite (rest_empty size draw s1 i H1), (rest_empty size draw s2 i H2) by (left; lia). reflexivity.
Qed.
Print Assumptions C29_schedule_independent.
(** The busy wait of 1712 and the lock never block everybody. *)
Theorem C29_progress : forall size draw l t, let s := recorded size draw l in
  rv_th s t <> RStart -> (forall n, rv_th s t <> RDone n) -> exists u, rv_th s u <> RStart /\ rsv_step size draw u s <> None.
Proof. intros size draw l t s. apply rsv_progress. apply RI_run, RI0. Qed.
Print Assumptions C29_progress.

(** Two slots, five RPCs; numbers 2, 3 and 4 draw slots 1, 1 and 3.  Recorder
    3 overtakes recorder 2 in the reservoir. *)
Definition draw5 (n : nat) : nat := match n with 2 => 1 | 3 => 1 | _ => 3 end.
Definition overtaking : list nat := [0; 1; 2; 3; 4; 2; 0; 1; 1; 0; 3; 2; 3; 3; 2; 2].
Definition in_order : list nat := [0; 1; 2; 3; 4; 0; 0; 1; 1; 2; 2; 2; 3; 3; 3].
Example C29_example : let a := recorded 2 draw5 overtaking in let b := recorded 2 draw5 in_order in
  (map (rv_th a) (seq 0 5) = map RDone (seq 0 5)) /\ rv_number a = 5 /\ rv_number b = 5
  /\ (map (rv_slot a) [0; 1; 2] = [Some (0, 0); Some (3, 3); None]) /\ (map (rv_slot b) [0; 1; 2] = [Some (0, 0); Some (3, 3); None])
  /\ unpack_order 2 (fun t => (- Z.of_nat t)%Z) a = Some [3; 0].
Proof. vm_compute. repeat split. Qed.
Example C29_example_rest : at_rest (recorded 2 draw5 overtaking) /\ 2 < rv_number (recorded 2 draw5 overtaking).
Proof.
  split; [|vm_compute; lia]. intros t. destruct t as [|[|[|[|[|t]]]]]; vm_compute; eauto.
Qed.
Example C29_example_few : at_rest (recorded 3 draw5 [1; 0; 0; 1; 1; 0]) /\ rv_number (recorded 3 draw5 [1; 0; 0; 1; 1; 0]) = 2
  /\ unpack_order 3 (fun _ => 0%Z) (recorded 3 draw5 [1; 0; 0; 1; 1; 0]) = Some [1; 0].
Proof. split; [|vm_compute; auto]. intros t. destruct t as [|[|t]]; vm_compute; eauto. Qed.
Example C29_example_wait : rv_th (recorded 2 draw5 [0; 1; 2; 2]) 2 = RSpin 2 1 /\ rsv_step 2 draw5 2 (recorded 2 draw5 [0; 1; 2; 2]) = None.
Proof. vm_compute. auto. Qed.

(** ** C30 *)
(** Recording never fails for the peers that exist, and each RPC is filed once,
    under its own service, instance and RPC, among the successes or failures,
    in the order of recording. *)
Theorem C30_recorded : forall shape es, Forall (fits shape) es -> exists l, record_all es (logs0 shape) = Some l
  /\ forall i j r ok, plog r ok (peer_of l i j) = mine i j r ok es.
Proof.
  intros shape es F. destruct (record_all_fits es (logs0 shape)) as [l E]; [now rewrite shape_logs0|]. exists l. split; [assumption|].
  intros i j r ok. rewrite (record_all_spec es _ _ i j r ok E), peer_of_logs0. destruct ok; reflexivity.
Qed.
Print Assumptions C30_recorded.
(** For a peer that does not exist the process aborts. *)
Theorem C30_bad_peer_aborts : forall e l, record_entry e l = None <-> ~ fits (shape_of l) e.
Proof.
  intros e l. split.
  - intros E F. destruct (record_entry_fits e l F) as [l' [X _]]. congruence.
  - intros N. unfold record_entry. destruct (nth_error l (en_service e)) as [sv|] eqn:N1; [|reflexivity].
    destruct (nth_error sv (en_instance e)) as [pl|] eqn:N2; [|reflexivity]. destruct N. exists (length sv). unfold shape_of.
    rewrite nth_error_map, N1. split; [reflexivity|]. apply nth_error_Some. congruence.
Qed.
Print Assumptions C30_bad_peer_aborts.

(** The peers when all action lists have merged their logs: each peer has its
    name and, in whatever order the lists came to it, its share of every list. *)
Definition merged (lists : list logs) (peers : list (list (str * list peer_log))) : Prop :=
  forall i j p, (exists sv, nth_error peers i = Some sv /\ nth_error sv j = Some p) ->
    exists order, Permutation order lists /\ snd p = fold_left (fun acc l => merge_peer (peer_of l i j) acc) order [].
Definition name_at (peers : list (list (str * list peer_log))) (i j : nat) (nm : str) : Prop :=
  exists sv p, nth_error peers i = Some sv /\ nth_error sv j = Some p /\ fst p = nm.
Lemma partials_sel : forall i j r ok order acc,
  concat (map (plog r ok) (fold_left (fun acc l => merge_peer (peer_of l i j) acc) order acc))
  = concat (map (plog r ok) acc) ++ concat (map (fun l => plog r ok (peer_of l i j)) order).
Proof.
  intros i j r ok. induction order as [|l t IH]; intros acc; cbn [fold_left map concat]; [now rewrite app_nil_r|]. rewrite IH.
  unfold merge_peer. destruct (peer_of l i j) as [|kv pl].
  - change (plog r ok []) with (sel ok ([], [])). destruct ok; reflexivity.
  - rewrite map_app, concat_app. cbn [map concat]. rewrite app_nil_r, <- app_assoc. reflexivity.
Qed.
Lemma partials_keys : forall i j order acc, Forall keys_ok order -> Forall (fun pl => NoDup (map fst pl)) acc ->
  Forall (fun pl => NoDup (map fst pl)) (fold_left (fun acc l => merge_peer (peer_of l i j) acc) order acc).
Proof.
  intros i j. induction order as [|l t IH]; intros acc H A; cbn [fold_left]; [assumption|]. inversion H as [|? ? H1 H2]; subst.
  apply IH; [assumption|]. unfold merge_peer. specialize (H1 i j). destruct (peer_of l i j); [assumption|].
  apply Forall_app. split; [assumption|]. constructor; [assumption|constructor].
Qed.
Lemma concat_nth : forall (A : Type) (ll : list (list A)) x, In x (concat ll) -> exists i j l, nth_error ll i = Some l /\ nth_error l j = Some x.
Proof.
  intros A ll x I. apply in_concat in I. destruct I as [l [I J]]. apply In_nth_error in I. apply In_nth_error in J.
  destruct I as [i I], J as [j J]. eauto.
Qed.
(** GetLogs files every recorded RPC of every action list exactly once: the
    samples under a peer's name, RPC index and outcome are those of the
    recorded RPCs, no more and no fewer. *)
Theorem C30_nothing_lost : forall shape runs lists peers i j nm r ok,
  Forall2 (fun es l => record_all es (logs0 shape) = Some l) runs lists -> merged lists peers ->
  NoDup (map fst (concat peers)) -> name_at peers i j nm ->
  Permutation (out nm r ok (get_peer_logs peers)) (concat (map (mine i j r ok) runs)).
Proof.
  intros shape runs lists peers i j nm r ok RL MG ND [sv [p [N1 [N2 NM]]]].
  assert (KS : Forall keys_ok lists).
  { clear - RL. induction RL as [|es l t u E _ IH]; constructor; [|assumption]. eapply record_all_keys; [|exact E].
    intros i j. rewrite peer_of_logs0. constructor. }
  assert (PO : Forall (Forall partials_ok) peers).
  { apply Forall_forall. intros s I. apply Forall_forall. intros q J. apply In_nth_error in I. apply In_nth_error in J.
    destruct I as [a I], J as [b J]. destruct (MG a b q) as [order [P E]]; [eauto|].
    unfold partials_ok. rewrite E. apply partials_keys; [|constructor]. eapply Permutation_Forall; [symmetry; exact P|assumption]. }
  rewrite out_get by assumption.
  (* only the peer itself carries the name *)
  assert (IP : In p (concat peers)) by (apply in_concat; exists sv; split; eapply nth_error_In; eassumption).
  assert (ON : concat (map (fun p => if str_eqb (fst p) nm then concat (map (plog r ok) (snd p)) else []) (concat peers)) = concat (map (plog r ok) (snd p))).
  { clear MG N1 N2 PO RL. induction (concat peers) as [|q t IH]; [destruct IP|]. cbn [map concat]. cbn [map] in ND. inversion ND as [|? ? ND1 ND2]; subst.
    destruct IP as [->|IP].
    - rewrite str_eqb_refl. rewrite <- (app_nil_r (concat (map (plog r ok) (snd p)))) at 2. f_equal.
      clear IH ND ND2. induction t as [|q t IH]; [reflexivity|]. cbn [map concat]. destruct (str_eqb_spec (fst q) (fst p)) as [E|_].
      + destruct ND1. left. assumption.
      + cbn. apply IH. intros X. apply ND1. right. assumption.
    - destruct (str_eqb_spec (fst q) (fst p)) as [E|_]; [destruct ND1; rewrite E; now apply in_map|]. cbn. now apply IH. }
  rewrite ON. destruct (MG i j p) as [order [P E]]; [eauto|]. rewrite E, partials_sel. cbn [map concat app].
  assert (Q : Permutation (concat (map (fun l => plog r ok (peer_of l i j)) order)) (concat (map (fun l => plog r ok (peer_of l i j)) lists))).
  { rewrite <- !flat_map_concat_map. now apply Permutation_flat_map. }
  rewrite Q. clear - RL. induction RL as [|es l t u E _ IH]; [reflexivity|]. cbn [map concat].
  rewrite (record_all_spec es _ _ i j r ok E), peer_of_logs0. apply Permutation_app; [|assumption]. destruct ok; reflexivity.
Qed.
Print Assumptions C30_nothing_lost.
(** Nothing else appears: no other names, and no empty entries. *)
Theorem C30_nothing_invented : forall peers, Forall (Forall partials_ok) peers ->
  (forall nm r ok, (forall p, In p (concat peers) -> fst p <> nm) -> out nm r ok (get_peer_logs peers) = [])
  /\ no_empty (get_peer_logs peers).
Proof.
  intros peers PO. split; [|apply get_no_empty]. intros nm r ok N. rewrite out_get by assumption.
  induction (concat peers) as [|q t IH]; [reflexivity|]. cbn [map concat]. destruct (str_eqb_spec (fst q) nm) as [E|_]; [destruct (N q (or_introl eq_refl) E)|].
  apply IH. intros p P. apply N. right. assumption.
Qed.
Print Assumptions C30_nothing_invented.
(** A sample kept by the reservoir reads the same as one recorded directly,
    unless it started at the very time of its predecessor. *)
Theorem C30_packed_same : forall st, st_error st <> Some 0%Z -> st_prior st <> Some (st_start st) ->
  sample_unpacked (pack st) = sample_direct st /\ pk_success (pack st) = st_success st.
Proof.
  intros [ok a b pr rq rs w tr er] E P. cbn in *. unfold sample_unpacked, sample_direct, pack. cbn. split; [|reflexivity].
  f_equal.
  - destruct pr as [p|]; [|reflexivity]. destruct (Z.eqb_spec (a - p) 0) as [Z|]; [|reflexivity]. destruct P. f_equal. lia.
  - destruct er as [i|]; [|reflexivity]. destruct (Z.eqb_spec i 0); [congruence|reflexivity].
Qed.
Print Assumptions C30_packed_same.
(** In that case the weight 0 turns into the default 1. *)
Theorem C30_packed_weight_refuted : exists st, st_error st <> Some 0%Z
  /\ sample_weight (sample_direct st) = 0%Z /\ sample_weight (sample_unpacked (pack st)) = 1%Z.
Proof. exists (mkState true 100 150 (Some 100%Z) 10 20 false None None). split; [discriminate|]. split; reflexivity. Qed.
Print Assumptions C30_packed_weight_refuted.

Definition sm (n : Z) : sample := mkSample n 1 None 1 1 false None None.
Definition run1 : list entry := [mkEntry 0 1 7 true (sm 1); mkEntry 1 0 7 false (sm 2); mkEntry 0 1 7 true (sm 3)].
Definition run2 : list entry := [mkEntry 0 1 7 true (sm 4); mkEntry 0 1 2 true (sm 5)].
Example C30_example : exists l1 l2,
  record_all run1 (logs0 [2; 1]) = Some l1 /\ record_all run2 (logs0 [2; 1]) = Some l2
  /\ let pr nm i j := (nm, merge_peer (peer_of l1 i j) (merge_peer (peer_of l2 i j) [])) in
     let peers := [[pr (s_ "a/0") 0 0; pr (s_ "a/1") 0 1]; [pr (s_ "b/0") 1 0]] in
     merged [l1; l2] peers /\ NoDup (map fst (concat peers))
     /\ get_peer_logs peers = [(s_ "a/1", [(7, ([sm 4; sm 1; sm 3], [])); (2, ([sm 5], []))]); (s_ "b/0", [(7, ([], [sm 2]))])].
Proof.
  eexists. eexists. split; [vm_compute; reflexivity|]. split; [vm_compute; reflexivity|]. cbv zeta. split; [|split].
  - intros i j p [sv [A B]]. eexists. split; [apply perm_swap|].
    destruct i as [|[|[|i]]]; try discriminate; injection A as <-; destruct j as [|[|[|j]]]; try discriminate; injection B as <-; reflexivity.
  - vm_compute. repeat constructor; intros X; repeat destruct X as [X|X]; try discriminate; try exact X.
  - vm_compute. reflexivity.
Qed.
Example C30_example_fits : Forall (fits [2; 1]) run1 /\ ~ fits [2; 1] (mkEntry 1 1 0 true (sm 1)).
Proof.
  split; [repeat constructor; cbn; eexists; cbn; split; try reflexivity; lia|]. intros [n [A B]]. cbn in A, B. injection A as <-. lia.
Qed.

(** ** C57 *)
(** A reported metric is the sum over all runs, and exactly the metrics that
    some run had are reported. *)
Theorem C57_sums : forall runs l a m, act_all runs [] = Some l ->
  (act_get a m l <> None <-> exists run ms, In run runs /\ In (a, ms) run /\ In m (map fst ms))
  /\ forall v, act_get a m l = Some v -> v = runs_sum a m runs.
Proof.
  intros runs l a m E. destruct (act_all_spec runs [] l a m E) as [A B]. split.
  - rewrite B. split; [intros [X|X]; [destruct X; reflexivity|assumption]|auto].
  - intros v V. unfold act_val in A. rewrite V in A. cbn in A. lia.
Qed.
Print Assumptions C57_sums.
(** The order in which the action lists finish does not matter. *)
Theorem C57_order : forall runs runs' l l' a m, Permutation runs runs' ->
  act_all runs [] = Some l -> act_all runs' [] = Some l' -> act_get a m l = act_get a m l'.
Proof.
  intros runs runs' l l' a m P E E'. destruct (C57_sums runs l a m E) as [A B]. destruct (C57_sums runs' l' a m E') as [A' B'].
  assert (S0 : runs_sum a m runs = runs_sum a m runs').
  { clear - P. induction P; cbn [runs_sum fold_right]; try lia; unfold runs_sum in *; lia. }
  destruct (act_get a m l) as [v|] eqn:G.
  - assert (X : act_get a m l' <> None).
    { apply A'. destruct (proj1 A ltac:(discriminate)) as [run [ms [X Y]]]. exists run, ms. split; [eapply Permutation_in; eassumption|assumption]. }
    destruct (act_get a m l') as [w|] eqn:G'; [|congruence]. rewrite (B v eq_refl), (B' w eq_refl), S0. reflexivity.
  - destruct (act_get a m l') as [w|] eqn:G'; [|reflexivity]. exfalso. destruct (proj1 A' ltac:(discriminate)) as [run [ms [X Y]]].
    apply (proj2 A); [|reflexivity]. exists run, ms. split; [eapply Permutation_in; [symmetry; eassumption|assumption]|assumption].
Qed.
Print Assumptions C57_order.
(** Counts, which are never negative, overflow only if their total does. *)
Theorem C57_no_overflow : forall runs, Forall run_nonneg runs -> (forall a m, (runs_sum a m runs <= int64_max)%Z) ->
  exists l, act_all runs [] = Some l.
Proof. intros runs N T. apply act_all_ok; [assumption|]. intros a m. specialize (T a m). cbn. lia. Qed.
Print Assumptions C57_no_overflow.

Definition it (n : Z) : list (str * Z) := [(s_ "iteration_count", n)].
Example C57_example : let runs := [[(s_ "spin", it 3); (s_ "cpu", it 1)]; [(s_ "cpu", it 5); (s_ "cpu", it 7)]; [(s_ "sleep", [])]] in
  Forall run_nonneg runs
  /\ option_map (fun l => (act_get (s_ "cpu") (s_ "iteration_count") l, act_get (s_ "sleep") (s_ "iteration_count") l)) (act_all runs [])
     = Some (Some 13%Z, None)
  /\ option_map (fun l => act_get (s_ "cpu") (s_ "iteration_count") l) (act_all (rev runs) []) = Some (Some 13%Z).
Proof. split; [repeat constructor; cbn; lia|]. split; vm_compute; reflexivity. Qed.
