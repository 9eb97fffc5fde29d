(** The runner: what holds in every state of a replay. *)
From Coq Require Import Ascii String List NArith ZArith Bool Arith Lia.
From Verif Require Import Base_Model Grid_Model Canon_Model Replay_Model Replay_Proofs.
Import ListNotations.
Open Scope Z_scope.

Lemma rem_lt deps k : rem deps k <> 0 -> (k < length deps)%nat.
Proof. unfold rem. destruct (nth_error deps k) eqn:E; [|congruence]. intros _. apply nth_error_Some. congruence. Qed.
Lemma release_spec t time : forall l deps ready, length deps = length (t_records t) -> (forall k, Z.of_nat (occ k l) <= rem deps k) ->
  length (fst (release t time l deps ready)) = length deps /\
  (forall k, rem (fst (release t time l deps ready)) k = rem deps k - Z.of_nat (occ k l)) /\
  (forall j, sdeps (fst (release t time l deps ready)) j = sdeps deps j) /\
  (forall j, edeps (fst (release t time l deps ready)) j = edeps deps j) /\
  exists new, snd (release t time l deps ready) = ready ++ new /\
    (forall k, occ k (map snd new) = if (0 <? occ k l)%nat && (rem deps k =? Z.of_nat (occ k l)) then 1%nat else 0%nat) /\
    (forall x k, In (x, k) new -> x = time + timing_of t k).
Proof.
  induction l as [|i r IH]; intros deps ready L H; cbn [release].
  - cbn [fst snd]. split; [reflexivity|]. split; [intro k; rewrite occ_nil; lia|]. split; [reflexivity|]. split; [reflexivity|].
    exists []. split; [symmetry; apply app_nil_r|]. split; [reflexivity|intros x k []].
  - assert (Hi : 1 <= rem deps i). { specialize (H i). rewrite occ_cons in H. destruct (Nat.eq_dec i i); [lia|congruence]. }
    assert (Li : (i < length deps)%nat) by (apply rem_lt; lia).
    destruct (nth_error deps i) as [d|] eqn:Ed; [|apply nth_error_None in Ed; lia].
    destruct (record_some t i) as [rc Er]; [lia|]. rewrite Er.
    assert (Rd : rem deps i = dp_remaining d) by (unfold rem; rewrite Ed; reflexivity).
    set (deps1 := upd i (set_remaining (dp_remaining d - 1)) deps).
    set (ready1 := if dp_remaining d - 1 =? 0 then ready ++ [(time + timing rc, i)] else ready).
    assert (R1 : forall k, rem deps1 k = if Nat.eq_dec k i then rem deps k - 1 else rem deps k).
    { intro k. unfold rem at 1, deps1. rewrite upd_nth. destruct (Nat.eq_dec k i) as [->|N]; [rewrite Ed, Rd; reflexivity|reflexivity]. }
    assert (L1 : length deps1 = length deps) by apply upd_length.
    destruct (IH deps1 ready1) as (A1 & A2 & A3 & A4 & new & A5 & A6 & A7).
    { congruence. }
    { intro k. specialize (H k). rewrite occ_cons in H. rewrite R1. destruct (Nat.eq_dec k i), (Nat.eq_dec i k); try congruence; lia. }
    split; [congruence|]. split; [intro k; rewrite A2, R1, occ_cons; destruct (Nat.eq_dec k i), (Nat.eq_dec i k); try congruence; lia|].
    split; [intro j; rewrite A3; unfold sdeps, deps1; rewrite upd_nth; destruct (Nat.eq_dec j i); [destruct (nth_error deps j)|]; reflexivity|].
    split; [intro j; rewrite A4; unfold edeps, deps1; rewrite upd_nth; destruct (Nat.eq_dec j i); [destruct (nth_error deps j)|]; reflexivity|].
    exists ((if dp_remaining d - 1 =? 0 then [(time + timing rc, i)] else []) ++ new). split; [|split].
    + rewrite A5. unfold ready1. destruct (dp_remaining d - 1 =? 0); [rewrite <- app_assoc; reflexivity|reflexivity].
    + intro k. rewrite map_app, occ_app, A6, R1, occ_cons. rewrite <- Rd in *. specialize (H k). rewrite occ_cons in H.
      destruct (Nat.eq_dec k i) as [->|N].
      * destruct (Nat.eq_dec i i); [|congruence]. destruct (Z.eqb_spec (rem deps i - 1) 0) as [E0|E0]; cbn [map snd].
        -- rewrite occ_single. destruct (Nat.eq_dec i i); [|congruence]. assert (occ i r = 0%nat) as -> by lia. cbn [Nat.ltb Nat.leb andb Nat.add].
           destruct (Z.eqb_spec (rem deps i) (Z.of_nat 1)); [reflexivity|lia].
        -- rewrite occ_nil. destruct (Nat.ltb_spec 0 (occ i r)), (Nat.ltb_spec 0 (1 + occ i r)), (Z.eqb_spec (rem deps i - 1) (Z.of_nat (occ i r))), (Z.eqb_spec (rem deps i) (Z.of_nat (1 + occ i r))); cbn [andb]; try reflexivity; lia.
      * destruct (Nat.eq_dec i k); [congruence|]. destruct (rem deps i - 1 =? 0); cbn [map snd]; rewrite ?occ_single, ?occ_nil; [destruct (Nat.eq_dec i k); [congruence|]|]; reflexivity.
    + intros x k Hin. apply in_app_iff in Hin. destruct Hin as [Hin|Hin]; [|exact (A7 x k Hin)].
      destruct (dp_remaining d - 1 =? 0); [|destruct Hin]. destruct Hin as [Hin|[]].
      apply (f_equal fst) in Hin as H1. apply (f_equal snd) in Hin as H2. cbn [fst snd] in H1, H2. subst k. unfold timing_of. rewrite Er. symmetry. exact H1.
Qed.

(** ** Counting *)
Definition sidx (e : nat * Z * target) : nat := fst (fst e).
Definition sstart (e : nat * Z * target) : Z := snd (fst e).
Definition sent_ids (s : runner) : list nat := map sidx (n_sent s).
Definition sample_ids (s : runner) : list nat := map fst (n_samples s).
Definition flight_ids (s : runner) : list nat := map cl_index (n_flight s).
Definition ready_ids (s : runner) : list nat := map snd (n_ready s).
Definition sending (p : pc) : list nat := match p with RSend i => [i] | _ => [] end.
Definition starting (p : pc) : list nat := match p with RStarted i _ => [i] | _ => [] end.
(** RPC [j] has done what record [k] waits for. *)
Definition done_for (m : tmode) (s : runner) (j : nat) : bool :=
  match m with
  | MPriorStart => (0 <? occ j (sent_ids s))%nat && (occ j (starting (n_pc s)) =? 0)%nat
  | MPriorEnd => (0 <? occ j (sample_ids s))%nat
  | _ => false
  end.
Record inv (t : trace) (local : Z) (s : runner) : Prop := {
  i_len : length (n_deps s) = length (t_records t);
  i_start : forall j k, occ k (sdeps (n_deps s) j) = if is_start (mode_of t k) then occ j (waits_for t local k) else 0%nat;
  i_end : forall j k, occ k (edeps (n_deps s) j) = if is_end (mode_of t k) then occ j (waits_for t local k) else 0%nat;
  i_rem : forall k, rem (n_deps s) k = Z.of_nat (length (filter (fun j => negb (done_for (mode_of t k) s j)) (waits_for t local k)));
  i_count : forall k, (occ k (ready_ids s) + occ k (sending (n_pc s)) + occ k (sent_ids s))%nat = if mine t local k && (rem (n_deps s) k =? 0) then 1%nat else 0%nat;
  i_flight : forall k, (occ k (flight_ids s) + occ k (sample_ids s))%nat = occ k (sent_ids s);
  i_starting : forall k, (occ k (starting (n_pc s)) <= occ k (sent_ids s))%nat;
  i_remaining : n_remaining s = Z.of_nat (length (filter (mine t local) (seq 0 (length (t_records t))))) - Z.of_nat (length (n_samples s));
  i_wait : forall dl, n_pc s = RWait dl -> n_finished s = false -> dl = earliest (n_ready s) /\ n_remaining s <> 0;
  i_done : n_pc s = RDone -> n_remaining s = 0 }.

Lemma filter_minus (f g : nat -> bool) i l : f i = true -> g i = false -> (forall j, j <> i -> g j = f j) ->
  (length (filter g l) + occ i l)%nat = length (filter f l).
Proof.
  intros Fi Gi E. induction l as [|x r IH]; [reflexivity|]. rewrite occ_cons. cbn [filter]. destruct (Nat.eq_dec x i) as [->|N].
  - rewrite Fi, Gi. cbn [length]. lia.
  - rewrite (E x N). destruct (f x); cbn [length]; lia.
Qed.
Lemma filter_same (f g : nat -> bool) l : (forall j, g j = f j) -> length (filter g l) = length (filter f l).
Proof. intro E. rewrite (filter_ext g f E). reflexivity. Qed.
Lemma waits_nonempty t local k j : In j (waits_for t local k) -> mine t local k = true.
Proof. unfold waits_for, mine. destruct (record_at t k) as [r|]; [|intros []]. destruct (addressed local r); [reflexivity|intros []]. Qed.

Lemma setup_inv t local T0 T1 s : setup t local T0 T1 = Some s -> inv t local s /\ good_distances t local.
Proof.
  unfold setup. destruct (setup_loop t local T0 T1 (length (t_records t)) 0 (map (fun _ => mkDep 0 [] []) (t_records t)) [] 0) as [[[deps ready] remaining]|] eqn:E; [|discriminate].
  intro H. injection H as <-. pose proof (setup_loop_spec t local T0 T1 (length (t_records t)) 0 _ _ _ _ eq_refl (set_up_start t local T0 T1) E) as U. cbn [fst snd] in U.
  destruct U as [U1 U2 U3 U4 U5 U6 U7 U8].
  assert (Out : forall k, (k <? length (t_records t))%nat = false -> waits_for t local k = []).
  { intros k Hk. unfold waits_for. destruct (record_at t k) eqn:F; [|reflexivity]. apply record_lt in F. apply Nat.ltb_ge in Hk. lia. }
  split; [|intros k r d Er Ar Hd; refine (U8 k r d _ Er Ar Hd); exact (record_lt _ _ _ Er)].
  constructor; cbn [n_deps n_ready n_remaining n_finished n_samples n_flight n_pc n_sent].
  - exact U1.
  - intros j k. rewrite U3. destruct (k <? length (t_records t))%nat eqn:L; [reflexivity|]. rewrite (Out k L). rewrite occ_nil. destruct (is_start _); reflexivity.
  - intros j k. rewrite U4. destruct (k <? length (t_records t))%nat eqn:L; [reflexivity|]. rewrite (Out k L). rewrite occ_nil. destruct (is_end _); reflexivity.
  - intro k. rewrite U2. assert (N : forall l, filter (fun j => negb (done_for (mode_of t k) (mkRunner T1 T1 deps ready remaining false [] [] RTop []) j)) l = l).
    { intro l. induction l as [|x r IH]; [reflexivity|]. cbn [filter]. rewrite IH. destruct (mode_of t k); reflexivity. }
    rewrite N. destruct (k <? length (t_records t))%nat eqn:L; [reflexivity|]. rewrite (Out k L). reflexivity.
  - intro k. unfold ready_ids, sent_ids. cbn [n_ready n_sent sending map]. rewrite U5, occ_nil, !Nat.add_0_r.
    destruct (k <? length (t_records t))%nat eqn:L; [reflexivity|]. cbn [andb]. destruct (mine t local k) eqn:M; [|reflexivity]. apply mine_lt in M. apply Nat.ltb_ge in L. lia.
  - reflexivity.
  - intro k. cbn [starting]. rewrite occ_nil. lia.
  - cbn [length]. lia.
  - discriminate.
  - discriminate.
Qed.
Lemma counted_once t local s k : inv t local s -> (occ k (ready_ids s) + occ k (sending (n_pc s)) + occ k (sent_ids s) <= 1)%nat.
Proof. intro V. rewrite (i_count _ _ _ V). destruct (mine t local k && (rem (n_deps s) k =? 0)); lia. Qed.
Lemma occ_le1_nodup l : (forall k, (occ k l <= 1)%nat) -> NoDup l.
Proof. apply occ_nodup. Qed.
Lemma sent_nodup t local s : inv t local s -> NoDup (sent_ids s).
Proof. intro V. apply occ_nodup. intro k. pose proof (counted_once t local s k V). lia. Qed.
Lemma sample_nodup t local s : inv t local s -> NoDup (sample_ids s).
Proof. intro V. apply occ_nodup. intro k. pose proof (counted_once t local s k V). pose proof (i_flight _ _ _ V k). lia. Qed.
Lemma sent_mine t local s k : inv t local s -> In k (sent_ids s) -> mine t local k = true.
Proof. intros V H. apply occ_In in H. pose proof (i_count _ _ _ V k) as C. destruct (mine t local k); [reflexivity|]. cbn [andb] in C. lia. Qed.
Lemma ready_mine t local s k : inv t local s -> In k (ready_ids s) -> mine t local k = true.
Proof. intros V H. apply occ_In in H. pose proof (i_count _ _ _ V k) as C. destruct (mine t local k); [reflexivity|]. cbn [andb] in C. lia. Qed.
Lemma sample_sent t local s k : inv t local s -> In k (sample_ids s) -> In k (sent_ids s).
Proof. intros V H. apply occ_In in H. apply occ_In. pose proof (i_flight _ _ _ V k). lia. Qed.
Definition all_mine (t : trace) (local : Z) : list nat := filter (mine t local) (seq 0 (length (t_records t))).
Lemma all_mine_In t local k : In k (all_mine t local) <-> mine t local k = true.
Proof.
  unfold all_mine. rewrite filter_In, in_seq. split; [tauto|]. intro H. split; [|exact H]. apply mine_lt in H. lia.
Qed.
Lemma all_mine_nodup t local : NoDup (all_mine t local).
Proof. apply NoDup_filter, seq_NoDup. Qed.
(** With no RPC left, all have a sample. *)
Lemma none_left t local s : inv t local s -> n_remaining s = 0 -> forall k, mine t local k = true -> In k (sample_ids s).
Proof.
  intros V R k M. rewrite (i_remaining _ _ _ V) in R. fold (all_mine t local) in R.
  assert (Hincl : incl (all_mine t local) (sample_ids s)).
  { apply NoDup_length_incl.
    - exact (sample_nodup _ _ _ V).
    - unfold sample_ids. rewrite map_length. lia.
    - intros j Hj. apply all_mine_In. eapply sent_mine; [exact V|]. eapply sample_sent; [exact V|exact Hj]. }
  apply Hincl, all_mine_In, M.
Qed.
Lemma some_left t local s : inv t local s -> n_remaining s <> 0 -> exists k, mine t local k = true /\ ~ In k (sample_ids s).
Proof.
  intros V R. rewrite (i_remaining _ _ _ V) in R. fold (all_mine t local) in R.
  destruct (existsb (fun k => (occ k (sample_ids s) =? 0)%nat) (all_mine t local)) eqn:E.
  - apply existsb_exists in E. destruct E as (k & Hk & E). exists k. split; [apply all_mine_In; exact Hk|]. apply occ_zero, Nat.eqb_eq, E.
  - exfalso. apply R. assert (Hall : forall k, In k (all_mine t local) -> In k (sample_ids s)).
    { intros k Hk. destruct (in_dec Nat.eq_dec k (sample_ids s)) as [H|H]; [exact H|]. exfalso.
      apply (proj2 (occ_zero _ _)) in H. assert (X : existsb (fun k => (occ k (sample_ids s) =? 0)%nat) (all_mine t local) = true).
      { apply existsb_exists. exists k. split; [exact Hk|]. apply Nat.eqb_eq. exact H. } congruence. }
    assert (L1 : (length (all_mine t local) <= length (sample_ids s))%nat) by (apply NoDup_incl_length; [apply all_mine_nodup|exact Hall]).
    assert (L2 : (length (sample_ids s) <= length (all_mine t local))%nat).
    { apply NoDup_incl_length; [exact (sample_nodup _ _ _ V)|]. intros j Hj. apply all_mine_In. eapply sent_mine; [exact V|]. eapply sample_sent; [exact V|exact Hj]. }
    unfold sample_ids in *. rewrite map_length in *. lia.
Qed.

(** ** Steps keep it *)
(** Steps that leave the counted parts alone. *)
Lemma inv_same t local s s' : inv t local s -> n_deps s' = n_deps s -> ready_ids s' = ready_ids s -> sent_ids s' = sent_ids s ->
  sample_ids s' = sample_ids s -> flight_ids s' = flight_ids s -> n_remaining s' = n_remaining s ->
  sending (n_pc s') = sending (n_pc s) -> starting (n_pc s') = starting (n_pc s) ->
  (forall dl, n_pc s' = RWait dl -> n_finished s' = false -> dl = earliest (n_ready s') /\ n_remaining s' <> 0) ->
  (n_pc s' = RDone -> n_remaining s' = 0) -> inv t local s'.
Proof.
  intros V E1 E2 E3 E4 E5 E6 E7 E8 W D. destruct V as [V1 V2 V3 V4 V5 V6 V7 V8 V9 V10].
  constructor; rewrite ?E1, ?E2, ?E3, ?E4, ?E5, ?E7, ?E8; try assumption.
  - intro k. rewrite V4. f_equal. apply filter_same. intro j. unfold done_for. rewrite E3, E4, E8. reflexivity.
  - rewrite E6, V8. f_equal. f_equal. unfold sample_ids in E4. apply (f_equal (@length nat)) in E4. rewrite !map_length in E4. congruence.
Qed.
Lemma upd_map_same {A B} (g : A -> B) f : forall l k x, nth_error l k = Some x -> g (f x) = g x -> map g (upd k f l) = map g l.
Proof.
  induction l as [|y r IH]; intros [|k] x E H; cbn [nth_error upd map] in *; try discriminate.
  - injection E as ->. rewrite H. reflexivity.
  - f_equal. exact (IH k x E H).
Qed.
Lemma finish_inv t local k s s' : inv t local s -> finish_step k s = RNext s' -> inv t local s'.
Proof.
  intros V H. unfold finish_step in H. destruct (nth_error (n_flight s) k) as [[i st [e|]]|] eqn:E; try discriminate. injection H as <-.
  eapply inv_same; [exact V| | | | | | | | | |]; try reflexivity.
  - unfold flight_ids. cbn [n_flight]. eapply upd_map_same; [exact E|reflexivity].
  - apply (i_wait _ _ _ V).
  - apply (i_done _ _ _ V).
Qed.
Lemma activate_inv t local k s s' : inv t local s -> activate_step t k s = RNext s' -> inv t local s'.
Proof.
  intros V H. unfold activate_step in H. destruct (nth_error (n_flight s) k) as [[i st [e|]]|] eqn:E; try discriminate.
  destruct (nth_error (n_deps s) i) as [d|] eqn:Ed; [|discriminate].
  assert (Fi : (0 < occ i (flight_ids s))%nat).
  { apply occ_In. unfold flight_ids. apply in_map_iff. exists (mkCall i st (Some e)). split; [reflexivity|]. eapply nth_error_In. exact E. }
  pose proof (i_flight _ _ _ V i) as F1. pose proof (counted_once _ _ _ i V) as F2. assert (Si : occ i (sample_ids s) = 0%nat) by lia.
  assert (El : edeps (n_deps s) i = dp_end d) by (unfold edeps; rewrite Ed; reflexivity).
  set (time := n_trace_start s + (st - n_trace_start s) + (e - st)) in *.
  assert (Fm : forall m j, done_for m (mkRunner (n_now s) (n_trace_start s) (n_deps s) (n_ready s) (n_remaining s - 1) true (n_samples s ++ [(i, (st - n_trace_start s, e - st))]) (without k (n_flight s)) (n_pc s) (n_sent s)) j
                      = done_for m s j || (is_end m && (j =? i)%nat)).
  { intros m j. unfold done_for, sent_ids, sample_ids. cbn [n_sent n_samples n_pc]. destruct m; cbn [is_end andb]; rewrite ?orb_false_r; try reflexivity.
    rewrite map_app, occ_app. cbn [map fst]. rewrite occ_single. destruct (Nat.eq_dec i j) as [->|N].
    - rewrite Nat.eqb_refl, orb_true_r. apply Nat.ltb_lt. lia.
    - destruct (Nat.eqb_spec j i); [congruence|]. rewrite orb_false_r, Nat.add_0_r. reflexivity. }
  assert (Pend : forall q, is_end (mode_of t q) = true ->
             (length (filter (fun j => negb (done_for (mode_of t q) s j || (is_end (mode_of t q) && (j =? i)%nat))) (waits_for t local q)) + occ i (waits_for t local q))%nat
             = length (filter (fun j => negb (done_for (mode_of t q) s j)) (waits_for t local q))).
  { intros q Hq. apply filter_minus.
    - destruct (mode_of t q); try discriminate. cbn [done_for]. rewrite Si. reflexivity.
    - rewrite Hq, Nat.eqb_refl, orb_true_r. reflexivity.
    - intros j N. destruct (Nat.eqb_spec j i); [congruence|]. rewrite andb_false_r, orb_false_r. reflexivity. }
  assert (Le : forall q, Z.of_nat (occ q (dp_end d)) <= rem (n_deps s) q).
  { intro q. rewrite <- El, (i_end _ _ _ V), (i_rem _ _ _ V). destruct (is_end (mode_of t q)) eqn:Q; [|lia]. specialize (Pend q Q). lia. }
  pose proof (release_spec t time (dp_end d) (n_deps s) (n_ready s) (i_len _ _ _ V) Le) as (A1 & A2 & A3 & A4 & new & A5 & A6 & A7).
  destruct (release t time (dp_end d) (n_deps s) (n_ready s)) as [deps ready]. cbn [fst snd] in *. injection H as <-.
  assert (Fid : forall q, (occ q (map cl_index (without k (n_flight s))) + (if Nat.eq_dec i q then 1 else 0))%nat = occ q (flight_ids s)).
  { intro q. rewrite without_map. apply without_occ. unfold flight_ids. rewrite nth_error_map, E. reflexivity. }
  pose proof (i_count _ _ _ V) as VC. pose proof (i_flight _ _ _ V) as VF.
  constructor; unfold ready_ids, sent_ids, sample_ids, flight_ids in *; cbn [n_deps n_ready n_remaining n_finished n_samples n_flight n_pc n_sent].
  - rewrite A1. apply (i_len _ _ _ V).
  - intros j q. rewrite A3. apply (i_start _ _ _ V).
  - intros j q. rewrite A4. apply (i_end _ _ _ V).
  - intro q. rewrite A2, <- El, (i_end _ _ _ V), (i_rem _ _ _ V).
    match goal with |- _ = Z.of_nat (length (filter ?g _)) => rewrite (filter_same (fun j => negb (done_for (mode_of t q) s j || (is_end (mode_of t q) && (j =? i)%nat))) g) by (intro j; f_equal; apply Fm) end.
    destruct (is_end (mode_of t q)) eqn:Q.
    + specialize (Pend q Q). rewrite Q in Pend. lia.
    + match goal with |- _ = Z.of_nat (length (filter ?g _)) => rewrite (filter_same (fun j => negb (done_for (mode_of t q) s j)) g) by (intro j; cbn [andb]; rewrite orb_false_r; reflexivity) end. lia.
  - intro q. subst ready. rewrite map_app, occ_app, A6, A2. specialize (VC q). specialize (Le q).
    destruct (Nat.ltb_spec 0 (occ q (dp_end d))) as [Q|Q]; cbn [andb].
    + assert (M : mine t local q = true).
      { rewrite <- El, (i_end _ _ _ V) in Q. destruct (is_end (mode_of t q)); [|lia]. apply (waits_nonempty t local q i), occ_In. exact Q. }
      rewrite M in VC |- *. cbn [andb] in VC |- *. destruct (Z.eqb_spec (rem (n_deps s) q) 0); [lia|].
      destruct (Z.eqb_spec (rem (n_deps s) q) (Z.of_nat (occ q (dp_end d)))), (Z.eqb_spec (rem (n_deps s) q - Z.of_nat (occ q (dp_end d))) 0); lia.
    + replace (rem (n_deps s) q - Z.of_nat (occ q (dp_end d))) with (rem (n_deps s) q) by lia. lia.
  - intro q. rewrite map_app, occ_app. cbn [map fst]. rewrite occ_single. specialize (VF q). specialize (Fid q). lia.
  - apply (i_starting _ _ _ V).
  - rewrite (i_remaining _ _ _ V), app_length. cbn [length]. lia.
  - discriminate.
  - intro D. exfalso. pose proof (none_left _ _ _ V (i_done _ _ _ V D) i) as N. apply occ_zero in Si. apply Si, N.
    apply (sent_mine _ _ _ _ V), occ_In. unfold sent_ids. lia.
Qed.
Lemma main_inv t local pd ch n s s' : inv t local s -> main_step t pd ch n s = RNext s' -> inv t local s'.
Proof.
  intros V H. unfold main_step in H. destruct (n_pc s) as [|deadline|i|i st|] eqn:P; try discriminate.
  - injection H as <-. eapply inv_same; [exact V| | | | | | | | | |]; try reflexivity.
    + rewrite P. cbn [set_pc n_pc]. destruct (n_remaining s =? 0); reflexivity.
    + rewrite P. cbn [set_pc n_pc]. destruct (n_remaining s =? 0); reflexivity.
    + cbn [set_pc n_pc n_ready n_remaining n_finished]. intros dl D _. destruct (Z.eqb_spec (n_remaining s) 0); [discriminate|]. injection D as <-. auto.
    + cbn [set_pc n_pc n_remaining]. destruct (Z.eqb_spec (n_remaining s) 0); [auto|discriminate].
  - destruct (n_finished s) eqn:F.
    + injection H as <-. eapply inv_same; [exact V| | | | | | | | | |]; try reflexivity; try (rewrite P; reflexivity); discriminate.
    + destruct deadline as [d|]; [|discriminate]. destruct (d <=? n_now s); [|discriminate]. destruct (earliest (n_ready s)) as [first|]; [|discriminate].
      destruct (nth_error (n_ready s) n) as [[x i]|] eqn:E; [|discriminate]. destruct (x =? first); [|discriminate]. injection H as <-.
      assert (Rid : forall q, (occ q (map snd (without n (n_ready s))) + (if Nat.eq_dec i q then 1 else 0))%nat = occ q (ready_ids s)).
      { intro q. rewrite without_map. apply without_occ. unfold ready_ids. rewrite nth_error_map, E. reflexivity. }
      destruct V as [V1 V2 V3 V4 V5 V6 V7 V8 V9 V10]. constructor; unfold ready_ids, sent_ids, sample_ids, flight_ids in *; cbn [n_deps n_ready n_remaining n_finished n_samples n_flight n_pc n_sent] in *; try assumption; try discriminate.
      * intro k. rewrite V4. f_equal. apply filter_same. intro j. unfold done_for, sent_ids, sample_ids. cbn [n_sent n_samples n_pc]. rewrite P. reflexivity.
      * intro k. rewrite <- V5. rewrite P. cbn [sending]. rewrite occ_nil, occ_single. specialize (Rid k). lia.
      * intro k. cbn [starting]. rewrite occ_nil. lia.
  - destruct (record_at t i) as [r|] eqn:E; [|discriminate]. destruct (destination r pd ch) as [dest|]; [|discriminate]. injection H as <-.
    pose proof (counted_once _ _ _ i V) as C1. rewrite P in C1. cbn [sending] in C1. rewrite occ_single in C1. destruct (Nat.eq_dec i i); [|congruence].
    assert (Si : occ i (sent_ids s) = 0%nat) by lia.
    destruct V as [V1 V2 V3 V4 V5 V6 V7 V8 V9 V10]. constructor; unfold ready_ids, sent_ids, sample_ids, flight_ids in *; cbn [n_deps n_ready n_remaining n_finished n_samples n_flight n_pc n_sent] in *; try assumption; try discriminate.
    + intro k. rewrite V4. f_equal. apply filter_same. intro j. f_equal. unfold done_for, sent_ids, sample_ids. cbn [n_sent n_samples n_pc map starting]. rewrite P. cbn [starting].
      destruct (mode_of t k); try reflexivity. rewrite occ_single, occ_cons, ?occ_nil. cbn [sidx fst]. destruct (Nat.eq_dec i j) as [->|N].
      * rewrite Si. reflexivity.
      * reflexivity.
    + intro k. rewrite <- V5, P. cbn [map sending sidx fst]. rewrite occ_single, occ_cons, ?occ_nil. lia.
    + intro k. rewrite map_app, occ_app. cbn [map cl_index sidx fst]. rewrite occ_single, occ_cons, <- V6. lia.
    + intro k. cbn [map starting sidx fst]. rewrite occ_single, occ_cons. destruct (Nat.eq_dec i k); lia.
  - destruct (nth_error (n_deps s) i) as [d|] eqn:Ed; [|discriminate].
    pose proof (i_starting _ _ _ V i) as Si. rewrite P in Si. cbn [starting] in Si. rewrite occ_single in Si. destruct (Nat.eq_dec i i); [|congruence].
    assert (El : sdeps (n_deps s) i = dp_start d) by (unfold sdeps; rewrite Ed; reflexivity).
    assert (Fm : forall m j, done_for m (mkRunner (n_now s) (n_trace_start s) (n_deps s) (n_ready s) (n_remaining s) (n_finished s) (n_samples s) (n_flight s) RTop (n_sent s)) j
                      = done_for m s j || (is_start m && (j =? i)%nat)).
    { intros m j. unfold done_for, sent_ids, sample_ids. cbn [n_sent n_samples n_pc starting]. rewrite P. cbn [starting]. rewrite occ_single, occ_nil.
      destruct m; cbn [is_start andb Nat.eqb]; rewrite ?orb_false_r; try reflexivity.
      destruct (Nat.eq_dec i j) as [->|N].
      - rewrite !Nat.eqb_refl, orb_true_r, andb_true_r. apply Nat.ltb_lt. unfold sent_ids in Si. lia.
      - destruct (Nat.eqb_spec j i); [congruence|]. cbn [Nat.eqb]. rewrite orb_false_r, andb_true_r. reflexivity. }
    assert (Pend : forall q, is_start (mode_of t q) = true ->
             (length (filter (fun j => negb (done_for (mode_of t q) s j || (is_start (mode_of t q) && (j =? i)%nat))) (waits_for t local q)) + occ i (waits_for t local q))%nat
             = length (filter (fun j => negb (done_for (mode_of t q) s j)) (waits_for t local q))).
    { intros q Hq. apply filter_minus.
      - destruct (mode_of t q); try discriminate. cbn [done_for]. rewrite P. cbn [starting]. rewrite occ_single. destruct (Nat.eq_dec i i); [|congruence]. cbn [Nat.eqb]. rewrite andb_false_r. reflexivity.
      - rewrite Hq, Nat.eqb_refl, orb_true_r. reflexivity.
      - intros j N. destruct (Nat.eqb_spec j i); [congruence|]. rewrite andb_false_r, orb_false_r. reflexivity. }
    assert (Le : forall q, Z.of_nat (occ q (dp_start d)) <= rem (n_deps s) q).
    { intro q. rewrite <- El, (i_start _ _ _ V), (i_rem _ _ _ V). destruct (is_start (mode_of t q)) eqn:Q; [|lia]. specialize (Pend q Q). lia. }
    pose proof (release_spec t st (dp_start d) (n_deps s) (n_ready s) (i_len _ _ _ V) Le) as (A1 & A2 & A3 & A4 & new & A5 & A6 & A7).
    destruct (release t st (dp_start d) (n_deps s) (n_ready s)) as [deps ready]. cbn [fst snd] in *. injection H as <-.
    pose proof (i_count _ _ _ V) as VC. rewrite P in VC. cbn [sending] in VC.
    constructor; unfold ready_ids, sent_ids, sample_ids, flight_ids in *; cbn [n_deps n_ready n_remaining n_finished n_samples n_flight n_pc n_sent]; try discriminate.
    + rewrite A1. apply (i_len _ _ _ V).
    + intros j q. rewrite A3. apply (i_start _ _ _ V).
    + intros j q. rewrite A4. apply (i_end _ _ _ V).
    + intro q. rewrite A2, <- El, (i_start _ _ _ V), (i_rem _ _ _ V).
      match goal with |- _ = Z.of_nat (length (filter ?g _)) => rewrite (filter_same (fun j => negb (done_for (mode_of t q) s j || (is_start (mode_of t q) && (j =? i)%nat))) g) by (intro j; f_equal; apply Fm) end.
      destruct (is_start (mode_of t q)) eqn:Q.
      * specialize (Pend q Q). rewrite Q in Pend. lia.
      * match goal with |- _ = Z.of_nat (length (filter ?g _)) => rewrite (filter_same (fun j => negb (done_for (mode_of t q) s j)) g) by (intro j; cbn [andb]; rewrite orb_false_r; reflexivity) end. lia.
    + intro q. subst ready. cbn [sending]. rewrite map_app, occ_app, A6, A2. specialize (VC q). specialize (Le q).
      destruct (Nat.ltb_spec 0 (occ q (dp_start d))) as [Q|Q]; cbn [andb].
      * assert (M : mine t local q = true).
        { rewrite <- El, (i_start _ _ _ V) in Q. destruct (is_start (mode_of t q)); [|lia]. apply (waits_nonempty t local q i), occ_In. exact Q. }
        rewrite M in VC |- *. cbn [andb] in VC |- *. destruct (Z.eqb_spec (rem (n_deps s) q) 0); [lia|].
        destruct (Z.eqb_spec (rem (n_deps s) q) (Z.of_nat (occ q (dp_start d)))), (Z.eqb_spec (rem (n_deps s) q - Z.of_nat (occ q (dp_start d))) 0); lia.
      * replace (rem (n_deps s) q - Z.of_nat (occ q (dp_start d))) with (rem (n_deps s) q) by lia. lia.
    + apply (i_flight _ _ _ V).
    + intro k. cbn [starting]. rewrite occ_nil. lia.
    + apply (i_remaining _ _ _ V).
Qed.
Lemma step_inv t local pd ch a s s' : inv t local s -> rstep t pd ch a s = RNext s' -> inv t local s'.
Proof.
  intros V H. destruct a as [d|n|k|k]; cbn [rstep] in H.
  - destruct (d <? 0); [discriminate|]. injection H as <-. eapply inv_same; [exact V| | | | | | | | | |]; try reflexivity.
    + apply (i_wait _ _ _ V).
    + apply (i_done _ _ _ V).
  - exact (main_inv _ _ _ _ _ _ _ V H).
  - exact (finish_inv _ _ _ _ _ V H).
  - exact (activate_inv _ _ _ _ _ V H).
Qed.
