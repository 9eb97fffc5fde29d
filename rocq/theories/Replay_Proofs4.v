(** The runner: it goes on until all is done, and why it aborts. *)
From Coq Require Import Ascii String List NArith ZArith Bool Arith Lia Wf_nat.
From Verif Require Import Base_Model Grid_Model Canon_Model Replay_Model Replay_Proofs Replay_Proofs2 Replay_Proofs3.
Import ListNotations.
Open Scope Z_scope.

(** ** Where they go *)
Definition sent_right (t : trace) (pd ch : list Z) (s : runner) : Prop :=
  forall e, In e (n_sent s) -> exists r, record_at t (sidx e) = Some r /\ destination r pd ch = inl (snd e).
Lemma step_right t pd ch a s s' : sent_right t pd ch s -> rstep t pd ch a s = RNext s' -> sent_right t pd ch s'.
Proof.
  intros R H. destruct a as [d|n|k|k]; cbn [rstep] in H.
  - destruct (d <? 0); [discriminate|]. injection H as <-. exact R.
  - unfold main_step in H. destruct (n_pc s) as [|deadline|i|i st|] eqn:P; try discriminate.
    + injection H as <-. exact R.
    + destruct (n_finished s); [injection H as <-; exact R|]. destruct deadline as [d|]; [|discriminate]. destruct (d <=? n_now s); [|discriminate].
      destruct (earliest (n_ready s)); [|discriminate]. destruct (nth_error (n_ready s) n) as [[x i]|]; [|discriminate]. destruct (x =? z); [|discriminate]. injection H as <-. exact R.
    + destruct (record_at t i) as [r|] eqn:E; [|discriminate]. destruct (destination r pd ch) as [dest|] eqn:D; [|discriminate]. injection H as <-.
      intros e [<-|He]; [exists r; auto|exact (R e He)].
    + destruct (nth_error (n_deps s) i); [|discriminate]. destruct (release t st (dp_start d) (n_deps s) (n_ready s)). injection H as <-. exact R.
  - unfold finish_step in H. destruct (nth_error (n_flight s) k) as [[i st [e|]]|]; try discriminate. injection H as <-. exact R.
  - unfold activate_step in H. destruct (nth_error (n_flight s) k) as [[i st [e|]]|]; try discriminate. destruct (nth_error (n_deps s) i); [|discriminate].
    destruct (release _ _ _ _ _). injection H as <-. exact R.
Qed.
Lemma run_right t pd ch : forall l s s', sent_right t pd ch s -> rrun t pd ch l s = RNext s' -> sent_right t pd ch s'.
Proof.
  induction l as [|a r IH]; intros s s' R H; cbn [rrun] in H; [injection H as <-; exact R|].
  destruct (rstep t pd ch a s) as [s1|c|] eqn:E; [|discriminate|exact (IH s s' R H)]. exact (IH s1 s' (step_right _ _ _ _ _ _ R E) H).
Qed.

(** ** Aborts *)
Lemma step_crash t local T0 pd ch a s c : good t local T0 s -> rstep t pd ch a s = RCrash c ->
  exists k r, mine t local k = true /\ record_at t k = Some r /\ destination r pd ch = inr c.
Proof.
  intros [V Q O] H. destruct a as [d|n|k|k]; cbn [rstep] in H.
  - destruct (d <? 0); discriminate.
  - unfold main_step in H. destruct (n_pc s) as [|deadline|i|i st|] eqn:P; try discriminate.
    + destruct (n_finished s) eqn:F; [discriminate|]. destruct deadline as [d|]; [|discriminate]. destruct (d <=? n_now s); [|discriminate].
      destruct (i_wait _ _ _ V _ P F) as [W _]. rewrite <- W in H. destruct (nth_error (n_ready s) n) as [[x i]|]; [|discriminate]. destruct (x =? d); discriminate.
    + destruct (record_at t i) as [r|] eqn:E; [|discriminate]. destruct (destination r pd ch) as [dest|c'] eqn:D; [discriminate|]. injection H as <-.
      exists i, r. split; [|auto]. pose proof (i_count _ _ _ V i) as C. rewrite P in C. cbn [sending] in C. rewrite occ_single in C. destruct (Nat.eq_dec i i); [|congruence].
      destruct (mine t local i); [reflexivity|]. cbn [andb] in C. lia.
    + destruct (nth_error (n_deps s) i); [|discriminate]. destruct (release _ _ _ _ _). discriminate.
  - unfold finish_step in H. destruct (nth_error (n_flight s) k) as [[i st [e|]]|]; discriminate.
  - unfold activate_step in H. destruct (nth_error (n_flight s) k) as [[i st [e|]]|]; try discriminate. destruct (nth_error (n_deps s) i); [|discriminate].
    destruct (release _ _ _ _ _). discriminate.
Qed.
Lemma run_crash t local T0 pd ch : forall l s c, good t local T0 s -> rrun t pd ch l s = RCrash c ->
  exists k r, mine t local k = true /\ record_at t k = Some r /\ destination r pd ch = inr c.
Proof.
  induction l as [|a r IH]; intros s c G H; cbn [rrun] in H; [discriminate|].
  destruct (rstep t pd ch a s) as [s1|c'|] eqn:E.
  - exact (IH s1 c (step_good _ _ _ _ _ _ _ _ G E) H).
  - injection H as <-. exact (step_crash _ _ _ _ _ _ _ _ G E).
  - exact (IH s c G H).
Qed.
Lemma run_not_stuck t pd ch : forall l s, rrun t pd ch l s <> RStuck.
Proof. induction l as [|a r IH]; intros s; cbn [rrun]; [discriminate|]. destruct (rstep t pd ch a s); [apply IH|discriminate|apply IH]. Qed.

(** ** Progress *)
(** A record that waits says for what. *)
Definition modes_ok (t : trace) (local : Z) : Prop :=
  forall k, waits_for t local k <> [] -> mode_of t k = MPriorStart \/ mode_of t k = MPriorEnd.
Definition can_move (t : trace) (pd ch : list Z) (s : runner) : Prop :=
  exists d s1 a, 0 <= d /\ rstep t pd ch (Tick d) s = RNext s1 /\ (forall x, a <> Tick x) /\ rstep t pd ch a s1 <> RStuck.
Lemma tick t pd ch s d : 0 <= d -> rstep t pd ch (Tick d) s =
  RNext (mkRunner (n_now s + d) (n_trace_start s) (n_deps s) (n_ready s) (n_remaining s) (n_finished s) (n_samples s) (n_flight s) (n_pc s) (n_sent s)).
Proof. intro H. cbn [rstep]. destruct (Z.ltb_spec d 0); [lia|reflexivity]. Qed.
Lemma dep_some t local s k : inv t local s -> mine t local k = true -> exists d, nth_error (n_deps s) k = Some d.
Proof.
  intros V M. destruct (nth_error (n_deps s) k) eqn:E; [eexists; reflexivity|]. apply nth_error_None in E. rewrite (i_len _ _ _ V) in E. apply mine_lt in M. lia.
Qed.
Lemma progress t local T0 pd ch s : good t local T0 s -> good_distances t local -> modes_ok t local -> n_pc s <> RDone -> can_move t pd ch s.
Proof.
  intros [V Q O] G Mo ND.
  assert (Go : forall a, (forall x, a <> Tick x) ->
     rstep t pd ch a (mkRunner (n_now s + 0) (n_trace_start s) (n_deps s) (n_ready s) (n_remaining s) (n_finished s) (n_samples s) (n_flight s) (n_pc s) (n_sent s)) <> RStuck -> can_move t pd ch s).
  { intros a A B. exists 0. eexists. exists a. split; [lia|]. split; [apply tick; lia|]. split; [exact A|exact B]. }
  destruct (n_flight s) as [|[fi fs fe] fr] eqn:F.
  2:{ destruct fe as [e|].
      - assert (Mf : mine t local fi = true).
        { apply (sent_mine _ _ _ _ V), occ_In. rewrite <- (i_flight _ _ _ V fi). unfold flight_ids. rewrite F. cbn [map cl_index]. rewrite occ_cons. destruct (Nat.eq_dec fi fi); [lia|congruence]. }
        destruct (dep_some _ _ _ _ V Mf) as [d Ed]. apply (Go (Activate 0)); [discriminate|]. cbn [rstep]. unfold activate_step. cbn [n_flight n_deps]. cbn [nth_error]. rewrite Ed.
        destruct (release _ _ _ _ _). discriminate.
      - apply (Go (Finish 0)); [discriminate|]. cbn [rstep]. unfold finish_step. cbn [n_flight]. cbn [nth_error]. discriminate. }
  destruct (n_pc s) as [|deadline|i|i st|] eqn:P; [| | | |congruence].
  - apply (Go (Main 0)); [discriminate|]. cbn [rstep]. unfold main_step. cbn [n_pc]. discriminate.
  - destruct (n_finished s) eqn:Fi.
    { apply (Go (Main 0)); [discriminate|]. cbn [rstep]. unfold main_step. cbn [n_pc n_finished]. discriminate. }
    destruct (i_wait _ _ _ V _ P Fi) as [W Rm]. destruct (earliest (n_ready s)) as [first|] eqn:Ef.
    + subst deadline. destruct (earliest_In _ _ Ef) as (k & n & En). exists (Z.max 0 (first - n_now s)). eexists. exists (Main n).
      split; [lia|]. split; [apply tick; lia|]. split; [discriminate|]. cbn [rstep]. unfold main_step. cbn [n_pc n_finished n_now n_ready]. rewrite P, Fi.
      destruct (Z.leb_spec first (n_now s + Z.max 0 (first - n_now s))); [|lia]. rewrite Ef, En, Z.eqb_refl. discriminate.
    + exfalso. apply earliest_None in Ef. destruct (some_left _ _ _ V Rm) as (k0 & K1 & K2).
      assert (Hmin : forall k, mine t local k = true -> In k (sample_ids s)).
      { intro k. induction k as [k IH] using lt_wf_ind. intro Mk. destruct (in_dec Nat.eq_dec k (sample_ids s)) as [|N]; [assumption|exfalso].
        apply (proj2 (occ_zero _ _)) in N. pose proof (i_flight _ _ _ V k) as C1. unfold flight_ids in C1. rewrite F in C1. cbn [map] in C1. rewrite occ_nil in C1.
        pose proof (i_count _ _ _ V k) as C2. unfold ready_ids in C2. rewrite Ef, P, Mk in C2. cbn [map sending andb] in C2. rewrite occ_nil in C2.
        destruct (Z.eqb_spec (rem (n_deps s) k) 0) as [|Rk]; [lia|]. rewrite (i_rem _ _ _ V) in Rk.
        destruct (filter (fun j => negb (done_for (mode_of t k) s j)) (waits_for t local k)) as [|j fl] eqn:Fl; [cbn [length] in Rk; lia|].
        assert (Hj : In j (filter (fun j => negb (done_for (mode_of t k) s j)) (waits_for t local k))) by (rewrite Fl; left; reflexivity).
        apply filter_In in Hj. destruct Hj as [Hj Dj]. pose proof (waits_earlier _ _ _ _ G Hj) as Lt. pose proof (IH j Lt (waits_mine _ _ _ _ Hj)) as Sj.
        pose proof (sample_sent _ _ _ _ V Sj) as Tj. apply occ_In in Sj, Tj. apply negb_true_iff in Dj.
        destruct (Mo k) as [E|E]; [intro E; rewrite E in Hj; destruct Hj| |]; rewrite E in Dj; cbn [done_for] in Dj.
        - rewrite P in Dj. cbn [starting] in Dj. rewrite occ_nil in Dj. cbn [Nat.eqb] in Dj. rewrite andb_true_r in Dj. apply Nat.ltb_ge in Dj. lia.
        - apply Nat.ltb_ge in Dj. lia. }
      exact (K2 (Hmin k0 K1)).
  - apply (Go (Main 0)); [discriminate|]. cbn [rstep]. unfold main_step. cbn [n_pc].
    assert (Mi : mine t local i = true).
    { pose proof (i_count _ _ _ V i) as C. rewrite P in C. cbn [sending] in C. rewrite occ_single in C. destruct (Nat.eq_dec i i); [|congruence]. destruct (mine t local i); [reflexivity|]. cbn [andb] in C. lia. }
    unfold mine in Mi. destruct (record_at t i); [|discriminate]. destruct (destination r pd ch); discriminate.
  - apply (Go (Main 0)); [discriminate|]. cbn [rstep]. unfold main_step. cbn [n_pc n_deps].
    assert (Mi : mine t local i = true).
    { apply (sent_mine _ _ _ _ V), occ_In. pose proof (i_starting _ _ _ V i) as C. rewrite P in C. cbn [starting] in C. rewrite occ_single in C. destruct (Nat.eq_dec i i); [lia|congruence]. }
    destruct (dep_some _ _ _ _ V Mi) as [d Ed]. rewrite Ed. destruct (release _ _ _ _ _). discriminate.
Qed.

(** ** A bound on the number of steps *)
Definition unended (l : list call) : Z := Z.of_nat (length (filter (fun c => match cl_end c with None => true | Some _ => false end) l)).
Definition pc_rank (p : pc) : Z := match p with RSend _ => 4 | RStarted _ _ => 3 | RTop => 2 | RWait _ => 1 | RDone => 0 end.
Definition measure (t : trace) (local : Z) (s : runner) : Z :=
  10 * (Z.of_nat (length (all_mine t local)) - Z.of_nat (length (started_order s))) + 5 * Z.of_nat (length (sending (n_pc s)))
  + 4 * Z.of_nat (length (n_flight s)) + unended (n_flight s) + (if n_finished s then 2 else 0) + pc_rank (n_pc s).
Lemma measure_pos t local s : inv t local s -> 0 <= measure t local s.
Proof.
  intro V. unfold measure. assert (L : (length (started_order s) <= length (all_mine t local))%nat).
  { apply NoDup_incl_length.
    - apply occ_nodup. intro k. unfold started_order. rewrite occ_app. pose proof (counted_once _ _ _ k V). lia.
    - intros k Hk. apply all_mine_In. apply occ_In in Hk. unfold started_order in Hk. rewrite occ_app in Hk. pose proof (i_count _ _ _ V k) as C.
      destruct (mine t local k); [reflexivity|]. cbn [andb] in C. lia. }
  assert (0 <= pc_rank (n_pc s)) by (destruct (n_pc s); cbn [pc_rank]; lia). unfold unended. destruct (n_finished s); lia.
Qed.
Lemma unended_upd l : forall k i st e, nth_error l k = Some (mkCall i st None) -> unended (upd k (fun _ => mkCall i st (Some e)) l) = unended l - 1.
Proof.
  unfold unended. induction l as [|c r IH]; intros [|k] i st e E; cbn [nth_error upd filter] in *; try discriminate.
  - injection E as ->. cbn [cl_end length]. lia.
  - specialize (IH k i st e E). destruct (cl_end c); cbn [length]; lia.
Qed.
Lemma unended_without l : forall k i st e, nth_error l k = Some (mkCall i st (Some e)) -> unended (without k l) = unended l.
Proof.
  unfold unended. induction l as [|c r IH]; intros [|k] i st e E; cbn [nth_error without filter] in *; try discriminate.
  - injection E as ->. reflexivity.
  - specialize (IH k i st e E). destruct (cl_end c); cbn [length]; lia.
Qed.
Lemma measure_tick t local pd ch d s s' : rstep t pd ch (Tick d) s = RNext s' -> measure t local s' = measure t local s.
Proof. cbn [rstep]. destruct (d <? 0); [discriminate|]. intro H. injection H as <-. reflexivity. Qed.
Lemma measure_step t local pd ch a s s' : (forall x, a <> Tick x) -> rstep t pd ch a s = RNext s' -> measure t local s' < measure t local s.
Proof.
  intros NT H. destruct a as [d|n|k|k]; cbn [rstep] in H; [exfalso; exact (NT d eq_refl)| | |].
  - unfold main_step in H. destruct (n_pc s) as [|deadline|i|i st|] eqn:P; try discriminate.
    + injection H as <-. unfold measure, started_order, sent_ids. cbn [set_pc n_pc n_flight n_finished n_sent]. rewrite P.
      destruct (n_remaining s =? 0); cbn [sending app length pc_rank]; lia.
    + destruct (n_finished s) eqn:F.
      * injection H as <-. unfold measure, started_order, sent_ids. cbn [n_pc n_flight n_finished n_sent]. rewrite P, F. cbn [sending app length pc_rank]. lia.
      * destruct deadline as [d|]; [|discriminate]. destruct (d <=? n_now s); [|discriminate]. destruct (earliest (n_ready s)); [|discriminate].
        destruct (nth_error (n_ready s) n) as [[x i]|]; [|discriminate]. destruct (x =? z); [|discriminate]. injection H as <-.
        unfold measure, started_order, sent_ids. cbn [n_pc n_flight n_finished n_sent]. rewrite P, F. cbn [sending app length pc_rank]. lia.
    + destruct (record_at t i) as [r|] eqn:E; [|discriminate]. destruct (destination r pd ch) as [dest|] eqn:D; [|discriminate]. injection H as <-.
      unfold measure, started_order, sent_ids, unended. cbn [n_pc n_flight n_finished n_sent]. rewrite P, filter_app, !app_length. cbn [sending app length pc_rank map filter cl_end]. lia.
    + destruct (nth_error (n_deps s) i); [|discriminate]. destruct (release t st (dp_start d) (n_deps s) (n_ready s)). injection H as <-.
      unfold measure, started_order, sent_ids. cbn [n_pc n_flight n_finished n_sent]. rewrite P. cbn [sending app length pc_rank]. lia.
  - unfold finish_step in H. destruct (nth_error (n_flight s) k) as [[i st [e|]]|] eqn:E; try discriminate. injection H as <-.
    unfold measure, started_order, sent_ids. cbn [n_pc n_flight n_finished n_sent]. rewrite upd_length, (unended_upd _ _ _ _ _ E). lia.
  - unfold activate_step in H. destruct (nth_error (n_flight s) k) as [[i st [e|]]|] eqn:E; try discriminate. destruct (nth_error (n_deps s) i); [|discriminate].
    destruct (release _ _ _ _ _). injection H as <-.
    unfold measure, started_order, sent_ids. cbn [n_pc n_flight n_finished n_sent]. rewrite (unended_without _ _ _ _ _ E). pose proof (without_length _ _ _ E). destruct (n_finished s); lia.
Qed.
(** How many of the actions other than the passing of time did something. *)
Fixpoint moves (t : trace) (pd ch : list Z) (l : list raction) (s : runner) : Z :=
  match l with
  | [] => 0
  | a :: r => match rstep t pd ch a s with
              | RNext s' => (match a with Tick _ => 0 | _ => 1 end) + moves t pd ch r s'
              | RCrash _ => 0
              | RStuck => moves t pd ch r s
              end
  end.
Lemma moves_bound t local T0 pd ch : forall l s, good t local T0 s -> moves t pd ch l s <= measure t local s.
Proof.
  induction l as [|a r IH]; intros s G; cbn [moves]; [exact (measure_pos _ _ _ (g_inv _ _ _ _ G))|].
  destruct (rstep t pd ch a s) as [s1|c|] eqn:E.
  - pose proof (IH s1 (step_good _ _ _ _ _ _ _ _ G E)) as B. destruct a as [d|n|k|k].
    + rewrite (measure_tick _ local _ _ _ _ _ E) in B. lia.
    + assert (NT : forall x, Main n <> Tick x) by (intro x; discriminate). pose proof (measure_step t local pd ch _ s s1 NT E). lia.
    + assert (NT : forall x, Finish k <> Tick x) by (intro x; discriminate). pose proof (measure_step t local pd ch _ s s1 NT E). lia.
    + assert (NT : forall x, Activate k <> Tick x) by (intro x; discriminate). pose proof (measure_step t local pd ch _ s s1 NT E). lia.
  - exact (measure_pos _ _ _ (g_inv _ _ _ _ G)).
  - exact (IH s G).
Qed.
