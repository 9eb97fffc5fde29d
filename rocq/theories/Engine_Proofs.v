(** Invariants of the life of an engine. *)
From Coq Require Import List Bool Arith Lia.
From Verif Require Import Engine_Model.
Import ListNotations.

Lemma upd_length {A} : forall k (x : A) l, length (upd k x l) = length l.
Proof. induction k; destruct l; cbn; auto. Qed.
Lemma upd_same {A} : forall k (x : A) l, k < length l -> nth_error (upd k x l) k = Some x.
Proof. induction k; destruct l; cbn; intros; try lia; auto. apply IHk. lia. Qed.
Lemma upd_other {A} : forall k j (x : A) l, j <> k -> nth_error (upd k x l) j = nth_error l j.
Proof. induction k; destruct l, j; cbn; intros; auto; try congruence. Qed.
Lemma upd_nth {A} : forall k j (x y : A) l, nth_error (upd k x l) j = Some y ->
  (j = k /\ y = x) \/ (j <> k /\ nth_error l j = Some y).
Proof.
  intros k j x y l H. destruct (Nat.eq_dec j k) as [->|N].
  - left. split; auto. assert (k < length l).
    { rewrite <- (upd_length k x). apply nth_error_Some. congruence. }
    rewrite upd_same in H by auto. congruence.
  - right. rewrite upd_other in H; auto.
Qed.
Lemma snoc_nth {A} : forall j (x y : A) l, nth_error (l ++ [x]) j = Some y ->
  (j < length l /\ nth_error l j = Some y) \/ (j = length l /\ y = x).
Proof.
  intros j x y l H. destruct (Nat.lt_ge_cases j (length l)).
  - left. rewrite nth_error_app1 in H; auto.
  - right. rewrite nth_error_app2 in H by auto.
    destruct (j - length l) as [|q] eqn:E; cbn in H.
    + split; [lia|congruence].
    + destruct q; discriminate.
Qed.
Lemma snoc_old {A} : forall j (x y : A) l, nth_error l j = Some y -> nth_error (l ++ [x]) j = Some y.
Proof. intros. rewrite nth_error_app1; auto. apply nth_error_Some. congruence. Qed.
Lemma nth_lt {A} : forall j (y : A) l, nth_error l j = Some y -> j < length l.
Proof. intros. apply nth_error_Some. congruence. Qed.

Definition alive (x : runrec) : Prop := ru_phase x <> RGone.
Lemma gone_iff : forall x, gone x = true <-> ru_phase x = RGone.
Proof. intros [o []]; cbn; split; congruence. Qed.
Lemma over_iff : forall x, over x = true <-> un_phase x = UGone.
Proof. intros [r a k []]; cbn; split; congruence. Qed.
Definition detached_alive (x : runrec) : bool := match ru_origin x with ODetached => negb (gone x) | _ => false end.
Definition count (l : list runrec) : nat := length (filter detached_alive l).

Lemma count_snoc : forall l x, count (l ++ [x]) = count l + (if detached_alive x then 1 else 0).
Proof. intros. unfold count. rewrite filter_app, app_length. cbn. destruct (detached_alive x); cbn; lia. Qed.
Lemma count_upd : forall l k x y, nth_error l k = Some x ->
  count (upd k y l) + (if detached_alive x then 1 else 0) = count l + (if detached_alive y then 1 else 0).
Proof.
  unfold count. induction l as [|z l IH]; destruct k; cbn; intros x y H; try discriminate.
  - injection H as ->. destruct (detached_alive x), (detached_alive y); cbn; lia.
  - specialize (IH _ _ y H). destruct (detached_alive z); cbn; lia.
Qed.
Lemma count_zero : forall l x, count l = 0 -> In x l -> detached_alive x = false.
Proof.
  unfold count. intros l x H I. destruct (detached_alive x) eqn:E; auto.
  assert (In x (filter detached_alive l)) by (apply filter_In; auto).
  destruct (filter detached_alive l); [easy|discriminate].
Qed.

(** Everything the theorems need about a reachable state. *)
Record inv (s : engine_state) : Prop := {
  i_count : eg_detached s = count (eg_runs s);
  i_nested : forall r x u, nth_error (eg_runs s) r = Some x -> ru_origin x = ONested u ->
    exists v, nth_error (eg_units s) u = Some v /\ un_kind v = KPool /\ un_run v < r /\ (alive x -> un_phase v = UOpen);
  i_holds : forall u v, nth_error (eg_units s) u = Some v -> (un_phase v = UOpen \/ un_phase v = ULast) ->
    exists x b, nth_error (eg_runs s) (un_run v) = Some x /\ ru_phase x = RRunning b;
  i_main : forall r x, nth_error (eg_runs s) r = Some x -> ru_origin x = OMain -> alive x -> eg_main s = Some r;
  i_mainlt : forall r, eg_main s = Some r -> exists x, nth_error (eg_runs s) r = Some x /\ ru_origin x = OMain;
  i_joined : 2 <= rank (eg_phase s) -> eg_main s = None;
  i_setups : 3 <= rank (eg_phase s) -> eg_setups s = 0;
  i_inline : 4 <= rank (eg_phase s) -> forall x, In x (eg_runs s) -> ru_origin x = OInline -> ru_phase x = RGone;
  i_spun : 5 <= rank (eg_phase s) -> eg_detached s = 0;
  i_rpcs : 6 <= rank (eg_phase s) -> forall v, In v (eg_units s) -> un_kind v = KRpc -> un_phase v = UGone;
  i_pool : 7 <= rank (eg_phase s) -> forall v, In v (eg_units s) -> un_kind v = KPool -> un_phase v = UGone }.

Section Late.
  Variable s : engine_state.
  Hypothesis H : inv s.
  Hypothesis L : 5 <= rank (eg_phase s).
  Lemma runs_gone : forall n r x, r < n -> nth_error (eg_runs s) r = Some x -> ru_phase x = RGone.
  Proof.
    induction n as [|n IH]; intros r x Hr E; [lia|].
    destruct (ru_origin x) eqn:O.
    - destruct (ru_phase x) eqn:P; auto; exfalso;
        (assert (A : alive x) by (unfold alive; rewrite P; discriminate);
         pose proof (i_main s H _ _ E O A) as M; rewrite (i_joined s H) in M by lia; discriminate).
    - apply (i_inline s H); [lia|eapply nth_error_In; eauto|auto].
    - pose proof (i_spun s H L) as Z. rewrite (i_count s H) in Z.
      pose proof (count_zero _ _ Z (nth_error_In _ _ E)) as D. unfold detached_alive in D. rewrite O in D.
      apply gone_iff. destruct (gone x); auto.
    - destruct (i_nested s H _ _ _ E O) as (v & V & K & Lt & A).
      destruct (ru_phase x) eqn:P; auto; exfalso;
        (assert (AA : alive x) by (unfold alive; rewrite P; discriminate);
         destruct (i_holds s H _ _ V (or_introl (A AA))) as (y & b & Y & B);
         assert (ru_phase y = RGone) by (apply (IH (un_run v)); [lia|auto]); congruence).
  Qed.
  Lemma all_gone : forall x, In x (eg_runs s) -> ru_phase x = RGone.
  Proof. intros x I. destruct (In_nth_error _ _ I) as [r E]. eapply runs_gone; [|eauto]. apply Nat.lt_succ_diag_r. Qed.
  Lemma no_holding : forall v, In v (eg_units s) -> un_phase v <> UOpen /\ un_phase v <> ULast.
  Proof.
    intros v I. destruct (In_nth_error _ _ I) as [u E].
    split; intros P.
    - destruct (i_holds s H _ _ E (or_introl P)) as (x & b & X & B). rewrite (all_gone x) in B by (eapply nth_error_In; eauto). discriminate.
    - destruct (i_holds s H _ _ E (or_intror P)) as (x & b & X & B). rewrite (all_gone x) in B by (eapply nth_error_In; eauto). discriminate.
  Qed.
End Late.

Lemma in_upd {A} : forall k (x y : A) l, In y (upd k x l) -> y = x \/ In y l.
Proof. induction k; destruct l; cbn; intros; intuition. apply IHk in H0. intuition. Qed.

Lemma inv0 : inv engine0.
Proof.
  split; cbn; intros; try lia; auto; try discriminate; try contradiction;
    try (destruct r; discriminate); try (destruct u; discriminate).
Qed.

(** Changing the phase of a run that is alive. *)
Lemma inv_run : forall s r x p, inv s -> nth_error (eg_runs s) r = Some x -> ru_phase x <> RGone ->
  forall n, n = count (upd r (mkRun (ru_origin x) p) (eg_runs s)) ->
  (exists b, p = RRunning b) \/ existsb (holds r) (eg_units s) = false ->
  inv (with_detached n (run_phase r p s)).
Proof.
  intros s r x p H E A n -> B. unfold run_phase. rewrite E.
  assert (Lr := nth_lt _ _ _ E).
  assert (LATE : rank (eg_phase s) <= 4).
  { destruct (Nat.le_gt_cases (rank (eg_phase s)) 4); auto. exfalso. apply A. eapply (all_gone s H); [lia|]. eapply nth_error_In; eauto. }
  split; cbn [with_detached with_runs eg_runs eg_units eg_main eg_setups eg_detached eg_logs eg_reports eg_phase eg_crashed]; intros; try lia.
  - destruct (upd_nth _ _ _ _ _ H0) as [[-> ->]|[D O]].
    + cbn in H1. destruct (i_nested s H _ _ _ E H1) as (v & V & K & Lt & Al). exists v. repeat split; auto.
    + eapply (i_nested s H); eauto.
  - destruct (i_holds s H _ _ H0 H1) as (y & b & Y & Ph).
    destruct (Nat.eq_dec (un_run v) r) as [<-|D].
    + destruct B as [[b' ->]|B].
      * exists (mkRun (ru_origin x) (RRunning b')), b'. split; auto. apply upd_same; auto.
      * exfalso.
        assert (existsb (holds (un_run v)) (eg_units s) = true).
        { apply existsb_exists. exists v. split; [eapply nth_error_In; eauto|]. unfold holds. rewrite Nat.eqb_refl.
          destruct H1 as [-> | ->]; reflexivity. }
        congruence.
    + exists y, b. rewrite upd_other by auto. auto.
  - destruct (upd_nth _ _ _ _ _ H0) as [[-> ->]|[D O]].
    + apply (i_main s H _ _ E); auto.
    + eapply (i_main s H); eauto.
  - destruct (i_mainlt s H _ H0) as (y & Y & Oy). destruct (Nat.eq_dec r0 r) as [->|D].
    + exists (mkRun (ru_origin x) p). split; [apply upd_same; auto|]. cbn. congruence.
    + exists y. rewrite upd_other; auto.
  - apply (i_joined s H). lia.
  - apply (i_setups s H). lia.
  - destruct (in_upd _ _ _ _ H1) as [-> |I].
    + cbn in H2. exfalso. apply A. apply (i_inline s H); auto. eapply nth_error_In; eauto.
    + apply (i_inline s H); auto.
Qed.

(** Changing the phase of an iteration. *)
Lemma inv_unit : forall s u v p, inv s -> nth_error (eg_units s) u = Some v -> un_phase v <> UGone ->
  p <> UOpen -> (p = ULast -> un_phase v = UOpen) ->
  (un_phase v = UOpen -> forallb (fun x => negb (for_unit u x) || gone x) (eg_runs s) = true) ->
  inv (unit_phase u p s).
Proof.
  intros s u v p H E A P LA G. unfold unit_phase. rewrite E.
  assert (Lu := nth_lt _ _ _ E).
  split; cbn [with_units eg_runs eg_units eg_main eg_setups eg_detached eg_logs eg_reports eg_phase eg_crashed]; intros.
  - apply (i_count s H).
  - destruct (i_nested s H _ _ _ H0 H1) as (w & W & K & Lt & Al).
    destruct (Nat.eq_dec u0 u) as [->|D].
    + assert (w = v) by congruence. subst w. exists (mkUnit (un_run v) (un_action v) (un_kind v) p).
      rewrite upd_same by auto. repeat split; auto. intros AL. exfalso. specialize (G (Al AL)).
      rewrite forallb_forall in G. specialize (G x (nth_error_In _ _ H0)).
      unfold for_unit in G. rewrite H1, Nat.eqb_refl in G. cbn in G. apply gone_iff in G. auto.
    + exists w. rewrite upd_other; auto.
  - destruct (upd_nth _ _ _ _ _ H0) as [[-> ->]|[D O]].
    + cbn in *. apply (i_holds s H _ _ E). destruct H1 as [H1|H1]; [congruence|left; auto].
    + eapply (i_holds s H); eauto.
  - eapply (i_main s H); eauto.
  - eapply (i_mainlt s H); eauto.
  - apply (i_joined s H); auto.
  - apply (i_setups s H); auto.
  - apply (i_inline s H); auto.
  - apply (i_spun s H); auto.
  - destruct (in_upd _ _ _ _ H1) as [-> |I].
    + cbn in H2. exfalso. apply A. apply (i_rpcs s H); auto. eapply nth_error_In; eauto.
    + apply (i_rpcs s H); auto.
  - destruct (in_upd _ _ _ _ H1) as [-> |I].
    + cbn in H2. exfalso. apply A. apply (i_pool s H); auto. eapply nth_error_In; eauto.
    + apply (i_pool s H); auto.
Qed.

Lemma same_detached : forall s, with_detached (eg_detached s) s = s.
Proof. destruct s; reflexivity. Qed.
Lemma inv_run' : forall s r x p, inv s -> nth_error (eg_runs s) r = Some x -> ru_phase x <> RGone -> p <> RGone ->
  (exists b, p = RRunning b) \/ existsb (holds r) (eg_units s) = false ->
  inv (run_phase r p s).
Proof.
  intros s r x p H E A P B.
  assert (D : eg_detached (run_phase r p s) = eg_detached s) by (unfold run_phase; rewrite E; reflexivity).
  rewrite <- (same_detached (run_phase r p s)), D. eapply inv_run; eauto.
  pose proof (count_upd _ _ _ (mkRun (ru_origin x) p) E) as C.
  assert (detached_alive (mkRun (ru_origin x) p) = detached_alive x).
  { unfold detached_alive, gone. cbn. destruct (ru_origin x), (ru_phase x), p; auto; congruence. }
  rewrite H0 in C. rewrite (i_count s H). lia.
Qed.
Lemma no_holds : forall s r x, inv s -> nth_error (eg_runs s) r = Some x -> (forall b, ru_phase x <> RRunning b) ->
  existsb (holds r) (eg_units s) = false.
Proof.
  intros s r x H E A. destruct (existsb (holds r) (eg_units s)) eqn:X; auto. exfalso.
  apply existsb_exists in X. destruct X as (v & I & Hv). unfold holds in Hv. apply andb_prop in Hv. destruct Hv as [Hr Hp].
  apply Nat.eqb_eq in Hr. destruct (In_nth_error _ _ I) as [u U].
  destruct (i_holds s H _ _ U) as (y & b & Y & B).
  - destruct (un_phase v); auto; discriminate.
  - rewrite Hr, E in Y. injection Y as ->. exact (A b B).
Qed.

(** Adding a run. *)
Lemma inv_new : forall s o p n m, inv s -> rank (eg_phase s) <= 3 ->
  n = eg_detached s + (if detached_alive (mkRun o p) then 1 else 0) -> p <> RGone ->
  match o with
  | OMain => m = Some (length (eg_runs s)) /\ eg_main s = None /\ eg_phase s = DNo
  | ONested u => False
  | _ => m = eg_main s
  end ->
  inv (with_main m (with_detached n (with_runs (eg_runs s ++ [mkRun o p]) s))).
Proof.
  intros s o p n m H R N P C.
  split; cbn [with_main with_detached with_runs eg_runs eg_units eg_main eg_setups eg_detached eg_logs eg_reports eg_phase eg_crashed]; intros; try lia.
  - rewrite count_snoc, N, (i_count s H). reflexivity.
  - destruct (snoc_nth _ _ _ _ H0) as [[Lt E]|[-> ->]].
    + eapply (i_nested s H); eauto.
    + cbn in H1. subst o. contradiction.
  - destruct (i_holds s H _ _ H0 H1) as (x & b & X & B). exists x, b. split; auto using snoc_old.
  - destruct (snoc_nth _ _ _ _ H0) as [[Lt E]|[-> ->]].
    + pose proof (i_main s H _ _ E H1 H2) as M. destruct o; try (subst m; exact M); [|contradiction].
      destruct C as (_ & C & _). congruence.
    + cbn in H1. subst o. apply C.
  - destruct o; try contradiction.
    + destruct C as (C & _). rewrite C in H0. injection H0 as <-. exists (mkRun OMain p). split; auto.
      rewrite nth_error_app2, Nat.sub_diag by auto. reflexivity.
    + subst m. destruct (i_mainlt s H _ H0) as (x & X & Ox). exists x. split; auto using snoc_old.
    + subst m. destruct (i_mainlt s H _ H0) as (x & X & Ox). exists x. split; auto using snoc_old.
  - destruct o; try contradiction; try (subst m; apply (i_joined s H); auto).
    destruct C as (_ & _ & C). rewrite C in H0. cbn in H0. lia.
  - apply (i_setups s H); auto.
Qed.

(** Starting an iteration. *)
Lemma inv_call : forall s r x b a k, inv s -> nth_error (eg_runs s) r = Some x -> ru_phase x = RRunning b ->
  inv (let s' := with_units (eg_units s ++ [mkUnit r a k UOpen]) s in
       match k with
       | KRpc => s'
       | KPool => with_runs (eg_runs s ++ [mkRun (ONested (length (eg_units s))) RQueued]) s'
       end).
Proof.
  intros s r x b a k H E P. cbn zeta.
  assert (LATE : rank (eg_phase s) <= 4).
  { destruct (Nat.le_gt_cases (rank (eg_phase s)) 4); auto. exfalso.
    rewrite (all_gone s H) in P; [discriminate|lia|]. eapply nth_error_In; eauto. }
  assert (Lr := nth_lt _ _ _ E).
  set (l := match k with KRpc => eg_runs s | KPool => eg_runs s ++ [mkRun (ONested (length (eg_units s))) RQueued] end).
  assert (OLD : forall j y, nth_error (eg_runs s) j = Some y -> nth_error l j = Some y).
  { intros j y Y. unfold l. destruct k; auto using snoc_old. }
  assert (NEW : forall j y, nth_error l j = Some y -> nth_error (eg_runs s) j = Some y \/
            (k = KPool /\ j = length (eg_runs s) /\ y = mkRun (ONested (length (eg_units s))) RQueued)).
  { intros j y Y. unfold l in Y. destruct k; auto. destruct (snoc_nth _ _ _ _ Y) as [[_ K]|[K1 K2]]; auto. }
  assert (CN : count l = count (eg_runs s)).
  { unfold l. destruct k; auto. rewrite count_snoc. cbn. lia. }
  assert (X : inv (with_runs l (with_units (eg_units s ++ [mkUnit r a k UOpen]) s))).
  { split; cbn [with_units with_runs eg_runs eg_units eg_main eg_setups eg_detached eg_logs eg_reports eg_phase eg_crashed]; intros; try lia.
    - rewrite CN. apply (i_count s H).
    - destruct (NEW _ _ H0) as [O|(K & -> & ->)].
      + destruct (i_nested s H _ _ _ O H1) as (v & V & KV & Lt & Al). exists v. split; auto using snoc_old.
      + cbn in H1. injection H1 as <-. exists (mkUnit r a k UOpen). rewrite nth_error_app2, Nat.sub_diag by auto.
        cbn. auto.
    - destruct (snoc_nth _ _ _ _ H0) as [[_ O]|[-> ->]].
      + destruct (i_holds s H _ _ O H1) as (y & c & Y & C). eauto.
      + cbn. eauto.
    - destruct (NEW _ _ H0) as [O|(K & -> & ->)]; [|discriminate]. eapply (i_main s H); eauto.
    - destruct (i_mainlt s H _ H0) as (y & Y & C). eauto.
    - apply (i_joined s H); auto.
    - apply (i_setups s H); auto.
    - destruct (In_nth_error _ _ H1) as [j J]. destruct (NEW _ _ J) as [O|(K & -> & ->)]; [|discriminate].
      apply (i_inline s H); auto. eapply nth_error_In; eauto. }
  unfold l in X. destruct k; exact X.
Qed.

Lemma inv_reports : forall s l, inv s -> inv (with_reports l s).
Proof. intros s l []; split; cbn; auto. Qed.
Lemma inv_logs : forall s l, inv s -> inv (with_logs l s).
Proof. intros s l []; split; cbn; auto. Qed.
Lemma inv_crash : forall s, inv s -> inv (with_crash s).
Proof. intros s []; split; cbn; auto. Qed.

Lemma inv_dtor : forall s s', inv s -> destructor_step s = Some s' -> inv s'.
Proof.
  intros s s' H E. unfold destructor_step in E. destruct (eg_phase s) eqn:P; try discriminate.
  - destruct (eg_main s) as [r|] eqn:M.
    + destruct (nth_error (eg_runs s) r) as [x|] eqn:X; [|discriminate]. destruct (gone x) eqn:G; [|discriminate].
      injection E as <-. apply gone_iff in G.
      split; cbn; intros; try lia; auto; try (eapply (i_count s H); eauto); try (eapply (i_nested s H); eauto); try (eapply (i_holds s H); eauto); try discriminate.
      exfalso. pose proof (i_main s H _ _ H0 H1 H2). apply H2. congruence.
    + injection E as <-. destruct H. split; cbn; intros; try lia; eauto.
  - destruct (eg_setups s =? 0) eqn:Z; [|discriminate]. apply Nat.eqb_eq in Z. injection E as <-.
    destruct H. rewrite P in *. split; cbn in *; intros; try lia; eauto 10.
  - destruct (existsb _ _) eqn:X; [discriminate|]. injection E as <-.
    destruct H. rewrite P in *. split; cbn in *; intros; try lia; eauto 10.
    apply gone_iff. destruct (gone x) eqn:G; auto. exfalso.
    assert (existsb (fun x => is_inline x && negb (gone x)) (eg_runs s) = true).
    { apply existsb_exists. exists x. split; auto. unfold is_inline. rewrite H1, G. reflexivity. }
    congruence.
  - destruct (eg_detached s =? 0) eqn:Z; [|discriminate]. apply Nat.eqb_eq in Z. injection E as <-.
    destruct H. rewrite P in *. split; cbn in *; intros; try lia; eauto 10.
  - destruct (existsb _ _) eqn:X; [discriminate|]. injection E as <-.
    destruct H. rewrite P in *. split; cbn in *; intros; try lia; eauto 10.
    apply over_iff. destruct (over v) eqn:G; auto. exfalso.
    assert (existsb (fun x => is_rpc x && negb (over x)) (eg_units s) = true).
    { apply existsb_exists. exists v. split; auto. unfold is_rpc. rewrite H1, G. reflexivity. }
    congruence.
  - destruct (existsb _ _) eqn:X; [discriminate|]. injection E as <-.
    destruct H. rewrite P in *. split; cbn in *; intros; try lia; eauto 10.
    apply over_iff. destruct (over v) eqn:G; auto. exfalso.
    assert (existsb (fun x => negb (is_rpc x) && negb (over x)) (eg_units s) = true).
    { apply existsb_exists. exists v. split; auto. unfold is_rpc. rewrite H1, G. reflexivity. }
    congruence.
Qed.

Lemma inv_step : forall e s s', inv s -> engine_step e s = Some s' -> inv s'.
Proof.
  intros e s s' H E. unfold engine_step in E. destruct (eg_crashed s) eqn:C0; [discriminate|].
  destruct e.
  - destruct (eg_phase s) eqn:P; try discriminate. destruct (eg_main s) eqn:M; injection E as <-.
    + apply inv_crash; auto.
    + assert (X := inv_new s OMain (RRunning false) (eg_detached s) (Some (length (eg_runs s))) H).
      cbn in X. rewrite P in X. cbn in X. apply X; auto; try lia. discriminate.
  - destruct (eg_phase s) eqn:P; try discriminate. destruct (eg_main s) as [r|] eqn:M; [|discriminate].
    destruct (nth_error (eg_runs s) r) as [x|] eqn:X; [|discriminate]. destruct (gone x) eqn:G; [|discriminate].
    injection E as <-. apply gone_iff in G.
    split; cbn; intros; rewrite ?P in *; cbn in *; try lia; auto; try (eapply (i_count s H); eauto); try (eapply (i_nested s H); eauto); try (eapply (i_holds s H); eauto); try discriminate.
    exfalso. pose proof (i_main s H _ _ H0 H1 H2). apply H2. congruence.
  - destruct (rank (eg_phase s) <=? 1) eqn:R; [|discriminate]. apply Nat.leb_le in R. injection E as <-.
    destruct H. split; cbn in *; intros; try lia; eauto 10.
  - destruct (eg_setups s) eqn:S0; [discriminate|]. injection E as <-.
    destruct H. split; cbn in *; intros; try lia; eauto 10.
  - destruct (rank (eg_phase s) <=? 3) eqn:R; [|discriminate]. apply Nat.leb_le in R.
    destruct dedicated; injection E as <-.
    + assert (X := inv_new s OInline (RRunning false) (eg_detached s) (eg_main s) H R).
      apply X; cbn; auto; try lia. discriminate.
    + assert (X := inv_new s ODetached RQueued (S (eg_detached s)) (eg_main s) H R).
      apply X; cbn; auto; try lia. discriminate.
  - destruct (nth_error (eg_runs s) r) as [[o []]|] eqn:X; try discriminate. injection E as <-.
    eapply inv_run'; eauto; cbn; try discriminate.
  - destruct (nth_error (eg_runs s) r) as [[o []]|] eqn:X; try discriminate. injection E as <-.
    eapply inv_call in X; eauto. reflexivity.
  - destruct (nth_error (eg_units s) u) as [[r a k []]|] eqn:X; try discriminate.
    destruct (forallb _ _) eqn:F; [|discriminate]. injection E as <-.
    eapply inv_unit; eauto; cbn; try discriminate; try (destruct (done && _); discriminate).
  - destruct (nth_error (eg_units s) u) as [[r a k []]|] eqn:X; try discriminate. injection E as <-.
    eapply inv_unit; eauto; cbn; discriminate.
  - destruct (nth_error (eg_units s) u) as [[r a k []]|] eqn:X; try discriminate. injection E as <-.
    eapply inv_unit; eauto; cbn; discriminate.
  - destruct (nth_error (eg_units s) u) as [[r a k []]|] eqn:X; try discriminate. injection E as <-.
    eapply inv_unit; eauto; cbn; discriminate.
  - destruct (nth_error (eg_runs s) r) as [[o [|[]| | |]]|] eqn:X; try discriminate. injection E as <-.
    eapply inv_run'; eauto; cbn; try discriminate.
  - destruct (nth_error (eg_runs s) r) as [[o []]|] eqn:X; try discriminate.
    destruct (existsb (holds r) (eg_units s)) eqn:G; [discriminate|]. injection E as <-.
    eapply inv_run'; eauto; cbn; try discriminate.
  - destruct (nth_error (eg_runs s) r) as [[o []]|] eqn:X; try discriminate. injection E as <-.
    apply inv_logs. eapply inv_run'; eauto; cbn; try discriminate. right. eapply no_holds; eauto. cbn. discriminate.
  - destruct (nth_error (eg_runs s) r) as [[o []]|] eqn:X; try discriminate. injection E as <-.
    assert (G : existsb (holds r) (eg_units s) = false) by (eapply no_holds; eauto; cbn; discriminate).
    pose proof (count_upd _ _ _ (mkRun o RGone) X) as C. cbn in C.
    assert (K := inv_run s r _ RGone H X ltac:(discriminate) _ eq_refl (or_intror G)). cbn [ru_origin] in K.
    destruct o; cbn in C.
    + rewrite <- (same_detached (run_phase r RGone s)).
      replace (eg_detached (run_phase r RGone s)) with (count (upd r (mkRun OMain RGone) (eg_runs s))); auto.
      unfold run_phase. rewrite X. cbn. rewrite (i_count s H). lia.
    + rewrite <- (same_detached (run_phase r RGone s)).
      replace (eg_detached (run_phase r RGone s)) with (count (upd r (mkRun OInline RGone) (eg_runs s))); auto.
      unfold run_phase. rewrite X. cbn. rewrite (i_count s H). lia.
    + replace (pred (eg_detached s)) with (count (upd r (mkRun ODetached RGone) (eg_runs s))); auto.
      rewrite (i_count s H). lia.
    + rewrite <- (same_detached (run_phase r RGone s)).
      replace (eg_detached (run_phase r RGone s)) with (count (upd r (mkRun (ONested u) RGone) (eg_runs s))); auto.
      unfold run_phase. rewrite X. cbn. rewrite (i_count s H). lia.
  - destruct (eg_phase s); try discriminate. injection E as <-. apply inv_reports; auto.
  - destruct (eg_phase s) eqn:P; try discriminate. injection E as <-.
    destruct H. split; cbn in *; intros; try lia; eauto 10.
  - eapply inv_dtor; eauto.
Qed.
Lemma inv_all : forall l s s', inv s -> engine_run_all l s = Some s' -> inv s'.
Proof.
  induction l as [|e l IH]; cbn; intros s s' H E; [injection E as <-; auto|].
  destruct (engine_step e s) eqn:X; [|discriminate]. eapply IH; [|eauto]. eapply inv_step; eauto.
Qed.
