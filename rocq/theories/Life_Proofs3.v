(** Progress, bounds and histories. *)
From Coq Require Import Ascii String List NArith ZArith Bool Arith Lia.
From Verif Require Import Base_Model Base_Proofs Place_Model Seq_Model Seq_Proofs Cli_Model Cli_Props2 Life_Model Life_Proofs Life_Proofs2.
Import ListNotations.
Open Scope nat_scope.

Ltac fields := cbn [lf_nodes lf_reg lf_asked lf_up lf_sequences lf_registering lf_replies lf_main lf_sent lf_delivered lf_returned lf_wait
  with_nodes with_main with_asked with_sequences with_down with_registering with_registry with_sent with_delivered with_returned with_wait put] in *.
Definition is_main (e : levent) : bool := match e with EMain => true | _ => false end.
Definition returns_of (k : nat) (e : levent) : bool := match e with EReturn j _ => j =? k | _ => false end.
Definition how_many (f : levent -> bool) (l : list levent) : nat := length (filter f l).
Lemma how_many_app f a b : how_many f (a ++ b) = how_many f a + how_many f b.
Proof. unfold how_many. rewrite filter_app, app_length. reflexivity. Qed.

Section Runs3.
Variable nlocal : nat.
Variable reqs : list reg_request.
Hypothesis distinct : NoDup (map rq_text reqs).
Notation step := (Life_Model.step nlocal).
Notation run := (Life_Model.run nlocal).
Notation life_ok := (life_ok nlocal reqs).

(** ** The main thread makes finitely many steps *)
Definition stopped (s : life) (j : nat) : nat :=
  match nth_error (lf_nodes s) j with Some n => match ln_phase n with NClosing => 1 | NGone => 2 | _ => 0 end | None => 0 end.
Definition weight (s : life) : nat :=
  match lf_main s with
  | MDone | MCrash => 0
  | MClose r => if r =? 1 then 3 * nlocal + 5 else 1
  | MCollect r => if r =? 1 then 3 * nlocal + 6 else 2
  | MSend r => if r =? 1 then 3 * nlocal + 7 else 3
  | MLocal j => 4 + 3 * (nlocal - j) - if j <? nlocal then stopped s j else 0
  | MWait => 3 * nlocal + 8
  | MStart j => 3 * nlocal + 9 + (nlocal - j)
  end.
Lemma stopped_le s j : stopped s j <= 2.
Proof. unfold stopped. destruct (nth_error _ j) as [n|]; [destruct (ln_phase n)|]; lia. Qed.
Definition rank (p : nphase) : nat := match p with NClosing => 1 | NGone => 2 | _ => 0 end.
Lemma weight_put s k n n' : nth_error (lf_nodes s) k = Some n -> rank (ln_phase n) <= rank (ln_phase n') -> weight (put k n' s) <= weight s.
Proof.
  intros E R. unfold weight. fields. destruct (lf_main s); try lia. destruct (j <? nlocal); [|lia].
  assert (stopped s j <= stopped (put k n' s) j).
  { unfold stopped. fields. destruct (Nat.eq_dec k j) as [<-|N]; [rewrite (node_set_same _ _ _ _ E), E; exact R|rewrite node_set_other by exact N; lia]. }
  fields. lia.
Qed.
Lemma weight_step e s s' : step e s = Some s' -> weight s' + (if is_main e then 1 else 0) <= weight s.
Proof.
  intro H. apply step_moves in H.
  destruct H; cbn [is_main]; rewrite ?Nat.add_0_r;
    try (unfold weight; fields; repeat match goal with E : lf_main s = _ |- _ => rewrite E in *; clear E end; unfold stopped; fields; lia);
    try (eapply weight_put; [eassumption|];
         cbn [ln_phase set_phase set_told set_handlers begin_stop]; repeat match goal with E : ln_phase _ = _ |- _ => rewrite E end; cbn [rank]; lia);
    try (destruct (lf_main s); exact (le_n _)).
  - unfold weight. fields. rewrite H. cbn [Nat.eqb]. lia.
  - unfold weight. fields. rewrite H. destruct (r =? 1); lia.
  - unfold weight. fields. rewrite H. destruct (r =? 1); lia.
  - unfold weight. fields. rewrite H. destruct (r =? 1); lia.
  - unfold weight. fields. rewrite H. destruct (r =? 1); [|lia]. pose proof (stopped_le (with_main (MLocal 0) s) 0). destruct (0 <? nlocal); lia.
  - unfold weight. fields. rewrite H. destruct (Nat.ltb_spec j nlocal); cbn [Nat.eqb]; lia.
  - unfold weight. fields. rewrite H. rewrite (proj2 (Nat.ltb_lt j nlocal)) by assumption. unfold stopped at 2. rewrite H1, H2.
    pose proof (stopped_le (with_main (MLocal (S j)) s) (S j)). destruct (S j <? nlocal); lia.
  - unfold weight. fields. rewrite H. rewrite (proj2 (Nat.ltb_lt j nlocal)) by assumption. unfold stopped. fields. rewrite (node_set_same _ _ _ _ H1), H1.
    apply owner_spec in H3 as [(P & T & ->)|[(P & T & ->)|(P & T & ->)]]; cbn [ln_phase set_phase set_told] in *; rewrite P; lia.
  - eapply weight_put; [eassumption|]. apply owner_spec in H1 as [(P & T & ->)|[(P & T & ->)|(P & T & ->)]]; cbn [ln_phase set_phase set_told]; rewrite P; cbn [rank]; lia.
Qed.
Lemma weight_run l : forall s s', run l s = Some s' -> weight s' + how_many is_main l <= weight s.
Proof.
  induction l as [|e l IH]; intros s s' H; cbn [Life_Model.run] in H; [injection H as <-; unfold how_many; cbn; lia|].
  destruct (step e s) as [s1|] eqn:E; [|discriminate]. pose proof (weight_step e s s1 E). pose proof (IH s1 s' H). unfold how_many in *. cbn [filter]. destruct (is_main e); cbn [length]; lia.
Qed.

(** ** It is never stuck once shutdown is requested *)
Definition progress (e : levent) : Prop :=
  match e with EMain | EComplete _ false | EEnd false | ERegister _ => True | EReturn k _ => k < nlocal | _ => False end.
Lemma main_progress s : life_ok s -> nlocal <= length reqs -> lf_main s <> MDone -> lf_main s <> MCrash -> (forall j, lf_main s <> MStart j) -> (lf_main s = MWait -> lf_asked s = true) ->
  exists e s', step e s = Some s' /\ progress e.
Proof.
  intros [O M D L] Len Nd Nc Ns Nw. specialize (M Nc). assert (Ln : length (lf_nodes s) = length reqs) by (rewrite <- (o_reqs _ s O), map_length; reflexivity).
  destruct (lf_main s) as [j| |r|r|r|j| |] eqn:Em; try congruence.
  - exists EMain. cbn [Life_Model.step]. unfold main_step. rewrite Em, (Nw eq_refl). eexists. split; [reflexivity|exact Logic.I].
  - exists EMain. cbn [Life_Model.step]. unfold main_step. rewrite Em. destruct (targets_ok reqs s O) as (ids & -> & _). eexists. split; [reflexivity|exact Logic.I].
  - destruct (lf_wait s) as [|t w] eqn:Ew.
    + exists EMain. cbn [Life_Model.step]. unfold main_step. rewrite Em, Ew. eexists. split; [reflexivity|exact Logic.I].
    + exists (EComplete t false). cbn [Life_Model.step]. rewrite (proj2 (has_tag_in t (lf_wait s))) by (rewrite Ew; left; reflexivity). eexists. split; [reflexivity|exact Logic.I].
  - destruct (lf_sequences s) as [|m] eqn:Es; [|exists (EEnd false); cbn [Life_Model.step]; rewrite Es; eexists; split; [reflexivity|exact Logic.I]].
    destruct (lf_registering s) as [|k w] eqn:Ew.
    + exists EMain. cbn [Life_Model.step]. unfold main_step. rewrite Em, Es, Ew. eexists. split; [reflexivity|exact Logic.I].
    + exists (ERegister k). cbn [Life_Model.step]. assert (I : In k (lf_registering s)) by (rewrite Ew; left; reflexivity).
      pose proof (o_range _ s O k I) as R. apply nth_error_Some in R. destruct (nth_error (lf_nodes s) k) as [n|]; [|congruence].
      rewrite (proj2 (existsb_nat k _) I). destruct (register_node true (ln_req n) (lf_reg s)). eexists. split; [reflexivity|exact Logic.I].
  - destruct (Nat.leb_spec nlocal j) as [Lj|Lj].
    + exists EMain. cbn [Life_Model.step]. unfold main_step. rewrite Em, (proj2 (Nat.leb_le _ _) Lj). eexists. split; [reflexivity|exact Logic.I].
    + assert (R : j < length (lf_nodes s)) by lia. apply nth_error_Some in R. destruct (nth_error (lf_nodes s) j) as [n|] eqn:En; [|congruence].
      pose proof (L j n Lj En) as P. rewrite Em in P. cbn [ok_local] in P. rewrite Nat.ltb_irrefl, Nat.eqb_refl in P.
      destruct (ln_handlers n) as [|h hs] eqn:Eh; [exists EMain|destruct P as [P|[P|P]]; [exists EMain|exists (EReturn j 0)|exists EMain]]; cbn [Life_Model.step]; unfold main_step; rewrite ?Em, ?(proj2 (Nat.leb_gt _ _) Lj), ?En.
      * destruct P as [P|[P|P]]; rewrite P; unfold owner_step, idle; cbn [ln_phase set_told ln_told ln_handlers]; rewrite ?P, ?Eh; eexists; (split; [reflexivity|exact Logic.I]).
      * rewrite P. unfold owner_step. cbn [ln_phase set_told ln_told]. rewrite P. eexists. split; [reflexivity|exact Logic.I].
      * rewrite Eh. cbn [nth_error]. unfold config_locked. rewrite P, andb_false_r. eexists. split; [reflexivity|exact Lj].
      * rewrite P. eexists. split; [reflexivity|exact Logic.I].
Qed.

(** ** A node manager that is closing ends when its handlers return *)
Definition own (k : nat) (e : levent) : Prop := match e with EOwner j | EReturn j _ => j = k | _ => False end.
Definition ends (s : life) (k bound : nat) : Prop := exists l s' n', run l s = Some s' /\ length l <= bound /\ Forall (own k) l /\ nth_error (lf_nodes s') k = Some n' /\ ln_phase n' = NGone.
Lemma drains k : forall m s n, nth_error (lf_nodes s) k = Some n -> length (ln_handlers n) = m -> (ln_phase n = NClosing /\ nlocal <= k) \/ ln_phase n = NFailing ->
  (forall h, In h (ln_handlers n) -> needs_name h && config_locked n = false) -> ends s k (S m).
Proof.
  induction m as [|m IH]; intros s n En Lm P F.
  - destruct (ln_handlers n) eqn:Eh; [|discriminate]. assert (exists n', owner_step n = Some n' /\ ln_phase n' = NGone) as (n' & E' & P').
    { unfold owner_step, idle. destruct P as [(P & _)|P]; rewrite P, Eh; eexists; (split; [reflexivity|reflexivity]). }
    assert (B : (nlocal <=? k) || match ln_phase n with NFailing => true | _ => false end = true).
    { apply orb_true_iff. destruct P as [(_ & Lk)|P]; [left; apply Nat.leb_le, Lk|right; rewrite P; reflexivity]. }
    exists [EOwner k], (put k n' s), n'. cbn [Life_Model.run Life_Model.step]. rewrite En, B, E'. split; [reflexivity|]. split; [cbn; lia|]. split; [repeat constructor|].
    split; [exact (node_set_same _ _ _ _ En)|exact P'].
  - destruct (ln_handlers n) as [|h hs] eqn:Eh; [discriminate|]. set (n1 := set_handlers hs n).
    assert (exists s1, step (EReturn k 0) s = Some s1 /\ nth_error (lf_nodes s1) k = Some n1) as (s1 & E1 & En1).
    { cbn [Life_Model.step]. rewrite En, Eh. cbn [nth_error]. rewrite (F h (or_introl eq_refl)). cbn [firstn skipn app]. eexists. split; [reflexivity|].
      destruct h; fields; exact (node_set_same _ _ _ _ En). }
    destruct (IH s1 n1 En1) as (l & s' & n' & R & Ll & Fo & G).
    + cbn [ln_handlers n1 set_handlers length] in *. lia.
    + exact P.
    + intros h' I. apply F. right. exact I.
    + exists (EReturn k 0 :: l), s', n'. cbn [Life_Model.run]. rewrite E1. split; [exact R|]. split; [cbn [length]; lia|]. split; [constructor; [reflexivity|exact Fo]|exact G].
Qed.

(** ** A node manager whose registration failed while a handler waits for its
    name hangs *)
Definition hangs (s : life) (k : nat) : Prop := exists n, nth_error (lf_nodes s) k = Some n /\ ln_phase n = NFailing /\ existsb needs_name (ln_handlers n) = true.
Lemma existsb_drop {A} (f : A -> bool) i l x : nth_error l i = Some x -> f x = false -> existsb f (drop_nth i l) = existsb f l.
Proof.
  revert i. induction l as [|y l IH]; intros [|i] E F; cbn [nth_error] in E; try discriminate; unfold drop_nth in *; cbn [firstn skipn app existsb].
  - injection E as ->. rewrite F. reflexivity.
  - f_equal. exact (IH i E F).
Qed.
Lemma hangs_step e s s' k : hangs s k -> step e s = Some s' -> hangs s' k.
Proof.
  intros (n & En & P & N) H. apply step_moves in H.
  assert (Put : forall j m, j <> k -> hangs (put j m s) k).
  { intros j m Nj. exists n. fields. rewrite node_set_other by exact Nj. auto. }
  assert (Same : forall j m (X : Prop), nth_error (lf_nodes s) j = Some m -> (ln_phase m <> NFailing) -> j <> k).
  { intros j m X E Pm ->. congruence. }
  destruct H; try (exists n; fields; auto; fail); try (apply Put, (Same _ n0 True); [assumption|congruence]).
  - destruct (Nat.eq_dec j k) as [->|Nj]; [|apply Put, Nj]. assert (n0 = n) as -> by congruence. exfalso.
    apply owner_spec in H3 as [(Q & _)|[(Q & _)|(_ & Q & _)]]; cbn [ln_phase ln_handlers set_told] in Q; try congruence. rewrite Q in N. discriminate.
  - destruct (Nat.eq_dec k0 k) as [->|Nj]; [|exists n; fields; rewrite node_set_other by exact Nj; auto]. exfalso. assert (n0 = n) as -> by congruence. unfold accepting in H3. rewrite P in H3. discriminate.
  - destruct (Nat.eq_dec k0 k) as [->|Nj]; [|apply Put, Nj]. exfalso. assert (n0 = n) as -> by congruence. unfold accepting in H0. rewrite P in H0. discriminate.
  - destruct (Nat.eq_dec k0 k) as [->|Nj]; [|apply Put, Nj]. assert (n0 = n) as -> by congruence. unfold config_locked in H1. rewrite P, andb_true_r in H1.
    exists (set_handlers (drop_nth i (ln_handlers n)) n). fields. rewrite (node_set_same _ _ _ _ En). split; [reflexivity|]. split; [exact P|].
    cbn [ln_handlers set_handlers]. rewrite (existsb_drop needs_name i _ (HCall b)); assumption.
  - destruct (Nat.eq_dec k0 k) as [->|Nj]; [|exists n; fields; rewrite node_set_other by exact Nj; auto]. assert (n0 = n) as -> by congruence. unfold config_locked in H1. rewrite P, andb_true_r in H1.
    exists (set_handlers (drop_nth i (ln_handlers n)) n). fields. rewrite (node_set_same _ _ _ _ En). split; [reflexivity|]. split; [exact P|].
    cbn [ln_handlers set_handlers]. rewrite (existsb_drop needs_name i _ (HStop t b)); assumption.
  - destruct (Nat.eq_dec k0 k) as [->|Nj]; [|apply Put, Nj]. assert (n0 = n) as -> by congruence. exfalso.
    apply owner_spec in H1 as [(Q & _)|[(Q & _)|(_ & Q & _)]]; try congruence. rewrite Q in N. discriminate.
Qed.
Lemma hangs_run l s s' k : hangs s k -> run l s = Some s' -> hangs s' k.
Proof. intros H E. exact (run_invariant nlocal (fun s => hangs s k) (fun e a b P Q => hangs_step e a b k P Q) l s s' H E). Qed.

(** ** A closing node manager waits for its handlers *)
Definition closing_with (s : life) (k m : nat) : Prop := exists n, nth_error (lf_nodes s) k = Some n /\
  ((ln_phase n = NClosing /\ length (ln_handlers n) = m) \/ (ln_phase n = NGone /\ m = 0)).
Lemma drop_nth_length {A} i (l : list A) x : nth_error l i = Some x -> S (length (drop_nth i l)) = length l.
Proof.
  revert i. induction l as [|y l IH]; intros [|i] E; cbn [nth_error] in E; try discriminate; unfold drop_nth in *; cbn [firstn skipn app length]; [reflexivity|].
  f_equal. exact (IH i E).
Qed.
Lemma closing_step e s s' k m : closing_with s k m -> step e s = Some s' -> exists m', closing_with s' k m' /\ m <= m' + (if returns_of k e then 1 else 0).
Proof.
  intros (n & En & C) H. apply step_moves in H.
  assert (Put : forall j m', j <> k -> closing_with (put j m' s) k m).
  { intros j m' Nj. exists n. fields. rewrite node_set_other by exact Nj. auto. }
  assert (Acc : accepting n = false). { unfold accepting. destruct C as [(-> & _)|(-> & _)]; reflexivity. }
  destruct H; try (exists m; split; [exists n; fields; auto|lia]; fail);
    try (exists m; split; [apply Put; intro; subst; match goal with E1 : nth_error _ k = Some ?a |- _ => assert (a = n) as -> by congruence; destruct C as [(C & _)|(C & _)]; congruence end|lia]; fail).
  - destruct (Nat.eq_dec j k) as [->|Nj]; [|exists m; split; [apply Put, Nj|lia]]. assert (n0 = n) as -> by congruence.
    destruct C as [(C & Lm)|(C & _)]; [|congruence]. apply owner_spec in H3 as [(Q & _)|[(Q & Z0 & ->)|(Q & _)]]; cbn [ln_phase ln_handlers set_told] in *; try congruence.
    exists 0. split; [|rewrite Z0 in Lm; cbn in Lm; lia]. exists (set_phase NGone (set_told n)). fields. rewrite (node_set_same _ _ _ _ En). auto.
  - cbn [returns_of]. destruct (Nat.eqb_spec k0 k) as [->|Nj]; [|exists m; split; [apply Put, Nj|lia]]. assert (n0 = n) as -> by congruence.
    destruct C as [(C & Lm)|(C & ->)].
    + exists (length (drop_nth i (ln_handlers n))). split; [|pose proof (drop_nth_length _ _ _ H0); lia].
      exists (set_handlers (drop_nth i (ln_handlers n)) n). fields. rewrite (node_set_same _ _ _ _ En). auto.
    + exists 0. split; [|lia]. exists (set_handlers (drop_nth i (ln_handlers n)) n). fields. rewrite (node_set_same _ _ _ _ En). auto.
  - cbn [returns_of]. destruct (Nat.eqb_spec k0 k) as [->|Nj]; [|exists m; split; [exists n; fields; rewrite node_set_other by exact Nj; auto|lia]]. assert (n0 = n) as -> by congruence.
    destruct C as [(C & Lm)|(C & ->)].
    + exists (length (drop_nth i (ln_handlers n))). split; [|pose proof (drop_nth_length _ _ _ H0); lia].
      exists (set_handlers (drop_nth i (ln_handlers n)) n). fields. rewrite (node_set_same _ _ _ _ En). auto.
    + exists 0. split; [|lia]. exists (set_handlers (drop_nth i (ln_handlers n)) n). fields. rewrite (node_set_same _ _ _ _ En). auto.
  - destruct (Nat.eq_dec k0 k) as [->|Nj]; [|exists m; split; [apply Put, Nj|lia]]. assert (n0 = n) as -> by congruence.
    apply owner_spec in H1 as [(Q & _)|[(Q & Z0 & ->)|(Q & _)]]; try (destruct C as [(C & _)|(C & _)]; congruence).
    destruct C as [(C & Lm)|(C & _)]; [|congruence]. exists 0. split; [|rewrite Z0 in Lm; cbn in Lm; lia]. exists (set_phase NGone n). fields. rewrite (node_set_same _ _ _ _ En). auto.
Qed.
Lemma closing_run l : forall s s' k m, closing_with s k m -> run l s = Some s' -> exists m', closing_with s' k m' /\ m <= m' + how_many (returns_of k) l.
Proof.
  induction l as [|e l IH]; intros s s' k m C H; cbn [Life_Model.run] in H; [injection H as <-; exists m; split; [exact C|lia]|].
  destruct (step e s) as [s1|] eqn:E; [|discriminate]. destruct (closing_step e s s1 k m C E) as (m1 & C1 & L1). destruct (IH s1 s' k m1 C1 H) as (m2 & C2 & L2).
  exists m2. split; [exact C2|]. unfold how_many in *. cbn [filter]. destruct (returns_of k e); cbn [length]; lia.
Qed.

(** ** Histories *)
Lemma asked_history l s : run l (life_start reqs) = Some s -> (lf_asked s = true \/ (before_shutdown (lf_main s) = false /\ lf_main s <> MCrash)) -> In (EEnd true) l.
Proof.
  intro H. revert l s H. apply (run_trace nlocal (fun l s => (lf_asked s = true \/ (before_shutdown (lf_main s) = false /\ lf_main s <> MCrash)) -> In (EEnd true) l)).
  - cbn. intros [K|(K & _)]; discriminate.
  - intros l e s s' IH _ H K. apply in_app_iff. apply step_moves in H.
    assert (Old : lf_asked s' = lf_asked s -> lf_main s' = lf_main s -> In (EEnd true) l) by (intros E1 E2; apply IH; rewrite <- E1, <- E2; exact K).
    destruct H; try (left; apply Old; reflexivity); fields;
      try (left; apply IH; right; rewrite H; split; [reflexivity|discriminate]; fail).
    + left. apply IH. destruct K as [K|(K & _)]; [left; exact K|discriminate K].
    + left. apply IH. destruct K as [K|(K & _)]; [left; exact K|discriminate K].
    + left. apply IH. left. assumption.
    + left. apply IH. destruct K as [K|(_ & K)]; [left; exact K|contradiction K; reflexivity].
    + destruct b; [right; left; reflexivity|]. left. apply IH. rewrite orb_false_r in K. exact K.
Qed.
Lemma failing_history l s : run l (life_start reqs) = Some s -> forall k n, nth_error (lf_nodes s) k = Some n -> ln_phase n = NFailing ->
  In (EGiveUp k) l \/ exists res, In (k, res) (lf_replies s) /\ forall id a, res <> RegOk id a.
Proof.
  intro H. revert l s H.
  refine (run_trace nlocal (fun l s => forall k n, nth_error (lf_nodes s) k = Some n -> ln_phase n = NFailing ->
    In (EGiveUp k) l \/ exists res, In (k, res) (lf_replies s) /\ forall id a, res <> RegOk id a) _ _ _).
  - intros k n E P. cbn [life_start lf_nodes] in E. rewrite nth_error_map in E. destruct (nth_error reqs k); [|discriminate]. injection E as <-. discriminate P.
  - intros l e s s' IH _ H k n E P. apply step_moves in H.
    assert (Old : forall n0, nth_error (lf_nodes s) k = Some n0 -> ln_phase n0 = NFailing -> (forall x, In x (lf_replies s) -> In x (lf_replies s')) ->
      In (EGiveUp k) (l ++ [e]) \/ exists res, In (k, res) (lf_replies s') /\ forall id a, res <> RegOk id a).
    { intros n0 E0 P0 R. destruct (IH k n0 E0 P0) as [I|(res & I & N)]; [left; apply in_app_iff; left; exact I|right; exists res; auto]. }
    assert (Put : forall j n0 n', nth_error (lf_nodes s) j = Some n0 -> nth_error (node_set j n' (lf_nodes s)) k = Some n -> ln_phase n' = ln_phase n0 \/ ln_phase n' <> NFailing ->
      (forall x, In x (lf_replies s) -> In x (lf_replies s')) -> In (EGiveUp k) (l ++ [e]) \/ exists res, In (k, res) (lf_replies s') /\ forall id a, res <> RegOk id a).
    { intros j n0 n' E0 E1 Q R. destruct (node_set_get _ _ _ _ _ _ E0 E1) as [(-> & ->)|(N & E2)]; [|exact (Old n E2 P R)].
      destruct Q as [Q|Q]; [apply (Old n0 E0); [congruence|exact R]|congruence]. }
    destruct H; fields; try (apply (Old n E P); auto; fail);
      try (eapply Put; [eassumption|exact E|cbn [ln_phase set_phase set_told set_handlers]; auto; right; discriminate|auto]; fail).
    + eapply Put; [eassumption|exact E| |auto]. right. apply owner_spec in H3 as [(_ & _ & ->)|[(_ & _ & ->)|(_ & _ & ->)]]; discriminate.
    + apply (Old n E P). intros x I. apply in_app_iff. auto.
    + apply (Old n E P). intros x I. apply in_app_iff. auto.
    + destruct (node_set_get _ _ _ _ _ _ H E) as [(-> & ->)|(N & E2)]; [|apply (Old n E2 P); auto]. right. exists res. split; [exact (proj1 (find_some _ _ H1))|assumption].
    + destruct (node_set_get _ _ _ _ _ _ H E) as [(-> & ->)|(N & E2)]; [|apply (Old n E2 P); auto]. left. apply in_app_iff. right. left. reflexivity.
    + eapply Put; [eassumption|exact E| |auto]. right. apply owner_spec in H1 as [(_ & _ & ->)|[(_ & _ & ->)|(_ & _ & ->)]]; discriminate.
Qed.
End Runs3.
