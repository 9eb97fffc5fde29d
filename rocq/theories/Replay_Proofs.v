(** Lemmas about trace replay. *)
From Coq Require Import Ascii String List NArith ZArith Bool Arith Lia.
From Verif Require Import Base_Model Grid_Model Canon_Model Replay_Model.
Import ListNotations.
Open Scope Z_scope.

(** ** Lists *)
Definition occ (k : nat) (l : list nat) : nat := count_occ Nat.eq_dec l k.
Lemma occ_app k a b : occ k (a ++ b) = (occ k a + occ k b)%nat.
Proof. unfold occ. apply count_occ_app. Qed.
Lemma occ_cons k x l : occ k (x :: l) = ((if Nat.eq_dec x k then 1 else 0) + occ k l)%nat.
Proof. unfold occ. cbn [count_occ]. destruct (Nat.eq_dec x k); reflexivity. Qed.
Lemma occ_nil k : occ k [] = 0%nat. Proof. reflexivity. Qed.
Lemma occ_In k l : (0 < occ k l)%nat <-> In k l.
Proof. unfold occ. pose proof (count_occ_In Nat.eq_dec l k) as C. unfold gt in C. split; intro H; apply C; exact H. Qed.
Lemma occ_zero k l : occ k l = 0%nat <-> ~ In k l.
Proof. rewrite <- occ_In. lia. Qed.
Lemma occ_nodup l : (forall k, (occ k l <= 1)%nat) -> NoDup l.
Proof. intro H. apply (NoDup_count_occ Nat.eq_dec). exact H. Qed.
Lemma occ_single k x : occ k [x] = if Nat.eq_dec x k then 1%nat else 0%nat.
Proof. rewrite occ_cons, occ_nil. destruct (Nat.eq_dec x k); reflexivity. Qed.

Lemma upd_length {A} (f : A -> A) l : forall i, length (upd i f l) = length l.
Proof. induction l as [|x r IH]; intros [|i]; cbn [upd length]; auto. Qed.
Lemma upd_nth {A} (f : A -> A) l : forall i j, nth_error (upd i f l) j = if Nat.eq_dec j i then option_map f (nth_error l j) else nth_error l j.
Proof.
  induction l as [|x r IH]; intros [|i] [|j]; cbn [upd nth_error].
  all: try (destruct (Nat.eq_dec _ _); reflexivity).
  - destruct (Nat.eq_dec 0 0); [reflexivity|congruence].
  - destruct (Nat.eq_dec (S j) 0); [discriminate|reflexivity].
  - destruct (Nat.eq_dec 0 (S i)); [discriminate|reflexivity].
  - rewrite IH. destruct (Nat.eq_dec j i), (Nat.eq_dec (S j) (S i)); try reflexivity; exfalso; congruence.
Qed.
Lemma without_map {A B} (f : A -> B) l : forall n, map f (without n l) = without n (map f l).
Proof. induction l as [|x r IH]; intros [|n]; cbn [without map]; [reflexivity|reflexivity|reflexivity|]. f_equal. apply IH. Qed.
Lemma without_occ l : forall n i k, nth_error l n = Some i -> (occ k (without n l) + (if Nat.eq_dec i k then 1 else 0))%nat = occ k l.
Proof.
  induction l as [|x r IH]; intros [|n] i k E; cbn [nth_error without] in *; try discriminate.
  - injection E as ->. rewrite occ_cons. lia.
  - rewrite !occ_cons, <- (IH n i k E). lia.
Qed.
Lemma without_In {A} l : forall n (x : A), In x (without n l) -> In x l.
Proof.
  induction l as [|y r IH]; intros [|n] x H; cbn [without] in H; try (destruct H; fail).
  - right. exact H.
  - destruct H as [H|H]; [left; exact H|right; exact (IH n x H)].
Qed.
Lemma without_length {A} (l : list A) : forall n x, nth_error l n = Some x -> length l = S (length (without n l)).
Proof. induction l as [|y r IH]; intros [|n] x E; cbn [nth_error without length] in *; try discriminate; [reflexivity|]. f_equal. exact (IH n x E). Qed.
Lemma earliest_None l : earliest l = None <-> l = [].
Proof. destruct l as [|[x i] r]; cbn [earliest]; [tauto|]. split; [destruct (earliest r); discriminate|discriminate]. Qed.
Lemma earliest_le l : forall x y i, earliest l = Some x -> In (y, i) l -> x <= y.
Proof.
  induction l as [|[z k] r IH]; intros x y i E H; [discriminate|]. cbn [earliest] in E. destruct (earliest r) as [e|] eqn:F.
  - injection E as <-. destruct H as [H|H]; [injection H as -> ->; lia|]. specialize (IH e y i eq_refl H). lia.
  - apply earliest_None in F. subst r. injection E as <-. destruct H as [H|[]]. injection H as -> ->. lia.
Qed.
Lemma earliest_In l : forall x, earliest l = Some x -> exists i n, nth_error l n = Some (x, i).
Proof.
  induction l as [|[z k] r IH]; intros x E; [discriminate|]. cbn [earliest] in E. destruct (earliest r) as [e|] eqn:F.
  - injection E as <-. destruct (Z.min_spec z e) as [[_ ->]|[_ ->]]; [exists k, 0%nat; reflexivity|].
    destruct (IH e eq_refl) as (i & n & H). exists i, (S n). exact H.
  - injection E as <-. exists k, 0%nat. reflexivity.
Qed.

(** ** What the trace says *)
(** The RPCs record [i] waits for, as many times as it names them. *)
Definition named (t : trace) (local : Z) (i : nat) (d : Z) : list nat :=
  let j := Z.to_nat (Z.of_nat i - 1 - d) in
  match record_at t j with Some r => if addressed local r then [j] else [] | None => [] end.
Definition mine (t : trace) (local : Z) (i : nat) : bool := match record_at t i with Some r => addressed local r | None => false end.
Definition waits_for (t : trace) (local : Z) (i : nat) : list nat :=
  match record_at t i with Some r => if addressed local r then flat_map (named t local i) (rc_distances r) else [] | None => [] end.
Definition mode_of (t : trace) (i : nat) : tmode := match record_at t i with Some r => mode r | None => MUnknown end.
Definition timing_of (t : trace) (i : nat) : Z := match record_at t i with Some r => timing r | None => 0 end.
Definition good_distances (t : trace) (local : Z) : Prop :=
  forall i r d, record_at t i = Some r -> addressed local r = true -> In d (rc_distances r) -> 0 <= d < Z.of_nat i.
Lemma named_mine t local i d j : In j (named t local i d) -> mine t local j = true.
Proof.
  unfold named, mine. destruct (record_at t _) as [r|] eqn:E; [|intros []]. destruct (addressed local r) eqn:A; [|intros []].
  intros [<-|[]]. rewrite E. exact A.
Qed.
Lemma waits_mine t local i j : In j (waits_for t local i) -> mine t local j = true.
Proof.
  unfold waits_for. destruct (record_at t i) as [r|]; [|intros []]. destruct (addressed local r); [|intros []].
  intro H. apply in_flat_map in H. destruct H as (d & _ & H). exact (named_mine _ _ _ _ _ H).
Qed.
Lemma waits_earlier t local i j : good_distances t local -> In j (waits_for t local i) -> (j < i)%nat.
Proof.
  intros G H. unfold waits_for in H. destruct (record_at t i) as [r|] eqn:E; [|destruct H]. destruct (addressed local r) eqn:A; [|destruct H].
  apply in_flat_map in H. destruct H as (d & Hd & H). pose proof (G i r d E A Hd). unfold named in H.
  destruct (record_at t (Z.to_nat (Z.of_nat i - 1 - d))) as [r'|]; [|destruct H]. destruct (addressed local r'); [|destruct H]. destruct H as [<-|[]]. lia.
Qed.
Lemma record_lt t i r : record_at t i = Some r -> (i < length (t_records t))%nat.
Proof. unfold record_at. destruct (nth_error (t_records t) i) eqn:E; [|discriminate]. intros _. apply nth_error_Some. congruence. Qed.
Lemma mine_lt t local i : mine t local i = true -> (i < length (t_records t))%nat.
Proof. unfold mine. destruct (record_at t i) eqn:E; [|discriminate]. intros _. exact (record_lt _ _ _ E). Qed.

(** ** Setup *)
Definition rem (deps : list dep) (i : nat) : Z := match nth_error deps i with Some d => dp_remaining d | None => 0 end.
Definition sdeps (deps : list dep) (j : nat) : list nat := match nth_error deps j with Some d => dp_start d | None => [] end.
Definition edeps (deps : list dep) (j : nat) : list nat := match nth_error deps j with Some d => dp_end d | None => [] end.
Definition is_start (m : tmode) : bool := match m with MPriorStart => true | _ => false end.
Definition is_end (m : tmode) : bool := match m with MPriorEnd => true | _ => false end.

Lemma setup_distances_spec t local i m : forall ds deps v deps' v', setup_distances t local i m ds deps v = Some (deps', v') ->
  length deps = length (t_records t) ->
  length deps' = length deps /\ v' = v + Z.of_nat (length (flat_map (named t local i) ds)) /\
  (forall d, In d ds -> 0 <= d < Z.of_nat i) /\
  (forall j, rem deps' j = rem deps j) /\
  (forall j k, occ k (sdeps deps' j) = (occ k (sdeps deps j) + (if Nat.eq_dec k i then if is_start m then occ j (flat_map (named t local i) ds) else 0 else 0))%nat) /\
  (forall j k, occ k (edeps deps' j) = (occ k (edeps deps j) + (if Nat.eq_dec k i then if is_end m then occ j (flat_map (named t local i) ds) else 0 else 0))%nat).
Proof.
  induction ds as [|d r IH]; intros deps v deps' v' H L; cbn [setup_distances] in H.
  - injection H as <- <-. cbn [flat_map length]. split; [reflexivity|]. split; [lia|]. split; [intros d []|]. split; [reflexivity|].
    split; intros j k; rewrite occ_nil; destruct (Nat.eq_dec k i); destruct m; cbn; lia.
  - destruct (Z.ltb_spec d 0) as [|D0]; [discriminate|]. destruct (Z.ltb_spec (Z.of_nat i - 1 - d) 0) as [|D1]; [discriminate|].
    set (x := Z.to_nat (Z.of_nat i - 1 - d)) in *.
    destruct (record_at t x) as [dr|] eqn:E; [|discriminate]. pose proof (record_lt _ _ _ E) as Lx.
    cbn [flat_map]. assert (En : named t local i d = if addressed local dr then [x] else []) by (unfold named; fold x; rewrite E; reflexivity). rewrite En.
    destruct (addressed local dr).
    + set (deps1 := match m with MPriorStart => upd x (push_start i) deps | MPriorEnd => upd x (push_end i) deps | _ => deps end) in *.
      assert (L1 : length deps1 = length deps) by (unfold deps1; destruct m; rewrite ?upd_length; reflexivity).
      destruct (IH deps1 (v + 1) deps' v' H ltac:(congruence)) as (A1 & A2 & A3 & A4 & A5 & A6).
      assert (R1 : forall j, rem deps1 j = rem deps j).
      { intro j. unfold rem, deps1. destruct m; try reflexivity; rewrite upd_nth; destruct (Nat.eq_dec j x); try reflexivity; destruct (nth_error deps j); reflexivity. }
      assert (S1 : forall j k, occ k (sdeps deps1 j) = (occ k (sdeps deps j) + (if Nat.eq_dec k i then if is_start m then occ j [x] else 0 else 0))%nat).
      { intros j k. unfold sdeps, deps1. destruct m; cbn [is_start]; try (destruct (Nat.eq_dec k i); lia).
        - rewrite upd_nth, occ_single. destruct (Nat.eq_dec j x) as [->|N].
          + destruct (nth_error deps x) as [dx|] eqn:Ex; [|apply nth_error_None in Ex; lia]. cbn [option_map push_start dp_start]. rewrite occ_app, occ_single.
            destruct (Nat.eq_dec i k), (Nat.eq_dec k i), (Nat.eq_dec x x); try congruence; lia.
          + destruct (Nat.eq_dec x j); [congruence|]. destruct (Nat.eq_dec k i); lia.
        - rewrite upd_nth. destruct (Nat.eq_dec j x) as [->|N]; [destruct (nth_error deps x)|]; cbn [option_map push_end dp_start]; destruct (Nat.eq_dec k i); lia. }
      assert (E1 : forall j k, occ k (edeps deps1 j) = (occ k (edeps deps j) + (if Nat.eq_dec k i then if is_end m then occ j [x] else 0 else 0))%nat).
      { intros j k. unfold edeps, deps1. destruct m; cbn [is_end]; try (destruct (Nat.eq_dec k i); lia).
        - rewrite upd_nth. destruct (Nat.eq_dec j x) as [->|N]; [destruct (nth_error deps x)|]; cbn [option_map push_start dp_end]; destruct (Nat.eq_dec k i); lia.
        - rewrite upd_nth, occ_single. destruct (Nat.eq_dec j x) as [->|N].
          + destruct (nth_error deps x) as [dx|] eqn:Ex; [|apply nth_error_None in Ex; lia]. cbn [option_map push_end dp_end]. rewrite occ_app, occ_single.
            destruct (Nat.eq_dec i k), (Nat.eq_dec k i), (Nat.eq_dec x x); try congruence; lia.
          + destruct (Nat.eq_dec x j); [congruence|]. destruct (Nat.eq_dec k i); lia. }
      split; [congruence|]. split; [rewrite app_length; cbn [length]; lia|]. split; [intros d' [<-|Hd]; [lia|exact (A3 d' Hd)]|].
      split; [intro j; rewrite A4; apply R1|].
      split; intros j k; [rewrite A5, S1|rewrite A6, E1]; rewrite occ_app; destruct (Nat.eq_dec k i), m; cbn [is_start is_end]; lia.
    + destruct (IH deps v deps' v' H L) as (A1 & A2 & A3 & A4 & A5 & A6). cbn [app].
      split; [exact A1|]. split; [exact A2|]. split; [intros d' [<-|Hd]; [lia|exact (A3 d' Hd)]|]. auto.
Qed.
(** After [i] records. *)
Record set_up (t : trace) (local traffic_start trace_start : Z) (i : nat) (deps : list dep) (ready : list (Z * nat)) (remaining : Z) : Prop := {
  u_len : length deps = length (t_records t);
  u_rem : forall k, rem deps k = if (k <? i)%nat then Z.of_nat (length (waits_for t local k)) else 0;
  u_start : forall j k, occ k (sdeps deps j) = if (k <? i)%nat then if is_start (mode_of t k) then occ j (waits_for t local k) else 0%nat else 0%nat;
  u_end : forall j k, occ k (edeps deps j) = if (k <? i)%nat then if is_end (mode_of t k) then occ j (waits_for t local k) else 0%nat else 0%nat;
  u_ready : forall k, occ k (map snd ready) = if (k <? i)%nat && mine t local k && (rem deps k =? 0) then 1%nat else 0%nat;
  u_time : forall x k, In (x, k) ready -> waits_for t local k = [] /\
             x = (match mode_of t k with MTraceStart => trace_start | _ => traffic_start end) + timing_of t k;
  u_remaining : remaining = Z.of_nat (length (filter (mine t local) (seq 0 i)));
  u_distances : forall k r d, (k < i)%nat -> record_at t k = Some r -> addressed local r = true -> In d (rc_distances r) -> 0 <= d < Z.of_nat k }.
Lemma ltb_S k i : (k <? S i)%nat = (k <? i)%nat || (k =? i)%nat.
Proof. destruct (Nat.ltb_spec k (S i)), (Nat.ltb_spec k i), (Nat.eqb_spec k i); try reflexivity; lia. Qed.
Lemma seq_snoc i : seq 0 (S i) = seq 0 i ++ [i].
Proof. rewrite seq_S. reflexivity. Qed.
Lemma setup_loop_spec t local T0 T1 : forall n i deps ready remaining out, (i + n = length (t_records t))%nat -> set_up t local T0 T1 i deps ready remaining ->
  setup_loop t local T0 T1 n i deps ready remaining = Some out ->
  set_up t local T0 T1 (length (t_records t)) (fst (fst out)) (snd (fst out)) (snd out).
Proof.
  induction n as [|n IH]; intros i deps ready remaining out L U H; cbn [setup_loop] in H.
  - injection H as <-. cbn [fst snd]. replace (length (t_records t)) with i by lia. exact U.
  - destruct (record_at t i) as [r|] eqn:E; [|discriminate].
    destruct U as [U1 U2 U3 U4 U5 U6 U7 U8].
    assert (Lt : (i <? i)%nat = false) by (apply Nat.ltb_irrefl).
    destruct (addressed local r) eqn:A.
    + assert (Wi : waits_for t local i = flat_map (named t local i) (rc_distances r)) by (unfold waits_for; rewrite E, A; reflexivity).
      assert (Mi : mode_of t i = mode r) by (unfold mode_of; rewrite E; reflexivity).
      assert (Mn : mine t local i = true) by (unfold mine; rewrite E; exact A).
      destruct (setup_distances t local i (mode r) (rc_distances r) deps 0) as [[deps1 v]|] eqn:D; [|discriminate].
      destruct (setup_distances_spec t local i (mode r) _ _ _ _ _ D U1) as (A1 & A2 & A3 & A4 & A5 & A6). rewrite <- Wi in *.
      assert (Li : (i < length deps1)%nat) by lia.
      assert (R2 : forall k, rem (upd i (set_remaining v) deps1) k = if Nat.eq_dec k i then v else rem deps k).
      { intro k. unfold rem at 1. rewrite upd_nth. destruct (Nat.eq_dec k i) as [->|N].
        - destruct (nth_error deps1 i) eqn:Ei; [reflexivity|]. apply nth_error_None in Ei. lia.
        - rewrite <- A4. reflexivity. }
      eapply IH; [| |exact H]; [lia|]. clear IH H. constructor.
      * rewrite upd_length. lia.
      * intro k. rewrite R2, ltb_S. destruct (Nat.eq_dec k i) as [->|N].
        -- rewrite Nat.eqb_refl, orb_true_r. lia.
        -- destruct (Nat.eqb_spec k i); [congruence|]. rewrite orb_false_r. apply U2.
      * intros j k. assert (X : sdeps (upd i (set_remaining v) deps1) j = sdeps deps1 j).
        { unfold sdeps. rewrite upd_nth. destruct (Nat.eq_dec j i); [|reflexivity]. destruct (nth_error deps1 j); reflexivity. }
        rewrite X, A5, U3, ltb_S. destruct (Nat.eq_dec k i) as [->|N].
        -- rewrite Lt, Nat.eqb_refl, Mi. cbn [orb]. reflexivity.
        -- destruct (Nat.eqb_spec k i); [congruence|]. rewrite orb_false_r. apply Nat.add_0_r.
      * intros j k. assert (X : edeps (upd i (set_remaining v) deps1) j = edeps deps1 j).
        { unfold edeps. rewrite upd_nth. destruct (Nat.eq_dec j i); [|reflexivity]. destruct (nth_error deps1 j); reflexivity. }
        rewrite X, A6, U4, ltb_S. destruct (Nat.eq_dec k i) as [->|N].
        -- rewrite Lt, Nat.eqb_refl, Mi. cbn [orb]. reflexivity.
        -- destruct (Nat.eqb_spec k i); [congruence|]. rewrite orb_false_r. apply Nat.add_0_r.
      * intro k. rewrite R2, ltb_S. assert (Q : forall y, occ k (map snd (if v =? 0 then ready ++ [(y, i)] else ready)) =
                          (occ k (map snd ready) + (if (v =? 0)%Z then if Nat.eq_dec i k then 1 else 0 else 0))%nat).
        { intro y. destruct (v =? 0); [|lia]. rewrite map_app, occ_app. cbn [map snd]. rewrite occ_single. reflexivity. }
        rewrite Q, U5. destruct (Nat.eq_dec k i) as [->|N].
        -- rewrite Lt, Nat.eqb_refl, Mn. cbn [orb andb]. destruct (v =? 0); [|reflexivity]. destruct (Nat.eq_dec i i); [reflexivity|congruence].
        -- destruct (Nat.eqb_spec k i); [congruence|]. rewrite orb_false_r. destruct (Nat.eq_dec i k); [congruence|]. destruct (v =? 0); apply Nat.add_0_r.
      * intros x k Hin. destruct (Z.eqb_spec v 0) as [V0|V0]; [|exact (U6 x k Hin)]. apply in_app_iff in Hin. destruct Hin as [Hin|[Hin|[]]]; [exact (U6 x k Hin)|].
        apply (f_equal fst) in Hin as H1. apply (f_equal snd) in Hin as H2. cbn [fst snd] in H1, H2. subst k.
        split; [destruct (waits_for t local i); [reflexivity|cbn [length] in A2; lia]|].
        rewrite Mi. unfold timing_of. rewrite E. symmetry. exact H1.
      * rewrite seq_snoc, filter_app, app_length. cbn [filter]. rewrite Mn. cbn [length]. lia.
      * intros k r0 d Hk Er Ar Hd. destruct (Nat.eq_dec k i) as [->|N]; [|eapply U8; [lia|eassumption|eassumption|eassumption]].
        assert (r0 = r) by congruence. subst r0. apply A3. exact Hd.
    + assert (Wi : waits_for t local i = []) by (unfold waits_for; rewrite E, A; reflexivity).
      assert (Mn : mine t local i = false) by (unfold mine; rewrite E; exact A).
      eapply IH; [| |exact H]; [lia|]. clear IH H. constructor; auto.
      * intro k. rewrite U2, ltb_S. destruct (Nat.eqb_spec k i) as [->|N]; [rewrite Lt, Wi; reflexivity|]. rewrite orb_false_r. reflexivity.
      * intros j k. rewrite U3, ltb_S. destruct (Nat.eqb_spec k i) as [->|N]; [rewrite Lt, Wi; cbn [orb]; destruct (is_start _); reflexivity|]. rewrite orb_false_r. reflexivity.
      * intros j k. rewrite U4, ltb_S. destruct (Nat.eqb_spec k i) as [->|N]; [rewrite Lt, Wi; cbn [orb]; destruct (is_end _); reflexivity|]. rewrite orb_false_r. reflexivity.
      * intro k. rewrite U5, ltb_S. destruct (Nat.eqb_spec k i) as [->|N]; [rewrite Lt, Mn; reflexivity|]. rewrite orb_false_r. reflexivity.
      * rewrite seq_snoc, filter_app, app_length. cbn [filter]. rewrite Mn. cbn [length]. rewrite Nat.add_0_r. exact U7.
      * intros k r0 d Hk Er Ar Hd. destruct (Nat.eq_dec k i) as [->|N]; [congruence|]. eapply U8; [lia|eassumption|eassumption|eassumption].
Qed.
Lemma set_up_start t local T0 T1 : set_up t local T0 T1 0 (map (fun _ => mkDep 0 [] []) (t_records t)) [] 0.
Proof.
  assert (N : forall j, nth_error (map (fun _ : record => mkDep 0 [] []) (t_records t)) j = option_map (fun _ => mkDep 0 [] []) (nth_error (t_records t) j)) by (intro j; apply nth_error_map).
  constructor; try (intros; reflexivity).
  - apply map_length.
  - intro k. unfold rem. rewrite N. destruct (nth_error (t_records t) k); reflexivity.
  - intros j k. unfold sdeps. rewrite N. destruct (nth_error (t_records t) j); reflexivity.
  - intros j k. unfold edeps. rewrite N. destruct (nth_error (t_records t) j); reflexivity.
  - intros x k [].
  - intros k r d H. lia.
Qed.
(** Setup fails exactly when a distance is out of range. *)
Lemma setup_distances_ok t local i m : forall ds deps v, (forall d, In d ds -> 0 <= d < Z.of_nat i) -> (i < length (t_records t))%nat ->
  exists o, setup_distances t local i m ds deps v = Some o.
Proof.
  induction ds as [|d r IH]; intros deps v H L; cbn [setup_distances]; [eexists; reflexivity|].
  pose proof (H d (or_introl eq_refl)) as Hd. destruct (Z.ltb_spec d 0); [lia|]. destruct (Z.ltb_spec (Z.of_nat i - 1 - d) 0); [lia|].
  assert (Hr : forall d, In d r -> 0 <= d < Z.of_nat i) by (intros d' Hd'; apply H; right; exact Hd').
  destruct (record_at t (Z.to_nat (Z.of_nat i - 1 - d))) as [dr|] eqn:E.
  - destruct (addressed local dr); apply IH; assumption.
  - exfalso. unfold record_at in E. destruct (nth_error (t_records t) (Z.to_nat (Z.of_nat i - 1 - d))) eqn:F; [discriminate|]. apply nth_error_None in F. lia.
Qed.
Lemma record_some t i : (i < length (t_records t))%nat -> exists r, record_at t i = Some r.
Proof. intro L. unfold record_at. destruct (nth_error (t_records t) i) eqn:F; [eexists; reflexivity|]. apply nth_error_None in F. lia. Qed.
Lemma setup_loop_ok t local T0 T1 : good_distances t local -> forall n i deps ready remaining, (i + n = length (t_records t))%nat ->
  exists o, setup_loop t local T0 T1 n i deps ready remaining = Some o.
Proof.
  intro G. induction n as [|n IH]; intros i deps ready remaining L; cbn [setup_loop]; [eexists; reflexivity|].
  destruct (record_some t i) as [r E]; [lia|]. rewrite E. destruct (addressed local r) eqn:A; [|apply IH; lia].
  destruct (setup_distances_ok t local i (mode r) (rc_distances r) deps 0) as [[deps1 v] D].
  - intros d Hd. exact (G i r d E A Hd).
  - lia.
  - rewrite D. apply IH. lia.
Qed.
