(** Specification and proofs for Iter_Model. *)
From Coq Require Import List ZArith Bool Lia FinFun.
From Verif Require Import Base_Model Iter_Model.
Import ListNotations.
Open Scope Z_scope.

(** * Reading a log (newest event first) *)
Definition starts (l : list it_event) : list Z :=
  flat_map (fun e => match e with IStart k _ _ => [k] | _ => [] end) l.
Definition ends (l : list it_event) : list Z :=
  flat_map (fun e => match e with IEnd k => [k] | _ => [] end) l.
Definition calls (l : list it_event) : nat :=
  length (filter (fun e => match e with ICall => true | _ => false end) l).
Fixpoint starts_since_cancel (l : list it_event) : nat :=
  match l with
  | [] => 0
  | ICancel :: _ => 0
  | IStart _ _ _ :: r => S (starts_since_cancel r)
  | _ :: r => starts_since_cancel r
  end.
(** 0, 1, ..., n-1. *)
Definition upto (n : Z) : list Z := map Z.of_nat (seq 0 (Z.to_nat n)).

Definition not_after (t : option Z) (now : Z) : Prop := match t with Some x => now <= x | None => True end.

(** A run of a closed loop action: initiated at [now0], then [sch] happens. *)
Definition closed_run (c : iter_cfg) (now0 : Z) (sch : list it_action) (s : it_state) : Prop :=
  ic_period c = None /\ exists s0, initiate c now0 0 = ItNext s0 /\ it_run c sch s0 = ItNext s.
Definition open_run (c : iter_cfg) (period first : Z) (sch : list it_action) (s : it_state) : Prop :=
  ic_period c = Some period /\ exists s0, initiate c 0 first = ItNext s0 /\ it_run c sch s0 = ItNext s.
Definition copies (c : iter_cfg) : Z := Z.min (ic_parallel c) (ic_limit c).
Definition iter_ok (c : iter_cfg) : Prop := 1 <= copies c <= int32_max.

(** * Lists *)
Lemma numbers_upto : forall n a, numbers a n = map (fun i => a + Z.of_nat i) (seq 0 n).
Proof.
  induction n as [|n IH]; intros a; [reflexivity|].
  cbn [numbers seq map]. f_equal; [lia|].
  rewrite IH, <- seq_shift, map_map. apply map_ext. intros i. lia.
Qed.
Lemma numbers0 : forall n, 0 <= n -> numbers 0 (Z.to_nat n) = upto n.
Proof. intros n H. rewrite numbers_upto. unfold upto. apply map_ext. intros i. lia. Qed.
Lemma upto_snoc : forall n, 0 <= n -> upto (n + 1) = upto n ++ [n].
Proof.
  intros n H. unfold upto. replace (Z.to_nat (n + 1)) with (Z.to_nat n + 1)%nat by lia.
  rewrite seq_app, map_app. cbn [seq map]. do 2 f_equal. lia.
Qed.
Lemma In_upto : forall n k, In k (upto n) <-> 0 <= k < n.
Proof.
  intros n k. unfold upto. rewrite in_map_iff. split.
  - intros [i [E H]]. apply in_seq in H. lia.
  - intros H. exists (Z.to_nat k). split; [lia|]. apply in_seq. lia.
Qed.
Lemma length_upto : forall n, length (upto n) = Z.to_nat n.
Proof. intros n. unfold upto. rewrite map_length, seq_length. reflexivity. Qed.
Lemma NoDup_upto : forall n, NoDup (upto n).
Proof.
  intros n. unfold upto. apply Injective_map_NoDup; [|apply seq_NoDup].
  intros a b E. lia.
Qed.

Lemma live_get_In : forall k l x, live_get k l = Some x -> In (k, x) l.
Proof.
  induction l as [|[j y] r IH]; intros x; cbn [live_get]; [discriminate|].
  destruct (Z.eqb_spec j k).
  - intros E. injection E as ->. left. congruence.
  - intros E. right. auto.
Qed.
Lemma live_get_NoDup : forall k l x, NoDup (map fst l) -> In (k, x) l -> live_get k l = Some x.
Proof.
  induction l as [|[j y] r IH]; intros x ND H; [destruct H|].
  cbn [map fst] in ND. inversion ND; subst. cbn [live_get]. destruct H as [H|H].
  - injection H as -> ->. rewrite Z.eqb_refl. reflexivity.
  - destruct (Z.eqb_spec j k); [|auto]. subst. exfalso. apply H2. apply in_map_iff. now exists (k, x).
Qed.
Lemma live_set_fst : forall k o l, map fst (live_set k o l) = map fst l.
Proof.
  induction l as [|[j y] r IH]; [reflexivity|]. cbn [live_set]. destruct (j =? k); [reflexivity|].
  cbn [map fst]. now rewrite IH.
Qed.
Lemma live_set_In : forall k o l j x, NoDup (map fst l) -> In (j, x) (live_set k o l) ->
  (j = k /\ x = o) \/ (j <> k /\ In (j, x) l).
Proof.
  induction l as [|[i y] r IH]; intros j x ND H; [destruct H|].
  cbn [map fst] in ND. inversion ND; subst. cbn [live_set] in H. destruct (Z.eqb_spec i k).
  - subst. destruct H as [H|H]; [injection H as -> ->; auto|].
    right. split; [|right; exact H]. intros ->. apply H2. apply in_map_iff. now exists (k, x).
  - destruct H as [H|H].
    + injection H as -> ->. right. split; [assumption|left; reflexivity].
    + destruct (IH j x H3 H) as [A|[A B]]; [auto|]. right. split; [assumption|right; assumption].
Qed.
Lemma live_set_keep : forall k o l j x, j <> k -> In (j, x) l -> In (j, x) (live_set k o l).
Proof.
  induction l as [|[i y] r IH]; intros j x N H; [destruct H|]. cbn [live_set].
  destruct H as [H|H].
  - injection H as -> ->. destruct (Z.eqb_spec j k); [contradiction|]. left. reflexivity.
  - destruct (i =? k); right; auto.
Qed.
Lemma live_del_In : forall k l j x, NoDup (map fst l) -> In (j, x) (live_del k l) <-> j <> k /\ In (j, x) l.
Proof.
  induction l as [|[i y] r IH]; intros j x ND; [cbn; tauto|].
  cbn [map fst] in ND. inversion ND; subst. cbn [live_del]. destruct (Z.eqb_spec i k).
  - subst. split.
    + intros H. split; [|right; exact H]. intros ->. apply H1. apply in_map_iff. now exists (k, x).
    + intros [A [B|B]]; [injection B as -> ->; contradiction|exact B].
  - cbn [In]. rewrite IH by assumption. split.
    + intros [E|[A B]]; [injection E as -> ->; auto|auto].
    + intros [A [B|B]]; auto.
Qed.
Lemma live_del_len : forall k l x, live_get k l = Some x -> length l = S (length (live_del k l)).
Proof.
  induction l as [|[i y] r IH]; intros x; cbn [live_get live_del]; [discriminate|].
  destruct (i =? k); [reflexivity|]. intros E. cbn [length]. f_equal. eauto.
Qed.
Lemma live_del_fst : forall k l, NoDup (map fst l) -> NoDup (map fst (live_del k l)).
Proof.
  induction l as [|[i y] r IH]; intros ND; [exact ND|].
  cbn [map fst] in ND. inversion ND; subst. cbn [live_del]. destruct (i =? k); [assumption|].
  cbn [map fst]. constructor; [|auto]. intros H. apply H1. apply in_map_iff in H.
  destruct H as [[a b] [E H]]. cbn in E. subst. apply live_del_In in H; [|assumption].
  apply in_map_iff. exists (i, b). split; [reflexivity|apply H].
Qed.

(** Iterations that ended before seeing a cancellation. *)
Definition unaware (l : list (Z * option bool)) : nat :=
  length (filter (fun e => match snd e with Some false => true | _ => false end) l).
Lemma unaware_le : forall l, (unaware l <= length l)%nat.
Proof.
  intros l. unfold unaware. induction l as [|a r IH]; [reflexivity|].
  cbn [filter length]. destruct (snd a) as [[|]|]; cbn [length]; lia.
Qed.
Lemma unaware_app : forall a b, unaware (a ++ b) = (unaware a + unaware b)%nat.
Proof. intros. unfold unaware. now rewrite filter_app, app_length. Qed.
Lemma unaware_del : forall k l x, live_get k l = Some x ->
  unaware l = ((match x with Some false => 1 | _ => 0 end) + unaware (live_del k l))%nat.
Proof.
  induction l as [|[i y] r IH]; intros x; cbn [live_get live_del]; [discriminate|].
  destruct (i =? k).
  - intros E. injection E as ->. unfold unaware. cbn [filter snd]. destruct x as [[|]|]; reflexivity.
  - intros E. specialize (IH x E). unfold unaware in *. cbn [filter snd].
    destruct y as [[|]|]; cbn [length]; lia.
Qed.
Lemma unaware_set_true : forall k l, live_get k l = Some None -> unaware (live_set k (Some true) l) = unaware l.
Proof.
  induction l as [|[i y] r IH]; cbn [live_get live_set]; [reflexivity|].
  destruct (i =? k).
  - intros E. injection E as ->. reflexivity.
  - intros E. specialize (IH E). unfold unaware in *. cbn [filter snd].
    destruct y as [[|]|]; cbn [length]; lia.
Qed.

Lemma snoc_NoDup : forall (l : list (Z * option bool)) n x,
  NoDup (map fst l) -> (forall j y, In (j, y) l -> 0 <= j < n) -> NoDup (map fst (l ++ [(n, x)])).
Proof.
  intros l n x ND H. rewrite map_app. cbn [map fst].
  induction l as [|[j y] r IH]; cbn [map app fst]; [repeat constructor; intros []|].
  cbn [map fst] in ND. inversion ND; subst. constructor.
  - rewrite in_app_iff. intros [A|[A|[]]]; [contradiction|]. subst.
    specialize (H j y (or_introl eq_refl)). lia.
  - apply IH; [assumption|]. intros a b I. apply (H a b). right. exact I.
Qed.

(** * Facts true of both kinds of loop *)
Record inv (c : iter_cfg) (s : it_state) : Prop := mkInv {
  v_next : 0 <= it_next s;
  v_fin : 0 <= it_finished s;
  v_live : it_finished s + Z.of_nat (length (it_live s)) = it_next s;
  v_nodup : NoDup (map fst (it_live s));
  v_range : forall k x, In (k, x) (it_live s) -> 0 <= k < it_next s;
  v_starts : rev (starts (it_log s)) = upto (it_next s);
  v_ends : forall k, In k (ends (it_log s)) <-> 0 <= k < it_next s /\ ~ In (k, None) (it_live s);
  v_ends_nd : NoDup (ends (it_log s));
  v_calls : calls (it_log s) = it_calls s;
  v_warm : forall k w now, In (IStart k w now) (it_log s) -> w = is_warmup c k;
  v_cancel : In ICancel (it_log s) <-> it_canceled s = true;
  v_obs : it_canceled s = false -> forall k, ~ In (k, Some true) (it_live s);
  v_int : in_int32 (it_next s) = true
}.

Lemma starts_cons : forall e l, starts (e :: l) = (match e with IStart k _ _ => [k] | _ => [] end) ++ starts l.
Proof. reflexivity. Qed.
Lemma ends_cons : forall e l, ends (e :: l) = (match e with IEnd k => [k] | _ => [] end) ++ ends l.
Proof. reflexivity. Qed.
Lemma calls_cons : forall e l, calls (e :: l) = ((match e with ICall => 1 | _ => 0 end) + calls l)%nat.
Proof. intros [] l; reflexivity. Qed.

Lemma in_int32_iff : forall z, in_int32 z = true <-> -2147483648 <= z <= int32_max.
Proof. intros z. unfold in_int32. rewrite andb_true_iff, !Z.leb_le. reflexivity. Qed.

Lemma to_int32_id : forall z, -2147483648 <= z <= int32_max -> to_int32 z = z.
Proof. intros z H. unfold to_int32, int32_max in *. rewrite Z.mod_small; lia. Qed.
Lemma to_int32_in : forall z, in_int32 (to_int32 z) = true.
Proof.
  intros z. apply in_int32_iff. unfold to_int32, int32_max.
  pose proof (Z.mod_pos_bound (z + 2147483648) 4294967296). lia.
Qed.

Lemma starts_initial : forall c now ks, starts (rev (map (start_event c now) ks)) = rev ks.
Proof.
  intros c now. induction ks as [|k r IH]; [reflexivity|]. cbn [map rev].
  unfold starts. rewrite flat_map_app. fold (starts (rev (map (start_event c now) r))). rewrite IH. reflexivity.
Qed.
Lemma initial_events : forall c now ks e, In e (rev (map (start_event c now) ks)) ->
  exists k, In k ks /\ e = start_event c now k.
Proof. intros c now ks e H. apply in_rev, in_map_iff in H. destruct H as [k [E H]]. eauto. Qed.
Lemma ends_initial : forall c now ks, ends (rev (map (start_event c now) ks)) = [].
Proof.
  intros c now ks. unfold ends.
  assert (H : forall e, In e (rev (map (start_event c now) ks)) -> exists k, e = start_event c now k).
  { intros e H. apply initial_events in H. destruct H as [k [_ E]]. eauto. }
  induction (rev (map (start_event c now) ks)) as [|e r IH]; [reflexivity|].
  destruct (H e (or_introl eq_refl)) as [k ->]. cbn [flat_map start_event app]. apply IH.
  intros e He. apply H. right. exact He.
Qed.
Lemma calls_initial : forall c now ks, calls (rev (map (start_event c now) ks)) = O.
Proof.
  intros c now ks. unfold calls.
  assert (H : forall e, In e (rev (map (start_event c now) ks)) -> exists k, e = start_event c now k).
  { intros e H. apply initial_events in H. destruct H as [k [_ E]]. eauto. }
  induction (rev (map (start_event c now) ks)) as [|e r IH]; [reflexivity|].
  destruct (H e (or_introl eq_refl)) as [k ->]. cbn [filter start_event]. apply IH.
  intros e He. apply H. right. exact He.
Qed.

Lemma inv_initiate : forall c now first s, initiate c now first = ItNext s -> inv c s.
Proof.
  intros c now first s. unfold initiate. destruct (ic_period c).
  - intros E. injection E as <-. constructor; cbn [it_next it_finished it_live it_log it_calls it_canceled map length].
    all: try lia; try (now constructor); try (cbn; tauto).
    all: first [intros k; cbn; lia | cbn; split; [tauto|discriminate] | intros _ k []].
  - set (p := to_int32 _). assert (P : in_int32 p = true) by apply to_int32_in.
    destruct (Z.ltb_spec p 0); [discriminate|].
    intros E. injection E as <-.
    constructor; cbn [it_next it_finished it_live it_log it_calls it_canceled].
    + lia.
    + lia.
    + rewrite map_length, numbers0, length_upto; lia.
    + rewrite map_map. cbn [fst]. rewrite map_id, numbers0 by lia. apply NoDup_upto.
    + intros k x I. apply in_map_iff in I. destruct I as [j [E I]]. injection E as -> <-.
      rewrite numbers0 in I by lia. now apply In_upto.
    + rewrite starts_initial, rev_involutive. now apply numbers0.
    + intros k. rewrite ends_initial. split; [intros []|]. intros [A B]. apply B.
      apply in_map_iff. exists k. split; [reflexivity|]. rewrite numbers0 by lia. now apply In_upto.
    + rewrite ends_initial. constructor.
    + apply calls_initial.
    + intros k w n I. apply initial_events in I. destruct I as [j [_ E]]. injection E as -> -> ->. reflexivity.
    + split; [|discriminate]. intros I. apply initial_events in I. destruct I as [j [_ E]]. discriminate.
    + intros _ k I. apply in_map_iff in I. destruct I as [j [E _]]. discriminate.
    + exact P.
Qed.

(** The three shapes a FinishIteration can take. *)
Definition finish_done (c : iter_cfg) (obs : bool) (now : Z) (s : it_state) : bool :=
  if it_next s =? ic_limit c then true
  else match ic_period c with
       | None => obs || match ic_time_limit c with Some t => now >? t | None => false end
       | Some _ => obs || time_gt (it_nit s) (ic_time_limit c)
       end.
Lemma finish_cases : forall c obs k now s s', finish_iteration c obs k now s = ItNext s' ->
  let d := finish_done c obs now s in
  (d = false /\ ic_period c = None /\ in_int32 (it_next s + 1) = true /\
   s' = mkIt (it_next s + 1) (it_finished s + 1) (it_nit s) (live_del k (it_live s) ++ [(it_next s, None)])
          (it_canceled s) (it_calls s) (start_event c now (it_next s) :: it_log s))
  \/ (d = true /\ it_next s = it_finished s + 1 /\
   s' = mkIt (it_next s) (it_finished s + 1) (it_nit s) (live_del k (it_live s)) (it_canceled s) (S (it_calls s))
          (ICall :: it_log s))
  \/ ((d = true /\ it_next s <> it_finished s + 1 \/ d = false /\ ic_period c <> None) /\
   s' = mkIt (it_next s) (it_finished s + 1) (it_nit s) (live_del k (it_live s)) (it_canceled s) (it_calls s)
          (it_log s)).
Proof.
  intros c obs k now s s'. unfold finish_iteration, finish_done. cbv zeta.
  destruct (ic_period c) as [per|]; cbn [negb];
  rewrite ?andb_false_r, ?andb_true_r;
  match goal with |- context [if it_next s =? ic_limit c then true else ?d] =>
    destruct (if it_next s =? ic_limit c then true else d) eqn:D end; cbn [negb andb orb].
  - rewrite orb_false_r. destruct (negb _); [discriminate|].
    destruct (Z.eqb_spec (it_next s - (it_finished s + 1)) 0); intros E; injection E as <-.
    + right. left. split; [reflexivity|]. split; [lia|reflexivity].
    + right. right. split; [left; split; [reflexivity|lia]|reflexivity].
  - rewrite orb_false_r. destruct (negb _); [discriminate|]. intros E; injection E as <-.
    right. right. split; [right; split; [reflexivity|discriminate]|reflexivity].
  - rewrite orb_false_r. destruct (negb _); [discriminate|].
    destruct (Z.eqb_spec (it_next s - (it_finished s + 1)) 0); intros E; injection E as <-.
    + right. left. split; [reflexivity|]. split; [lia|reflexivity].
    + right. right. split; [left; split; [reflexivity|lia]|reflexivity].
  - destruct (in_int32 (it_next s + 1)); cbn [negb]; [|rewrite orb_true_r; discriminate].
    rewrite orb_false_r. destruct (negb _); [discriminate|]. intros E; injection E as <-.
    left. repeat split; reflexivity.
Qed.

Lemma tick_cases : forall c now gap s s', open_loop_tick c now gap s = ItNext s' ->
  exists t, it_nit s = Some t /\ t < now /\
  let nit := if time_gt (Some (t + gap)) (ic_time_limit c) then None else Some (t + gap) in
  (ic_limit c <= it_next s /\
   s' = mkIt (it_next s) (it_finished s) nit (it_live s) (it_canceled s) (it_calls s) (it_log s))
  \/ (it_next s < ic_limit c /\ in_int32 (it_next s + 1) = true /\
   s' = mkIt (it_next s + 1) (it_finished s) nit (it_live s ++ [(it_next s, None)]) (it_canceled s)
          (it_calls s) (start_event c now (it_next s) :: it_log s)).
Proof.
  intros c now gap s s'. unfold open_loop_tick. destruct (it_nit s) as [t|]; [|discriminate].
  destruct (Z.ltb_spec t now); cbn [negb]; [|discriminate]. intros E. exists t. split; [reflexivity|].
  split; [assumption|]. cbv zeta. rewrite Z.geb_leb in E. destruct (Z.leb_spec (ic_limit c) (it_next s)).
  - injection E as <-. left. auto.
  - destruct (in_int32 (it_next s + 1)); cbn [negb] in E; [|discriminate]. injection E as <-. right. auto.
Qed.

Lemma inv_step : forall c a s s', inv c s -> it_step c a s = ItNext s' -> inv c s'.
Proof.
  intros c a s s' I E. destruct I. destruct a as [k|k now|now gap| |]; cbn [it_step] in E.
  - destruct (live_get k (it_live s)) as [[o|]|] eqn:G; try discriminate. injection E as <-.
    apply live_get_In in G.
    constructor; cbn [it_next it_finished it_live it_log it_calls it_canceled]; auto.
    + rewrite <- (map_length fst), live_set_fst, map_length. assumption.
    + rewrite live_set_fst. assumption.
    + intros j x H. apply live_set_In in H; [|assumption]. destruct H as [[-> _]|[_ H]]; eauto.
    + intros j. rewrite ends_cons. cbn [app In]. rewrite v_ends0. split.
      * intros [<-|[A B]].
        -- split; [eauto|]. intros H. apply live_set_In in H; [|assumption]. destruct H as [[_ H]|[H _]]; [discriminate|congruence].
        -- split; [assumption|]. intros H. apply live_set_In in H; [|assumption]. destruct H as [[_ H]|[_ H]]; [discriminate|auto].
      * intros [A B]. destruct (Z.eq_dec k j); [auto|]. right. split; [assumption|].
        intros H. apply B. apply live_set_keep; [congruence|assumption].
    + rewrite ends_cons. cbn [app]. constructor; [|assumption]. rewrite v_ends0. intros [_ B]. contradiction.
    + intros j w n [H|H]; [discriminate|eauto].
    + rewrite <- v_cancel0. cbn [In]. split; [intros [H|H]; [discriminate|assumption]|auto].
    + intros C j H. apply live_set_In in H; [|assumption]. destruct H as [[_ H]|[_ H]]; [congruence|].
      now apply (v_obs0 C j).
  - destruct (live_get k (it_live s)) as [[obs|]|] eqn:G; try discriminate.
    pose proof (live_del_len _ _ _ G) as L. pose proof (live_get_In _ _ _ G) as G'.
    apply finish_cases in E. cbv zeta in E.
    assert (R : forall j x, In (j, x) (live_del k (it_live s)) -> 0 <= j < it_next s).
    { intros j x H. apply live_del_In in H; [|assumption]. destruct H. eauto. }
    assert (NN : forall j, In (j, None) (live_del k (it_live s)) <-> In (j, None) (it_live s)).
    { intros j. rewrite live_del_In by assumption. split; [tauto|]. intros H. split; [|assumption]. intros ->.
      apply live_get_NoDup in H; [congruence|assumption]. }
    assert (OO : it_canceled s = false -> forall j, ~ In (j, Some true) (live_del k (it_live s))).
    { intros C j H. apply live_del_In in H; [|assumption]. destruct H as [_ H]. now apply (v_obs0 C j). }
    destruct E as [[D [P [O ->]]]|[[D [N ->]]|[_ ->]]];
      constructor; cbn [it_next it_finished it_live it_log it_calls it_canceled]; auto; try lia.
    + rewrite app_length. cbn [length]. lia.
    + apply snoc_NoDup; [now apply live_del_fst|exact R].
    + intros j x H. apply in_app_iff in H. destruct H as [H|[H|[]]]; [apply R in H; lia|].
      injection H as <- _. lia.
    + rewrite starts_cons. cbn [app rev start_event]. rewrite v_starts0, upto_snoc by lia. reflexivity.
    + intros j. rewrite ends_cons. cbn [app start_event]. rewrite v_ends0. rewrite in_app_iff, NN. cbn [In].
      split.
      * intros [A B]. split; [lia|]. intros [H|[H|[]]]; [auto|]. injection H as <-. lia.
      * intros [A B]. assert (j <> it_next s) by (intros ->; tauto). split; [lia|tauto].
    + intros j w n [H|H]; [injection H as <- <- <-; reflexivity|eauto].
    + rewrite <- v_cancel0. cbn [In]. split; [intros [H|H]; [discriminate|assumption]|auto].
    + intros C j H. apply in_app_iff in H. destruct H as [H|[H|[]]]; [now apply (OO C j)|discriminate].
    + now apply live_del_fst.
    + intros j. rewrite ends_cons. cbn [app]. rewrite NN. apply v_ends0.
    + rewrite calls_cons. lia.
    + intros j w n [H|H]; [discriminate|eauto].
    + rewrite <- v_cancel0. cbn [In]. split; [intros [H|H]; [discriminate|assumption]|auto].
    + now apply live_del_fst.
    + intros j. rewrite NN. apply v_ends0.
  - destruct (ic_period c); [|discriminate]. apply tick_cases in E. destruct E as [t [T [L [[A ->]|[A [O ->]]]]]].
    { constructor; cbn [it_next it_finished it_live it_log it_calls it_canceled]; auto. }
    constructor; cbn [it_next it_finished it_live it_log it_calls it_canceled]; auto; try lia.
    + rewrite app_length. cbn [length]. lia.
    + apply snoc_NoDup; assumption.
    + intros j x H. apply in_app_iff in H. destruct H as [H|[H|[]]]; [apply v_range0 in H; lia|].
      injection H as <- _. lia.
    + rewrite starts_cons. cbn [app rev start_event]. rewrite v_starts0, upto_snoc by lia. reflexivity.
    + intros j. rewrite ends_cons. cbn [app start_event]. rewrite v_ends0. rewrite in_app_iff. cbn [In].
      split.
      * intros [B C]. split; [lia|]. intros [H|[H|[]]]; [auto|]. injection H as <-. lia.
      * intros [B C]. assert (j <> it_next s) by (intros ->; tauto). split; [lia|tauto].
    + intros j w n [H|H]; [injection H as <- <- <-; reflexivity|eauto].
    + rewrite <- v_cancel0. cbn [In]. split; [intros [H|H]; [discriminate|assumption]|auto].
    + intros C j H. apply in_app_iff in H. destruct H as [H|[H|[]]]; [now apply (v_obs0 C j)|discriminate].
  - destruct (it_canceled s) eqn:C; [discriminate|]. injection E as <-.
    constructor; cbn [it_next it_finished it_live it_log it_calls it_canceled]; auto.
    + intros j w n [H|H]; [discriminate|eauto].
    + cbn [In]. tauto.
  - destruct (Nat.eqb _ _); [discriminate|]. injection E as <-.
    constructor; cbn [it_next it_finished it_live it_log it_calls it_canceled]; auto.
Qed.

Lemma run_ind : forall c (P : it_state -> Prop),
  (forall a s s', P s -> it_step c a s = ItNext s' -> P s') ->
  forall sch s s', P s -> it_run c sch s = ItNext s' -> P s'.
Proof.
  intros c P St. induction sch as [|a r IH]; intros s s' H E; cbn [it_run] in E.
  - injection E as <-. exact H.
  - destruct (it_step c a s) eqn:A; try discriminate; eauto.
Qed.

(** * Closed loops *)
Record cinv (c : iter_cfg) (s : it_state) : Prop := mkCinv {
  k_inv : inv c s;
  k_next : copies c <= it_next s <= ic_limit c;
  k_par : Z.of_nat (length (it_live s)) <= copies c;
  k_calls : it_calls s = match it_live s with [] => 1%nat | _ => 0%nat end;
  k_after : it_live s = [] -> exists l1 l2, it_log s = l1 ++ ICall :: l2 /\ starts l1 = [] /\ ends l1 = [];
  k_time : forall k w now, In (IStart k w now) (it_log s) -> k < copies c \/ not_after (ic_time_limit c) now;
  k_since : it_canceled s = true ->
    Z.of_nat (starts_since_cancel (it_log s)) + Z.of_nat (unaware (it_live s)) <= copies c;
  k_full : it_canceled s = false -> ic_time_limit c = None ->
    Z.of_nat (length (it_live s)) = Z.min (copies c) (ic_limit c - it_finished s)
}.

Lemma cinv_initiate : forall c now s, ic_period c = None -> iter_ok c -> initiate c now 0 = ItNext s -> cinv c s.
Proof.
  intros c now s P W E. pose proof (inv_initiate _ _ _ _ E) as I.
  unfold initiate in E. rewrite P in E. fold (copies c) in E. unfold iter_ok in W.
  rewrite to_int32_id in E by lia. destruct (Z.ltb_spec (copies c) 0); [lia|]. injection E as <-.
  assert (copies c <= ic_limit c) by (unfold copies; lia).
  assert (L : length (map (fun k : Z => (k, @None bool)) (numbers 0 (Z.to_nat (copies c)))) = Z.to_nat (copies c)).
  { rewrite map_length, numbers0, length_upto; lia. }
  constructor; cbn [it_next it_finished it_live it_log it_calls it_canceled]; auto.
  - lia.
  - rewrite L. lia.
  - destruct (map _ _) eqn:Q; [|reflexivity]. cbn [length] in L. lia.
  - intros Q. rewrite Q in L. cbn [length] in L. lia.
  - intros k w n H1. apply initial_events in H1. destruct H1 as [j [H1 E]]. injection E as -> -> ->.
    rewrite numbers0 in H1 by lia. apply In_upto in H1. left. lia.
  - discriminate.
  - intros _ _. rewrite L. lia.
Qed.

Lemma cinv_step : forall c a s s', ic_period c = None -> cinv c s -> it_step c a s = ItNext s' -> cinv c s'.
Proof.
  intros c a s s' P K E. pose proof (inv_step _ _ _ _ (k_inv _ _ K) E) as I'.
  destruct K as [I N Pa Ca Af Ti Si Fu]. destruct a as [k|k now|now gap| |]; cbn [it_step] in E.
  - destruct (live_get k (it_live s)) as [[o|]|] eqn:G; try discriminate. injection E as <-.
    assert (NE : it_live s <> []) by (intros Q; rewrite Q in G; discriminate).
    assert (L : length (live_set k (Some (it_canceled s)) (it_live s)) = length (it_live s))
      by now rewrite <- (map_length fst), live_set_fst, map_length.
    assert (NE' : live_set k (Some (it_canceled s)) (it_live s) <> []).
    { intros Q. rewrite Q in L. destruct (it_live s); [congruence|discriminate]. }
    constructor; cbn [it_next it_finished it_live it_log it_calls it_canceled] in *; auto.
    + lia.
    + rewrite Ca. destruct (it_live s), (live_set k _ _); congruence.
    + intros Q. congruence.
    + intros j w n [H|H]; [discriminate|eauto].
    + intros C. rewrite C. cbn [starts_since_cancel]. rewrite unaware_set_true by assumption. auto.
    + intros C T. rewrite L. auto.
  - destruct (live_get k (it_live s)) as [[obs|]|] eqn:G; try discriminate.
    pose proof (live_del_len _ _ _ G) as L. pose proof (unaware_del _ _ _ G) as U. pose proof (live_get_In _ _ _ G) as GI.
    pose proof (v_live _ _ I) as VL.
    assert (NE : it_live s <> []) by (intros Q; rewrite Q in G; discriminate).
    assert (C0 : it_calls s = O) by (rewrite Ca; destruct (it_live s); congruence).
    pose proof (finish_cases _ _ _ _ _ _ E) as F. cbv zeta in F. unfold finish_done in F. rewrite P in F.
    destruct F as [[D [_ [O ->]]]|[[D [Q ->]]|[[[D Q]|[_ Q]] ->]]]; [| | |congruence];
      cbn [it_next it_finished it_live it_log it_calls it_canceled] in *.
    + destruct (Z.eqb_spec (it_next s) (ic_limit c)); [discriminate|].
      apply orb_false_iff in D. destruct D as [-> D].
      constructor; cbn [it_next it_finished it_live it_log it_calls it_canceled]; auto.
      * lia.
      * rewrite app_length. cbn [length]. lia.
      * rewrite C0. destruct (live_del k (it_live s)); reflexivity.
      * intros Q. apply app_eq_nil in Q. destruct Q. discriminate.
      * intros j w t [H|H]; [|eauto]. injection H as <- <- <-. right. unfold not_after.
        destruct (ic_time_limit c); [|exact Logic.I]. rewrite Z.gtb_ltb, Z.ltb_ge in D. lia.
      * intros C. unfold start_event. cbn [starts_since_cancel]. rewrite unaware_app.
        change (unaware [(it_next s, None)]) with 0%nat. specialize (Si C). lia.
      * intros C T. rewrite app_length. cbn [length]. specialize (Fu C T). lia.
    + assert (LL : live_del k (it_live s) = []).
      { destruct (live_del k (it_live s)) as [|x r]; [reflexivity|]. cbn [length] in L. lia. }
      constructor; cbn [it_next it_finished it_live it_log it_calls it_canceled]; auto; rewrite ?LL; cbn [length].
      * lia.
      * congruence.
      * intros _. exists [], (it_log s). auto.
      * intros j w n [H|H]; [discriminate|eauto].
      * intros C. cbn [starts_since_cancel]. specialize (Si C). change (unaware []) with 0%nat. lia.
      * intros C T. rewrite T, orb_false_r in D. destruct (Z.eqb_spec (it_next s) (ic_limit c)).
        { lia. }
        { subst obs. exfalso. exact (v_obs _ _ I C _ GI). }
    + assert (LL : live_del k (it_live s) <> []).
      { intros Z0. rewrite Z0 in L. cbn [length] in L. lia. }
      constructor; cbn [it_next it_finished it_live it_log it_calls it_canceled]; auto.
      * lia.
      * rewrite C0. destruct (live_del k (it_live s)); congruence.
      * intros Z0. congruence.
      * intros C. specialize (Si C). lia.
      * intros C T. specialize (Fu C T). rewrite T, orb_false_r in D. destruct (Z.eqb_spec (it_next s) (ic_limit c)).
        { lia. }
        { subst obs. exfalso. exact (v_obs _ _ I C _ GI). }
  - rewrite P in E. discriminate.
  - destruct (it_canceled s) eqn:C; [discriminate|]. injection E as <-.
    constructor; cbn [it_next it_finished it_live it_log it_calls it_canceled] in *; auto.
    + intros Q. destruct (Af Q) as [l1 [l2 [A [B D]]]]. exists (ICancel :: l1), l2. rewrite A. auto.
    + intros j w n [H|H]; [discriminate|eauto].
    + intros _. cbn [starts_since_cancel]. pose proof (unaware_le (it_live s)). lia.
  - destruct (Nat.eqb _ _); [discriminate|]. injection E as <-.
    constructor; cbn [it_next it_finished it_live it_log it_calls it_canceled] in *; auto.
Qed.

Lemma closed_cinv : forall c now0 sch s, iter_ok c -> closed_run c now0 sch s -> cinv c s.
Proof.
  intros c now0 sch s W [P [s0 [I R]]].
  eapply (run_ind c (cinv c)); [|eapply cinv_initiate; eassumption|exact R].
  intros a x y K E. eapply cinv_step; eassumption.
Qed.

(** Each iteration number from 0 up is started exactly once, in order. *)
Lemma closed_numbers : forall c now0 sch s, iter_ok c -> closed_run c now0 sch s ->
  exists n, copies c <= n <= ic_limit c /\ rev (starts (it_log s)) = upto n /\
            NoDup (ends (it_log s)) /\ (forall k, In k (ends (it_log s)) -> 0 <= k < n).
Proof.
  intros c now0 sch s W R. pose proof (closed_cinv _ _ _ _ W R) as K. exists (it_next s).
  pose proof (k_inv _ _ K) as I. split; [apply (k_next _ _ K)|]. split; [apply (v_starts _ _ I)|].
  split; [apply (v_ends_nd _ _ I)|]. intros k H. apply (v_ends _ _ I) in H. tauto.
Qed.

Lemma length_starts : forall c s, inv c s -> Z.of_nat (length (starts (it_log s))) = it_next s.
Proof.
  intros c s I. rewrite <- rev_length, (v_starts _ _ I), length_upto. pose proof (v_next _ _ I). lia.
Qed.

(** Iterations in the middle of FinishIteration. *)
Lemma length_ends : forall c s, inv c s ->
  Z.of_nat (length (starts (it_log s))) - Z.of_nat (length (ends (it_log s))) <= Z.of_nat (length (it_live s)).
Proof.
  intros c s I. rewrite (length_starts _ _ I).
  assert (incl (upto (it_next s)) (ends (it_log s) ++ map fst (it_live s))).
  { intros k H. apply In_upto in H. apply in_app_iff.
    destruct (live_get k (it_live s)) as [x|] eqn:G.
    - right. apply live_get_In in G. apply in_map_iff. now exists (k, x).
    - left. apply (v_ends _ _ I). split; [assumption|]. intros Q.
      apply live_get_NoDup in Q; [congruence|apply (v_nodup _ _ I)]. }
  apply NoDup_incl_length in H; [|apply NoDup_upto].
  rewrite app_length, map_length, length_upto in H. pose proof (v_next _ _ I). lia.
Qed.

Lemma closed_parallel : forall c now0 sch s, iter_ok c -> closed_run c now0 sch s ->
  Z.of_nat (length (starts (it_log s))) - Z.of_nat (length (ends (it_log s))) <= Z.min (ic_parallel c) (ic_limit c).
Proof.
  intros c now0 sch s W R. pose proof (closed_cinv _ _ _ _ W R) as K.
  pose proof (length_ends _ _ (k_inv _ _ K)). pose proof (k_par _ _ K). unfold copies in *. lia.
Qed.

(** The completion callback: never before everything started has ended, never
    twice, nothing happens after it, and it happens when nothing is left. *)
Lemma calls_pos_split : forall l, (0 < calls l)%nat -> exists a b, l = a ++ ICall :: b.
Proof.
  induction l as [|e r IH]; [cbn; lia|]. rewrite calls_cons. destruct e; intros H.
  1,2,4: destruct IH as [a [b ->]]; [lia|]; eexists (_ :: a), b; reflexivity.
  exists [], r. reflexivity.
Qed.
Lemma calls_app : forall a b, calls (a ++ b) = (calls a + calls b)%nat.
Proof. intros. unfold calls. now rewrite filter_app, app_length. Qed.
Lemma starts_app : forall a b, starts (a ++ b) = starts a ++ starts b.
Proof. intros. unfold starts. apply flat_map_app. Qed.
Lemma ends_app : forall a b, ends (a ++ b) = ends a ++ ends b.
Proof. intros. unfold ends. apply flat_map_app. Qed.

Lemma call_unique : forall l a b a' b', l = a ++ ICall :: b -> l = a' ++ ICall :: b' -> (calls l <= 1)%nat -> a = a' /\ b = b'.
Proof.
  intros l a. revert l. induction a as [|e a IH]; intros l b a' b' E E' C.
  - destruct a' as [|e' a'].
    + cbn in *. split; [reflexivity|]. congruence.
    + exfalso. cbn [app] in *. rewrite E in E'. injection E' as <- E'. subst. rewrite calls_cons, calls_app, calls_cons in C. lia.
  - destruct a' as [|e' a'].
    + exfalso. cbn [app] in *. rewrite E' in E. injection E as <- E. subst. rewrite calls_cons, calls_app, calls_cons in C. lia.
    + cbn [app] in *. subst l. injection E' as <- E'.
      destruct (IH (a ++ ICall :: b) b a' b' eq_refl E') as [-> ->]; [|auto].
      rewrite calls_cons in C. lia.
Qed.

Lemma closed_callback : forall c now0 sch s, iter_ok c -> closed_run c now0 sch s ->
  (calls (it_log s) <= 1)%nat /\
  (calls (it_log s) = 1%nat <-> it_live s = []) /\
  (forall l1 l2, it_log s = l1 ++ ICall :: l2 ->
     starts l1 = [] /\ ends l1 = [] /\ forall k, In k (starts l2) -> In k (ends l2)).
Proof.
  intros c now0 sch s W R. pose proof (closed_cinv _ _ _ _ W R) as K. pose proof (k_inv _ _ K) as I.
  pose proof (k_calls _ _ K) as C. rewrite <- (v_calls _ _ I) in C.
  assert (C1 : (calls (it_log s) <= 1)%nat) by (destruct (it_live s); lia).
  split; [exact C1|]. split.
  { destruct (it_live s); rewrite C; split; congruence. }
  intros l1 l2 E. assert (L : it_live s = []).
  { destruct (it_live s) as [|x r]; [reflexivity|]. rewrite E, calls_app, calls_cons in C. lia. }
  destruct (k_after _ _ K L) as [a [b [E' [S1 E1]]]].
  destruct (call_unique _ _ _ _ _ E E' C1) as [-> ->]. split; [assumption|]. split; [assumption|].
  intros k H. pose proof (v_ends _ _ I k) as V. rewrite E', ends_app, E1, ends_cons in V. cbn [app] in V.
  apply V. rewrite L. split; [|intros []]. apply In_upto. rewrite <- (v_starts _ _ I), <- in_rev, E', starts_app, S1, starts_cons.
  exact H.
Qed.

(** Without cancellation and time limit, exactly the configured count. *)
Lemma closed_exact : forall c now0 sch s, iter_ok c -> closed_run c now0 sch s ->
  ic_time_limit c = None -> ~ In ICancel (it_log s) -> In ICall (it_log s) ->
  rev (starts (it_log s)) = upto (ic_limit c).
Proof.
  intros c now0 sch s W R T NC C. pose proof (closed_cinv _ _ _ _ W R) as K. pose proof (k_inv _ _ K) as I.
  rewrite (v_starts _ _ I). f_equal.
  assert (Cf : it_canceled s = false).
  { destruct (it_canceled s) eqn:Q; [|reflexivity]. exfalso. apply NC, (v_cancel _ _ I), Q. }
  assert (L : it_live s = []).
  { apply (closed_callback _ _ _ _ W R). apply in_split in C. destruct C as [a [b E]].
    pose proof (proj1 (closed_callback _ _ _ _ W R)) as H. rewrite E, calls_app, calls_cons in *. lia. }
  pose proof (k_full _ _ K Cf T) as F. pose proof (v_live _ _ I) as V. rewrite L in *. cbn [length] in *.
  unfold iter_ok in W. pose proof (k_next _ _ K). lia.
Qed.

(** Until the work runs out the configured parallelism is kept up. *)
Lemma closed_full : forall c now0 sch s, iter_ok c -> closed_run c now0 sch s ->
  ic_time_limit c = None -> ~ In ICancel (it_log s) ->
  Z.of_nat (length (it_live s)) =
  Z.min (Z.min (ic_parallel c) (ic_limit c))
        (ic_limit c - (Z.of_nat (length (starts (it_log s))) - Z.of_nat (length (it_live s)))).
Proof.
  intros c now0 sch s W R T NC. pose proof (closed_cinv _ _ _ _ W R) as K. pose proof (k_inv _ _ K) as I.
  assert (Cf : it_canceled s = false).
  { destruct (it_canceled s) eqn:Q; [|reflexivity]. exfalso. apply NC, (v_cancel _ _ I), Q. }
  pose proof (k_full _ _ K Cf T) as F. pose proof (v_live _ _ I) as V. rewrite (length_starts _ _ I).
  unfold copies in F. lia.
Qed.

Lemma closed_time : forall c now0 sch s t, iter_ok c -> closed_run c now0 sch s ->
  ic_time_limit c = Some t -> forall k w now, In (IStart k w now) (it_log s) ->
  Z.min (ic_parallel c) (ic_limit c) <= k -> now <= t.
Proof.
  intros c now0 sch s t W R T k w now H L. pose proof (closed_cinv _ _ _ _ W R) as K.
  pose proof (k_time _ _ K _ _ _ H) as Q. rewrite T in Q. unfold copies, not_after in Q. lia.
Qed.

Lemma closed_cancel : forall c now0 sch s, iter_ok c -> closed_run c now0 sch s ->
  In ICancel (it_log s) -> Z.of_nat (starts_since_cancel (it_log s)) <= Z.min (ic_parallel c) (ic_limit c).
Proof.
  intros c now0 sch s W R H. pose proof (closed_cinv _ _ _ _ W R) as K.
  apply (v_cancel _ _ (k_inv _ _ K)) in H. pose proof (k_since _ _ K H). unfold copies in *. lia.
Qed.

(** An iteration that ended after the cancellation starts no other. *)
Lemma closed_cancel_stops : forall c k now s s', ic_period c = None ->
  live_get k (it_live s) = Some (Some true) -> it_step c (AFinish k now) s = ItNext s' ->
  starts (it_log s') = starts (it_log s).
Proof.
  intros c k now s s' P G E. cbn [it_step] in E. rewrite G in E. apply finish_cases in E. cbv zeta in E.
  unfold finish_done in E. rewrite P in E. destruct E as [[D _]|[[_ [_ ->]]|[_ ->]]]; try reflexivity.
  destruct (it_next s =? ic_limit c); discriminate.
Qed.

Lemma closed_defined : forall c now0 sch, ic_period c = None -> iter_ok c -> ic_limit c <= int32_max ->
  exists s, closed_run c now0 sch s.
Proof.
  intros c now0 sch P W L. unfold closed_run.
  assert (exists s0, initiate c now0 0 = ItNext s0) as [s0 E].
  { unfold initiate. rewrite P. fold (copies c). unfold iter_ok in W. rewrite to_int32_id by lia.
    destruct (Z.ltb_spec (copies c) 0); [lia|]. eexists. reflexivity. }
  assert (K : cinv c s0) by (eapply cinv_initiate; eassumption).
  assert (G : forall sch s, cinv c s -> exists s', it_run c sch s = ItNext s').
  { induction sch0 as [|a r IH]; intros s Ks; [eexists; reflexivity|].
    cbn [it_run]. destruct (it_step c a s) as [| | |s'] eqn:A; eauto using cinv_step.
    - exfalso. destruct a; cbn [it_step] in A; try (destruct (live_get _ _) as [[?|]|]; discriminate).
      + destruct (live_get k (it_live s)) as [[o|]|] eqn:G; try discriminate. unfold finish_iteration in A. rewrite P in A. cbv zeta in A.
        pose proof (k_next _ _ Ks). pose proof (v_live _ _ (k_inv _ _ Ks)). pose proof (v_fin _ _ (k_inv _ _ Ks)).
        assert (1 <= Z.of_nat (length (it_live s))) by (apply live_del_len in G; lia).
        assert (I1 : in_int32 (it_finished s + 1) = true) by (apply in_int32_iff; lia).
        rewrite I1 in A. cbn [negb orb] in A.
        destruct (Z.eqb_spec (it_next s) (ic_limit c)).
        * cbn [negb andb] in A. destruct (_ =? 0); discriminate.
        * assert (I2 : in_int32 (it_next s + 1) = true) by (apply in_int32_iff; lia).
          rewrite I2 in A. rewrite andb_false_r in A.
          destruct (o || _); cbn [negb andb] in A; [destruct (_ =? 0)|]; discriminate.
      + rewrite P in A. discriminate.
      + destruct (it_canceled s); discriminate.
      + destruct (Nat.eqb _ _); discriminate.
    - exfalso. destruct a; cbn [it_step] in A; try (destruct (live_get _ _) as [[?|]|]; discriminate).
      + destruct (live_get k (it_live s)) as [[o|]|] eqn:G; try discriminate. unfold finish_iteration in A. cbv zeta in A.
        repeat match type of A with context [if ?b then _ else _] => destruct b; try discriminate end.
      + rewrite P in A. discriminate.
      + destruct (it_canceled s); discriminate.
      + destruct (Nat.eqb _ _); discriminate. }
  destruct (G sch s0 K) as [s' E']. eauto.
Qed.

(** No stall: while the callback is outstanding some iteration can proceed,
    and no more than the limit can ever end. *)
Lemma closed_progress : forall c now0 sch s, iter_ok c -> closed_run c now0 sch s ->
  Z.of_nat (length (ends (it_log s))) <= ic_limit c /\
  (~ In ICall (it_log s) ->
   exists k x, In (k, x) (it_live s) /\
     match x with
     | None => exists s', it_step c (AEnd k) s = ItNext s' /\ ends (it_log s') = k :: ends (it_log s)
     | Some _ => forall now, it_step c (AFinish k now) s <> ItDisabled
     end).
Proof.
  intros c now0 sch s W R. pose proof (closed_cinv _ _ _ _ W R) as K. pose proof (k_inv _ _ K) as I. split.
  - assert (incl (ends (it_log s)) (upto (it_next s))).
    { intros k H. apply In_upto. apply (v_ends _ _ I) in H. tauto. }
    apply NoDup_incl_length in H; [|apply (v_ends_nd _ _ I)]. rewrite length_upto in H.
    pose proof (k_next _ _ K). pose proof (v_next _ _ I). lia.
  - intros NC. destruct (it_live s) as [|[k x] r] eqn:L.
    { exfalso. destruct (k_after _ _ K L) as [a [b [E _]]]. apply NC. rewrite E. apply in_elt. }
    exists k, x. split; [left; reflexivity|]. destruct x as [o|].
    + intros now. cbn [it_step]. rewrite L. cbn [live_get]. rewrite Z.eqb_refl. unfold finish_iteration. cbv zeta.
      repeat match goal with |- context [if ?b then _ else _] => destruct b; try discriminate end.
    + eexists. cbn [it_step]. rewrite L. cbn [live_get]. rewrite Z.eqb_refl. split; reflexivity.
Qed.
