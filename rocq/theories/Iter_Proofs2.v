(** Open loops, overflow and activities (Iter_Model). *)
From Coq Require Import List ZArith Bool Lia.
From Verif Require Import Base_Model Iter_Model Iter_Proofs.
Import ListNotations.
Open Scope Z_scope.

(** Every tick of the schedule uses the configured period. *)
Definition constant_gap (period : Z) (sch : list it_action) : Prop :=
  forall now gap, In (ATick now gap) sch -> gap = period.

Lemma open_inv : forall c per first sch s, open_run c per first sch s -> inv c s.
Proof.
  intros c per first sch s [P [s0 [E R]]].
  eapply (run_ind c (inv c)); [|eapply inv_initiate; eassumption|exact R].
  intros a x y I A. eapply inv_step; eassumption.
Qed.

(** Bound on the number of starts. *)
Lemma open_next_step : forall c a s s' per, ic_period c = Some per ->
  (it_next s <= Z.max 0 (ic_limit c)) -> it_step c a s = ItNext s' -> it_next s' <= Z.max 0 (ic_limit c).
Proof.
  intros c a s s' per P H E. destruct a as [k|k now|now gap| |]; cbn [it_step] in E.
  - destruct (live_get _ _) as [[?|]|]; try discriminate. injection E as <-. exact H.
  - destruct (live_get _ _) as [[o|]|]; try discriminate. apply finish_cases in E. cbv zeta in E.
    destruct E as [[_ [Q _]]|[[_ [_ ->]]|[_ ->]]]; [congruence|exact H|exact H].
  - rewrite P in E. apply tick_cases in E. destruct E as [t [_ [_ [[_ ->]|[A [_ ->]]]]]]; cbn [it_next]; lia.
  - destruct (it_canceled s); [discriminate|]. injection E as <-. exact H.
  - destruct (Nat.eqb _ _); [discriminate|]. injection E as <-. exact H.
Qed.
Lemma open_initiate : forall c per now first s, ic_period c = Some per -> initiate c now first = ItNext s ->
  s = mkIt 0 0 (Some first) [] false 0 [].
Proof. intros c per now first s P. unfold initiate. rewrite P. intros E. now injection E as <-. Qed.

Lemma open_numbers : forall c per first sch s, open_run c per first sch s ->
  exists n, 0 <= n <= Z.max 0 (ic_limit c) /\ rev (starts (it_log s)) = upto n /\
            NoDup (ends (it_log s)) /\ (forall k, In k (ends (it_log s)) -> 0 <= k < n).
Proof.
  intros c per first sch s R. pose proof (open_inv _ _ _ _ _ R) as I. destruct R as [P [s0 [E R]]].
  exists (it_next s). split.
  - split; [apply (v_next _ _ I)|].
    eapply (run_ind c (fun s => it_next s <= Z.max 0 (ic_limit c))); [|  |exact R].
    + intros a x y H A. eapply open_next_step; eassumption.
    + rewrite (open_initiate _ _ _ _ _ P E). cbn [it_next]. lia.
  - split; [apply (v_starts _ _ I)|]. split; [apply (v_ends_nd _ _ I)|].
    intros k H. apply (v_ends _ _ I) in H. tauto.
Qed.

(** Pacing with a constant interval. *)
Definition due (per first k : Z) : Z := first + k * per.
Record pace (c : iter_cfg) (per first : Z) (s : it_state) : Prop := mkPace {
  p_nonneg : 0 <= it_next s;
  p_nit : forall t, it_nit s = Some t -> it_next s < ic_limit c -> t = due per first (it_next s);
  p_nit_le : forall t, it_nit s = Some t -> 0 < it_next s -> not_after (ic_time_limit c) t;
  p_none : it_nit s = None -> it_calls s = 0%nat -> it_next s < ic_limit c ->
           0 < it_next s /\ ~ not_after (ic_time_limit c) (due per first (it_next s));
  p_log : forall k w now, In (IStart k w now) (it_log s) ->
          due per first k < now /\ (0 < k -> not_after (ic_time_limit c) (due per first k))
}.
Lemma time_gt_not_after : forall t lim, time_gt (Some t) lim = false <-> not_after lim t.
Proof.
  intros t [l|]; cbn [time_gt not_after]; [|tauto]. rewrite Z.gtb_ltb, Z.ltb_ge. reflexivity.
Qed.
Lemma pace_step : forall c per first a s s', ic_period c = Some per ->
  (forall now gap, a = ATick now gap -> gap = per) ->
  pace c per first s -> it_step c a s = ItNext s' -> pace c per first s'.
Proof.
  intros c per first a s s' P G [N1 N2 N3 N4 N5] E. destruct a as [k|k now|now gap| |]; cbn [it_step] in E.
  - destruct (live_get _ _) as [[?|]|]; try discriminate. injection E as <-.
    constructor; cbn [it_next it_nit it_calls it_log]; auto. intros j w n [H|H]; [discriminate|eauto].
  - destruct (live_get _ _) as [[o|]|]; try discriminate. apply finish_cases in E. cbv zeta in E.
    destruct E as [[_ [Q _]]|[[_ [_ ->]]|[_ ->]]]; [congruence| |];
      constructor; cbn [it_next it_nit it_calls it_log]; auto.
    + intros _ Q. discriminate.
    + intros j w n [H|H]; [discriminate|eauto].
  - rewrite P in E. rewrite (G now gap eq_refl) in E. apply tick_cases in E.
    destruct E as [t [T [L [[A ->]|[A [_ ->]]]]]]; constructor; cbn [it_next it_nit it_calls it_log]; auto; try lia.
    + intros u U Q. destruct (time_gt (Some (t + per)) (ic_time_limit c)) eqn:TG; [discriminate|].
      injection U as <-. now apply time_gt_not_after.
    + intros u U Q. destruct (time_gt (Some (t + per)) (ic_time_limit c)) eqn:TG; [discriminate|].
      injection U as <-. rewrite (N2 t T A). unfold due. lia.
    + intros u U Q. destruct (time_gt (Some (t + per)) (ic_time_limit c)) eqn:TG; [discriminate|].
      injection U as <-. now apply time_gt_not_after.
    + intros U C Q. split; [lia|]. destruct (time_gt (Some (t + per)) (ic_time_limit c)) eqn:TG; [|discriminate].
      rewrite <- time_gt_not_after. replace (due per first (it_next s + 1)) with (t + per); [congruence|].
      rewrite (N2 t T A). unfold due. lia.
    + intros j w n [H|H]; [|eauto]. injection H as <- <- <-. rewrite <- (N2 t T A). split; [assumption|].
      intros Q. apply (N3 t T Q).
  - destruct (it_canceled s); [discriminate|]. injection E as <-.
    constructor; cbn [it_next it_nit it_calls it_log]; auto. intros j w n [H|H]; [discriminate|eauto].
  - destruct (Nat.eqb_spec (it_calls s) 0); [discriminate|]. injection E as <-.
    constructor; cbn [it_next it_nit it_calls it_log]; auto; try discriminate. intros _ Q. congruence.
Qed.
Lemma pace_run : forall c per first sch s s', ic_period c = Some per -> constant_gap per sch ->
  pace c per first s -> it_run c sch s = ItNext s' -> pace c per first s'.
Proof.
  intros c per first. induction sch as [|a r IH]; intros s s' P G H E; cbn [it_run] in E.
  - injection E as <-. exact H.
  - assert (Gr : constant_gap per r) by (intros n g I; apply (G n g); right; exact I).
    destruct (it_step c a s) eqn:A; try discriminate; [eauto|].
    refine (IH _ _ P Gr _ E). eapply pace_step; try eassumption.
    intros n g ->. apply (G n g). left. reflexivity.
Qed.
Lemma open_pace : forall c per first sch s, constant_gap per sch -> open_run c per first sch s -> pace c per first s.
Proof.
  intros c per first sch s G [P [s0 [E R]]]. eapply pace_run; try eassumption.
  rewrite (open_initiate _ _ _ _ _ P E). constructor; cbn [it_next it_nit it_calls it_log]; try lia; try discriminate.
  - intros t Q _. injection Q as <-. unfold due. lia.
  - intros k w n [].
Qed.

Lemma open_not_early : forall c per first sch s, constant_gap per sch -> open_run c per first sch s ->
  forall k w now, In (IStart k w now) (it_log s) ->
  first + k * per < now /\ (0 < k -> forall t, ic_time_limit c = Some t -> first + k * per <= t).
Proof.
  intros c per first sch s G R k w now H. destruct (p_log _ _ _ _ (open_pace _ _ _ _ _ G R) _ _ _ H) as [A B].
  split; [exact A|]. intros K t T. specialize (B K). rewrite T in B. exact B.
Qed.

(** Once due, the next iteration starts at the next pass of the main loop
    however many earlier ones are still running. *)
Lemma open_not_held_back : forall c per first sch s now, constant_gap per sch -> open_run c per first sch s ->
  ic_limit c <= int32_max ->
  let k := Z.of_nat (length (starts (it_log s))) in
  ~ In ICall (it_log s) -> k < ic_limit c -> first + k * per < now ->
  (0 < k -> forall t, ic_time_limit c = Some t -> first + k * per <= t) ->
  exists s', it_step c (ATick now per) s = ItNext s' /\
             it_log s' = IStart k (ic_list_warmup c || (k <? ic_warmup c)) now :: it_log s.
Proof.
  intros c per first sch s now G R L k NC K D T. pose proof (open_inv _ _ _ _ _ R) as I.
  pose proof (open_pace _ _ _ _ _ G R) as Pc. destruct R as [P _].
  assert (EK : k = it_next s) by (apply (length_starts _ _ I)).
  assert (C0 : it_calls s = 0%nat).
  { rewrite <- (v_calls _ _ I). destruct (calls (it_log s)) eqn:Q; [reflexivity|]. exfalso. apply NC.
    destruct (calls_pos_split (it_log s)) as [a [b ->]]; [lia|]. apply in_elt. }
  rewrite EK in *.
  assert (exists t, it_nit s = Some t) as [t Ht].
  { destruct (it_nit s) as [t|] eqn:Q; [eauto|]. exfalso.
    destruct (p_none _ _ _ _ Pc Q C0 K) as [A B]. apply B. unfold not_after, due.
    destruct (ic_time_limit c) as [l|]; [|exact Logic.I]. apply T; auto. }
  pose proof (p_nit _ _ _ _ Pc t Ht K) as Et. unfold due in Et.
  eexists. cbn [it_step]. rewrite P. unfold open_loop_tick. rewrite Ht.
  destruct (Z.ltb_spec t now); [|lia]. cbn [negb]. rewrite Z.geb_leb. destruct (Z.leb_spec (ic_limit c) (it_next s)); [lia|].
  assert (I2 : in_int32 (it_next s + 1) = true) by (apply in_int32_iff; pose proof (v_next _ _ I); lia).
  rewrite I2. cbn [negb]. split; [reflexivity|]. cbn [it_log]. reflexivity.
Qed.

(** Completion of an open loop that is not cancelled. *)
Record oinv (c : iter_cfg) (s : it_state) : Prop := mkOinv {
  o_inv : inv c s;
  o_le : it_next s <= Z.max 0 (ic_limit c);
  o_nit : it_canceled s = false -> 0 < it_next s -> forall t, it_nit s = Some t -> not_after (ic_time_limit c) t;
  o_calls : it_canceled s = false ->
    it_calls s = match it_live s with
                 | [] => if (0 <? it_next s) && ((it_next s =? ic_limit c) || time_gt (it_nit s) (ic_time_limit c))
                         then 1%nat else it_calls s
                 | _ => 0%nat
                 end;
  o_calls1 : it_canceled s = false -> it_calls s <> 0%nat ->
    it_calls s = 1%nat /\ 0 < it_next s /\ (it_next s = ic_limit c \/ it_nit s = None);
  o_after : it_canceled s = false -> it_calls s <> 0%nat ->
    exists l1 l2, it_log s = l1 ++ ICall :: l2 /\ starts l1 = [] /\ ends l1 = []
}.
Lemma oinv_step : forall c per a s s', ic_period c = Some per -> oinv c s -> it_step c a s = ItNext s' -> oinv c s'.
Proof.
  intros c per a s s' P O E. pose proof (inv_step _ _ _ _ (o_inv _ _ O) E) as I'.
  pose proof (open_next_step _ _ _ _ _ P (o_le _ _ O) E) as LE.
  destruct O as [I OL ON OC O1 OA]. destruct a as [k|k now|now gap| |]; cbn [it_step] in E.
  - destruct (live_get k (it_live s)) as [[?|]|] eqn:G; try discriminate. injection E as <-.
    assert (NE : it_live s <> []) by (intros Q; rewrite Q in G; discriminate).
    assert (L : length (live_set k (Some (it_canceled s)) (it_live s)) = length (it_live s))
      by now rewrite <- (map_length fst), live_set_fst, map_length.
    assert (NE' : live_set k (Some (it_canceled s)) (it_live s) <> []).
    { intros Q. rewrite Q in L. destruct (it_live s); [congruence|discriminate]. }
    assert (C0 : it_canceled s = false -> it_calls s = 0%nat).
    { intros C. specialize (OC C). destruct (it_live s); congruence. }
    constructor; cbn [it_next it_nit it_calls it_log it_canceled it_live] in *; auto.
    + intros C. rewrite (C0 C). destruct (live_set k _ _); congruence.
    + intros C Q. specialize (C0 C). contradiction.
  - destruct (live_get k (it_live s)) as [[obs|]|] eqn:G; try discriminate.
    pose proof (live_del_len _ _ _ G) as L. pose proof (live_get_In _ _ _ G) as GI.
    pose proof (v_live _ _ I) as VL. pose proof (v_fin _ _ I) as VF.
    assert (NE : it_live s <> []) by (intros Q; rewrite Q in G; discriminate).
    assert (C0 : it_canceled s = false -> it_calls s = 0%nat).
    { intros C. specialize (OC C). destruct (it_live s); congruence. }
    assert (OB : it_canceled s = false -> obs = false).
    { intros C. destruct obs; [|reflexivity]. exfalso. exact (v_obs _ _ I C _ GI). }
    assert (POS : 0 < it_next s) by (destruct (it_live s); [congruence|cbn [length] in VL; lia]).
    pose proof (finish_cases _ _ _ _ _ _ E) as F. cbv zeta in F. unfold finish_done in F. rewrite P in F.
    destruct F as [[_ [Q _]]|[[D [Q ->]]|[D ->]]]; [congruence| |];
      constructor; cbn [it_next it_nit it_calls it_log it_canceled it_live] in *; auto.
    + intros C. rewrite (C0 C). rewrite (OB C) in D. cbn [orb] in D.
      assert (LL : live_del k (it_live s) = []).
      { destruct (live_del k (it_live s)) as [|x r]; [reflexivity|]. cbn [length] in L. lia. }
      rewrite LL. destruct (Z.ltb_spec 0 (it_next s)); [|lia]. cbn [andb].
      destruct (it_next s =? ic_limit c); cbn [orb]; [reflexivity|]. rewrite D. reflexivity.
    + intros C _. rewrite (C0 C). split; [reflexivity|]. split; [exact POS|].
      rewrite (OB C) in D. cbn [orb] in D. destruct (Z.eqb_spec (it_next s) (ic_limit c)); [auto|].
      right. destruct (it_nit s) as [t|] eqn:T; [|reflexivity]. exfalso.
      pose proof (ON C POS t eq_refl) as NA. apply time_gt_not_after in NA. congruence.
    + intros C _. exists [], (it_log s). auto.
    + intros C. rewrite (C0 C). destruct (live_del k (it_live s)) eqn:LL; [|reflexivity].
      rewrite (OB C) in D. cbn [orb] in D. destruct D as [[D Q]|[D _]].
      * cbn [length] in L. lia.
      * destruct (Z.ltb_spec 0 (it_next s)); [|lia]. cbn [andb].
        destruct (it_next s =? ic_limit c); [discriminate|]. cbn [orb]. rewrite D. reflexivity.
  - rewrite P in E. apply tick_cases in E. destruct E as [t [T [LT [[A ->]|[A [_ ->]]]]]];
      constructor; cbn [it_next it_nit it_calls it_log it_canceled it_live] in *; auto.
    + intros C Q u U. destruct (time_gt (Some (t + gap)) (ic_time_limit c)) eqn:TG; [discriminate|].
      injection U as <-. now apply time_gt_not_after.
    + intros C. specialize (OC C). destruct (it_live s); [|assumption].
      destruct (Z.ltb_spec 0 (it_next s)); cbn [andb] in *; [|reflexivity].
      destruct (Z.eqb_spec (it_next s) (ic_limit c)); cbn [orb] in *; [assumption|]. lia.
    + intros C Q. destruct (O1 C Q) as [X [Y Z0]]. split; [assumption|]. split; [assumption|]. left.
      destruct Z0 as [Z0|Z0]; [assumption|congruence].
    + intros C Q u U. destruct (time_gt (Some (t + gap)) (ic_time_limit c)) eqn:TG; [discriminate|].
      injection U as <-. now apply time_gt_not_after.
    + intros C. destruct (it_calls s) eqn:Q.
      * destruct (it_live s); reflexivity.
      * exfalso. destruct (O1 C) as [_ [_ [Z0|Z0]]]; [discriminate|lia|congruence].
    + intros C Q. exfalso. destruct (O1 C Q) as [_ [_ [Z0|Z0]]]; [lia|congruence].
    + intros C Q. exfalso. destruct (O1 C Q) as [_ [_ [Z0|Z0]]]; [lia|congruence].
  - destruct (it_canceled s) eqn:C; [discriminate|]. injection E as <-.
    constructor; cbn [it_next it_nit it_calls it_log it_canceled it_live] in *; auto; discriminate.
  - destruct (Nat.eqb_spec (it_calls s) 0); [discriminate|]. injection E as <-.
    constructor; cbn [it_next it_nit it_calls it_log it_canceled it_live] in *; auto.
    + discriminate.
    + intros C. destruct (O1 C n) as [-> [X Y]]. specialize (OC C). destruct (it_live s).
      * match goal with |- _ = (if ?b then _ else _) => destruct b end; reflexivity.
      * lia.
    + intros C Q. destruct (O1 C n) as [X [Y Z0]]. auto.
Qed.
Lemma open_oinv : forall c per first sch s, open_run c per first sch s -> oinv c s.
Proof.
  intros c per first sch s [P [s0 [E R]]].
  eapply (run_ind c (oinv c)); [| |exact R].
  - intros a x y K A. eapply oinv_step; eassumption.
  - pose proof (inv_initiate _ _ _ _ E) as I. rewrite (open_initiate _ _ _ _ _ P E) in *.
    constructor; cbn [it_next it_nit it_calls it_log it_canceled it_live]; auto; try lia; congruence.
Qed.

Lemma open_callback : forall c per first sch s, open_run c per first sch s -> ~ In ICancel (it_log s) ->
  (calls (it_log s) <= 1)%nat /\
  (forall l1 l2, it_log s = l1 ++ ICall :: l2 ->
     starts l1 = [] /\ ends l1 = [] /\ forall k, In k (starts l2) -> In k (ends l2)) /\
  (starts (it_log s) <> [] -> it_live s = [] ->
   Z.of_nat (length (starts (it_log s))) = ic_limit c -> In ICall (it_log s)) /\
  (forall t, constant_gap per sch -> starts (it_log s) <> [] -> it_live s = [] -> ic_time_limit c = Some t ->
   t < first + Z.of_nat (length (starts (it_log s))) * per ->
   In ICall (it_log s)).
Proof.
  intros c per first sch s R NC. pose proof (open_oinv _ _ _ _ _ R) as O. pose proof (o_inv _ _ O) as I.
  assert (Cf : it_canceled s = false).
  { destruct (it_canceled s) eqn:Q; [|reflexivity]. exfalso. apply NC, (v_cancel _ _ I), Q. }
  pose proof (o_calls _ _ O Cf) as OC. pose proof (o_calls1 _ _ O Cf) as O1.
  pose proof (v_calls _ _ I) as VC.
  assert (C1 : (calls (it_log s) <= 1)%nat).
  { rewrite VC. destruct (it_calls s) eqn:Q; [lia|]. destruct O1 as [-> _]; lia. }
  assert (HAS : it_calls s = 1%nat -> In ICall (it_log s)).
  { intros Q. destruct (calls_pos_split (it_log s)) as [a [b ->]]; [lia|]. apply in_elt. }
  assert (POS : starts (it_log s) <> [] -> 0 < it_next s).
  { intros Q. rewrite <- (length_starts _ _ I). destruct (starts (it_log s)); [congruence|cbn [length]; lia]. }
  split; [exact C1|]. split; [|split].
  - intros l1 l2 E. assert (NZ : it_calls s <> 0%nat) by (rewrite <- VC, E, calls_app, calls_cons; lia).
    destruct (o_after _ _ O Cf NZ) as [a [b [E' [S1 E1]]]].
    destruct (call_unique _ _ _ _ _ E E' C1) as [-> ->]. split; [assumption|]. split; [assumption|].
    assert (L : it_live s = []) by (destruct (it_live s); [reflexivity|congruence]).
    intros k H. pose proof (v_ends _ _ I k) as V. rewrite E', ends_app, E1, ends_cons in V. cbn [app] in V.
    apply V. rewrite L. split; [|intros []]. apply In_upto.
    rewrite <- (v_starts _ _ I), <- in_rev, E', starts_app, S1, starts_cons. exact H.
  - intros S0 L N. apply HAS. specialize (POS S0). rewrite (length_starts _ _ I) in N. rewrite L in OC.
    destruct (Z.ltb_spec 0 (it_next s)); [|lia]. rewrite N, Z.eqb_refl in OC. exact OC.
  - intros t G S0 L T N. apply HAS. specialize (POS S0). rewrite (length_starts _ _ I) in N. rewrite L in OC.
    destruct (Z.ltb_spec 0 (it_next s)); [|lia]. cbn [andb] in OC.
    destruct (Z.eqb_spec (it_next s) (ic_limit c)); cbn [orb] in OC; [exact OC|].
    destruct (it_nit s) as [u|] eqn:U; [|rewrite T in OC; exact OC].
    pose proof (open_pace _ _ _ _ _ G R) as Pc.
    pose proof (p_nit_le _ _ _ _ Pc u U POS) as Q. rewrite T in Q. cbn [not_after] in Q.
    pose proof (o_le _ _ O). rewrite (p_nit _ _ _ _ Pc u U) in Q by lia. unfold due in Q. lia.
Qed.

Lemma open_defined : forall c per first sch, ic_period c = Some per -> ic_limit c <= int32_max ->
  exists s, open_run c per first sch s.
Proof.
  intros c per first sch P L. unfold open_run.
  assert (exists s0, initiate c 0 first = ItNext s0) as [s0 E] by (unfold initiate; rewrite P; eauto).
  assert (K : oinv c s0).
  { assert (open_run c per first [] s0) by (split; [assumption|]; exists s0; split; [assumption|reflexivity]).
    eapply open_oinv; eassumption. }
  assert (G : forall sch s, oinv c s -> exists s', it_run c sch s = ItNext s').
  { clear s0 E K sch. induction sch as [|a r IH]; intros s Ks; [eexists; reflexivity|].
    pose proof (o_le _ _ Ks) as OL. pose proof (v_live _ _ (o_inv _ _ Ks)) as VL.
    pose proof (v_fin _ _ (o_inv _ _ Ks)) as VF. pose proof (v_next _ _ (o_inv _ _ Ks)) as VN.
    cbn [it_run]. destruct (it_step c a s) as [| | |s'] eqn:A; eauto using oinv_step.
    - exfalso. destruct a; cbn [it_step] in A; try (destruct (live_get _ _) as [[?|]|]; discriminate).
      + destruct (live_get k (it_live s)) as [[o|]|] eqn:G; try discriminate.
        unfold finish_iteration in A. rewrite P in A. cbv zeta in A.
        assert (1 <= Z.of_nat (length (it_live s))) by (apply live_del_len in G; lia).
        assert (I1 : in_int32 (it_finished s + 1) = true) by (apply in_int32_iff; unfold int32_max in *; lia).
        rewrite I1 in A. cbn [negb orb] in A. rewrite !andb_false_r in A. cbn [andb] in A. destruct (_ && _); discriminate.
      + rewrite P in A. unfold open_loop_tick in A. destruct (it_nit s); [|discriminate].
        destruct (negb (z <? now)); [discriminate|]. rewrite Z.geb_leb in A.
        destruct (Z.leb_spec (ic_limit c) (it_next s)); [discriminate|].
        assert (I2 : in_int32 (it_next s + 1) = true) by (apply in_int32_iff; lia).
        rewrite I2 in A. discriminate.
      + destruct (it_canceled s); discriminate.
      + destruct (Nat.eqb _ _); discriminate.
    - exfalso. destruct a; cbn [it_step] in A; try (destruct (live_get _ _) as [[?|]|]; discriminate).
      + destruct (live_get k (it_live s)) as [[o|]|] eqn:G; try discriminate. unfold finish_iteration in A. cbv zeta in A.
        repeat match type of A with context [if ?b then _ else _] => destruct b; try discriminate end.
      + rewrite P in A. unfold open_loop_tick in A. destruct (it_nit s); [|discriminate].
        repeat match type of A with context [if ?b then _ else _] => destruct b; try discriminate end.
      + destruct (it_canceled s); discriminate.
      + destruct (Nat.eqb _ _); discriminate. }
  destruct (G sch s0 K) as [s' E']. eauto.
Qed.

(** * A closed loop without a count, run long enough, overflows an int *)
Definition unlimited : iter_cfg := mkIter int64_max 1 None None 0 false.
Fixpoint lockstep (n : nat) (k : Z) : list it_action :=
  match n with O => [] | S m => AEnd k :: AFinish k 0 :: lockstep m (k + 1) end.
Lemma lockstep_run : forall n k s, 0 <= k -> k + 1 + Z.of_nat n <= int32_max ->
  it_next s = k + 1 -> it_finished s = k -> it_live s = [(k, None)] -> it_canceled s = false ->
  exists s', it_run unlimited (lockstep n k) s = ItNext s' /\ it_next s' = k + 1 + Z.of_nat n /\
    it_finished s' = k + Z.of_nat n /\ it_live s' = [(k + Z.of_nat n, None)] /\ it_canceled s' = false.
Proof.
  induction n as [|n IH]; intros k s K B N F L C.
  - exists s. cbn [lockstep it_run]. replace (k + Z.of_nat 0) with k by lia. repeat split; auto; lia.
  - cbn [lockstep it_run it_step]. rewrite L. cbn [live_get]. rewrite Z.eqb_refl. cbn [it_step it_run it_live live_set].
    rewrite Z.eqb_refl. cbn [live_get]. rewrite Z.eqb_refl, C. unfold finish_iteration.
    cbn [it_next it_finished it_live it_canceled it_nit it_calls it_log ic_period ic_limit ic_time_limit unlimited negb orb].
    rewrite N, F.
    assert (NL : (k + 1 =? int64_max) = false) by (apply Z.eqb_neq; unfold int64_max, int32_max in *; lia).
    rewrite NL. cbn [negb andb].
    assert (I1 : in_int32 (k + 1) = true) by (apply in_int32_iff; unfold int32_max in *; lia).
    assert (I2 : in_int32 (k + 1 + 1) = true) by (apply in_int32_iff; unfold int32_max in *; lia).
    rewrite I1, I2. cbn [negb orb andb live_del]. rewrite Z.eqb_refl. cbn [app].
    match goal with |- exists s', it_run unlimited (lockstep n (k + 1)) ?s1 = _ /\ _ =>
      destruct (IH (k + 1) s1) as [s' [R [A1 [A2 [A3 A4]]]]]; try reflexivity; try lia end.
    exists s'. rewrite R. split; [reflexivity|]. split; [lia|]. split; [lia|]. split; [|assumption].
    rewrite A3. do 2 f_equal. lia.
Qed.
Lemma run_app : forall c a b s s', it_run c a s = ItNext s' -> it_run c (a ++ b) s = it_run c b s'.
Proof.
  intros c. induction a as [|x a IH]; intros b s s' E; cbn [it_run app] in *; [now injection E as ->|].
  destruct (it_step c x s); try discriminate; auto.
Qed.
Lemma unlimited_overflow : exists sch s0, initiate unlimited 0 0 = ItNext s0 /\ it_run unlimited sch s0 = ItUB.
Proof.
  set (N := Z.to_nat (int32_max - 1)). assert (NE : Z.of_nat N = int32_max - 1) by (unfold N, int32_max; lia).
  clearbody N.
  exists (lockstep N 0 ++ [AEnd (0 + Z.of_nat N); AFinish (0 + Z.of_nat N) 0]), (mkIt 1 0 None [(0, None)] false 0 [IStart 0 false 0]).
  split; [reflexivity|].
  destruct (lockstep_run N 0 (mkIt 1 0 None [(0, None)] false 0 [IStart 0 false 0])) as [s' [R [A1 [A2 [A3 A4]]]]];
    try reflexivity; try lia.
  rewrite (run_app _ _ _ _ _ R). cbn [it_run it_step]. rewrite A3. cbn [live_get]. rewrite Z.eqb_refl.
  cbn [it_step it_run it_live live_set]. rewrite Z.eqb_refl. cbn [live_get]. rewrite Z.eqb_refl, A4. unfold finish_iteration.
  cbn [it_next it_finished it_live it_canceled it_nit it_calls it_log ic_period ic_limit ic_time_limit unlimited negb orb].
  rewrite A1, A2, NE. reflexivity.
Qed.

(** * Activities *)
Lemma activity_step_spec : forall c now obs s, (forall n, obs n = false) -> ic_time_limit c = None ->
  activity_iteration c now obs s =
  let next := if ac_next s =? ic_limit c then ac_next s else ac_next s + 1 in
  mkAct next (ac_finished s + 1) (S (ac_runs s)) ((ac_next s =? ic_limit c) && (next - (ac_finished s + 1) =? 0)).
Proof.
  intros c now obs s O T. unfold activity_iteration. rewrite O, T. cbv zeta.
  destruct (ac_next s =? ic_limit c); reflexivity.
Qed.
Lemma activity_runs_spec : forall c now obs n s p, (forall n, obs n = false) -> ic_time_limit c = None ->
  ac_next s <= ic_limit c -> ac_finished s = Z.of_nat (ac_runs s) ->
  ac_finished s + p <= ac_next s -> Z.of_nat n <= p -> ac_done s = false ->
  let s' := activity_runs c now obs n s in
  ac_next s' = Z.min (ic_limit c) (ac_next s + Z.of_nat n) /\ ac_finished s' = ac_finished s + Z.of_nat n /\
  ac_finished s' = Z.of_nat (ac_runs s') /\
  ac_done s' = ((0 <? Z.of_nat n) && (ac_next s' =? ic_limit c) && (ac_finished s' =? ic_limit c))%bool.
Proof.
  intros c now obs. induction n as [|n IH]; intros s p O T L F P N D; cbv zeta.
  - cbn [activity_runs]. rewrite D. cbn. repeat split; lia.
  - cbn [activity_runs]. rewrite activity_step_spec by assumption. cbv zeta.
    set (s1 := mkAct _ _ _ _).
    destruct (Z.eqb_spec (ac_next s) (ic_limit c)) as [Q|Q].
    + destruct n as [|n].
      * cbn [activity_runs]. unfold s1. cbn [ac_next ac_finished ac_runs ac_done]. cbn [andb].
        split; [lia|]. split; [lia|]. split; [lia|]. change (0 <? Z.of_nat 1) with true. cbn [andb].
        rewrite Q, Z.eqb_refl. cbn [andb]. destruct (Z.eqb_spec (ic_limit c - (ac_finished s + 1)) 0), (Z.eqb_spec (ac_finished s + 1) (ic_limit c)); lia || reflexivity.
      * assert (D1 : ac_done s1 = false) by (unfold s1; cbn [ac_done andb]; apply Z.eqb_neq; lia).
        destruct (IH s1 (p - 1)) as [A [B [C E]]]; unfold s1 in *; cbn [ac_next ac_finished ac_runs] in *; auto; try lia.
        cbv zeta in *. split; [lia|]. split; [lia|]. split; [assumption|]. rewrite E. 
        destruct (Z.ltb_spec 0 (Z.of_nat (S n))), (Z.ltb_spec 0 (Z.of_nat (S (S n)))); try lia; reflexivity.
    + assert (D1 : ac_done s1 = false) by reflexivity.
      destruct (IH s1 (p - 1)) as [A [B [C E]]]; unfold s1 in *; cbn [ac_next ac_finished ac_runs] in *; auto; try lia.
      cbv zeta in *. split; [lia|]. split; [lia|]. split; [assumption|]. rewrite E.
      destruct n as [|n].
      * cbn [activity_runs ac_next ac_finished]. change (0 <? Z.of_nat 0) with false. cbn [andb].
        change (0 <? Z.of_nat 1) with true. cbn [andb]. symmetry. apply andb_false_iff. right. apply Z.eqb_neq. lia.
      * destruct (Z.ltb_spec 0 (Z.of_nat (S n))), (Z.ltb_spec 0 (Z.of_nat (S (S n)))); try lia; reflexivity.
Qed.
Lemma activity_loop_spec : forall c now obs fuel s, (forall n, obs n = false) -> ic_time_limit c = None ->
  ac_next s <= ic_limit c -> ac_finished s = Z.of_nat (ac_runs s) -> 
  (if ac_done s then ac_finished s = ic_limit c else ac_finished s < ac_next s) ->
  ic_limit c - ac_finished s <= Z.of_nat fuel ->
  let s' := activity_loop c now obs fuel s in ac_done s' = true /\ Z.of_nat (ac_runs s') = ic_limit c.
Proof.
  intros c now obs. induction fuel as [|fuel IH]; intros s O T L F P B; cbv zeta; cbn [activity_loop].
  - destruct (ac_done s) eqn:D; [split; [assumption|lia]|lia].
  - destruct (ac_done s) eqn:D; [split; [assumption|lia]|].
    apply IH; auto; rewrite activity_step_spec by assumption; cbv zeta; cbn [ac_next ac_finished ac_runs ac_done].
    + destruct (Z.eqb_spec (ac_next s) (ic_limit c)); lia.
    + lia.
    + destruct (Z.eqb_spec (ac_next s) (ic_limit c)); cbn [andb]; [|lia].
      destruct (Z.eqb_spec (ac_next s - (ac_finished s + 1)) 0); lia.
    + lia.
Qed.
Lemma activity_exact : forall c now obs fuel, (forall n, obs n = false) -> ic_time_limit c = None ->
  1 <= copies c -> ic_limit c <= Z.of_nat fuel ->
  let s1 := activity_runs c now obs (Z.to_nat (copies c)) (mkAct (copies c) 0 0 false) in
  let s' := activity_loop c now obs fuel s1 in
  ac_done s' = true /\ Z.of_nat (ac_runs s') = ic_limit c.
Proof.
  intros c now obs fuel O T P F. cbv zeta.
  assert (copies c <= ic_limit c) by (unfold copies; lia).
  destruct (activity_runs_spec c now obs (Z.to_nat (copies c)) (mkAct (copies c) 0 0 false) (copies c) O T)
    as [A [B [C D]]]; cbn [ac_next ac_finished ac_runs ac_done]; auto; try lia.
  cbv zeta in *. cbn [ac_next ac_finished] in *.
  apply activity_loop_spec; auto; try lia. rewrite D.
  destruct (Z.ltb_spec 0 (Z.of_nat (Z.to_nat (copies c)))); [|lia]. cbn [andb].
  set (s' := activity_runs _ _ _ _ _) in *.
  destruct (Z.eqb_spec (ac_next s') (ic_limit c)); cbn [andb]; [destruct (Z.eqb_spec (ac_finished s') (ic_limit c))|]; lia.
Qed.

(** * Refutations *)
Definition burst2 : iter_cfg := mkIter 2 1 None (Some 10) 0 false.
(** Two completions: iteration 0 reads the cancellation before iteration 1 starts. *)
Definition twice_schedule : list it_action :=
  [ATick 1 10; ACancel; AEnd 0; AFinish 0 2; ATick 11 10; AEnd 1; AFinish 1 12].
Lemma open_twice : exists c per first sch s, open_run c per first sch s /\ constant_gap per sch /\ calls (it_log s) = 2%nat.
Proof.
  exists burst2, 10, 0, twice_schedule. eexists. split; [split; [reflexivity|]; eexists; split; [reflexivity|vm_compute; reflexivity]|].
  split; [|reflexivity]. intros now gap H. cbn in H. decompose [or] H; try discriminate; try contradiction; congruence.
Qed.

(** After the main loop stops ticking, an idle open loop never completes. *)
Lemma idle_stuck : forall c sch s s', it_live s = [] -> it_calls s = 0%nat -> (forall now gap, ~ In (ATick now gap) sch) ->
  it_run c sch s = ItNext s' -> it_live s' = [] /\ it_calls s' = 0%nat.
Proof.
  intros c. induction sch as [|a r IH]; intros s s' L C N E; cbn [it_run] in E.
  - injection E as <-. auto.
  - assert (Nr : forall now gap, ~ In (ATick now gap) r) by (intros n g H; apply (N n g); right; exact H).
    destruct (it_step c a s) as [| | |s1] eqn:A; try discriminate; [eauto|].
    apply (IH s1 s'); auto; destruct a as [k|k now|now gap| |]; cbn [it_step] in A; rewrite ?L, ?C in A;
      cbn [live_get Nat.eqb] in A; try discriminate;
      try (exfalso; apply (N now gap); left; reflexivity);
      destruct (it_canceled s); try discriminate; injection A as <-; cbn [it_live it_calls]; auto.
Qed.
Lemma open_cancel_hangs : exists c per first sch s, open_run c per first sch s /\ constant_gap per sch /\
  In ICancel (it_log s) /\ starts (it_log s) <> [] /\
  forall sch' s', (forall now gap, ~ In (ATick now gap) sch') -> it_run c sch' s = ItNext s' -> ~ In ICall (it_log s').
Proof.
  exists burst2, 10, 0, [ATick 1 10; AEnd 0; AFinish 0 2; ACancel]. eexists.
  assert (R : open_run burst2 10 0 [ATick 1 10; AEnd 0; AFinish 0 2; ACancel]
     (mkIt 1 1 (Some 10) [] true 0 [ICancel; IEnd 0; IStart 0 false 1])).
  { split; [reflexivity|]. eexists. split; [reflexivity|vm_compute; reflexivity]. }
  split; [exact R|]. split.
  { intros now gap H. cbn in H. decompose [or] H; try discriminate; try contradiction; congruence. }
  split; [cbn; auto|]. split; [cbn; discriminate|].
  intros sch' s' N E H. match type of E with it_run _ _ ?x = _ => destruct (idle_stuck burst2 sch' x s' eq_refl eq_refl N E) as [_ C] end.
  assert (I : inv burst2 s').
  { eapply (run_ind burst2 (inv burst2)); [|eapply open_inv; exact R|exact E].
    intros a x y I A. eapply inv_step; eassumption. }
  rewrite <- (v_calls _ _ I) in C. apply in_split in H. destruct H as [a [b Q]]. rewrite Q, calls_app, calls_cons in C. lia.
Qed.

(** A count of zero: nothing starts and nothing completes. *)
Lemma zero_hangs : forall par sch s0 s, 0 <= par -> 
  let c := mkIter (iteration_limit true (Some 0)) par None None 0 false in
  initiate c 0 0 = ItNext s0 -> it_run c sch s0 = ItNext s -> it_log s = [] \/ it_log s = [ICancel].
Proof.
  intros par sch s0 s P c E R. unfold initiate in E. cbn [ic_period ic_parallel ic_limit c iteration_limit] in E.
  rewrite Z.min_r in E by assumption. change (to_int32 0) with 0 in E. cbn in E. injection E as <-.
  assert (G : forall sch s s', it_live s = [] -> it_calls s = 0%nat ->
    (it_canceled s = false /\ it_log s = [] \/ it_canceled s = true /\ it_log s = [ICancel]) ->
    it_run c sch s = ItNext s' -> it_log s' = [] \/ it_log s' = [ICancel]).
  { clear s R sch. induction sch as [|a r IH]; intros s s' L C X E; cbn [it_run] in E.
    - injection E as <-. tauto.
    - destruct (it_step c a s) as [| | |s1] eqn:A; try discriminate; [eauto|].
      apply (IH s1 s'); auto; destruct a as [k|k now|now gap| |]; cbn [it_step] in A; rewrite ?L, ?C in A;
      cbn [live_get Nat.eqb ic_period c] in A; try discriminate;
      destruct X as [[X Y]|[X Y]]; rewrite X in A; try discriminate; injection A as <-; cbn [it_live it_calls it_canceled it_log]; auto.
      rewrite Y. auto. }
  eapply G; [| | |exact R]; auto.
Qed.
