(** C38 and C39: sampling from configured distributions. *)
From Coq Require Import Ascii String List ZArith Bool Lia Arith SpecFloat.
From Verif Require Import Base_Model Base_Proofs Float_Model Float_Proofs2 Dist_Model Dist_Proofs Dist_Proofs2 Dist_Proofs3.
Import ListNotations.
Open Scope Z_scope.

(** ** Distributions for the examples *)
Definition f32_half : spec_float := S754_finite false 8388608 (-24).
Definition f32_quarter : spec_float := S754_finite false 8388608 (-25).
Definition joint : dist_config := mkDist (s_ "joint")
  [mkPmf f32_quarter [dp_exactly 10; dp_range 100 199]; mkPmf f_zero [dp_exactly 77; dp_exactly 77]; mkPmf (f32_add f32_half f32_quarter) [dp_range 20 29; dp_exactly 5]] []
  [s_ "response_payload_size"; s_ "request_payload_size"].
Definition steps : list cdf_point := [mkCdf f_zero 10; mkCdf f32_half 20; mkCdf f32_half 25; mkCdf f32_one 40].
Definition cdf_steps : dist_config := mkDist (s_ "steps") [] steps [s_ "payload_size"].
Definition cdf_points2 : dist_config := mkDist (s_ "two") [] [mkCdf f32_quarter 7; mkCdf f32_one 9] [s_ "action_delay_ns"].

(** ** C38 *)
(** A distribution given by points: every sample belongs to one configured point
    of positive weight, each value being the exact one or inside the interval. *)
Theorem C38_points : forall c g i draws s,
  allocate c = GenOk g -> dc_cdf c = [] -> int_ranges (dc_pmf c) -> random_sample g i draws = Drawn s ->
  exists p, nth_error (dc_pmf c) i = Some p /\ weight_positive (pp_pmf p) = true /\ Forall2 within (pp_data p) s.
Proof.
  intros c g i draws s A C R H. unfold allocate in A. destruct (validate_dist c); [discriminate|]. rewrite C in A. eapply pmf_support; eassumption.
Qed.
(** ... and all of these can come out. *)
Theorem C38_points_all : forall c g i p s,
  allocate c = GenOk g -> dc_cdf c = [] -> int_ranges (dc_pmf c) ->
  nth_error (dc_pmf c) i = Some p -> weight_positive (pp_pmf p) = true -> Forall2 within (pp_data p) s ->
  exists draws, random_sample g i draws = Drawn s.
Proof.
  intros c g i p s A C R N W H. unfold allocate in A. destruct (validate_dist c); [discriminate|]. rewrite C in A. eapply pmf_reach; eassumption.
Qed.
Lemma cdf_alloc : forall c g first l, allocate c = GenOk g -> dc_cdf c = first :: l ->
  increasing (cp_value first) l /\ validate_cdf (first :: l) = None /\
  exists ps, cdf_to_pmf (SFeqb (cp_cdf first) f_zero) (cp_cdf first) (cp_value first) l = Some ps
    /\ init_pmf (mkPmf (cp_cdf first) [if SFeqb (cp_cdf first) f_zero then dp_range 0 0 else dp_exactly (cp_value first)] :: ps) = GenOk g.
Proof.
  intros c g first l A C. unfold allocate in A. destruct (validate_dist c) eqn:V; [discriminate|]. rewrite C in A.
  destruct (validate_inv _ V) as [_ [[_ [_ Vc]]|[X _]]]; [|congruence]. rewrite C in Vc.
  assert (I : increasing (cp_value first) l). { cbn [validate_cdf] in Vc. destruct (SFltb (cp_cdf first) f_zero); [discriminate|]. now apply cdf_loop_inv in Vc. }
  split; [assumption|]. split; [assumption|]. unfold init_cdf in A. destruct (cdf_to_pmf _ _ _ l) as [ps|] eqn:P; [|discriminate]. eauto.
Qed.
(** A CDF that starts above 0 yields the listed values; one that starts at 0
    yields values of its intervals, the k-th starting after the k-th value
    (the first one at the first value) and ending with the next value. *)
Theorem C38_cdf : forall c g first l i draws s,
  allocate c = GenOk g -> dc_cdf c = first :: l -> int_values (first :: l) -> random_sample g i draws = Drawn s ->
  exists v, s = [v] /\ cp_value first <= v <= cp_value (last l first)
    /\ (SFeqb (cp_cdf first) f_zero = false -> exists q, nth_error (first :: l) i = Some q /\ v = cp_value q)
    /\ (SFeqb (cp_cdf first) f_zero = true -> exists k, i = S k /\ in_gap first l k v).
Proof.
  intros c g first l i draws s A C R H. destruct (cdf_alloc _ _ _ _ A C) as [Inc [Vc [ps [P G]]]]. inversion R as [|? ? R1 R2]; subst.
  destruct (sample_inv _ _ _ _ _ G H) as [p [N [W D]]]. destruct (SFeqb (cp_cdf first) f_zero) eqn:E.
  - destruct i as [|k]; cbn [nth_error] in N.
    { injection N as <-. cbn [pp_pmf] in W. destruct (cp_cdf first) as [z|z| |[] m e]; discriminate. }
    destruct (cdf_points_gap _ _ _ _ _ _ P N) as [lo [q [X1 [X2 X3]]]]. rewrite X3 in D.
    assert (Iq : In q l) by (eapply nth_error_In; eauto). assert (Rq := R2). rewrite Forall_forall in Rq. specialize (Rq q Iq).
    assert (Lo : -2147483648 <= lo <= 2147483647).
    { destruct (gaps_nonempty first l k q Inc X2) as [lo' [q' [Y1 [Y2 Y3]]]]. rewrite X1 in Y1. injection Y1 as <-. split; [|lia].
      destruct k as [|k]; cbn [gap_lower] in X1; [injection X1 as <-; lia|]. destruct (nth_error l k) as [z|] eqn:Z; [|discriminate]. injection X1 as <-.
      assert (Rz := R2). rewrite Forall_forall in Rz. specialize (Rz z (nth_error_In _ _ Z)). lia. }
    apply draw_within in D; [|repeat constructor; cbn [dp_range dp_lower dp_upper]; lia]. inversion D as [|? v ? s' Dv Dr]; subst. inversion Dr; subst.
    unfold within in Dv. cbn [dp_range dp_exact dp_lower dp_upper] in Dv. exists v.
    assert (Gk : in_gap first l k v) by (exists lo, q; auto).
    split; [reflexivity|]. split; [split; [eapply gaps_above; eauto|eapply gaps_upper; eauto]|]. split; [discriminate|]. intros _. exists k. auto.
  - assert (Q : exists q, nth_error (first :: l) i = Some q /\ pp_data p = [dp_exactly (cp_value q)]).
    { destruct i as [|k]; cbn [nth_error] in N |- *; [injection N as <-; eauto|]. eapply cdf_points_exact; eauto. }
    destruct Q as [q [Nq Dq]]. rewrite Dq in D. apply draw_within in D; [|repeat constructor]. inversion D as [|? v ? s' Dv Dr]; subst. inversion Dr; subst.
    unfold within in Dv. cbn [dp_exactly dp_exact] in Dv. subst v. exists (cp_value q). split; [reflexivity|]. split.
    + apply nth_error_In in Nq. destruct Nq as [<-|Iq].
      * split; [lia|]. clear - Inc. destruct l as [|z l]; [cbn [last]; lia|]. destruct (gaps_nonempty first (z :: l) 0 z Inc eq_refl) as [lo [q' [Y1 [Y2 Y3]]]].
        assert (in_gap first (z :: l) 0 (cp_value first)) by (exists (cp_value first), z; cbn [gap_lower nth_error increasing] in *; intuition lia). eapply gaps_upper; eauto.
      * apply In_nth_error in Iq. destruct Iq as [k K]. pose proof (gaps_nonempty _ _ _ _ Inc K) as X. split; [eapply gaps_above; eauto|eapply gaps_upper; eauto].
    + split; [|discriminate]. intros _. eauto.
Qed.
(** The intervals of an accepted CDF are not empty, and every value from the
    first to the last is in exactly one of them. *)
Theorem C38_intervals : forall first l, validate_cdf (first :: l) = None -> l <> [] ->
  (forall k, (k < length l)%nat -> exists v, in_gap first l k v)
  /\ (forall v, (cp_value first <= v <= cp_value (last l first)) <-> exists k, in_gap first l k v)
  /\ (forall v j k, in_gap first l j v -> in_gap first l k v -> j = k).
Proof.
  intros first l V N. cbn [validate_cdf] in V. destruct (SFltb (cp_cdf first) f_zero); [discriminate|]. apply cdf_loop_inv in V. destruct V as [I _]. split; [|split].
  - intros k K. destruct (nth_error l k) as [p|] eqn:E; [|apply nth_error_None in E; lia]. exists (cp_value p). now apply gaps_nonempty.
  - intros v. split; [now apply gaps_cover|]. intros [k K]. split; [eapply gaps_above; eauto|eapply gaps_upper; eauto].
  - intros v j k. now apply gaps_unique.
Qed.
(** No undefined behaviour: for a CDF it is enough that no value is NaN and that
    the values fit in an int (what the ranges are stored in) ... *)
Theorem C38_cdf_defined : forall c, validate_dist c = None -> dc_cdf c <> [] -> cdf_numbers (dc_cdf c) -> int_values (dc_cdf c) ->
  exists g, allocate c = GenOk g.
Proof.
  intros c V N F R. unfold allocate. rewrite V. destruct (validate_inv _ V) as [_ [[_ [_ Vc]]|[X _]]]; [|congruence].
  destruct (init_cdf_defined _ Vc F R) as [g G]. destruct (dc_cdf c); [congruence|eauto].
Qed.
(** ... also on the engine's way through the canonical form, where the weights
    are rounded once more ... *)
Theorem C38_engine_cdf_defined : forall c fields,
  validate_dist c = None -> dc_cdf c <> [] -> cdf_numbers (dc_cdf c) -> int_values (dc_cdf c) -> incl fields (dc_fields c) ->
  make_generator (fun c => canonical_dist c fields) c <> GenUndefined.
Proof. intros c fields. now apply engine_cdf_defined. Qed.
(** ... and for points that no weight is negative or NaN and every interval has
    its lower bound below its upper bound. *)
Theorem C38_points_defined : forall c, validate_dist c = None -> dc_cdf c = [] -> int_ranges (dc_pmf c) ->
  Forall (fun p => nonneg (pp_pmf p)) (dc_pmf c) ->
  Forall (fun p => Forall (fun d => dp_exact d = None -> dp_lower d <= dp_upper d) (pp_data p)) (dc_pmf c) ->
  exists g, allocate c = GenOk g.
Proof.
  intros c V C R W L. apply init_pmf_defined; [assumption|assumption| |].
  - eapply Forall_impl; [|exact W]. cbn beta. intros p. apply weight_ok_nonneg.
  - unfold int_ranges in R. rewrite Forall_forall in *. intros p Hp. specialize (R p Hp). specialize (L p Hp). cbn beta in *. rewrite Forall_forall in *. intros d Hd.
    specialize (R d Hd). specialize (L d Hd). unfold value_of_point, int_range in *. destruct (dp_exact d); [reflexivity|]. cbn [value_ok]. rewrite !to_int32_id by tauto. apply Z.leb_le. auto.
Qed.
(** The engine's joint distributions: request and response size of a sample come
    from the same point, each from the field of that name. *)
Theorem C38_engine_points : forall c fields g i draws s,
  make_generator (fun c => canonical_dist c fields) c = GenOk g -> dc_cdf c = [] -> int_ranges (dc_pmf c) -> random_sample g i draws = Drawn s ->
  length s = length fields /\
  exists p, nth_error (dc_pmf c) i = Some p /\ weight_positive (pp_pmf p) = true
    /\ forall j f v, nth_error fields j = Some f -> nth_error s j = Some v -> exists d, field_value (dc_fields c) (pp_data p) f d /\ within d v.
Proof.
  intros c fields g i draws s G C R H. unfold make_generator in G. destruct (canonical_dist c fields) as [c'|e|] eqn:E; try discriminate.
  assert (V : validate_dist c = None) by (unfold canonical_dist in E; destruct (validate_dist c); [discriminate|reflexivity]).
  assert (I : incl fields (dc_fields c)).
  { intros f If. destruct (mem f (dc_fields c)) eqn:M; [now apply mem_spec in M|]. exfalso.
    destruct (canonical_missing c fields f V If) as [x [X _]]; [intros Z; apply mem_spec in Z; congruence|congruence]. }
  destruct (canonical_pmf_spec c fields V C I) as [ps [E' S]]. rewrite E in E'. injection E' as ->.
  unfold allocate in G. destruct (validate_dist _); [discriminate|]. cbn [dc_cdf dc_pmf] in G.
  destruct (sample_inv _ _ _ _ _ G H) as [p' [N' [W D]]].
  assert (X : exists p, nth_error (dc_pmf c) i = Some p /\ same_point (dc_fields c) fields p p').
  { clear - S N'. revert i N'. induction S as [|a b l ps' AB S IH]; intros [|i] N'; try discriminate; cbn [nth_error] in N' |- *; [injection N' as <-; eauto|auto]. }
  destruct X as [p [N [Sw [Sl Sf]]]].
  assert (Rp : Forall int_range (pp_data p)) by (unfold int_ranges in R; rewrite Forall_forall in R; apply R; eapply nth_error_In; eauto).
  assert (Rp' : Forall int_range (pp_data p')).
  { apply Forall_forall. intros d Hd. apply In_nth_error in Hd. destruct Hd as [j Hj]. assert (j < length fields)%nat by (rewrite <- Sl; apply nth_error_Some; congruence).
    destruct (nth_error fields j) as [f|] eqn:Ef; [|apply nth_error_None in Ef; lia].
    destruct (Sf f d (nth_error_In _ _ Ef)) as [S1 _]. destruct (S1 (ex_intro _ j (conj Ef Hj))) as [k [_ K]]. rewrite Forall_forall in Rp. apply Rp. eapply nth_error_In; eauto. }
  pose proof (draw_within _ _ _ Rp' D) as F2. split.
  - rewrite (draw_length _ _ _ D), map_length. assumption.
  - exists p. split; [assumption|]. split; [congruence|]. intros j f v Ef Ev.
    assert (Y : exists d, nth_error (pp_data p') j = Some d /\ within d v).
    { clear - F2 Ev. revert j Ev. induction F2 as [|d w ds s AB F2 IH]; intros [|j] Ev; try discriminate; cbn [nth_error] in Ev |- *; [injection Ev as <-; eauto|auto]. }
    destruct Y as [d [Yd Yw]]. exists d. split; [|assumption]. destruct (Sf f d (nth_error_In _ _ Ef)) as [S1 _]. apply S1. exists j. auto.
Qed.
(** The engine's CDFs: all fields of a sample lie in the same interval, or equal
    the same listed value. *)
Theorem C38_engine_cdf : forall c fields g first l i draws s,
  make_generator (fun c => canonical_dist c fields) c = GenOk g -> dc_cdf c = first :: l -> int_values (first :: l) -> cdf_numbers (first :: l) -> incl fields (dc_fields c) ->
  random_sample g i draws = Drawn s ->
  length s = length fields
  /\ (SFeqb (cp_cdf first) f_zero = true -> forall v, In v s -> in_gap first l i v)
  /\ (SFeqb (cp_cdf first) f_zero = false -> forall v, In v s -> exists q, nth_error (first :: l) i = Some q /\ v = cp_value q).
Proof.
  intros c fields g first l i draws s G C R F I H.
  assert (V : validate_dist c = None) by (unfold make_generator, canonical_dist in G; destruct (validate_dist c); [discriminate|reflexivity]).
  destruct (canonical_cdf_defined c fields V) as [ps [E [P Rg]]]; [congruence|now rewrite C|now rewrite C|assumption|].
  unfold make_generator in G. rewrite E in G. unfold allocate in G. destruct (validate_dist (mkDist (dc_name c) ps [] fields)); [discriminate|]. cbn [dc_cdf dc_pmf] in G.
  destruct (pmf_support _ _ _ _ _ G Rg H) as [p [N [_ W]]]. rewrite Forall_forall in P. destruct (P p (nth_error_In _ _ N)) as [L _].
  assert (Ls : length s = length fields) by (rewrite <- L; symmetry; clear - W; induction W; [reflexivity|cbn [length]; congruence]).
  split; [assumption|]. pose proof (canonical_cdf_spec c fields first l V C I) as [S1 S2]. split; intros Z.
  - specialize (S1 Z). rewrite E in S1. destruct S1 as [ps' [Q U]]. injection Q as <-. destruct (canon_points_gap _ _ _ _ _ _ _ U N) as [lo [q [X1 [X2 X3]]]].
    intros v Iv. exists lo, q. split; [assumption|]. split; [assumption|]. rewrite X3 in W. clear - W Iv. remember (repeat (dp_range lo (cp_value q)) (length fields)) as ds eqn:Ed.
    assert (A : forall d, In d ds -> d = dp_range lo (cp_value q)) by (intros d; rewrite Ed; apply repeat_spec). clear Ed. induction W as [|d w ds s Dw W IH]; [contradiction|].
    destruct Iv as [<-|Iv]; [|apply IH; [assumption|intros d' Hd; apply A; right; assumption]].
    rewrite (A d (or_introl eq_refl)) in Dw. exact Dw.
  - specialize (S2 Z). rewrite E in S2. injection S2 as ->. destruct (canon_exact_nth (length fields) (first :: l) f_zero i p N) as [q [X1 X2]].
    intros v Iv. exists q. split; [assumption|]. rewrite X2 in W. clear - W Iv. remember (repeat (dp_exactly (cp_value q)) (length fields)) as ds eqn:Ed.
    assert (A : forall d, In d ds -> d = dp_exactly (cp_value q)) by (intros d; rewrite Ed; apply repeat_spec). clear Ed. induction W as [|d w ds s Dw W IH]; [contradiction|].
    destruct Iv as [<-|Iv]; [|apply IH; [assumption|intros d' Hd; apply A; right; assumption]].
    rewrite (A d (or_introl eq_refl)) in Dw. exact Dw.
Qed.
(** The engine's tables: names are distinct, and the index of a name is that of
    the generator made from the distribution of this name. *)
Theorem C38_tables : forall canon l g idx, make_generators canon l [] [] = GensOk g idx ->
  NoDup (map dc_name l) /\ length g = length l
  /\ (forall i c, nth_error l i = Some c -> generator_index (dc_name c) idx = Z.of_nat i /\ exists x, nth_error g i = Some x /\ make_generator canon c = GenOk x)
  /\ (forall n, ~ In n (map dc_name l) -> generator_index n idx = -1).
Proof.
  intros canon l g idx H. apply make_generators_spec in H. destruct H as [_ [B [C [_ [E K]]]]]. cbn [length Nat.add] in *. split; [assumption|]. split; [assumption|]. split.
  - intros i c N. destruct (E i c N) as [E1 E2]. split; [|assumption]. unfold generator_index. now rewrite E1.
  - intros n N. unfold generator_index. now rewrite K.
Qed.
Print Assumptions C38_points.
Print Assumptions C38_points_all.
Print Assumptions C38_cdf.
Print Assumptions C38_intervals.
Print Assumptions C38_cdf_defined.
Print Assumptions C38_engine_cdf_defined.
Print Assumptions C38_points_defined.
Print Assumptions C38_engine_points.
Print Assumptions C38_engine_cdf.
Print Assumptions C38_tables.

Example C38_example_joint : exists g, make_generator canonical_sizes joint = GenOk g
  /\ random_sample g 0 [150] = Drawn [150; 10] /\ random_sample g 2 [25] = Drawn [5; 25]
  /\ random_sample g 1 [] = NoDraw /\ random_sample g 0 [200] = NoDraw /\ scalar_sample g 0 [150] = DrawCrash.
Proof. eexists. split; [vm_compute; reflexivity|]. repeat split; vm_compute; reflexivity. Qed.
Example C38_example_steps : exists g, allocate cdf_steps = GenOk g
  /\ scalar_sample g 1 [10] = Drawn 10 /\ scalar_sample g 1 [20] = Drawn 20 /\ scalar_sample g 2 [22] = NoDraw
  /\ scalar_sample g 3 [26] = Drawn 26 /\ scalar_sample g 3 [25] = NoDraw /\ scalar_sample g 0 [0] = NoDraw.
Proof. eexists. split; [vm_compute; reflexivity|]. repeat split; vm_compute; reflexivity. Qed.
Example C38_example_hypotheses : cdf_numbers steps /\ int_values steps /\ validate_dist cdf_steps = None /\ int_ranges (dc_pmf joint).
Proof. repeat split; repeat constructor; cbn; try lia; try discriminate. Qed.
Example C38_example_engine_cdf : exists g, make_generator canonical_sizes cdf_steps = GenOk g /\ scalar_sample g 0 [10] = Drawn 10 /\ scalar_sample g 2 [40] = Drawn 40.
Proof. eexists. split; [vm_compute; reflexivity|]. split; vm_compute; reflexivity. Qed.
Example C38_example_engine_values : exists g, make_generator canonical_delay cdf_points2 = GenOk g /\ scalar_sample g 0 [] = Drawn 7 /\ scalar_sample g 1 [] = Drawn 9.
Proof. eexists. split; [vm_compute; reflexivity|]. split; vm_compute; reflexivity. Qed.
Example C38_example_tables : exists g idx, make_generators canonical_sizes [joint; cdf_steps] [] [] = GensOk g idx
  /\ generator_index (s_ "steps") idx = 1 /\ generator_index (s_ "none") idx = -1
  /\ make_generators canonical_sizes [joint; joint] [] [] = GensError (DETwice (s_ "joint")).
Proof. eexists. eexists. split; [vm_compute; reflexivity|]. repeat split; vm_compute; reflexivity. Qed.

(** Findings: what is false of the code. *)
(** Validation lets through distributions for which the standard library's
    distributions have undefined behaviour: NaN, negative weights, reversed bounds. *)
Theorem C38_accepted_defined_refuted : 
  (exists c, validate_dist c = None /\ allocate c = GenUndefined /\ exists p, In p (dc_pmf c) /\ pp_pmf p = S754_nan)
  /\ (exists c, validate_dist c = None /\ allocate c = GenUndefined /\ exists p, In p (dc_pmf c) /\ SFltb (pp_pmf p) f_zero = true)
  /\ (exists c d, validate_dist c = None /\ allocate c = GenUndefined /\ dc_pmf c = [mkPmf f32_one [d]] /\ dp_upper d < dp_lower d)
  /\ (exists c, validate_dist c = None /\ allocate c = GenUndefined /\ exists p, In p (dc_cdf c) /\ cp_cdf p = S754_nan).
Proof.
  split; [|split; [|split]].
  - exists (mkDist (s_ "d") [mkPmf S754_nan [dp_exactly 1]; mkPmf f32_one [dp_exactly 2]] [] []). split; [vm_compute; reflexivity|]. split; [vm_compute; reflexivity|].
    eexists. split; [left; reflexivity|reflexivity].
  - exists (mkDist (s_ "d") [mkPmf (SFopp f32_half) [dp_exactly 1]; mkPmf (f32_add f32_one f32_half) [dp_exactly 2]] [] []). split; [vm_compute; reflexivity|]. split; [vm_compute; reflexivity|].
    eexists. split; [left; reflexivity|vm_compute; reflexivity].
  - exists (mkDist (s_ "d") [mkPmf f32_one [dp_range 9 3]] [] []), (dp_range 9 3). split; [vm_compute; reflexivity|]. split; [vm_compute; reflexivity|]. split; [reflexivity|cbn; lia].
  - exists (mkDist (s_ "d") [] [mkCdf f_zero 1; mkCdf S754_nan 2; mkCdf f32_one 3] []). split; [vm_compute; reflexivity|]. split; [vm_compute; reflexivity|].
    eexists. split; [right; left; reflexivity|reflexivity].
Qed.
(** The proto fields have 64 bits, the ranges 32: an interval beyond 2^31 yields
    values outside itself. *)
Theorem C38_wide_interval_refuted : exists c g p, allocate c = GenOk g /\ dc_pmf c = [p] /\ random_sample g 0 [-2147483648] = Drawn [-2147483648]
  /\ ~ Forall2 within (pp_data p) [-2147483648].
Proof.
  exists (mkDist (s_ "d") [mkPmf f32_one [dp_range 2147483648 2147483649]] [] []). eexists. eexists.
  split; [vm_compute; reflexivity|]. split; [reflexivity|]. split; [vm_compute; reflexivity|].
  intros H. inversion H as [|? ? ? ? X]; subst. unfold within in X. cbn [dp_range dp_exact dp_lower dp_upper] in X. lia.
Qed.
(** Equal weights, each the float nearest to 1/78: their float sum is off by more
    than the tolerance and the distribution is rejected. *)
Definition equal_points (n : nat) : dist_config :=
  mkDist (s_ "d") (map (fun i => mkPmf (SFdiv 24 128 f32_one (binary_normalize 24 128 (Z.of_nat n) 0 false)) [dp_exactly (Z.of_nat i)]) (seq 0 n)) [] [].
Theorem C38_equal_weights_refuted : validate_dist (equal_points 77) = None /\ validate_dist (equal_points 78) = Some DEPmfSum.
Proof. split; vm_compute; reflexivity. Qed.
(** A size distribution may have two fields, which makes every use of it crash:
    sizes are drawn with GetScalarRandomSample. *)
Theorem C38_joint_size_refuted : exists c g, make_generators canonical_sizes [c] [] [] = GensOk [g] [(dc_name c, O)] /\ forall i draws, scalar_sample g i draws = DrawCrash.
Proof. exists joint. eexists. split; [vm_compute; reflexivity|]. reflexivity. Qed.
Print Assumptions C38_accepted_defined_refuted.
Print Assumptions C38_wide_interval_refuted.
Print Assumptions C38_equal_weights_refuted.
Print Assumptions C38_joint_size_refuted.

(** ** C39 *)
(** Points: the canonical form has the name, the weights and, for each canonical
    field, the value of that field; nothing is read outside a list. *)
Theorem C39_fields : forall c fields, validate_dist c = None -> dc_cdf c = [] -> incl fields (dc_fields c) ->
  exists ps, canonical_dist c fields = CanonOk (mkDist (dc_name c) ps [] fields)
    /\ Forall2 (fun p p' => pp_pmf p' = pp_pmf p /\ length (pp_data p') = length fields
         /\ forall j f, nth_error fields j = Some f -> exists i v, nth_error (dc_fields c) i = Some f /\ nth_error (pp_data p) i = Some v /\ nth_error (pp_data p') j = Some v)
       (dc_pmf c) ps.
Proof.
  intros c fields V C I. destruct (canonical_pmf_spec c fields V C I) as [ps [E S]]. exists ps. split; [assumption|].
  clear E. induction S as [|p p' l ps SP S IH]; constructor; [|assumption]. destruct SP as [A [B D]]. split; [assumption|]. split; [assumption|]. intros j f Ef.
  assert (j < length (pp_data p'))%nat by (rewrite B; apply nth_error_Some; congruence). destruct (nth_error (pp_data p') j) as [v|] eqn:Ev; [|apply nth_error_None in Ev; lia].
  destruct (D f v (nth_error_In _ _ Ef)) as [D1 _]. destruct (D1 (ex_intro _ j (conj Ef Ev))) as [i [X Y]]. eauto.
Qed.
(** A canonical field that the distribution does not have is reported. *)
Theorem C39_missing : forall c fields, validate_dist c = None ->
  (exists f, In f fields /\ ~ In f (dc_fields c)) <-> exists g, canonical_dist c fields = CanonError (DEFieldMissing g) /\ In g fields /\ ~ In g (dc_fields c).
Proof.
  intros c fields V. split.
  - intros [f [A B]]. now apply canonical_missing with (f := f).
  - intros [g [_ H]]. eauto.
Qed.
(** An invalid distribution is never canonicalised, and names may not repeat. *)
Theorem C39_invalid : forall c fields e, validate_dist c = Some e <-> canonical_dist c fields = CanonError e /\ (forall f, e <> DEFieldMissing f).
Proof.
  intros c fields e. unfold canonical_dist. split.
  - intros H. rewrite H. split; [reflexivity|]. intros f ->. unfold validate_dist in H.
    assert (V1 : forall l c v, cdf_loop c v l <> Some (DEFieldMissing f)). { induction l as [|p r IH]; intros x v; cbn [cdf_loop]; [destruct (SFeqb _ _); discriminate|]. destruct (_ <=? _); [discriminate|]. destruct (SFltb _ _); [discriminate|apply IH]. }
    assert (V2 : forall n l c, pmf_loop n c l <> inl (DEFieldMissing f)). { induction l as [|p r IH]; intros x; cbn [pmf_loop]; [discriminate|]. destruct (negb _); [discriminate|apply IH]. }
    destruct (dc_cdf c) as [|x l], (dc_pmf c) as [|y m] eqn:Em; try discriminate; destruct (repeats [] (dc_fields c)); try discriminate.
    + unfold validate_pmf in H. cbv zeta in H. destruct (pmf_loop _ _ _) eqn:L; [|destruct (SFltb _ _); discriminate]. injection H as ->. exact (V2 _ _ _ L).
    + cbn [validate_cdf] in H. destruct (SFltb _ _); [discriminate|]. exact (V1 _ _ _ H).
  - intros [H N]. destruct (validate_dist c) as [e'|]; [congruence|]. exfalso. destruct (field_map (dc_fields c) fields) as [f|js].
    + injection H as <-. now apply (N f).
    + destruct (canon_points js (dc_pmf c)); [|discriminate]. destruct (dc_cdf c) as [|p r]; [discriminate|]. destruct (SFeqb _ _); [|discriminate]. destruct (canon_uniform _ _ _ _); discriminate.
Qed.
Theorem C39_distinct_fields : forall c fields c', canonical_dist c fields = CanonOk c' -> NoDup (dc_fields c).
Proof. intros c fields c' H. unfold canonical_dist in H. destruct (validate_dist c) eqn:V; [discriminate|]. now apply validate_inv in V. Qed.
(** A CDF becomes points: one per interval, or one per value, each with the
    same interval or value in every field and the weight of its step. *)
Theorem C39_cdf : forall c fields first l, validate_dist c = None -> dc_cdf c = first :: l -> incl fields (dc_fields c) -> no_overflow l ->
  exists ps, canonical_dist c fields = CanonOk (mkDist (dc_name c) ps [] fields)
  /\ (SFeqb (cp_cdf first) f_zero = true -> length ps = length l /\ weights_from f_zero l ps
       /\ forall k p, nth_error ps k = Some p -> exists lo q, gap_lower first l k = Some lo /\ nth_error l k = Some q /\ pp_data p = repeat (dp_range lo (cp_value q)) (length fields))
  /\ (SFeqb (cp_cdf first) f_zero = false -> length ps = S (length l) /\ weights_from f_zero (first :: l) ps
       /\ forall k p, nth_error ps k = Some p -> exists q, nth_error (first :: l) k = Some q /\ pp_data p = repeat (dp_exactly (cp_value q)) (length fields)).
Proof.
  intros c fields first l V C I O. pose proof (canonical_cdf_spec c fields first l V C I) as [S1 S2].
  destruct (SFeqb (cp_cdf first) f_zero) eqn:E.
  - specialize (S1 eq_refl). destruct (canonical_dist c fields) as [c'|e|]; [|contradiction|contradiction]. destruct S1 as [ps [-> U]]. exists ps. split; [reflexivity|]. split; [|discriminate].
    intros _. destruct (uniform_weights _ _ _ _ _ U). split; [assumption|]. split; [assumption|]. intros k p N. eapply canon_points_gap; eauto.
  - specialize (S2 eq_refl). eexists. split; [exact S2|]. split; [discriminate|]. intros _. destruct (exact_weights (length fields) (first :: l) f_zero) as [A B]. split; [assumption|]. split; [assumption|].
    intros k p N. eapply canon_exact_nth; eauto.
Qed.
(** A size distribution is taken with request and response size if it has both
    fields, otherwise with the one field payload_size. *)
Theorem C39_choice : forall c c', canonical_sizes c = CanonOk c' ->
  (incl [s_ "request_payload_size"; s_ "response_payload_size"] (dc_fields c) /\ canonical_dist c [s_ "request_payload_size"; s_ "response_payload_size"] = CanonOk c')
  \/ (~ incl [s_ "request_payload_size"; s_ "response_payload_size"] (dc_fields c) /\ In (s_ "payload_size") (dc_fields c) /\ canonical_dist c [s_ "payload_size"] = CanonOk c').
Proof.
  assert (K : forall c fields c', canonical_dist c fields = CanonOk c' -> validate_dist c = None /\ incl fields (dc_fields c)).
  { intros c fields c' H. assert (V : validate_dist c = None) by (unfold canonical_dist in H; destruct (validate_dist c); [discriminate|reflexivity]). split; [assumption|].
    intros f If. destruct (mem f (dc_fields c)) eqn:M; [now apply mem_spec in M|]. exfalso.
    destruct (canonical_missing c fields f V If) as [x [X _]]; [intros Z; apply mem_spec in Z; congruence|congruence]. }
  intros c c' H. unfold canonical_sizes in H. fold fields_2d. destruct (canonical_dist c fields_2d) as [d|e|] eqn:E; [|right|discriminate].
  - injection H as ->. left. split; [|reflexivity]. now apply K in E.
  - destruct (K _ _ _ H) as [V I]. split; [|split; [apply I; left; reflexivity|assumption]].
    intros X. destruct (validate_inv _ V) as [_ [[_ [Y _]]|[Y _]]].
    + destruct (dc_cdf c) as [|first l] eqn:C; [congruence|]. destruct (canonical_cdf_spec c fields_2d first l V C X) as [S1 S2].
      rewrite E in S1, S2. destruct (SFeqb (cp_cdf first) f_zero); [exact (S1 eq_refl)|specialize (S2 eq_refl); discriminate].
    + destruct (canonical_pmf_spec c fields_2d V Y X) as [ps [Q _]]. congruence.
Qed.
Print Assumptions C39_choice.
Print Assumptions C39_fields.
Print Assumptions C39_missing.
Print Assumptions C39_invalid.
Print Assumptions C39_distinct_fields.
Print Assumptions C39_cdf.
Example C39_example : canonical_dist joint fields_2d =
  CanonOk (mkDist (s_ "joint") [mkPmf f32_quarter [dp_range 100 199; dp_exactly 10]; mkPmf f_zero [dp_exactly 77; dp_exactly 77]; mkPmf (f32_add f32_half f32_quarter) [dp_exactly 5; dp_range 20 29]] [] fields_2d)
  /\ canonical_dist joint fields_1d = CanonError (DEFieldMissing (s_ "payload_size")).
Proof. split; vm_compute; reflexivity. Qed.
Example C39_example_cdf : canonical_dist cdf_steps fields_1d =
  CanonOk (mkDist (s_ "steps") [mkPmf f32_half [dp_range 10 20]; mkPmf f_zero [dp_range 21 25]; mkPmf f32_half [dp_range 26 40]] [] fields_1d).
Proof. vm_compute. reflexivity. Qed.
