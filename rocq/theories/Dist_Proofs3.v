(** Proofs about Dist_Model: a CDF without NaN never leads to undefined behaviour. *)
From Coq Require Import Ascii String List ZArith Bool Lia Arith SpecFloat.
From Verif Require Import Base_Model Base_Proofs Float_Model Float_Proofs Float_Proofs2 Dist_Model Dist_Proofs Dist_Proofs2.
Import ListNotations.
Open Scope Z_scope.

(** A value that a float variable can have, other than NaN. *)
Definition number (x : spec_float) : Prop := valid_binary 24 128 x = true /\ x <> S754_nan.
Definition up (x : spec_float) : Prop := nonneg x \/ x = S754_infinity false.

Lemma number_fine : forall x, number x -> fine x /\ match x with S754_finite _ _ e => -149 <= e | _ => True end.
Proof.
  intros [s|s| |s m e] [V _]; cbn [fine]; auto. cbn [valid_binary] in V. unfold bounded, canonical_mantissa in V. apply andb_true_iff in V.
  destruct V as [C _]. apply Zeq_bool_eq in C. unfold fexp, emin in C. lia.
Qed.
Lemma first_up : forall x, number x -> SFltb x f_zero = false -> up x.
Proof. intros [s|s| |s m e] [V N] H; unfold up; cbn [nonneg]; auto; destruct s; cbn in H; try discriminate; auto; try congruence. Qed.
Lemma step_up : forall p x, number x -> up p -> SFltb x p = false -> up x /\ (nonneg x -> nonneg p).
Proof.
  intros p x [V N] U H. assert (X : up x).
  { destruct U as [U|U].
    - destruct x as [s|s| |s m e]; unfold up; cbn [nonneg]; auto; destruct s; auto; destruct p as [sp|sp| |sp mp ep]; try contradiction; try (destruct sp; contradiction || discriminate); try discriminate; auto.
    - subst p. destruct x as [s|s| |s m e]; try destruct s; try discriminate; unfold up; cbn; auto. }
  split; [assumption|]. intros Nx. destruct U as [U|U]; [assumption|]. subst p. destruct x as [s|s| |s m e]; try contradiction; try destruct s; discriminate.
Qed.
Lemma eqb_one : forall x, number x -> SFeqb x f32_one = true -> nonneg x /\ units x = 2 ^ 1100.
Proof.
  intros [s|s| |s m e] [V _] H; try discriminate; try (destruct s; discriminate). destruct s; [discriminate|]. unfold SFeqb, f32_one in H. cbn [SFcompare] in H.
  destruct (Z.compare_spec e (-23)) as [->|L|L]; try discriminate. destruct (Pos.compare_cont Eq m 8388608) eqn:P; try discriminate. apply Pos.compare_eq in P. subst m.
  split; [exact I|]. reflexivity.
Qed.
(** In an accepted CDF the values climb from at least 0 to 1. *)
Fixpoint climbs (prev : spec_float) (l : list cdf_point) : Prop :=
  match l with [] => units prev = 2 ^ 1100 | p :: r => nonneg (cp_cdf p) /\ units prev <= units (cp_cdf p) /\ climbs (cp_cdf p) r end.
Lemma loop_climbs : forall l c v, number c -> up c -> Forall (fun p => number (cp_cdf p)) l -> cdf_loop c v l = None -> nonneg c /\ climbs c l.
Proof.
  induction l as [|p r IH]; intros c v Nc U F H; cbn [cdf_loop climbs] in *.
  - destruct (SFeqb c f32_one) eqn:E; [|discriminate]. now apply eqb_one.
  - inversion F as [|? ? F1 F2]; subst. destruct (Z.leb_spec (cp_value p) v); [discriminate|]. destruct (SFltb (cp_cdf p) c) eqn:L; [discriminate|].
    destruct (step_up c (cp_cdf p) F1 U L) as [U' N']. destruct (IH _ _ F1 U' F2 H) as [A B]. specialize (N' A). split; [assumption|]. split; [assumption|]. split; [|assumption].
    apply (ltb_units 24 128 _ _ (proj1 F1) (proj1 Nc) A N' ltac:(lia) L).
Qed.
Lemma climbs_le : forall l c, climbs c l -> units c <= 2 ^ 1100.
Proof. induction l as [|p r IH]; intros c H; cbn [climbs] in H; [lia|]. destruct H as [_ [A B]]. apply IH in B. lia. Qed.

Lemma weight_ok_nonneg : forall x, nonneg x -> weight_ok x = true.
Proof. intros [s|s| |[] m e] H; auto; contradiction. Qed.
(** The weight in InitializeWithCdf. *)
Lemma sub_weight : forall a b, number a -> number b -> nonneg a -> nonneg b -> units b <= units a <= 2 ^ 1100 ->
  weight_ok (f32_sub a b) = true /\ (units b < units a -> weight_positive (f32_sub a b) = true).
Proof.
  intros a b Va Vb Na Nb U. destruct (number_fine a Va) as [Fa Ea]. destruct (number_fine b Vb) as [Fb Eb].
  pose proof (sub_ok 24 128 ltac:(lia) ltac:(lia) ltac:(lia) a b Na Nb Fa Fb U) as S. unfold f32_sub. destruct (SFsub 24 128 a b) as [s|s| |s m e]; try contradiction.
  - split; [reflexivity|]. intros L. exfalso. assert (units a = units b); [|lia]. apply S.
    + destruct a; lia.
    + destruct b; lia.
  - destruct S as [-> _]. auto.
Qed.
(** The weight in the canonical form. *)
Lemma narrow_ok : forall m e, Z.pos (digits2_pos m) + e <= 2 -> nonneg (f32_of_f64 (S754_finite false m e)).
Proof.
  intros m e H. cbn [f32_of_f64 f_convert]. pose proof (round_small 24 128 ltac:(lia) ltac:(lia) ltac:(lia) m e 2 ltac:(lia) H) as R. unfold f32_of_f64, f_convert.
  destruct (binary_round 24 128 false m e) as [s|s| |s m' e']; try contradiction; [exact I|]. destruct R as [-> _]. exact I.
Qed.
Lemma mass_weight : forall b q, number (cp_cdf q) -> nonneg (cp_cdf q) -> nonneg b -> fine b -> units b <= units (cp_cdf q) <= 2 ^ 1100 -> weight_ok (mass b q) = true.
Proof.
  intros b q V N Nb Fb U. destruct (widen_ok _ (proj1 V) N) as [Na [Fa E]]. rewrite <- E in U.
  pose proof (sub_ok 53 1024 ltac:(lia) ltac:(lia) ltac:(lia) _ _ Na Nb Fa Fb U) as S. unfold mass, f64_sub. destruct (SFsub 53 1024 (f64_of_f32 (cp_cdf q)) b) as [s|s| |s m e]; try contradiction.
  - reflexivity.
  - destruct S as [-> S]. apply weight_ok_nonneg, narrow_ok. lia.
Qed.

(** ** The points of a CDF *)
Definition cdf_numbers (l : list cdf_point) : Prop := Forall (fun p => number (cp_cdf p)) l.
Definition int_values (l : list cdf_point) : Prop := Forall (fun p => -2147483648 <= cp_value p <= 2147483647) l.
Lemma cdf_accepted : forall first l, validate_cdf (first :: l) = None -> cdf_numbers (first :: l) ->
  nonneg (cp_cdf first) /\ climbs (cp_cdf first) l /\ increasing (cp_value first) l.
Proof.
  intros first l H F. inversion F as [|? ? F1 F2]; subst. cbn [validate_cdf] in H. destruct (SFltb (cp_cdf first) f_zero) eqn:E; [discriminate|].
  destruct (loop_climbs _ _ _ F1 (first_up _ F1 E) F2 H) as [A B]. apply cdf_loop_inv in H. tauto.
Qed.
Lemma int_no_overflow : forall l, int_values l -> no_overflow l.
Proof. intros l. apply Forall_impl. intros p H. unfold in_int64. split; [apply andb_true_iff; split; apply Z.leb_le; unfold int64_max; lia|unfold int64_max; lia]. Qed.
Lemma cdf_points_ok : forall u l prev lo ps, number prev -> nonneg prev -> climbs prev l -> cdf_numbers l -> int_values l -> increasing (lo - 1) l -> -2147483648 <= lo <= 2147483648 ->
  cdf_to_pmf u prev lo l = Some ps ->
  Forall (fun p => length (pp_data p) = 1%nat /\ Forall (fun d => value_ok (value_of_point d) = true) (pp_data p) /\ weight_ok (pp_pmf p) = true) ps
  /\ int_ranges ps /\ (units prev < 2 ^ 1100 -> Exists (fun p => weight_positive (pp_pmf p) = true) ps).
Proof.
  induction l as [|q l IH]; intros prev lo ps Vp Np C F R I B H; cbn [cdf_to_pmf] in H.
  - injection H as <-. split; [constructor|]. split; [constructor|]. cbn [climbs] in C. lia.
  - destruct (in_int64 (cp_value q + 1)); [|discriminate]. destruct (cdf_to_pmf u (cp_cdf q) (cp_value q + 1) l) as [qs|] eqn:Q; [|discriminate]. injection H as <-.
    cbn [climbs increasing] in C, I. destruct C as [C1 [C2 C3]], I as [I1 I2]. inversion F as [|? ? F1 F2]; subst. inversion R as [|? ? R1 R2]; subst.
    pose proof (climbs_le _ _ C3) as C4. destruct (sub_weight _ _ F1 Vp C1 Np (conj C2 C4)) as [W1 W2].
    destruct (IH _ _ _ F1 C1 C3 F2 R2 ltac:(replace (cp_value q + 1 - 1) with (cp_value q) by lia; assumption) ltac:(lia) Q) as [A1 [A2 A3]].
    assert (V : value_ok (value_of_point (if u then dp_range lo (cp_value q) else dp_exactly (cp_value q))) = true /\ int_range (if u then dp_range lo (cp_value q) else dp_exactly (cp_value q))).
    { destruct u; [|split; [reflexivity|exact Logic.I]]. unfold value_of_point, int_range, dp_range. cbn [dp_exact dp_lower dp_upper value_ok]. rewrite !to_int32_id by lia. split; [apply Z.leb_le; lia|lia]. }
    destruct V as [V1 V2]. split; [|split].
    + constructor; [|assumption]. split; [reflexivity|]. split; [repeat constructor; assumption|assumption].
    + constructor; [|assumption]. repeat constructor; assumption.
    + intros L. destruct (Z_lt_le_dec (units prev) (units (cp_cdf q))) as [X|X].
      * left. cbn [pp_pmf]. auto.
      * right. apply A3. lia.
Qed.
Lemma init_pmf_ok : forall p r, Forall (fun q => length (pp_data q) = length (pp_data p)) (p :: r) ->
  Forall (fun q => Forall (fun d => value_ok (value_of_point d) = true) (pp_data q)) (p :: r) ->
  Forall (fun q => weight_ok (pp_pmf q) = true) (p :: r) -> Exists (fun q => weight_positive (pp_pmf q) = true) (p :: r) -> exists g, init_pmf (p :: r) = GenOk g.
Proof.
  intros p r A B C D. unfold init_pmf. cbv zeta.
  assert (A' : forallb (fun q => Nat.eqb (length (pp_data q)) (length (pp_data p))) (p :: r) = true).
  { apply forallb_forall. intros q Hq. rewrite Forall_forall in A. now apply Nat.eqb_eq, A. }
  assert (B' : forallb (forallb value_ok) (map (fun q => map value_of_point (pp_data q)) (p :: r)) = true).
  { apply forallb_forall. intros v Hv. apply in_map_iff in Hv. destruct Hv as [q [<- Hq]]. apply forallb_forall. intros d Hd. apply in_map_iff in Hd. destruct Hd as [x [<- Hx]].
    rewrite Forall_forall in B. specialize (B q Hq). rewrite Forall_forall in B. auto. }
  assert (C' : forallb weight_ok (map pp_pmf (p :: r)) = true).
  { apply forallb_forall. intros w Hw. apply in_map_iff in Hw. destruct Hw as [q [<- Hq]]. rewrite Forall_forall in C. auto. }
  assert (D' : existsb weight_positive (map pp_pmf (p :: r)) = true).
  { apply existsb_exists. apply Exists_exists in D. destruct D as [q [Hq W]]. exists (pp_pmf q). split; [now apply in_map|assumption]. }
  rewrite A', B', C', D'. cbn [andb]. eauto.
Qed.
Lemma units_zero : forall x, nonneg x -> number x -> SFeqb x f_zero = true -> units x = 0.
Proof. intros [s|s| |s m e] N V H; try contradiction; [reflexivity|]. destruct s; discriminate. Qed.
Lemma positive_of : forall x, nonneg x -> SFeqb x f_zero = false -> weight_positive x = true.
Proof. intros [s|s| |s m e] N H; try contradiction; [discriminate|]. destruct s; [contradiction|reflexivity]. Qed.
Lemma init_cdf_defined : forall l, validate_cdf l = None -> cdf_numbers l -> int_values l -> exists g, init_cdf l = GenOk g.
Proof.
  intros [|first l] V F R; [discriminate|]. destruct (cdf_accepted _ _ V F) as [N [C I]]. inversion F as [|? ? F1 F2]; subst. inversion R as [|? ? R1 R2]; subst.
  unfold init_cdf. set (u := SFeqb (cp_cdf first) f_zero).
  destruct (cdf_defined u l (cp_cdf first) (cp_value first) (int_no_overflow _ R2)) as [ps Hps]. rewrite Hps.
  assert (I' : increasing (cp_value first - 1) l). { destruct l as [|q l]; [exact Logic.I|]. destruct I as [A B]. split; [lia|assumption]. }
  destruct (cdf_points_ok _ _ _ _ _ F1 N C F2 R2 I' ltac:(lia) Hps) as [A [_ B]].
  apply init_pmf_ok.
  - constructor; [reflexivity|]. eapply Forall_impl; [|exact A]. cbn beta. intros p [E _]. exact E.
  - constructor; [constructor; [destruct u; reflexivity|constructor]|]. eapply Forall_impl; [|exact A]. cbn beta. intros p [_ [E _]]. exact E.
  - constructor; [now apply weight_ok_nonneg|]. eapply Forall_impl; [|exact A]. cbn beta. intros p [_ [_ E]]. exact E.
  - destruct u eqn:U.
    + right. apply B. rewrite (units_zero _ N F1 U). reflexivity.
    + left. cbn [pp_pmf]. apply positive_of; assumption.
Qed.

(** ** A PMF that passes the check has a positive weight, if none is negative or not a number *)
Lemma add_zeros : forall n l c s, Forall (fun p => weight_ok (pp_pmf p) = true /\ weight_positive (pp_pmf p) = false) l -> (exists b, c = S754_zero b) -> pmf_loop n c l = inr s -> exists b, s = S754_zero b.
Proof.
  induction l as [|p r IH]; intros c s F C H; cbn [pmf_loop] in H; [injection H as <-; assumption|].
  destruct (negb _); [discriminate|]. inversion F as [|? ? [F1 F1'] F2]; subst. apply (IH (f32_add c (pp_pmf p)) s F2); [|assumption]. destruct C as [b ->].
  destruct (pp_pmf p) as [z|z| |[] m e]; try discriminate. unfold f32_add, SFadd. destruct (Bool.eqb b z); eauto.
Qed.
Lemma pmf_positive : forall c, validate_pmf c = None -> Forall (fun q => weight_ok (pp_pmf q) = true) (dc_pmf c) -> Exists (fun q => weight_positive (pp_pmf q) = true) (dc_pmf c).
Proof.
  intros c V F. destruct (existsb (fun q => weight_positive (pp_pmf q)) (dc_pmf c)) eqn:E.
  - apply existsb_exists in E. destruct E as [q [A B]]. apply Exists_exists. eauto.
  - exfalso. unfold validate_pmf in V. cbv zeta in V. destruct (pmf_loop _ _ _) as [e|s] eqn:L; [discriminate|].
    assert (exists b, s = S754_zero b) as [b ->].
    { eapply add_zeros; [|exists false; reflexivity|exact L]. rewrite Forall_forall in *. intros q Hq. split; [auto|]. destruct (weight_positive (pp_pmf q)) eqn:P; [|reflexivity].
      assert (existsb (fun q => weight_positive (pp_pmf q)) (dc_pmf c) = true) by (apply existsb_exists; eauto). congruence. }
    destruct b; vm_compute in V; discriminate.
Qed.
Lemma pmf_dims : forall c, dc_pmf c <> [] -> validate_pmf c = None -> exists n, Forall (fun p => length (pp_data p) = n) (dc_pmf c).
Proof. intros c N V. unfold validate_pmf in V. cbv zeta in V. destruct (pmf_loop _ _ _) eqn:L; [discriminate|]. eexists. eapply pmf_loop_dims. exact L. Qed.
Lemma init_pmf_defined : forall c, validate_dist c = None -> dc_cdf c = [] -> Forall (fun q => weight_ok (pp_pmf q) = true) (dc_pmf c) ->
  Forall (fun q => Forall (fun d => value_ok (value_of_point d) = true) (pp_data q)) (dc_pmf c) -> exists g, allocate c = GenOk g.
Proof.
  intros c V C W R. unfold allocate. rewrite V, C. destruct (validate_inv _ V) as [_ [[_ [X _]]|[_ [P Vp]]]]; [congruence|].
  destruct (pmf_dims _ P Vp) as [n D]. pose proof (pmf_positive _ Vp W) as E. destruct (dc_pmf c) as [|p r]; [congruence|]. apply init_pmf_ok; try assumption.
  inversion D as [|? ? D1 D2]; subst. assumption.
Qed.

(** ** The engine's way: canonical form, then allocation *)
Lemma uniform_points_ok : forall n l prev lo ps, nonneg prev -> fine prev -> climbs prev l -> cdf_numbers l -> int_values l -> increasing (lo - 1) l -> -2147483648 <= lo <= 2147483648 ->
  canon_uniform n prev lo l = Some ps ->
  Forall (fun p => length (pp_data p) = n /\ Forall (fun d => value_ok (value_of_point d) = true) (pp_data p) /\ weight_ok (pp_pmf p) = true) ps /\ int_ranges ps.
Proof.
  induction l as [|q l IH]; intros prev lo ps Np Fp C F R I B H; cbn [canon_uniform] in H.
  - injection H as <-. split; constructor.
  - destruct (in_int64 (cp_value q + 1)); [|discriminate]. destruct (canon_uniform n (f64_of_f32 (cp_cdf q)) (cp_value q + 1) l) as [qs|] eqn:Q; [|discriminate]. injection H as <-.
    cbn [climbs increasing] in C, I. destruct C as [C1 [C2 C3]], I as [I1 I2]. inversion F as [|? ? F1 F2]; subst. inversion R as [|? ? R1 R2]; subst.
    pose proof (climbs_le _ _ C3) as C4. pose proof (mass_weight _ _ F1 C1 Np Fp (conj C2 C4)) as W1. destruct (widen_ok _ (proj1 F1) C1) as [Nw [Fw Ew]].
    assert (C3' : climbs (f64_of_f32 (cp_cdf q)) l) by (destruct l; cbn [climbs] in *; rewrite Ew; assumption).
    destruct (IH _ _ _ Nw Fw C3' F2 R2 ltac:(replace (cp_value q + 1 - 1) with (cp_value q) by lia; assumption) ltac:(lia) Q) as [A1 A2].
    split.
    + constructor; [|assumption]. cbn [pp_data pp_pmf]. split; [apply repeat_length|]. split; [|assumption]. apply Forall_forall. intros d Hd. apply repeat_spec in Hd. subst d.
      unfold value_of_point, dp_range. cbn [dp_exact dp_lower dp_upper value_ok]. rewrite !to_int32_id by lia. apply Z.leb_le. lia.
    + constructor; [|assumption]. cbn [pp_data]. apply Forall_forall. intros d Hd. apply repeat_spec in Hd. subst d. unfold int_range, dp_range. cbn [dp_exact dp_lower dp_upper]. lia.
Qed.
Lemma exact_points_ok : forall n l prev, nonneg prev -> fine prev -> climbs prev l -> cdf_numbers l ->
  Forall (fun p => length (pp_data p) = n /\ Forall (fun d => value_ok (value_of_point d) = true) (pp_data p) /\ weight_ok (pp_pmf p) = true) (canon_exact n prev l) /\ int_ranges (canon_exact n prev l).
Proof.
  induction l as [|q l IH]; intros prev Np Fp C F; cbn [canon_exact]; [split; constructor|].
  cbn [climbs] in C. destruct C as [C1 [C2 C3]]. inversion F as [|? ? F1 F2]; subst.
  pose proof (climbs_le _ _ C3) as C4. pose proof (mass_weight _ _ F1 C1 Np Fp (conj C2 C4)) as W1. destruct (widen_ok _ (proj1 F1) C1) as [Nw [Fw Ew]].
  assert (C3' : climbs (f64_of_f32 (cp_cdf q)) l) by (destruct l; cbn [climbs] in *; rewrite Ew; assumption).
  destruct (IH _ Nw Fw C3' F2) as [A1 A2]. split.
  - constructor; [|assumption]. cbn [pp_data pp_pmf]. split; [apply repeat_length|]. split; [|assumption]. apply Forall_forall. intros d Hd. apply repeat_spec in Hd. subst d. reflexivity.
  - constructor; [|assumption]. cbn [pp_data]. apply Forall_forall. intros d Hd. apply repeat_spec in Hd. subst d. exact I.
Qed.
Lemma increasing_weaken : forall l v w, w <= v -> increasing v l -> increasing w l.
Proof. intros [|q l] v w L H; [exact I|]. destruct H. split; [lia|assumption]. Qed.
Lemma canonical_cdf_defined : forall c fields, validate_dist c = None -> dc_cdf c <> [] -> cdf_numbers (dc_cdf c) -> int_values (dc_cdf c) -> incl fields (dc_fields c) ->
  exists ps, canonical_dist c fields = CanonOk (mkDist (dc_name c) ps [] fields)
    /\ Forall (fun p => length (pp_data p) = length fields /\ Forall (fun d => value_ok (value_of_point d) = true) (pp_data p) /\ weight_ok (pp_pmf p) = true) ps /\ int_ranges ps.
Proof.
  intros c fields V N F R I. destruct (dc_cdf c) as [|first l] eqn:C; [congruence|].
  destruct (validate_inv _ V) as [_ [[_ [_ Vc]]|[X _]]]; [|congruence]. rewrite C in Vc. destruct (cdf_accepted _ _ Vc F) as [Nf [Cl In]].
  pose proof (canonical_cdf_spec c fields first l V C I) as [S1 S2]. inversion F as [|? ? F1 F2]; subst. inversion R as [|? ? R1 R2]; subst.
  destruct (SFeqb (cp_cdf first) f_zero) eqn:E.
  - specialize (S1 eq_refl). destruct (canonical_dist c fields) as [c'|e|]; [|contradiction|exfalso; apply S1, int_no_overflow, R2].
    destruct S1 as [ps [-> U]]. exists ps. split; [reflexivity|].
    apply (uniform_points_ok (length fields) l f_zero (cp_value first) ps Logic.I Logic.I); [|exact F2|exact R2| | |exact U].
    + pose proof (units_zero _ Nf F1 E) as Z0. destruct l as [|q l]; cbn [climbs] in *; rewrite ?Z0 in Cl; exact Cl.
    + eapply increasing_weaken; [|exact In]. lia.
    + lia.
  - specialize (S2 eq_refl). eexists. split; [exact S2|]. apply exact_points_ok; [exact Logic.I|exact Logic.I| |exact F].
    cbn [climbs]. split; [assumption|]. split; [|assumption]. change (units f_zero) with 0. destruct (cp_cdf first) as [s|s| |[] m e]; try contradiction; cbn [units]; [lia|].
    destruct (number_fine _ F1) as [X _]. cbn [fine] in X. apply Z.mul_nonneg_nonneg; [lia|apply Z.pow_nonneg; lia].
Qed.
Lemma engine_cdf_defined : forall canon fields c, canon c = canonical_dist c fields -> validate_dist c = None -> dc_cdf c <> [] -> cdf_numbers (dc_cdf c) -> int_values (dc_cdf c) -> incl fields (dc_fields c) ->
  make_generator canon c <> GenUndefined.
Proof.
  intros canon fields c Ec V N F R I H. destruct (canonical_cdf_defined c fields V N F R I) as [ps [E [A _]]].
  unfold make_generator in H. rewrite Ec, E in H. unfold allocate in H. set (c' := mkDist (dc_name c) ps [] fields) in *.
  destruct (validate_dist c') as [e|] eqn:V'; [discriminate|]. destruct (init_pmf_defined c' V' eq_refl) as [g G].
  - eapply Forall_impl; [|exact A]. cbn beta. tauto.
  - eapply Forall_impl; [|exact A]. cbn beta. tauto.
  - unfold allocate in G. rewrite V' in G. congruence.
Qed.
