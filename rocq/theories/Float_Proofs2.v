(** Subtraction and conversion of non-negative numbers up to 1: what the CDF
    code needs of float and double. *)
From Coq Require Import ZArith Bool SpecFloat Lia.
From Verif Require Import Float_Model Float_Proofs.
Open Scope Z_scope.

(** Non-negative finite numbers, and their value in units of 2^-1100. *)
Definition nonneg (x : spec_float) : Prop := match x with S754_zero _ | S754_finite false _ _ => True | _ => False end.
Definition units (x : spec_float) : Z := match x with S754_finite false m e => Z.pos m * 2 ^ (e + 1100) | _ => 0 end.
Definition fine (x : spec_float) : Prop := match x with S754_finite _ _ e => -1100 <= e | _ => True end.

Lemma digits_le : forall m d, 0 <= d -> Z.pos m <= 2 ^ d -> Z.pos (digits2_pos m) <= d + 1.
Proof.
  intros m d D H. pose proof (digits_bound m) as B. destruct (Z_le_gt_dec (Z.pos (digits2_pos m)) (d + 1)); [assumption|]. exfalso.
  assert (2 ^ (d + 1) <= 2 ^ (Z.pos (digits2_pos m) - 1)) by (apply Z.pow_le_mono_r; lia). rewrite Z.pow_add_r in H0 by lia. change (2 ^ 1) with 2 in H0.
  assert (0 < 2 ^ d) by (apply Z.pow_pos_nonneg; lia). lia.
Qed.
Lemma digits_lt : forall m d, 0 <= d -> Z.pos m < 2 ^ d -> Z.pos (digits2_pos m) <= d.
Proof.
  intros m d D H. pose proof (digits_bound m) as B. destruct (Z_le_gt_dec (Z.pos (digits2_pos m)) d); [assumption|]. exfalso.
  assert (2 ^ d <= 2 ^ (Z.pos (digits2_pos m) - 1)) by (apply Z.pow_le_mono_r; lia). lia.
Qed.
Lemma digits_ge : forall m d, 0 <= d -> 2 ^ d <= Z.pos m -> d < Z.pos (digits2_pos m).
Proof.
  intros m d D H. pose proof (digits_bound m) as B. destruct (Z_lt_le_dec d (Z.pos (digits2_pos m))); [assumption|]. exfalso.
  assert (2 ^ Z.pos (digits2_pos m) <= 2 ^ d) by (apply Z.pow_le_mono_r; lia). lia.
Qed.
(** A left shift keeps the value. *)
Lemma shl_value : forall m e e', e' <= e -> exists m', shl_align m e e' = (m', e') /\ Z.pos m' = Z.pos m * 2 ^ (e - e').
Proof.
  intros m e e' L. unfold shl_align. destruct (e' - e) as [|k|k] eqn:K; try lia.
  - exists m. replace e' with e by lia. split; [reflexivity|]. rewrite Z.sub_diag. cbn [Z.pow]. lia.
  - eexists. split; [reflexivity|]. rewrite shift_pos_correct. rewrite Z.mul_comm. f_equal. replace (e - e') with (Z.pos k) by lia. reflexivity.
Qed.
Lemma shl_keep : forall m e e', e <= e' -> shl_align m e e' = (m, e).
Proof. intros m e e' L. unfold shl_align. destruct (e' - e) eqn:K; [reflexivity|reflexivity|lia]. Qed.
Lemma digits_shl : forall m m' k, 0 <= k -> Z.pos m' = Z.pos m * 2 ^ k -> Z.pos (digits2_pos m') = Z.pos (digits2_pos m) + k.
Proof.
  intros m m' k K E. apply digits_unique. rewrite E. pose proof (digits_bound m) as [B1 B2]. assert (0 < 2 ^ k) by (apply Z.pow_pos_nonneg; lia).
  replace (Z.pos (digits2_pos m) + k - 1) with (Z.pos (digits2_pos m) - 1 + k) by lia. rewrite !Z.pow_add_r by lia. split.
  - apply Z.mul_le_mono_nonneg_r; lia.
  - apply Z.mul_lt_mono_pos_r; lia.
Qed.

Lemma shr_none : forall r e n, n <= 0 -> shr r e n = (r, e).
Proof. intros r e [|n|n] H; [reflexivity|lia|reflexivity]. Qed.

Section Precision.
Variables prec emax : Z.
Hypothesis Hprec : 1 < prec.
Hypothesis Hemax : 10 < emax.
Hypothesis Hemin : 3 - emax - prec + 10 < emax - prec.
Notation mn := (3 - emax - prec).

Lemma fexp_eq : forall x, fexp prec emax x = Z.max (x - prec) mn.
Proof. reflexivity. Qed.
(** Rounding a positive number of moderate size gives a non-negative one. *)
Lemma round_small : forall p e B, B <= 5 -> Z.pos (digits2_pos p) + e <= B ->
  match binary_round prec emax false p e with
  | S754_zero _ => e < mn
  | S754_finite s m e' => s = false /\ mn <= e' /\ (Z.pos (digits2_pos m) + e' <= Z.max B mn + 1)
  | _ => False
  end.
Proof.
  intros p e B HB H. unfold binary_round. set (f := fexp prec emax (Z.pos (digits2_pos p) + e)).
  assert (Ff : f = Z.max (Z.pos (digits2_pos p) + e - prec) mn) by reflexivity.
  assert (S : exists p1 e1, shl_align p e f = (p1, e1) /\ Z.pos (digits2_pos p1) + e1 = Z.pos (digits2_pos p) + e /\ e1 <= f /\ (e1 = e \/ e1 = f)).
  { destruct (Z_le_gt_dec f e) as [L|L].
    - destruct (shl_value p e f L) as [p1 [-> E]]. exists p1, f. split; [reflexivity|]. pose proof (digits_shl p p1 (e - f) ltac:(lia) E). split; [lia|]. split; lia.
    - rewrite shl_keep by lia. exists p, e. split; [reflexivity|]. split; [reflexivity|]. split; lia. }
  destruct S as [p1 [e1 [-> [D1 [Le1 Ke1]]]]]. unfold binary_round_aux. unfold shr_fexp at 1. cbn [Zdigits2 shr_record_of_loc]. rewrite D1. fold f.
  destruct (f - e1) as [|k|k] eqn:K; [| |lia].
  - assert (f = e1) by lia. cbn [shr shr_m loc_of_shr_record round_nearest_even]. unfold shr_fexp. cbn [Zdigits2 shr_record_of_loc]. rewrite D1. fold f. rewrite K. cbn [shr shr_m].
    destruct (Z.leb_spec e1 (emax - prec)) as [L|L]; [|lia]. split; [reflexivity|]. split; lia.
  - unfold shr at 1.
    assert (SH : shifted (Z.pos p1) (Z.pos k) (iter_pos shr_1 k (Build_shr_record (Z.pos p1) false false))).
    { change (Z.pos k) with (0 + Z.pos k). apply shift_iter; [lia|]. split; [cbn; lia|]. left. repeat split; reflexivity. }
    set (x := iter_pos shr_1 k _) in *. destruct (shift_round (Z.pos p1) (Z.pos k) x ltac:(lia) SH) as [MM [Q _]]. assert (Nm : 0 <= shr_m x) by apply SH.
    set (M := round_nearest_even _ _) in *. set (m := shr_m x) in *. clearbody m M. clear SH.
    set (d1 := Z.pos (digits2_pos p1)) in *. pose proof (digits_bound p1) as DB. fold d1 in DB. assert (d1pos : 0 < d1) by reflexivity.
    assert (hpos : 0 < 2 ^ Z.pos k) by (apply Z.pow_pos_nonneg; lia).
    assert (kp : d1 - Z.pos k <= prec) by lia.
    (* bounds on m *)
    assert (mB : m < 2 ^ (Z.max (d1 - Z.pos k) 0)).
    { destruct (Z_le_gt_dec (d1 - Z.pos k) 0) as [L|L].
      - rewrite Z.max_r by lia. change (2 ^ 0) with 1. assert (2 ^ d1 <= 2 ^ Z.pos k) by (apply Z.pow_le_mono_r; lia).
        apply Z.nle_gt. intros X. assert (1 * 2 ^ Z.pos k <= m * 2 ^ Z.pos k) by (apply Z.mul_le_mono_nonneg_r; lia). lia.
      - rewrite Z.max_l by lia. apply Z.mul_lt_mono_pos_r with (p := 2 ^ Z.pos k); [assumption|]. rewrite <- Z.pow_add_r by lia.
        replace (d1 - Z.pos k + Z.pos k) with d1 by lia. lia. }
    assert (pos : mn <= e -> 0 < m).
    { intros X. assert (e1 = e) by lia. assert (d1 - Z.pos k = prec) by lia. apply Z.nle_gt. intros Y. assert (m = 0) by lia. subst m.
      assert (2 ^ Z.pos k <= 2 ^ (d1 - 1)) by (apply Z.pow_le_mono_r; lia). lia. }
    set (w := Z.max (d1 - Z.pos k) 0) in *. assert (0 <= w) by lia.
    destruct M as [|M|M]; [| |lia].
    + unfold shr_fexp. cbn [Zdigits2 shr_record_of_loc]. change (fexp prec emax (0 + (e1 + Z.pos k))) with (Z.max (0 + (e1 + Z.pos k) - prec) mn).
      destruct (Z.max (0 + (e1 + Z.pos k) - prec) mn - (e1 + Z.pos k)) as [|j|j] eqn:J; [|lia|]; cbn [shr shr_m]; destruct (Z_lt_le_dec e mn) as [X|X]; [assumption|specialize (pos X); lia|assumption|specialize (pos X); lia].
    + assert (DM : Z.pos (digits2_pos M) <= w + 1) by (apply digits_le; lia).
      unfold shr_fexp. cbn [Zdigits2 shr_record_of_loc]. rewrite fexp_eq.
      assert (ef : e1 + Z.pos k = f) by lia. rewrite ef. set (dM := Z.pos (digits2_pos M)) in *. assert (0 < dM) by reflexivity.
      destruct (Z_le_gt_dec dM prec) as [L|L].
      * rewrite shr_none by lia. cbn [shr_m]. destruct (Z.leb_spec f (emax - prec)) as [L2|L2]; [|lia].
        split; [reflexivity|]. split; [lia|]. fold dM. lia.
      * assert (dM = prec + 1) by lia. replace (Z.max (dM + f - prec) mn - f) with 1 by lia. unfold shr. cbn [iter_pos].
        destruct M as [q|q|]; [| |cbn in dM; lia]; cbn [shr_1 shr_m]; (destruct (Z.leb_spec (f + 1) (emax - prec)) as [L2|L2]; [|lia]); (split; [reflexivity|]); (split; [lia|]);
          unfold dM in *; cbn [digits2_pos] in *; rewrite Pos2Z.inj_succ in *; lia.
Qed.

(** The comparison of two floats is the comparison of their values. *)
Lemma ltb_units : forall a b, valid_binary prec emax a = true -> valid_binary prec emax b = true -> nonneg a -> nonneg b -> -1100 <= mn ->
  SFltb a b = false -> units b <= units a.
Proof.
  intros a b Va Vb Na Nb E H. unfold SFltb in H.
  destruct a as [sa| | |sa ma ea]; try contradiction; destruct b as [sb| | |sb mb eb]; try contradiction; cbn [units].
  - lia.
  - destruct sb; [contradiction|]. cbn in H. discriminate.
  - destruct sa; [contradiction|]. apply Z.mul_nonneg_nonneg; [lia|apply Z.pow_nonneg; lia].
  - destruct sa, sb; try contradiction. cbn [SFcompare] in H. cbn [valid_binary] in Va, Vb. unfold bounded, canonical_mantissa in Va, Vb.
    apply andb_true_iff in Va, Vb. destruct Va as [Ca _], Vb as [Cb _]. apply Zeq_bool_eq in Ca, Cb. rewrite fexp_eq in Ca, Cb.
    pose proof (digits_bound ma) as [A1 A2]. pose proof (digits_bound mb) as [B1 B2].
    set (da := Z.pos (digits2_pos ma)) in *. set (db := Z.pos (digits2_pos mb)) in *. assert (0 < da) by reflexivity. assert (0 < db) by reflexivity.
    destruct (Z.compare_spec ea eb) as [->|L|L]; [|discriminate|].
    + destruct (Pos.compare_cont Eq ma mb) eqn:P; [|discriminate|].
      * apply Pos.compare_eq in P. subst. lia.
      * change (Pos.compare ma mb = Gt) in P. apply Pos.compare_gt_iff in P. apply Z.mul_le_mono_nonneg_r; [apply Z.pow_nonneg; lia|lia].
    + assert (da = prec) by lia. assert (db <= prec) by lia.
      assert (X1 : 2 ^ db <= 2 ^ (da - 1) * 2 ^ (ea - eb)). { rewrite <- Z.pow_add_r by lia. apply Z.pow_le_mono_r; lia. }
      assert (X2 : 2 ^ (da - 1) * 2 ^ (ea - eb) <= Z.pos ma * 2 ^ (ea - eb)) by (apply Z.mul_le_mono_nonneg_r; [apply Z.pow_nonneg; lia|lia]).
      replace (ea + 1100) with (ea - eb + (eb + 1100)) by lia. rewrite (Z.pow_add_r 2 (ea - eb)), Z.mul_assoc by lia.
      apply Z.mul_le_mono_nonneg_r; [apply Z.pow_nonneg; lia|lia].
Qed.
(** Subtraction of non-negative numbers, the first at least the second. *)
Lemma sub_ok : forall a b, nonneg a -> nonneg b -> fine a -> fine b -> units b <= units a <= 2 ^ 1100 ->
  match SFsub prec emax a b with
  | S754_zero _ => mn <= match a with S754_finite _ _ e => e | _ => mn end -> mn <= match b with S754_finite _ _ e => e | _ => mn end -> units a = units b
  | S754_finite s m e' => s = false /\ Z.pos (digits2_pos m) + e' <= Z.max 1 mn + 1
  | _ => False
  end.
Proof.
  intros a b Na Nb Fa Fb [L U].
  assert (P1100 : forall m e, -1100 <= e -> Z.pos m * 2 ^ (e + 1100) <= 2 ^ 1100 -> Z.pos (digits2_pos m) + e <= 1).
  { intros m e E X. destruct (Z_le_gt_dec e 0) as [Y|Y].
    - assert (Z.pos m <= 2 ^ (- e)). { apply Z.mul_le_mono_pos_r with (p := 2 ^ (e + 1100)); [apply Z.pow_pos_nonneg; lia|]. rewrite <- Z.pow_add_r by lia. replace (- e + (e + 1100)) with 1100 by lia. assumption. }
      pose proof (digits_le m (- e) ltac:(lia) H). lia.
    - exfalso. assert (2 ^ 1101 <= 2 ^ (e + 1100)) by (apply Z.pow_le_mono_r; lia). assert (1 * 2 ^ (e + 1100) <= Z.pos m * 2 ^ (e + 1100)) by (apply Z.mul_le_mono_nonneg_r; [apply Z.pow_nonneg; lia|lia]).
      change (2 ^ 1101) with (2 * 2 ^ 1100) in H. assert (0 < 2 ^ 1100) by reflexivity. lia. }
  destruct a as [sa| | |sa ma ea]; try contradiction; destruct b as [sb| | |sb mb eb]; try contradiction; cbn [units fine] in *.
  - unfold SFsub. destruct (Bool.eqb sa (negb sb)); auto.
  - destruct sb; [contradiction|]. exfalso. assert (0 < 2 ^ (eb + 1100)) by (apply Z.pow_pos_nonneg; lia). assert (0 < Z.pos mb * 2 ^ (eb + 1100)) by (apply Z.mul_pos_pos; lia). lia.
  - destruct sa; [contradiction|]. cbn [SFsub]. split; [reflexivity|]. pose proof (P1100 ma ea Fa U). lia.
  - destruct sa, sb; try contradiction. cbn [SFsub cond_Zopp]. set (ez := Z.min ea eb).
    destruct (shl_value ma ea ez ltac:(lia)) as [ma' [-> Ea]]. destruct (shl_value mb eb ez ltac:(lia)) as [mb' [-> Eb]]. cbn [fst].
    assert (zp : 0 < 2 ^ (ez + 1100)) by (apply Z.pow_pos_nonneg; lia).
    assert (Ua : Z.pos ma * 2 ^ (ea + 1100) = Z.pos ma' * 2 ^ (ez + 1100)). { rewrite Ea, <- Z.mul_assoc, <- Z.pow_add_r by lia. do 2 f_equal. lia. }
    assert (Ub : Z.pos mb * 2 ^ (eb + 1100) = Z.pos mb' * 2 ^ (ez + 1100)). { rewrite Eb, <- Z.mul_assoc, <- Z.pow_add_r by lia. do 2 f_equal. lia. }
    rewrite Ua, Ub in L. rewrite Ua in U. apply Z.mul_le_mono_pos_r in L; [|assumption].
    destruct (Z.pos ma' - Z.pos mb') as [|p|p] eqn:D; [| |lia].
    + cbn [binary_normalize]. intros _ _. rewrite Ua, Ub. f_equal. lia.
    + cbn [binary_normalize]. assert (Up : Z.pos p * 2 ^ (ez + 1100) <= 2 ^ 1100).
      { apply Z.le_trans with (2 := U). apply Z.mul_le_mono_nonneg_r; lia. }
      pose proof (round_small p ez 1 ltac:(lia) (P1100 p ez ltac:(lia) Up)) as R. destruct (binary_round prec emax false p ez) as [s| | |s m e'].
      * intros Xa Xb. lia.
      * contradiction.
      * contradiction.
      * destruct R as [R1 [R2 R3]]. split; assumption.
Qed.
End Precision.

(** float to double is exact. *)
Lemma widen_ok : forall x, valid_binary 24 128 x = true -> nonneg x -> nonneg (f64_of_f32 x) /\ fine (f64_of_f32 x) /\ units (f64_of_f32 x) = units x.
Proof.
  intros x V N. destruct x as [s| | |s m e]; try contradiction; cbn [f64_of_f32 f_convert]; [auto|]. destruct s; [contradiction|].
  cbn [valid_binary] in V. unfold bounded, canonical_mantissa in V. apply andb_true_iff in V. destruct V as [C B]. apply Zeq_bool_eq in C. apply Z.leb_le in B.
  unfold fexp, emin in C. set (d := Z.pos (digits2_pos m)) in *. assert (0 < d) by reflexivity.
  unfold f64_of_f32, f_convert, binary_round. fold d. assert (F : fexp 53 1024 (d + e) = d + e - 53) by (unfold fexp, emin; lia). rewrite F.
  destruct (shl_value m e (d + e - 53) ltac:(lia)) as [m' [-> E]]. pose proof (digits_shl m m' (e - (d + e - 53)) ltac:(lia) E) as D. fold d in D.
  unfold binary_round_aux, shr_fexp. cbn [Zdigits2 shr_record_of_loc]. rewrite D.
  assert (F2 : fexp 53 1024 (d + (e - (d + e - 53)) + (d + e - 53)) - (d + e - 53) = 0) by (unfold fexp, emin; lia). rewrite F2.
  cbn [shr shr_m loc_of_shr_record round_nearest_even Zdigits2 shr_record_of_loc]. rewrite D, F2. cbn [shr shr_m].
  destruct (Z.leb_spec (d + e - 53) (1024 - 53)) as [L|L]; [|lia]. cbn [nonneg fine units]. split; [exact I|]. split; [lia|].
  rewrite E, <- Z.mul_assoc, <- Z.pow_add_r by lia. do 2 f_equal. lia.
Qed.
