(** Rounding to nearest in the SpecFloat functions: the relative error of one
    operation, for positive numbers in the normal range of double. *)
From Coq Require Import ZArith Bool SpecFloat Lia Znumtheory.
From Verif Require Import Float_Model.
Open Scope Z_scope.

Lemma digits_bound : forall m, 2 ^ (Z.pos (digits2_pos m) - 1) <= Z.pos m < 2 ^ Z.pos (digits2_pos m).
Proof.
  assert (E : forall p, 2 ^ Z.pos (Pos.succ p) = 2 * 2 ^ Z.pos p).
  { intros p. rewrite Pos2Z.inj_succ, Z.pow_succ_r; lia. }
  assert (F : forall p, 2 ^ (Z.pos (Pos.succ p) - 1) = 2 * 2 ^ (Z.pos p - 1)).
  { intros p. rewrite <- Z.pow_succ_r by lia. f_equal. lia. }
  induction m as [p IH|p IH|]; cbn [digits2_pos].
  - rewrite E, F. lia.
  - rewrite E, F. lia.
  - cbn. lia.
Qed.
Lemma digits_unique : forall m d, 2 ^ (d - 1) <= Z.pos m < 2 ^ d -> Z.pos (digits2_pos m) = d.
Proof.
  intros m d H. pose proof (digits_bound m) as B. set (x := Z.pos (digits2_pos m)) in *. assert (0 < x) by reflexivity.
  assert (D : 0 < d). { destruct (Z_lt_le_dec 0 d); [assumption|]. exfalso. assert (2 ^ d <= 1). { destruct (Z.eq_dec d 0) as [->|]; [reflexivity|]. rewrite Z.pow_neg_r; lia. } lia. }
  destruct (Z.lt_trichotomy x d) as [L|[L|L]]; [|assumption|]; exfalso.
  - assert (2 ^ x <= 2 ^ (d - 1)) by (apply Z.pow_le_mono_r; lia). lia.
  - assert (2 ^ d <= 2 ^ (x - 1)) by (apply Z.pow_le_mono_r; lia). lia.
Qed.

(** What a shift record says about the number [P] that was shifted by [k]. *)
Definition bz (b : bool) : Z := if b then 1 else 0.
Definition shifted (P k : Z) (x : shr_record) : Prop :=
  0 <= shr_m x /\
  (k = 0 /\ shr_m x = P /\ shr_r x = false /\ shr_s x = false
   \/ 0 < k /\ exists t, P = (2 * shr_m x + bz (shr_r x)) * 2 ^ (k - 1) + t /\ 0 <= t < 2 ^ (k - 1) /\ (shr_s x = false <-> t = 0)).
Lemma shift_one : forall P k x, 0 <= k -> shifted P k x -> shifted P (k + 1) (shr_1 x).
Proof.
  intros P k x K [N H]. destruct x as [m r s]. cbn [shr_m shr_r shr_s] in *.
  assert (S : exists m' b, shr_1 (Build_shr_record m r s) = Build_shr_record m' b (r || s) /\ m = 2 * m' + bz b /\ 0 <= m').
  { unfold shr_1. destruct m as [|[p|p|]|p]; try lia; eexists; eexists; (split; [reflexivity|]); cbn [bz]; lia. }
  destruct S as [m' [b [E [Em N']]]]. rewrite E. split; [assumption|]. right. split; [lia|]. cbn [shr_m shr_r shr_s].
  replace (k + 1 - 1) with k by lia.
  destruct H as [[K0 [A [B C]]]|[K0 [t [A [B C]]]]].
  - subst k r s m. exists 0. cbn [orb]. rewrite Z.pow_0_r. split; [lia|]. split; [lia|]. split; reflexivity.
  - exists (bz r * 2 ^ (k - 1) + t). assert (Q : 2 ^ k = 2 * 2 ^ (k - 1)). { rewrite <- Z.pow_succ_r by lia. f_equal. lia. }
    split; [rewrite Q, A, Em; ring|]. split; [destruct r; cbn [bz]; lia|].
    destruct r; cbn [orb bz]; [split; [discriminate|lia]|]. rewrite C. lia.
Qed.
Lemma shift_iter : forall p P k x, 0 <= k -> shifted P k x -> shifted P (k + Z.pos p) (iter_pos shr_1 p x).
Proof.
  induction p as [p IH|p IH|]; intros P k x K H; cbn [iter_pos].
  - replace (k + Z.pos p~1) with (k + 1 + Z.pos p + Z.pos p) by lia. apply IH; [lia|]. apply IH; [lia|]. now apply shift_one.
  - replace (k + Z.pos p~0) with (k + Z.pos p + Z.pos p) by lia. apply IH; [lia|]. now apply IH.
  - now apply shift_one.
Qed.
Lemma shift_round : forall P k x, 0 < k -> shifted P k x ->
  let M := round_nearest_even (shr_m x) (loc_of_shr_record x) in
  (M = shr_m x \/ M = shr_m x + 1) /\ shr_m x * 2 ^ k <= P < (shr_m x + 1) * 2 ^ k /\ 2 * Z.abs (M * 2 ^ k - P) <= 2 ^ k.
Proof.
  intros P k x K [N [[H _]|[_ [t [A [B C]]]]]]; [lia|]. destruct x as [m r s]. cbn [shr_m shr_r shr_s] in *.
  assert (Q : 2 ^ k = 2 * 2 ^ (k - 1)). { rewrite <- Z.pow_succ_r by lia. f_equal. lia. }
  set (h := 2 ^ (k - 1)) in *. rewrite Q.
  destruct r, s; cbn [loc_of_shr_record round_nearest_even bz] in *.
  - split; [right; reflexivity|]. split; lia.
  - assert (t = 0) by (apply C; reflexivity). destruct (Z.even m); (split; [auto|]); split; lia.
  - split; [left; reflexivity|]. split; [lia|]. assert (t <> 0) by (intros X; apply C in X; discriminate). lia.
  - assert (t = 0) by (apply C; reflexivity). split; [left; reflexivity|]. split; lia.
Qed.

Section Precision.
Variables prec emax : Z.
Hypothesis Hprec : 1 < prec.
(** The number that results from rounding [P * 2^e] has the value [V * 2^e]
    with [V] close to [P]. *)
Definition value_of (x : spec_float) (e V : Z) : Prop :=
  exists m' e', x = S754_finite false m' e' /\ e <= e' /\ V = Z.pos m' * 2 ^ (e' - e).
Lemma round_value : forall P e, let d := Z.pos (digits2_pos P) in
  3 - emax - prec <= d + e - prec -> d + e < emax -> e <= emax - prec ->
  exists V, value_of (binary_round_aux prec emax false (Z.pos P) e loc_Exact) e V
    /\ (d <= prec -> V = Z.pos P)
    /\ Z.abs (V - Z.pos P) * 2 ^ prec <= Z.pos P.
Proof.
  intros P e d Lo Hi He. pose proof (digits_bound P) as DB. fold d in DB. assert (Dp : 0 < d) by reflexivity.
  assert (FE : forall D, 3 - emax - prec <= D - prec -> fexp prec emax D = D - prec) by (intros D X; unfold fexp, emin; lia).
  assert (Pp : 0 < 2 ^ prec) by (apply Z.pow_pos_nonneg; lia).
  unfold binary_round_aux. unfold shr_fexp at 1. cbn [Zdigits2]. fold d. rewrite FE by lia. replace (d + e - prec - e) with (d - prec) by lia.
  cbn [shr_record_of_loc].
  destruct (Z_le_gt_dec d prec) as [Small|Big].
  - assert (S1 : forall z e0, d - prec = z -> shr (Build_shr_record (Z.pos P) false false) e0 z = (Build_shr_record (Z.pos P) false false, e0)).
    { intros z e0 X. unfold shr. destruct z; [reflexivity|lia|reflexivity]. }
    rewrite (S1 _ _ eq_refl). cbn [shr_m loc_of_shr_record round_nearest_even]. unfold shr_fexp. cbn [Zdigits2 shr_record_of_loc]. fold d.
    rewrite FE by lia. replace (d + e - prec - e) with (d - prec) by lia. rewrite (S1 _ _ eq_refl). cbn [shr_m].
    destruct (Z.leb_spec e (emax - prec)) as [L|L]; [|lia].
    exists (Z.pos P). split; [exists P, e; split; [reflexivity|]; split; [lia|]; rewrite Z.sub_diag; cbn [Z.pow]; lia|].
    split; [auto|]. rewrite Z.sub_diag. cbn [Z.abs]. lia.
  - destruct (d - prec) as [|k|k] eqn:K; try lia. unfold shr at 1.
    assert (SH : shifted (Z.pos P) (Z.pos k) (iter_pos shr_1 k (Build_shr_record (Z.pos P) false false))).
    { change (Z.pos k) with (0 + Z.pos k). apply shift_iter; [lia|]. split; [cbn; lia|]. left. repeat split; reflexivity. }
    set (x := iter_pos shr_1 k _) in *. destruct (shift_round (Z.pos P) (Z.pos k) x ltac:(lia) SH) as [MM [Q R]]. set (M := round_nearest_even _ _) in *.
    set (m := shr_m x) in *. set (h := 2 ^ Z.pos k) in *. assert (Hh : 0 < h) by (apply Z.pow_pos_nonneg; lia).
    assert (E1 : 2 ^ d = 2 ^ prec * h). { unfold h. rewrite <- Z.pow_add_r by lia. f_equal. lia. }
    assert (E2 : 2 ^ (d - 1) = 2 ^ (prec - 1) * h). { unfold h. rewrite <- Z.pow_add_r by lia. f_equal. lia. }
    assert (E3 : 2 ^ prec = 2 * 2 ^ (prec - 1)). { rewrite <- Z.pow_succ_r by lia. f_equal. lia. }
    assert (m1 : 2 ^ (prec - 1) <= m) by nia. assert (m2 : m < 2 ^ prec) by nia.
    assert (Pq : 0 < 2 ^ (prec - 1)) by (apply Z.pow_pos_nonneg; lia).
    assert (ERR : Z.abs (M * h - Z.pos P) * 2 ^ prec <= Z.pos P) by nia.
    assert (exists M', M = Z.pos M') as [M' EM] by (destruct M; try lia; eauto). rewrite EM in *.
    unfold shr_fexp. cbn [Zdigits2 shr_record_of_loc].
    destruct (Z_lt_le_dec (Z.pos M') (2 ^ prec)) as [L|L].
    + assert (D2 : Z.pos (digits2_pos M') = prec) by (apply digits_unique; lia). rewrite D2.
      rewrite FE by lia. replace (prec + (e + Z.pos k) - prec - (e + Z.pos k)) with 0 by lia. cbn [shr shr_m].
      destruct (Z.leb_spec (e + Z.pos k) (emax - prec)) as [L2|L2]; [|lia].
      exists (Z.pos M' * h). split; [exists M', (e + Z.pos k); split; [reflexivity|]; split; [lia|]; unfold h; f_equal; f_equal; lia|].
      split; [lia|assumption].
    + assert (EMp : Z.pos M' = 2 ^ prec) by lia.
      assert (D2 : Z.pos (digits2_pos M') = prec + 1).
      { apply digits_unique. replace (prec + 1 - 1) with prec by lia. rewrite Z.pow_add_r by lia. cbn [Z.pow]. lia. }
      rewrite D2, FE by lia. replace (prec + 1 + (e + Z.pos k) - prec - (e + Z.pos k)) with 1 by lia. unfold shr. cbn [iter_pos].
      destruct M' as [q|q|]; [exfalso; rewrite E3 in EMp; lia| |exfalso; rewrite E3 in EMp; lia]. cbn [shr_1 shr_m].
      destruct (Z.leb_spec (e + Z.pos k + 1) (emax - prec)) as [L2|L2]; [|lia].
      exists (Z.pos q~0 * h). split; [|split; [lia|assumption]].
      exists q, (e + Z.pos k + 1). split; [reflexivity|]. split; [lia|]. replace (e + Z.pos k + 1 - e) with (Z.pos k + 1) by lia.
      rewrite Z.pow_add_r by lia. unfold h. lia.
Qed.
End Precision.

Lemma trunc_value : forall x e V, value_of x e V -> e <= 0 -> f_trunc x = Some (V / 2 ^ (- e)).
Proof.
  intros x e V [m [e' [-> [L ->]]]] E0. unfold f_trunc. f_equal.
  assert (H : 0 < 2 ^ (- e)) by (apply Z.pow_pos_nonneg; lia).
  destruct (Z_lt_le_dec e' 0) as [N|N].
  - destruct e' as [|k|k]; try lia. replace (- e) with (Z.pos k + (Z.neg k - e)) by lia. rewrite Z.pow_add_r by lia.
    rewrite Z.div_mul_cancel_r; [reflexivity| |]; apply Z.pow_nonzero; lia.
  - assert (A : (match e' with Z.neg k => Z.pos m / 2 ^ Z.pos k | _ => Z.pos m * 2 ^ e' end) = Z.pos m * 2 ^ e') by (destruct e'; [reflexivity|reflexivity|lia]).
    rewrite A. replace (e' - e) with (e' + - e) by lia. rewrite Z.pow_add_r, Z.mul_assoc, Z.div_mul by lia. reflexivity.
Qed.
Lemma of_Z_value : forall n, 0 < n < 2 ^ 53 -> let d := Z.pos (digits2_pos (Z.to_pos n)) in
  exists m, f64_of_Z n = S754_finite false m (d - 53) /\ Z.pos m = n * 2 ^ (53 - d) /\ 1 <= d <= 53
            /\ Z.pos (digits2_pos m) = 53.
Proof.
  intros n H d. destruct n as [|n|n]; try lia. cbn [Z.to_pos] in d. unfold f64_of_Z, binary_normalize, binary_round.
  pose proof (digits_bound n) as DB. fold d in DB |- *.
  assert (D1 : 1 <= d) by (unfold d; lia).
  assert (D : d <= 53). { destruct (Z_le_gt_dec d 53); [assumption|]. exfalso. assert (2 ^ 53 <= 2 ^ (d - 1)) by (apply Z.pow_le_mono_r; lia). lia. }
  assert (FE : fexp 53 1024 (d + 0) = d - 53) by (unfold fexp, emin; lia). rewrite FE.
  assert (S : exists m, shl_align n 0 (d - 53) = (m, d - 53) /\ Z.pos m = Z.pos n * 2 ^ (53 - d)).
  { unfold shl_align. replace (d - 53 - 0) with (d - 53) by lia. destruct (d - 53) as [|k|k] eqn:K; try lia.
    - exists n. split; [reflexivity|]. replace (53 - d) with 0 by lia. rewrite Z.pow_0_r. lia.
    - eexists. split; [reflexivity|]. rewrite shift_pos_correct. rewrite Z.mul_comm. f_equal.
      replace (53 - d) with (Z.pos k) by lia. reflexivity. }
  destruct S as [m [-> Em]].
  assert (Dm : Z.pos (digits2_pos m) = 53).
  { apply digits_unique. rewrite Em. split.
    - replace (53 - 1) with ((d - 1) + (53 - d)) by lia. rewrite Z.pow_add_r by lia. apply Z.mul_le_mono_nonneg_r; [apply Z.pow_nonneg; lia|lia].
    - replace (2 ^ 53) with (2 ^ d * 2 ^ (53 - d)) by (rewrite <- Z.pow_add_r by lia; f_equal; lia).
      apply Z.mul_lt_mono_pos_r; [apply Z.pow_pos_nonneg; lia|lia]. }
  exists m. split; [|split; [exact Em|split; [lia|exact Dm]]].
  unfold binary_round_aux, shr_fexp. cbn [Zdigits2 shr_record_of_loc]. rewrite Dm.
  assert (FE2 : fexp 53 1024 (53 + (d - 53)) - (d - 53) = 0) by (unfold fexp, emin; lia).
  rewrite FE2. cbn [shr shr_m loc_of_shr_record round_nearest_even Zdigits2 shr_record_of_loc]. rewrite Dm, FE2. cbn [shr shr_m].
  destruct (Z.leb_spec (d - 53) (1024 - 53)); [reflexivity|lia].
Qed.

(** [n * c] in double, cut to an integer, for a constant [c = k / 2^53]: the
    product [n * k], off by at most its 2^53-th part, divided by 2^53. *)
Lemma mul_trunc : forall n k, 0 < n < 2 ^ 53 -> 2 ^ 52 <= Z.pos k < 2 ^ 53 ->
  exists q d V, 1 <= d /\ d <= 53 /\ Z.abs (V - n * Z.pos k * 2 ^ (53 - d)) * 2 ^ 53 <= n * Z.pos k * 2 ^ (53 - d)
    /\ q = V / 2 ^ (106 - d)
    /\ f_trunc (f64_mul (f64_of_Z n) (S754_finite false k (-53))) = Some q.
Proof.
  intros n k Hn Hk. destruct (of_Z_value n Hn) as [m [Em [Vm [Hd Dm]]]]. set (d := Z.pos (digits2_pos (Z.to_pos n))) in *.
  rewrite Em. unfold f64_mul, SFmul. cbn [xorb].
  assert (PB : 2 ^ 104 <= Z.pos (m * k) < 2 ^ 106).
  { pose proof (digits_bound m) as B. rewrite Dm in B. rewrite Pos2Z.inj_mul. replace (53 - 1) with 52 in B by lia.
    replace (2 ^ 104) with (2 ^ 52 * 2 ^ 52) by reflexivity. replace (2 ^ 106) with (2 ^ 53 * 2 ^ 53) by reflexivity. nia. }
  assert (DD : 104 < Z.pos (digits2_pos (m * k)) <= 106).
  { pose proof (digits_bound (m * k)) as B. set (x := Z.pos (digits2_pos (m * k))) in *. assert (0 < x) by reflexivity. split.
    - destruct (Z_le_gt_dec x 104); [|lia]. assert (2 ^ x <= 2 ^ 104) by (apply Z.pow_le_mono_r; lia). lia.
    - destruct (Z_le_gt_dec x 106); [lia|]. assert (2 ^ 106 <= 2 ^ (x - 1)) by (apply Z.pow_le_mono_r; lia). lia. }
  destruct (round_value 53 1024 ltac:(lia) (m * k) (d - 53 + -53) ltac:(lia) ltac:(lia) ltac:(lia)) as [V [A [_ B]]].
  exists (V / 2 ^ (106 - d)), d, V. split; [lia|]. split; [lia|].
  rewrite Pos2Z.inj_mul, Vm in B. replace (n * Z.pos k * 2 ^ (53 - d)) with (n * 2 ^ (53 - d) * Z.pos k) by ring.
  split; [exact B|]. split; [reflexivity|]. rewrite (trunc_value _ _ _ A ltac:(lia)). f_equal. f_equal. f_equal. lia.
Qed.
