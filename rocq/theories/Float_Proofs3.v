(** Proofs: conversion and division in double are correct to one part in 2^53. *)
From Coq Require Import ZArith Bool Lia Lqa QArith Qabs Qpower SpecFloat.
From Verif Require Import Float_Model Float_Proofs Float_Proofs2 Text_Model.
Open Scope Z_scope.

(** A shift record says of the fraction P/D that was shifted by [k]: *)
Definition shifted_by (P D k : Z) (x : shr_record) : Prop :=
  0 <= shr_m x /\ exists t, 2 * P = (2 * shr_m x + bz (shr_r x)) * (2 ^ k * D) + t /\ 0 <= t < 2 ^ k * D /\ (shr_s x = false <-> t = 0).
Lemma shifted_one : forall P D k x, 0 <= k -> 0 < D -> shifted_by P D k x -> shifted_by P D (k + 1) (shr_1 x).
Proof.
  intros P D k x K HD [N [t [A [B C]]]]. destruct x as [m r s]. cbn [shr_m shr_r shr_s] in *.
  assert (E : exists m' b, shr_1 (Build_shr_record m r s) = Build_shr_record m' b (r || s) /\ m = 2 * m' + bz b /\ 0 <= m').
  { unfold shr_1. destruct m as [|[p|p|]|p]; try lia; eexists; eexists; (split; [reflexivity|]); cbn [bz]; lia. }
  destruct E as [m' [b [E [Em N']]]]. rewrite E. split; [assumption|]. cbn [shr_m shr_r shr_s].
  assert (Hh : 0 < 2 ^ k * D) by (apply Z.mul_pos_pos; [apply Z.pow_pos_nonneg; lia|assumption]).
  replace (2 ^ (k + 1) * D) with (2 * (2 ^ k * D)) by (rewrite Z.pow_add_r by lia; change (2 ^ 1) with 2; ring). set (h := 2 ^ k * D) in *.
  exists (bz r * h + t). split; [rewrite A, Em; ring|]. split; [destruct r; cbn [bz]; lia|].
  destruct r; cbn [orb bz]; [split; [discriminate|lia]|]. rewrite C. lia.
Qed.
Lemma shifted_round : forall P D k x, 0 <= k -> 0 < D -> shifted_by P D k x ->
  let M := round_nearest_even (shr_m x) (loc_of_shr_record x) in
  (M = shr_m x \/ M = shr_m x + 1) /\ shr_m x * (2 ^ k * D) <= P < (shr_m x + 1) * (2 ^ k * D) /\ 2 * Z.abs (M * (2 ^ k * D) - P) <= 2 ^ k * D.
Proof.
  intros P D k x K HD [N [t [A [B C]]]]. destruct x as [m r s]. cbn [shr_m shr_r shr_s] in *.
  assert (Hh : 0 < 2 ^ k * D) by lia. set (h := 2 ^ k * D) in *.
  assert (X : forall z, s = false -> t = 0 \/ z) by (intros; left; tauto).
  destruct r, s; cbn [loc_of_shr_record round_nearest_even bz] in *.
  - split; [right; reflexivity|]. split; lia.
  - assert (t = 0) by (apply C; reflexivity). destruct (Z.even m); (split; [auto|]); split; lia.
  - split; [left; reflexivity|]. split; [lia|]. lia.
  - assert (t = 0) by (apply C; reflexivity). split; [left; reflexivity|]. split; lia.
Qed.
(** The location of a remainder. *)
Definition where_ (r D : Z) : location := if r =? 0 then loc_Exact else loc_Inexact (2 * r ?= D).
Lemma location_of : forall D r, 0 <= r < D -> new_location D r = where_ r D.
Proof.
  intros D r H. unfold new_location, new_location_even, new_location_odd, where_.
  assert (E0 : Zeq_bool r 0 = (r =? 0)) by (unfold Zeq_bool; rewrite Z.eqb_compare; reflexivity).
  destruct (Z.even D) eqn:V; rewrite E0; destruct (Z.eqb_spec r 0) as [E|E]; try reflexivity. f_equal.
  assert (O : exists q, D = 2 * q + 1). { apply Z.odd_spec. rewrite <- Z.negb_even, V. reflexivity. } destruct O as [q ->].
  destruct (Z.compare_spec (2 * r + 1) (2 * q + 1)), (Z.compare_spec (2 * r) (2 * q + 1)); try reflexivity; lia.
Qed.
Lemma located : forall P D, 0 <= P -> 0 < D -> shifted_by P D 0 (shr_record_of_loc (P / D) (where_ (P mod D) D)).
Proof.
  intros P D HP HD. pose proof (Z.div_mod P D ltac:(lia)) as E. pose proof (Z.mod_pos_bound P D HD) as B. assert (0 <= P / D) by (apply Z.div_pos; lia).
  set (q := P / D) in *. set (r := P mod D) in *. unfold where_, shifted_by. rewrite Z.pow_0_r, Z.mul_1_l.
  destruct (Z.eqb_spec r 0) as [R|R].
  - split; [cbn; assumption|]. exists 0. cbn [shr_record_of_loc shr_m shr_r shr_s bz]. split; [lia|]. split; [lia|]. tauto.
  - destruct (Z.compare_spec (2 * r) D) as [C|C|C]; cbn [shr_record_of_loc shr_m shr_r shr_s bz]; (split; [assumption|]).
    + exists 0. split; [lia|]. split; [lia|]. tauto.
    + exists (2 * r). split; [lia|]. split; [lia|]. split; [discriminate|lia].
    + exists (2 * r - D). split; [lia|]. split; [lia|]. split; [discriminate|lia].
Qed.
Lemma shr_m_of_loc : forall m l, shr_m (shr_record_of_loc m l) = m.
Proof. intros m [|[]]; reflexivity. Qed.

(** A normal double has 53 binary digits. *)
Definition full (m : positive) : Prop := 2 ^ 52 <= Z.pos m < 2 ^ 53.
Lemma full_digits : forall m, full m -> Z.pos (digits2_pos m) = 53.
Proof. intros m H. apply digits_unique. exact H. Qed.
Lemma fexp_53 : forall x, -1000 <= x -> fexp 53 1024 x = x - 53.
Proof. intros x H. unfold fexp, emin. lia. Qed.
Lemma finish_round : forall M e, 2 ^ 52 <= M <= 2 ^ 53 -> -900 <= e <= 900 ->
  exists m e', full m /\ e <= e' <= e + 1 /\ Z.pos m * 2 ^ (e' - e) = M
   /\ (let '(mrs, ez) := shr_fexp 53 1024 M e loc_Exact in
       match shr_m mrs with Z0 => S754_zero false | Zpos m => if Zle_bool ez (1024 - 53) then S754_finite false m ez else S754_infinity false | _ => S754_nan end)
      = S754_finite false m e'.
Proof.
  intros M e H E. destruct M as [|M|M]; try lia. unfold shr_fexp. cbn [Zdigits2 shr_record_of_loc].
  destruct (Z.eq_dec (Z.pos M) (2 ^ 53)) as [B|B].
  - injection B as ->. replace (fexp 53 1024 (Z.pos (digits2_pos 9007199254740992) + e) - e) with 1 by (rewrite fexp_53; cbn [digits2_pos]; [|]; change (Z.pos (digits2_pos 9007199254740992)) with 54; lia).
    unfold shr. cbn [iter_pos shr_1 shr_m]. exists 4503599627370496%positive, (e + 1).
    split; [unfold full; lia|]. split; [lia|]. split; [replace (e + 1 - e) with 1 by lia; reflexivity|].
    destruct (Z.leb_spec (e + 1) (1024 - 53)) as [L|L]; [reflexivity|lia].
  - assert (F : full M) by (unfold full; lia). rewrite (full_digits _ F), fexp_53 by lia. replace (53 + e - 53 - e) with 0 by lia. cbn [shr shr_m].
    exists M, e. split; [assumption|]. split; [lia|]. split; [rewrite Z.sub_diag; cbn [Z.pow]; lia|].
    destruct (Z.leb_spec e (1024 - 53)) as [L|L]; [reflexivity|lia].
Qed.
(** Rounding P/D. *)
Lemma round_fraction_wide : forall b P D e, 53 <= b <= 300 -> 0 < D -> 2 ^ 52 * D <= P < 2 ^ b * D -> -800 <= e <= 600 ->
  exists m e', binary_round_aux 53 1024 false (P / D) e (where_ (P mod D) D) = S754_finite false m e' /\ full m /\ e <= e' <= e + (b - 51)
    /\ Z.abs (Z.pos m * 2 ^ (e' - e) * D - P) * 2 ^ 53 <= P.
Proof.
  intros b P D e HB HD HP HE.
  assert (Q1 : 2 ^ 52 <= P / D) by (apply Z.div_le_lower_bound; lia). assert (Q2 : P / D < 2 ^ b) by (apply Z.div_lt_upper_bound; lia).
  pose proof (located P D ltac:(lia) HD) as L0. unfold binary_round_aux. unfold shr_fexp at 1.
  destruct (P / D) as [|q|q] eqn:EQ; try lia. cbn [Zdigits2].
  pose proof (digits_bound q) as DB. set (d := Z.pos (digits2_pos q)) in *.
  assert (D1 : 53 <= d) by (pose proof (digits_ge q 52 ltac:(lia) Q1); unfold d; lia).
  assert (D2 : d <= b) by (apply (digits_lt q b); lia).
  rewrite fexp_53 by lia. replace (d + e - 53 - e) with (d - 53) by lia.
  set (x0 := shr_record_of_loc (Z.pos q) (where_ (P mod D) D)) in *.
  assert (SH : exists k x, shr x0 e (d - 53) = (x, e + k) /\ k = d - 53 /\ shifted_by P D k x).
  { exists (d - 53). destruct (d - 53) as [|k|k] eqn:Ek; try lia.
    - exists x0. split; [cbn [shr]; f_equal; lia|]. split; [reflexivity|assumption].
    - exists (iter_pos shr_1 k x0). split; [reflexivity|]. split; [reflexivity|].
      assert (IT : forall p j x, 0 <= j -> shifted_by P D j x -> shifted_by P D (j + Z.pos p) (iter_pos shr_1 p x)).
      { induction p as [p IH|p IH|]; intros j x J H; cbn [iter_pos].
        - replace (j + Z.pos p~1) with (j + 1 + Z.pos p + Z.pos p) by lia. apply IH; [lia|]. apply IH; [lia|]. now apply shifted_one.
        - replace (j + Z.pos p~0) with (j + Z.pos p + Z.pos p) by lia. apply IH; [lia|]. now apply IH.
        - now apply shifted_one. }
      exact (IT k 0 x0 ltac:(lia) L0). }
  destruct SH as [k [x [-> [Ek SH]]]].
  destruct (shifted_round P D k x ltac:(lia) HD SH) as [MM [IN R]]. set (M := round_nearest_even _ _) in *. set (m := shr_m x) in *.
  assert (Hk : 0 < 2 ^ k) by (apply Z.pow_pos_nonneg; lia). assert (Hh : 0 < 2 ^ k * D) by (apply Z.mul_pos_pos; assumption).
  (* m is the quotient without its last k digits *)
  assert (MB : 2 ^ 52 <= m < 2 ^ 53).
  { assert (A1 : 2 ^ (d - 1) = 2 ^ 52 * 2 ^ k) by (rewrite <- Z.pow_add_r by lia; f_equal; lia).
    assert (A2 : 2 ^ d = 2 ^ 53 * 2 ^ k) by (rewrite <- Z.pow_add_r by lia; f_equal; lia).
    assert (B1 : Z.pos q * D <= P < (Z.pos q + 1) * D).
    { pose proof (Z.div_mod P D ltac:(lia)) as E. pose proof (Z.mod_pos_bound P D HD). rewrite EQ in E. lia. }
    split.
    - apply Z.lt_succ_r. apply (Z.mul_lt_mono_pos_r (2 ^ k * D)); [assumption|]. unfold Z.succ.
      assert (2 ^ 52 * 2 ^ k * D <= Z.pos q * D) by (apply Z.mul_le_mono_nonneg_r; lia). lia.
    - apply (Z.mul_lt_mono_pos_r (2 ^ k * D)); [assumption|].
      assert ((Z.pos q + 1) * D <= 2 ^ 53 * 2 ^ k * D) by (apply Z.mul_le_mono_nonneg_r; lia). lia. }
  destruct (finish_round M (e + k) ltac:(lia) ltac:(lia)) as [m' [e' [F [E' [V ->]]]]]. exists m', e'. split; [reflexivity|]. split; [assumption|]. split; [lia|].
  replace (e' - e) with ((e' - (e + k)) + k) by lia. rewrite Z.pow_add_r by lia. rewrite Z.mul_assoc, V. rewrite <- Z.mul_assoc.
  assert (P1 : 2 ^ 52 * (2 ^ k * D) <= P). { apply Z.le_trans with (2 := proj1 IN). apply Z.mul_le_mono_nonneg_r; lia. }
  change (2 ^ 53) with (2 * 2 ^ 52). lia.
Qed.
Lemma round_fraction : forall P D e, 0 < D -> 2 ^ 52 * D <= P < 2 ^ 63 * D -> -800 <= e <= 600 ->
  exists m e', binary_round_aux 53 1024 false (P / D) e (where_ (P mod D) D) = S754_finite false m e' /\ full m /\ e <= e' <= e + 12
    /\ Z.abs (Z.pos m * 2 ^ (e' - e) * D - P) * 2 ^ 53 <= P.
Proof. intros P D e HD HP HE. apply (round_fraction_wide 63); lia. Qed.

(** * As rationals *)
(** The value of a double. *)
Definition val (x : spec_float) : Q :=
  match x with
  | S754_finite s m e => (if s then -1 else 1) * inject_Z (Z.pos m) * (2 # 1) ^ e
  | _ => 0
  end%Q.
Open Scope Q_scope.
(** [v] and [w] differ by at most [k] roundings. *)
Definition unit_ : Q := 1 - (1 # 2 ^ 53).
Definition close (k : nat) (v w : Q) : Prop := 0 < v /\ 0 < w /\ w * unit_ ^ Z.of_nat k <= v /\ v * unit_ ^ Z.of_nat k <= w.
Lemma unit_pos : 0 < unit_. Proof. reflexivity. Qed.
Lemma unit_pow_pos k : 0 < unit_ ^ Z.of_nat k.
Proof. apply Qpower_0_lt. exact unit_pos. Qed.
Lemma close_refl v : 0 < v -> close 0 v v.
Proof. intros H. unfold close. cbn [Z.of_nat Qpower]. repeat split; try assumption; lra. Qed.
Lemma unit_pow_add a b : unit_ ^ Z.of_nat (a + b) == unit_ ^ Z.of_nat a * unit_ ^ Z.of_nat b.
Proof. rewrite Nat2Z.inj_add. apply Qpower_plus. intros H. discriminate. Qed.
Lemma close_trans a b u v w : close a u v -> close b v w -> close (a + b) u w.
Proof.
  intros [A1 [A2 [A3 A4]]] [B1 [B2 [B3 B4]]]. unfold close. rewrite !unit_pow_add.
  pose proof (unit_pow_pos a) as UA. pose proof (unit_pow_pos b) as UB. set (x := unit_ ^ Z.of_nat a) in *. set (y := unit_ ^ Z.of_nat b) in *.
  repeat split; try assumption.
  - apply Qle_trans with (2 := A3). rewrite (Qmult_comm x y), Qmult_assoc. apply Qmult_le_compat_r; [assumption|]. now apply Qlt_le_weak.
  - apply Qle_trans with (2 := B4). rewrite Qmult_assoc. apply Qmult_le_compat_r; [assumption|]. now apply Qlt_le_weak.
Qed.
Lemma close_div a b v1 w1 v2 w2 : close a v1 w1 -> close b v2 w2 -> close (a + b) (v1 / v2) (w1 / w2).
Proof.
  intros [A1 [A2 [A3 A4]]] [B1 [B2 [B3 B4]]]. unfold close. rewrite !unit_pow_add.
  pose proof (unit_pow_pos a) as UA. pose proof (unit_pow_pos b) as UB. set (x := unit_ ^ Z.of_nat a) in *. set (y := unit_ ^ Z.of_nat b) in *.
  split; [apply Qlt_shift_div_l; [assumption|lra]|]. split; [apply Qlt_shift_div_l; [assumption|lra]|].
  assert (NN : forall p q, 0 < p -> 0 < q -> 0 <= p * q) by (intros; apply Qmult_le_0_compat; lra).
  split.
  - apply Qle_shift_div_l; [assumption|].
    setoid_replace (w1 / w2 * (x * y) * v2) with (w1 * x * (v2 * y) / w2) by (field; lra).
    apply Qle_shift_div_r; [assumption|]. apply Qle_trans with (w1 * x * w2).
    + rewrite !(Qmult_comm (w1 * x)). apply Qmult_le_compat_r; [assumption|]. now apply NN.
    + apply Qmult_le_compat_r; [assumption|lra].
  - apply Qle_shift_div_l; [assumption|].
    setoid_replace (v1 / v2 * (x * y) * w2) with (v1 * x * (w2 * y) / v2) by (field; lra).
    apply Qle_shift_div_r; [assumption|]. apply Qle_trans with (v1 * x * v2).
    + rewrite !(Qmult_comm (v1 * x)). apply Qmult_le_compat_r; [assumption|]. now apply NN.
    + apply Qmult_le_compat_r; [assumption|lra].
Qed.

(** ** Conversion of an integer *)
Lemma close_one V W : 0 < W -> Qabs (V - W) * inject_Z (2 ^ 53) <= W -> close 1 V W.
Proof.
  intros HW H. assert (E : Qabs (V - W) <= W * (1 # 2 ^ 53)).
  { apply Qmult_le_r with (inject_Z (2 ^ 53)); [reflexivity|]. apply Qle_trans with (1 := H). rewrite <- Qmult_assoc.
    setoid_replace ((1 # 2 ^ 53) * inject_Z (2 ^ 53)) with 1 by reflexivity. lra. }
  apply Qabs_Qle_condition in E. change (1 # 2 ^ 53) with (1 # 9007199254740992) in E. unfold close. change (Z.of_nat 1) with 1%Z. cbn [Qpower]. change (Qpower_positive unit_ 1) with unit_.
  unfold unit_. change (1 # 2 ^ 53) with (1 # 9007199254740992). repeat split; try assumption; lra.
Qed.
Lemma val_pos m e : 0 < val (S754_finite false m e).
Proof. unfold val. apply Qmult_lt_0_compat; [reflexivity|]. apply Qpower_0_lt. reflexivity. Qed.
Lemma two_pow a b : (2 # 1) ^ (a + b) == (2 # 1) ^ a * (2 # 1) ^ b.
Proof. apply Qpower_plus. discriminate. Qed.
Lemma pow_inject k : (0 <= k)%Z -> (2 # 1) ^ k == inject_Z (2 ^ k).
Proof. intros H. change (2 # 1) with (inject_Z 2). symmetry. apply Zpower_Qpower. assumption. Qed.
(** A rounded fraction, scaled. *)
Lemma fraction_close P D m e e' : (0 < D)%Z -> (0 < P)%Z -> (e <= e')%Z -> (Z.abs (Z.pos m * 2 ^ (e' - e) * D - P) * 2 ^ 53 <= P)%Z ->
  close 1 (val (S754_finite false m e')) (inject_Z P / inject_Z D * (2 # 1) ^ e).
Proof.
  intros HD HP E H. assert (PE : 0 < (2 # 1) ^ e) by (apply Qpower_0_lt; reflexivity).
  assert (DQ : 0 < inject_Z D) by (rewrite (Zlt_Qlt 0 D) in HD; exact HD). assert (PQ : 0 < inject_Z P) by (rewrite (Zlt_Qlt 0 P) in HP; exact HP).
  apply close_one.
  - apply Qmult_lt_0_compat; [|assumption]. apply Qlt_shift_div_l; [assumption|lra].
  - unfold val. replace e' with ((e' - e) + e)%Z at 1 by lia. rewrite two_pow, pow_inject by lia.
    setoid_replace (1 * inject_Z (Z.pos m) * (inject_Z (2 ^ (e' - e)) * (2 # 1) ^ e) - inject_Z P / inject_Z D * (2 # 1) ^ e)
      with ((inject_Z (Z.pos m) * inject_Z (2 ^ (e' - e)) * inject_Z D - inject_Z P) * ((2 # 1) ^ e / inject_Z D)) by (field; lra).
    rewrite Qabs_Qmult. assert (QD : 0 < (2 # 1) ^ e / inject_Z D) by (apply Qlt_shift_div_l; [assumption|lra]).
    rewrite (Qabs_pos ((2 # 1) ^ e / inject_Z D)) by (apply Qlt_le_weak; assumption).
    rewrite <- !inject_Z_mult. setoid_replace (inject_Z (Z.pos m * 2 ^ (e' - e) * D) - inject_Z P) with (inject_Z (Z.pos m * 2 ^ (e' - e) * D - P)) by (unfold Zminus; rewrite inject_Z_plus, inject_Z_opp; reflexivity).
    change (Qabs (inject_Z (Z.pos m * 2 ^ (e' - e) * D - P))) with (inject_Z (Z.abs (Z.pos m * 2 ^ (e' - e) * D - P))).
    rewrite Zle_Qle, inject_Z_mult in H. set (A := inject_Z (Z.abs _)) in *. set (R := (2 # 1) ^ e / inject_Z D) in *.
    setoid_replace (A * R * inject_Z (2 ^ 53)) with (A * inject_Z (2 ^ 53) * R) by ring.
    setoid_replace (inject_Z P / inject_Z D * (2 # 1) ^ e) with (inject_Z P * R) by (unfold R; field; lra).
    apply Qmult_le_compat_r; [assumption|lra].
Qed.
(** A normal double of moderate size. *)
Definition normal (x : spec_float) (lo hi : Z) : Prop := exists m e, x = S754_finite false m e /\ full m /\ (lo <= e <= hi)%Z.
Lemma of_Z_close n : (0 < n < 2 ^ 63)%Z -> normal (f64_of_Z n) (-53) 12 /\ close 1 (val (f64_of_Z n)) (inject_Z n).
Proof.
  intros H. destruct (Z_lt_le_dec n (2 ^ 53)) as [L|L].
  - destruct (of_Z_value n ltac:(lia)) as [m [-> [E [D F]]]]. set (d := Z.pos (digits2_pos (Z.to_pos n))) in *.
    split; [exists m, (d - 53)%Z; split; [reflexivity|]; split; [pose proof (digits_bound m) as B; rewrite F in B; exact B|lia]|].
    apply close_one; [rewrite (Zlt_Qlt 0 n) in H; apply H|]. unfold val.
    assert (X : 1 * inject_Z (Z.pos m) * (2 # 1) ^ (d - 53) == inject_Z n).
    { rewrite E, inject_Z_mult, <- pow_inject by lia. rewrite Qmult_1_l, <- Qmult_assoc, <- two_pow. replace (53 - d + (d - 53))%Z with 0%Z by lia. cbn [Qpower]. lra. }
    rewrite X. setoid_replace (inject_Z n - inject_Z n) with 0 by ring. assert (0 < inject_Z n) by (rewrite (Zlt_Qlt 0 n) in H; apply H).
    setoid_replace (Qabs 0 * inject_Z (2 ^ 53)) with 0 by reflexivity. lra.
  - assert (BN : f64_of_Z n = binary_round_aux 53 1024 false (n / 1) 0 (where_ (n mod 1) 1)).
    { rewrite Z.div_1_r, Z.mod_1_r. unfold where_. cbn [Z.eqb]. destruct n as [|n|n]; try lia. unfold f64_of_Z, binary_normalize, binary_round.
      rewrite shl_keep; [reflexivity|]. pose proof (digits_ge n 53 ltac:(lia) L). rewrite fexp_53 by lia. lia. }
    destruct (round_fraction n 1 0 ltac:(lia) ltac:(lia) ltac:(lia)) as [m [e' [R [F [E V]]]]]. rewrite BN, R.
    split; [exists m, e'; split; [reflexivity|]; split; [assumption|lia]|].
    pose proof (fraction_close n 1 m 0 e' ltac:(lia) ltac:(lia) ltac:(lia) V) as C. destruct C as [C1 [C2 [C3 C4]]].
    assert (X : inject_Z n / inject_Z 1 * (2 # 1) ^ 0 == inject_Z n) by (cbn [Qpower]; field). unfold close. rewrite <- X. repeat split; assumption.
Qed.
Lemma of_Z_exact n : (0 < n < 2 ^ 53)%Z -> val (f64_of_Z n) == inject_Z n.
Proof.
  intros H. destruct (of_Z_value n ltac:(lia)) as [m [-> [E [D F]]]]. set (d := Z.pos (digits2_pos (Z.to_pos n))) in *. unfold val.
  rewrite E, inject_Z_mult, <- pow_inject by lia. rewrite Qmult_1_l, <- Qmult_assoc, <- two_pow. replace (53 - d + (d - 53))%Z with 0%Z by lia. cbn [Qpower]. lra.
Qed.
(** ** Division *)
Lemma div_close x y lo1 hi1 lo2 hi2 : normal x lo1 hi1 -> normal y lo2 hi2 -> (-300 <= lo1)%Z -> (hi1 <= 300)%Z -> (-300 <= lo2)%Z -> (hi2 <= 300)%Z ->
  normal (f64_div x y) (lo1 - hi2 - 53) (hi1 - lo2 - 41) /\ close 1 (val (f64_div x y)) (val x / val y).
Proof.
  intros [m1 [e1 [-> [F1 E1]]]] [m2 [e2 [-> [F2 E2]]]] A B C D. unfold f64_div, SFdiv, SFdiv_core_binary. cbn [Zdigits2 xorb].
  rewrite (full_digits _ F1), (full_digits _ F2), fexp_53 by lia.
  replace (Z.min (53 + e1 - (53 + e2) - 53) (e1 - e2)) with (e1 - e2 - 53)%Z by lia. replace (e1 - e2 - (e1 - e2 - 53))%Z with 53%Z by lia.
  rewrite Z.shiftl_mul_pow2 by lia. set (P := (Z.pos m1 * 2 ^ 53)%Z). unfold full in F1, F2.
  destruct (Z.div_eucl P (Z.pos m2)) as [q r] eqn:QR.
  assert (Q1 : q = (P / Z.pos m2)%Z) by (unfold Z.div; rewrite QR; reflexivity). assert (R1 : r = (P mod Z.pos m2)%Z) by (unfold Z.modulo; rewrite QR; reflexivity).
  assert (RB : (0 <= r < Z.pos m2)%Z) by (rewrite R1; apply Z.mod_pos_bound; lia).
  rewrite (location_of _ _ RB). rewrite Q1, R1.
  destruct (round_fraction P (Z.pos m2) (e1 - e2 - 53) ltac:(lia) ltac:(unfold P; lia) ltac:(lia)) as [m [e' [-> [F [E V]]]]].
  split; [exists m, e'; split; [reflexivity|]; split; [assumption|lia]|].
  pose proof (fraction_close P (Z.pos m2) m (e1 - e2 - 53) e' ltac:(lia) ltac:(unfold P; lia) ltac:(lia) V) as [C1 [C2 [C3 C4]]].
  assert (X : inject_Z P / inject_Z (Z.pos m2) * (2 # 1) ^ (e1 - e2 - 53) == val (S754_finite false m1 e1) / val (S754_finite false m2 e2)).
  { unfold val, P. rewrite inject_Z_mult, <- pow_inject by lia. replace (e1 - e2 - 53)%Z with (e1 + - e2 + -53)%Z by lia. rewrite !two_pow.
    assert (0 < (2 # 1) ^ e2) by (apply Qpower_0_lt; reflexivity). assert (0 < (2 # 1) ^ 53) by (apply Qpower_0_lt; reflexivity).
    rewrite (Qpower_opp (2 # 1) e2), (Qpower_opp (2 # 1) 53 : (2 # 1) ^ (-53) == _). assert (0 < inject_Z (Z.pos m2)) by reflexivity. field. repeat split; lra. }
  unfold close. rewrite <- X. repeat split; assumption.
Qed.
