(** Proofs about the text of a summary: decimal numbers, rates, order. *)
From Coq Require Import Ascii String List NArith ZArith Bool Lia Lqa QArith Qabs Qpower SpecFloat Permutation Sorted.
From Verif Require Import Base_Model Base_Proofs Float_Model Float_Proofs Float_Proofs3 Log_Model Sum_Model Text_Model.
Import ListNotations.
Open Scope Z_scope.

(** * Decimal fractions *)
(** The text [s] is a decimal fraction with [p] decimals and the value [q]. *)
Definition reads (p : nat) (s : str) (q : Q) : Prop :=
  exists whole part, s = whole ++ s_ "." ++ part /\ all_digits whole /\ whole <> [] /\ all_digits part /\ length part = p /\
    (q == inject_Z (dec_value whole) + inject_Z (dec_value part) / inject_Z (10 ^ Z.of_nat p))%Q.

Lemma nearest_spec a b : 0 < b -> 2 * Z.abs (nearest a b * b - a) <= b.
Proof.
  intros H. unfold nearest. pose proof (Z.div_mod a b ltac:(lia)) as E. pose proof (Z.mod_pos_bound a b H) as B.
  set (q := a / b) in *. set (r := a mod b) in *. destruct (Z.compare_spec (2 * r) b); [destruct (Z.even q)| |]; lia.
Qed.
Lemma nearest_nonneg a b : 0 < b -> 0 <= a -> 0 <= nearest a b.
Proof. intros H A. unfold nearest. assert (0 <= a / b) by (apply Z.div_pos; lia). destruct (_ ?= _); [destruct (Z.even _)| |]; lia. Qed.
Lemma low_digits_spec p : forall n acc, exists d, low_digits p n acc = d ++ acc /\ all_digits d /\ length d = p /\ dec_value d = Z.of_N n mod 10 ^ Z.of_nat p.
Proof.
  induction p as [|p IH]; intros n acc.
  - exists []. split; [reflexivity|]. split; [constructor|]. split; [reflexivity|]. cbn [Z.of_nat]. rewrite Z.pow_0_r, Z.mod_1_r. reflexivity.
  - cbn [low_digits]. destruct (IH (n / 10)%N (digit_char (n mod 10) :: acc)) as [d [E [D [L V]]]].
    assert (M : (n mod 10 < 10)%N) by (apply N.mod_upper_bound; lia).
    exists (d ++ [digit_char (n mod 10)]). rewrite E. split; [rewrite <- app_assoc; reflexivity|].
    split; [apply Forall_app; split; [exact D|repeat constructor; apply is_digit_char; lia]|].
    split; [rewrite app_length; cbn [length]; lia|].
    unfold dec_value in *. rewrite fold_left_app, V. cbn [fold_left]. rewrite digit_val_char by lia.
    rewrite N2Z.inj_div, N2Z.inj_mod. change (Z.of_N 10) with 10. set (z := Z.of_N n).
    replace (10 ^ Z.of_nat (S p)) with (10 * 10 ^ Z.of_nat p) by (rewrite Nat2Z.inj_succ, Z.pow_succ_r by lia; reflexivity).
    assert (T : 0 < 10 ^ Z.of_nat p) by (apply Z.pow_pos_nonneg; lia). rewrite Z.rem_mul_r by lia. lia.
Qed.
Lemma show_reads p n : 0 <= n -> reads p (dec_of_Z (n / 10 ^ Z.of_nat p) ++ s_ "." ++ low_digits p (Z.to_N (n mod 10 ^ Z.of_nat p)) []) (inject_Z n / inject_Z (10 ^ Z.of_nat p))%Q.
Proof.
  intros H. assert (T : 0 < 10 ^ Z.of_nat p) by (apply Z.pow_pos_nonneg; lia). set (t := 10 ^ Z.of_nat p) in *.
  pose proof (Z.mod_pos_bound n t T) as B. pose proof (Z.div_mod n t ltac:(lia)) as E. assert (0 <= n / t) by (apply Z.div_pos; lia).
  destruct (low_digits_spec p (Z.to_N (n mod t)) []) as [d [-> [D [L V]]]]. rewrite app_nil_r.
  unfold dec_of_Z. destruct (Z.ltb_spec (n / t) 0) as [X|X]; [lia|]. destruct (dec_of_N_spec (Z.to_N (n / t))) as [D2 [N2 V2]].
  exists (dec_of_N (Z.to_N (n / t))), d. split; [reflexivity|]. repeat (split; [assumption|]). fold t. rewrite V2, V. fold t.
  rewrite !Z2N.id by lia. rewrite Z.mod_mod by lia. rewrite E at 1. rewrite inject_Z_plus, inject_Z_mult.
  assert ((0 < inject_Z t)%Q) by (rewrite (Zlt_Qlt 0 t) in T; exact T). field. lra.
Qed.
Open Scope Q_scope.
Lemma fixed_zero p : reads p (fixed p (S754_zero false)) 0.
Proof.
  destruct (show_reads p 0 ltac:(lia)) as [w [q [A [B [C [D [E F]]]]]]]. exists w, q. repeat (split; [assumption|]). rewrite <- F. setoid_replace (inject_Z 0) with 0 by reflexivity.
  assert (0 < inject_Z (10 ^ Z.of_nat p)) by (rewrite <- (Zlt_Qlt 0); apply Z.pow_pos_nonneg; lia). field. lra.
Qed.
(** The number that is shown is the nearest one with [p] decimals. *)
Lemma fixed_reads p m e : exists q, reads p (fixed p (S754_finite false m e)) q /\ Qabs (q - val (S754_finite false m e)) * inject_Z (2 * 10 ^ Z.of_nat p) <= 1.
Proof.
  assert (T : (0 < 10 ^ Z.of_nat p)%Z) by (apply Z.pow_pos_nonneg; lia). unfold fixed. cbn [app]. set (t := (10 ^ Z.of_nat p)%Z) in *.
  assert (TQ : 0 < inject_Z t) by (rewrite (Zlt_Qlt 0 t) in T; exact T).
  assert (S : exists n, (0 <= n)%Z /\ (match e with Zneg k => nearest (Z.pos m * t) (2 ^ Z.pos k) | _ => Z.pos m * 2 ^ e * t end)%Z = n
     /\ Qabs (inject_Z n - val (S754_finite false m e) * inject_Z t) * inject_Z 2 <= 1).
  { assert (P : (0 <= e)%Z -> (0 <= Z.pos m * 2 ^ e * t)%Z /\ Qabs (inject_Z (Z.pos m * 2 ^ e * t) - val (S754_finite false m e) * inject_Z t) * inject_Z 2 <= 1).
    { intros E. split; [apply Z.mul_nonneg_nonneg; [apply Z.mul_nonneg_nonneg; [lia|apply Z.pow_nonneg; lia]|lia]|]. unfold val. rewrite pow_inject, !inject_Z_mult by assumption.
      setoid_replace (inject_Z (Z.pos m) * inject_Z (2 ^ e) * inject_Z t - 1 * inject_Z (Z.pos m) * inject_Z (2 ^ e) * inject_Z t) with 0 by ring. discriminate. }
    destruct e as [|k|k].
    - eexists. split; [apply P; lia|]. split; [reflexivity|]. apply P; lia.
    - eexists. split; [apply P; lia|]. split; [reflexivity|]. apply P; lia.
    - clear P. assert (K : (0 < 2 ^ Z.pos k)%Z) by (apply Z.pow_pos_nonneg; lia). exists (nearest (Z.pos m * t) (2 ^ Z.pos k)).
      split; [apply nearest_nonneg; lia|]. split; [reflexivity|].
      pose proof (nearest_spec (Z.pos m * t) (2 ^ Z.pos k) K) as N. set (n := nearest _ _) in *. set (d := (2 ^ Z.pos k)%Z) in *.
      assert (DQ : 0 < inject_Z d) by (rewrite (Zlt_Qlt 0 d) in K; exact K).
      assert (V : val (S754_finite false m (Z.neg k)) == inject_Z (Z.pos m) / inject_Z d).
      { unfold val, d. change (Z.neg k) with (- Z.pos k)%Z. rewrite Qpower_opp, pow_inject by lia. rewrite Qmult_1_l. reflexivity. }
      rewrite V. apply Qmult_le_r with (inject_Z d); [assumption|].
      setoid_replace (inject_Z n - inject_Z (Z.pos m) / inject_Z d * inject_Z t) with ((inject_Z (n * d - Z.pos m * t)) * (/ inject_Z d)).
      2:{ unfold Zminus. rewrite inject_Z_plus, inject_Z_opp, !inject_Z_mult. field. lra. }
      rewrite Qabs_Qmult. assert (I : 0 < / inject_Z d) by (apply Qinv_lt_0_compat; assumption). rewrite (Qabs_pos (/ inject_Z d)) by lra.
      change (Qabs (inject_Z (n * d - Z.pos m * t))) with (inject_Z (Z.abs (n * d - Z.pos m * t))). rewrite Zle_Qle, inject_Z_mult in N.
      set (A := inject_Z (Z.abs _)) in *. setoid_replace (A * / inject_Z d * inject_Z 2 * inject_Z d) with (inject_Z 2 * A) by (field; lra). lra. }
  destruct S as [n [N [-> S]]]. exists (inject_Z n / inject_Z t). split; [apply show_reads; assumption|].
  rewrite inject_Z_mult. setoid_replace (inject_Z n / inject_Z t - val (S754_finite false m e)) with ((inject_Z n - val (S754_finite false m e) * inject_Z t) * / inject_Z t) by (field; lra).
  rewrite Qabs_Qmult. assert (I : 0 < / inject_Z t) by (apply Qinv_lt_0_compat; assumption). rewrite (Qabs_pos (/ inject_Z t)) by lra.
  set (A := Qabs _) in *. setoid_replace (A * / inject_Z t * (inject_Z 2 * inject_Z t)) with (A * inject_Z 2) by (field; lra). assumption.
Qed.

(** * Rates *)
(** The text shows [q] rounded to [p] decimals, up to one part in 2^50. *)
Definition shows (p : nat) (s : str) (q : Q) : Prop :=
  exists d, reads p s d /\ Qabs (d - q) <= 1 / inject_Z (2 * 10 ^ Z.of_nat p) + q * (1 # 2 ^ 50).
Lemma close_more a b v w : (a <= b)%nat -> close a v w -> close b v w.
Proof.
  intros L [A1 [A2 [A3 A4]]]. replace b with (a + (b - a))%nat by lia. unfold close. rewrite unit_pow_add.
  assert (U : unit_ ^ Z.of_nat (b - a) <= 1).
  { generalize (b - a)%nat as n. induction n as [|n IH]; [discriminate|]. change (S n) with (1 + n)%nat. rewrite unit_pow_add. pose proof (unit_pow_pos n).
    setoid_replace (unit_ ^ Z.of_nat 1) with unit_ by reflexivity. unfold unit_ at 1. change (1 # 2 ^ 53) with (1 # 9007199254740992). lra. }
  pose proof (unit_pow_pos a). pose proof (unit_pow_pos (b - a)). set (x := unit_ ^ Z.of_nat a) in *. set (y := unit_ ^ Z.of_nat (b - a)) in *.
  assert (K : forall z, 0 < z -> z * (x * y) <= z * x).
  { intros z Z. rewrite Qmult_assoc. setoid_replace (z * x) with (z * x * 1) at 2 by ring. apply Qmult_le_l; [apply Qmult_lt_0_compat; assumption|assumption]. }
  pose proof (K v A1). pose proof (K w A2). repeat split; try assumption; lra.
Qed.
Lemma close_abs v w : close 5 v w -> Qabs (v - w) <= w * (1 # 2 ^ 50).
Proof.
  intros [A1 [A2 [A3 A4]]]. change (1 # 2 ^ 50) with (1 # 1125899906842624). set (c := 1 - (7 # 11258999068426240)).
  assert (C : c <= unit_ ^ Z.of_nat 5) by (vm_compute; discriminate).
  assert (B1 : w * c <= v) by (apply Qle_trans with (2 := A3); apply Qmult_le_l; assumption).
  assert (B2 : v * c <= w) by (apply Qle_trans with (2 := A4); apply Qmult_le_l; assumption).
  apply Qabs_Qle_condition. unfold c in *. split; lra.
Qed.
Lemma fixed_shows p x lo hi w : normal x lo hi -> close 5 (val x) w -> shows p (fixed p x) w.
Proof.
  intros [m [e [-> [F E]]]] C. destruct (fixed_reads p m e) as [q [R A]]. exists q. split; [assumption|]. pose proof (close_abs _ _ C) as B.
  assert (T : (0 < 2 * 10 ^ Z.of_nat p)%Z) by (assert (0 < 10 ^ Z.of_nat p)%Z by (apply Z.pow_pos_nonneg; lia); lia).
  assert (TQ : 0 < inject_Z (2 * 10 ^ Z.of_nat p)) by (rewrite (Zlt_Qlt 0) in T; exact T).
  assert (A' : Qabs (q - val (S754_finite false m e)) <= 1 / inject_Z (2 * 10 ^ Z.of_nat p)) by (apply Qle_shift_div_l; assumption).
  set (v := val _) in *. setoid_replace (q - w) with ((q - v) + (v - w)) by ring. eapply Qle_trans; [apply Qabs_triangle|]. apply Qplus_le_compat; assumption.
Qed.
Lemma zero_shows p : shows p (fixed p (S754_zero false)) 0.
Proof.
  exists 0. split; [apply fixed_zero|]. assert (T : (0 < 2 * 10 ^ Z.of_nat p)%Z) by (assert (0 < 10 ^ Z.of_nat p)%Z by (apply Z.pow_pos_nonneg; lia); lia).
  assert (TQ : 0 < inject_Z (2 * 10 ^ Z.of_nat p)) by (rewrite (Zlt_Qlt 0) in T; exact T).
  assert (0 < 1 / inject_Z (2 * 10 ^ Z.of_nat p)) by (apply Qlt_shift_div_l; [assumption|lra]).
  setoid_replace (0 - 0) with 0 by ring. setoid_replace (0 * (1 # 2 ^ 50)) with 0 by ring. change (Qabs 0) with 0. lra.
Qed.
Lemma close_exact x n : (0 < n < 2 ^ 53)%Z -> x = f64_of_Z n -> close 0 (val x) (inject_Z n).
Proof.
  intros H ->. unfold close. pose proof (of_Z_exact n H) as E. assert (0 < inject_Z n) by (rewrite <- (Zlt_Qlt 0); apply H).
  cbn [Z.of_nat Qpower]. rewrite E. repeat split; try assumption; lra.
Qed.
Lemma close_eq k v w w' : w == w' -> close k v w -> close k v w'.
Proof. intros E [A [B [C D]]]. unfold close. rewrite <- E. repeat split; assumption. Qed.
Definition time_ok (ns : Z) : Prop := (0 < ns < 2 ^ 63)%Z.
Lemma seconds_close ns : time_ok ns -> normal (seconds ns) (-118) 24 /\ close 2 (val (seconds ns)) (inject_Z ns / inject_Z 1000000000).
Proof.
  intros H. destruct (of_Z_close ns H) as [N C]. destruct (of_Z_close 1000000000 ltac:(lia)) as [N9 _].
  destruct (div_close _ _ _ _ _ _ N N9 ltac:(lia) ltac:(lia) ltac:(lia) ltac:(lia)) as [N' C']. split; [exact N'|].
  apply (close_trans 1 1 _ _ _ C'). exact (close_div 1 0 _ _ _ _ C (close_exact _ 1000000000 ltac:(lia) eq_refl)).
Qed.
Lemma zero_div y lo hi : normal y lo hi -> f64_div (S754_zero false) y = S754_zero false.
Proof. intros [m [e [-> _]]]. reflexivity. Qed.
Lemma inj_pos n : (0 < n)%Z -> 0 < inject_Z n.
Proof. intros H. rewrite <- (Zlt_Qlt 0). exact H. Qed.
Lemma mib_shows p bytes ns : (0 <= bytes < 2 ^ 63)%Z -> time_ok ns -> shows p (fixed p (mib_rate bytes (seconds ns))) (inject_Z bytes / 1048576 / (inject_Z ns / 1000000000)).
Proof.
  intros H T. destruct (seconds_close ns T) as [NT CT]. destruct (of_Z_close 1048576 ltac:(lia)) as [NM _]. pose proof (inj_pos ns (proj1 T)) as TP. unfold mib_rate.
  destruct (Z.eq_dec bytes 0) as [->|NZ].
  - change (f64_of_Z 0) with (S754_zero false). unfold f64_MiB. rewrite (zero_div _ _ _ NM), (zero_div _ _ _ NT). destruct (zero_shows p) as [d [A B]]. exists d. split; [assumption|].
    setoid_replace (inject_Z 0 / 1048576 / (inject_Z ns / 1000000000)) with 0 by (setoid_replace (inject_Z 0) with 0 by reflexivity; field; lra). assumption.
  - destruct (of_Z_close bytes ltac:(lia)) as [NB CB].
    destruct (div_close _ _ _ _ _ _ NB NM ltac:(lia) ltac:(lia) ltac:(lia) ltac:(lia)) as [N1 C1].
    destruct (div_close _ _ _ _ _ _ N1 NT ltac:(lia) ltac:(lia) ltac:(lia) ltac:(lia)) as [N2 C2].
    refine (fixed_shows p _ _ _ _ N2 _).
    pose proof (close_trans 1 1 _ _ _ C1 (close_div 1 0 _ _ _ _ CB (close_exact _ 1048576 ltac:(lia) eq_refl))) as D1.
    exact (close_trans 1 4 _ _ _ C2 (close_div 2 2 _ _ _ _ D1 CT)).
Qed.
Lemma kqps_shows p n ns : (0 <= n < 2 ^ 63)%Z -> time_ok ns -> shows p (fixed p (f64_div (f64_div (f64_of_Z n) (seconds ns)) f64_1000)) (inject_Z n / (inject_Z ns / 1000000000) / 1000).
Proof.
  intros H T. destruct (seconds_close ns T) as [NT CT]. destruct (of_Z_close 1000 ltac:(lia)) as [NM _]. pose proof (inj_pos ns (proj1 T)) as TP.
  destruct (Z.eq_dec n 0) as [->|NZ].
  - change (f64_of_Z 0) with (S754_zero false). unfold f64_1000. rewrite (zero_div _ _ _ NT), (zero_div _ _ _ NM). destruct (zero_shows p) as [d [A B]]. exists d. split; [assumption|].
    setoid_replace (inject_Z 0 / (inject_Z ns / 1000000000) / 1000) with 0 by (setoid_replace (inject_Z 0) with 0 by reflexivity; field; lra). assumption.
  - destruct (of_Z_close n ltac:(lia)) as [NB CB].
    destruct (div_close _ _ _ _ _ _ NB NT ltac:(lia) ltac:(lia) ltac:(lia) ltac:(lia)) as [N1 C1].
    destruct (div_close _ _ _ _ _ _ N1 NM ltac:(lia) ltac:(lia) ltac:(lia) ltac:(lia)) as [N2 C2].
    refine (fixed_shows p _ _ _ _ N2 _).
    pose proof (close_trans 1 3 _ _ _ C1 (close_div 1 2 _ _ _ _ CB CT)) as D1.
    exact (close_trans 1 4 _ _ _ C2 (close_div 4 0 _ _ _ _ D1 (close_exact _ 1000 ltac:(lia) eq_refl))).
Qed.
Lemma total_kqps_shows p n ns : (0 <= n < 2 ^ 63)%Z -> time_ok ns -> shows p (fixed p (f64_div (f64_div (f64_of_Z n) f64_1000) (seconds ns))) (inject_Z n / 1000 / (inject_Z ns / 1000000000)).
Proof.
  intros H T. destruct (seconds_close ns T) as [NT CT]. destruct (of_Z_close 1000 ltac:(lia)) as [NM _]. pose proof (inj_pos ns (proj1 T)) as TP.
  destruct (Z.eq_dec n 0) as [->|NZ].
  - change (f64_of_Z 0) with (S754_zero false). unfold f64_1000. rewrite (zero_div _ _ _ NM), (zero_div _ _ _ NT). destruct (zero_shows p) as [d [A B]]. exists d. split; [assumption|].
    setoid_replace (inject_Z 0 / 1000 / (inject_Z ns / 1000000000)) with 0 by (setoid_replace (inject_Z 0) with 0 by reflexivity; field; lra). assumption.
  - destruct (of_Z_close n ltac:(lia)) as [NB CB].
    destruct (div_close _ _ _ _ _ _ NB NM ltac:(lia) ltac:(lia) ltac:(lia) ltac:(lia)) as [N1 C1].
    destruct (div_close _ _ _ _ _ _ N1 NT ltac:(lia) ltac:(lia) ltac:(lia) ltac:(lia)) as [N2 C2].
    refine (fixed_shows p _ _ _ _ N2 _).
    pose proof (close_trans 1 1 _ _ _ C1 (close_div 1 0 _ _ _ _ CB (close_exact _ 1000 ltac:(lia) eq_refl))) as D1.
    exact (close_trans 1 4 _ _ _ C2 (close_div 2 2 _ _ _ _ D1 CT)).
Qed.
Lemma time_shows p ns : time_ok ns -> shows p (fixed p (seconds ns)) (inject_Z ns / 1000000000).
Proof. intros T. destruct (seconds_close ns T) as [NT CT]. exact (fixed_shows p _ _ _ _ NT (close_more 2 5 _ _ ltac:(lia) CT)). Qed.
