(** C38: which distributions ValidateDistributionConfig accepts. *)
From Coq Require Import Ascii String List ZArith Bool Lia Arith SpecFloat.
From Verif Require Import Base_Model Base_Proofs Float_Model Float_Proofs Float_Proofs2 Dist_Model Dist_Proofs2.
Import ListNotations.
Open Scope Z_scope.

(** A number of at most 53 digits and moderate exponent is a double. *)
Lemma round_exact : forall s p e, Z.pos p < 2 ^ 53 -> -60 <= e <= 0 ->
  exists m e', binary_round 53 1024 s p e = S754_finite s m e' /\ valid_binary 53 1024 (S754_finite s m e') = true
    /\ Z.pos m * 2 ^ (e' + 1100) = Z.pos p * 2 ^ (e + 1100).
Proof.
  intros s p e P R. pose proof (digits_lt p 53 ltac:(lia) P) as D0. unfold binary_round. set (d := Z.pos (digits2_pos p)) in *. assert (0 < d) by reflexivity.
  assert (F : fexp 53 1024 (d + e) = d + e - 53) by (unfold fexp, emin; lia). rewrite F.
  destruct (shl_value p e (d + e - 53) ltac:(lia)) as [m' [-> E]]. pose proof (digits_shl p m' (e - (d + e - 53)) ltac:(lia) E) as D. fold d in D.
  unfold binary_round_aux, shr_fexp. cbn [Zdigits2 shr_record_of_loc]. rewrite D.
  assert (F2 : fexp 53 1024 (d + (e - (d + e - 53)) + (d + e - 53)) - (d + e - 53) = 0) by (unfold fexp, emin; lia). rewrite F2.
  cbn [shr shr_m loc_of_shr_record round_nearest_even Zdigits2 shr_record_of_loc]. rewrite D, F2. cbn [shr shr_m].
  destruct (Z.leb_spec (d + e - 53) (1024 - 53)) as [L|L]; [|lia]. exists m', (d + e - 53). split; [reflexivity|]. split.
  - cbn [valid_binary]. unfold bounded, canonical_mantissa. apply andb_true_iff. split; [|apply Z.leb_le; lia]. apply Zeq_is_eq_bool. rewrite D. unfold fexp, emin. lia.
  - rewrite E, <- Z.mul_assoc, <- Z.pow_add_r by lia. do 2 f_equal. lia.
Qed.
Lemma ltb_asym : forall m e m' e', SFltb (S754_finite false m e) (S754_finite false m' e') = true -> SFltb (S754_finite false m' e') (S754_finite false m e) = false.
Proof.
  intros m e m' e'. unfold SFltb, SFcompare. rewrite (Z.compare_antisym e e'). destruct (e ?= e'); cbn [CompOpp]; try discriminate; try reflexivity.
  change (Pos.compare_cont Eq m m') with (Pos.compare m m'). change (Pos.compare_cont Eq m' m) with (Pos.compare m' m). rewrite (Pos.compare_antisym m m'). destruct (Pos.compare m m'); cbn [CompOpp]; try discriminate; reflexivity.
Qed.
(** How far a number k/2^53 may be from 1. *)
Lemma tolerance : forall s p, Z.pos p < 2 ^ 53 -> SFltb f64_1e_6 (SFabs (binary_round 53 1024 s p (-53))) = false <-> Z.pos p * 2 ^ 19 <= 4722366482869645.
Proof.
  intros s p P. destruct (round_exact s p (-53) P ltac:(lia)) as (m & e & -> & V & U). cbn [SFabs]. change (-53 + 1100) with 1047 in U.
  assert (V' : valid_binary 53 1024 (S754_finite false m e) = true) by exact V. assert (W : valid_binary 53 1024 f64_1e_6 = true) by reflexivity. unfold f64_1e_6 in *.
  split; intros K.
  - pose proof (ltb_units 53 1024 _ _ W V' Logic.I Logic.I ltac:(lia) K) as X. cbn [units] in X. rewrite U in X. change (-72 + 1100) with 1028 in X.
    replace (2 ^ 1047) with (2 ^ 19 * 2 ^ 1028) in X by reflexivity. rewrite Z.mul_assoc in X. apply Z.mul_le_mono_pos_r in X; [exact X|reflexivity].
  - destruct (SFltb (S754_finite false 4722366482869645 (-72)) (S754_finite false m e)) eqn:L; [|reflexivity]. exfalso. pose proof (ltb_asym _ _ _ _ L) as A.
    pose proof (ltb_units 53 1024 _ _ V' W Logic.I Logic.I ltac:(lia) A) as X. cbn [units] in X. rewrite U in X. change (-72 + 1100) with 1028 in X.
    replace (2 ^ 1047) with (2 ^ 19 * 2 ^ 1028) in X by reflexivity. rewrite Z.mul_assoc in X. apply Z.mul_le_mono_pos_r in X; [|reflexivity].
    assert (O : Z.pos p * 2 ^ 19 = 4722366482869645) by lia. change (2 ^ 19) with (2 * 262144) in O. lia.
Qed.
Lemma widen_24 : forall m e, 2 ^ 23 <= Z.pos m < 2 ^ 24 -> e = -24 \/ e = -23 -> exists m', f64_of_f32 (S754_finite false m e) = S754_finite false m' (e - 29) /\ Z.pos m' = Z.pos m * 2 ^ 29.
Proof.
  intros m e B Ee. assert (D0 : Z.pos (digits2_pos m) = 24) by (apply digits_unique; exact B). unfold f64_of_f32, f_convert, binary_round. rewrite D0.
  assert (F : fexp 53 1024 (24 + e) = e - 29) by (unfold fexp, emin; lia). rewrite F.
  destruct (shl_value m e (e - 29) ltac:(lia)) as [m' [-> E]]. replace (e - (e - 29)) with 29 in E by lia. pose proof (digits_shl m m' 29 ltac:(lia) E) as D. rewrite D0 in D.
  unfold binary_round_aux, shr_fexp. cbn [Zdigits2 shr_record_of_loc]. rewrite D. assert (F2 : fexp 53 1024 (24 + 29 + (e - 29)) - (e - 29) = 0) by (unfold fexp, emin; lia). rewrite F2.
  cbn [shr shr_m loc_of_shr_record round_nearest_even Zdigits2 shr_record_of_loc]. rewrite D, F2. cbn [shr shr_m]. destruct (Z.leb_spec (e - 29) (1024 - 53)) as [L|L]; [|lia]. exists m'. split; [reflexivity|exact E].
Qed.
Lemma sum_check : forall m e, 2 ^ 23 <= Z.pos m < 2 ^ 24 -> e = -24 \/ e = -23 ->
  SFltb f64_1e_6 (SFabs (f64_sub (f64_of_f32 (S754_finite false m e)) f64_one)) = false <-> Z.abs (Z.pos m * 2 ^ (e + 24) - 2 ^ 24) <= 16.
Proof.
  intros m e B Ee. destruct (widen_24 m e B Ee) as (m' & -> & E). unfold f64_sub, f64_one, SFsub. cbn [cond_Zopp].
  destruct Ee as [-> | ->].
  - change (-24 - 29) with (-53). change (Z.min (-53) (-52)) with (-53). rewrite shl_keep by lia. destruct (shl_value 4503599627370496 (-52) (-53) ltac:(lia)) as [n [-> En]]. cbn [fst].
    change (-52 - -53) with 1 in En. change (-24 + 24) with 0. rewrite E, En. change (2 ^ 0) with 1. change (2 ^ 1) with 2. change (2 ^ 29) with 536870912. change (2 ^ 24) with 16777216 in *. change (2 ^ 23) with 8388608 in B.
    destruct (Z.pos m * 536870912 - 4503599627370496 * 2) as [|p|p] eqn:P; [lia|lia|]. cbn [binary_normalize]. rewrite tolerance by (change (2 ^ 53) with 9007199254740992; lia). change (2 ^ 19) with 524288. lia.
  - change (-23 - 29) with (-52). change (Z.min (-52) (-52)) with (-52). rewrite !shl_keep by lia. cbn [fst]. change (-23 + 24) with 1. rewrite E. change (2 ^ 1) with 2. change (2 ^ 29) with 536870912. change (2 ^ 24) with 16777216 in *. change (2 ^ 23) with 8388608 in B.
    destruct (Z.pos m * 536870912 - 4503599627370496) as [|p|p] eqn:P; [|  |lia].
    + cbn [binary_normalize SFabs]. split; [intros _; lia|reflexivity].
    + cbn [binary_normalize]. assert (P53 : Z.pos p < 2 ^ 53) by (change (2 ^ 53) with 9007199254740992; lia). destruct (round_exact false p (-52) P53 ltac:(lia)) as (m1 & e1 & -> & V & U). cbn [SFabs].
      change (-52 + 1100) with (1 + 1047) in U. rewrite (Z.pow_add_r 2 1 1047), Z.mul_assoc in U by lia. change (2 ^ 1) with 2 in U.
      assert (W : valid_binary 53 1024 f64_1e_6 = true) by reflexivity. unfold f64_1e_6 in *. split; intros K.
      * pose proof (ltb_units 53 1024 _ _ W V Logic.I Logic.I ltac:(lia) K) as X. cbn [units] in X. rewrite U in X. change (-72 + 1100) with 1028 in X.
        replace (2 ^ 1047) with (2 ^ 19 * 2 ^ 1028) in X by reflexivity. rewrite Z.mul_assoc in X. apply Z.mul_le_mono_pos_r in X; [|reflexivity]. change (2 ^ 19) with 524288 in X. lia.
      * destruct (SFltb (S754_finite false 4722366482869645 (-72)) (S754_finite false m1 e1)) eqn:L; [|reflexivity]. exfalso. pose proof (ltb_asym _ _ _ _ L) as A.
        pose proof (ltb_units 53 1024 _ _ V W Logic.I Logic.I ltac:(lia) A) as X. cbn [units] in X. rewrite U in X. change (-72 + 1100) with 1028 in X.
        replace (2 ^ 1047) with (2 ^ 19 * 2 ^ 1028) in X by reflexivity. rewrite Z.mul_assoc in X. apply Z.mul_le_mono_pos_r in X; [|reflexivity]. change (2 ^ 19) with 524288 in X. lia.
Qed.

Lemma loop_fold : forall k l s, Forall (fun p => length (pp_data p) = k) l -> pmf_loop k s l = inr (fold_left f32_add (map pp_pmf l) s).
Proof. intros k l. induction l as [|p l IH]; intros s F; cbn [pmf_loop map fold_left]; [reflexivity|]. inversion F as [|? ? F1 F2]; subst. rewrite Nat.eqb_refl. apply IH. exact F2. Qed.
(** A distribution given by points whose shape is right is accepted exactly if
    the weights, added in order as floats, give a number within 2^-20 of 1.  The
    sum here is m * 2^e, a float from one half up to two; 16 / 2^24 = 2^-20. *)
Theorem C38_weights_sum : forall c k m e,
  dc_pmf c <> [] -> dc_cdf c = [] -> NoDup (dc_fields c) -> dc_fields c = [] \/ length (dc_fields c) = k -> Forall (fun p => length (pp_data p) = k) (dc_pmf c) ->
  fold_left f32_add (map pp_pmf (dc_pmf c)) (S754_zero false) = S754_finite false m e -> 2 ^ 23 <= Z.pos m < 2 ^ 24 -> e = -24 \/ e = -23 ->
  validate_dist c = None <-> Z.abs (Z.pos m * 2 ^ (e + 24) - 2 ^ 24) <= 16.
Proof.
  intros c k m e Hp Hc Nd Dm Fp Su B Ee. rewrite <- (sum_check m e B Ee). unfold validate_dist. rewrite Hc. rewrite (repeats_complete (dc_fields c) [] Nd (fun x _ K => K)).
  assert (V : validate_pmf c = (if SFltb f64_1e_6 (SFabs (f64_sub (f64_of_f32 (S754_finite false m e)) f64_one)) then Some DEPmfSum else None)).
  { unfold validate_pmf. rewrite <- Su. set (d := match dc_fields c with [] => _ | _ => _ end). assert (Ed : d = k).
    { subst d. destruct (dc_fields c) as [|f fs]; [|destruct Dm as [D|D]; [discriminate D|exact D]]. destruct (dc_pmf c) as [|p l]; [contradiction|]. inversion Fp; subst; reflexivity. }
    rewrite Ed, (loop_fold k _ _ Fp). reflexivity. }
  rewrite V. destruct (dc_pmf c) as [|p l]; [contradiction|]. destruct (SFltb _ _); split; intros K; try reflexivity; discriminate K.
Qed.
(** A distribution given by a CDF is accepted exactly if the values grow, no
    number is below the one before it (the first not below 0), and the last is 1. *)
Fixpoint chained {A} (R : A -> A -> Prop) (x : A) (l : list A) : Prop := match l with [] => True | y :: r => R x y /\ chained R y r end.
Lemma cdf_loop_iff : forall l p, cdf_loop (cp_cdf p) (cp_value p) l = None <->
  chained (fun x y => cp_value x < cp_value y /\ SFltb (cp_cdf y) (cp_cdf x) = false) p l /\ SFeqb (cp_cdf (last l p)) (S754_finite false 8388608 (-23)) = true.
Proof.
  induction l as [|q l IH]; intros p.
  - cbn [cdf_loop chained last]. unfold f32_one. destruct (SFeqb _ _); split; try tauto; try discriminate. intros [_ K]. discriminate K.
  - cbn [cdf_loop chained]. replace (last (q :: l) p) with (last l q) by (clear; revert q; induction l as [|x l IH]; intros q; [reflexivity|cbn [last] in *; destruct l; [reflexivity|apply IH]]).
    destruct (Z.leb_spec (cp_value q) (cp_value p)) as [L|L]; [split; [discriminate|intros [[[K _] _] _]; lia]|].
    destruct (SFltb (cp_cdf q) (cp_cdf p)) eqn:S; [split; [discriminate|intros [[[_ K] _] _]; discriminate K]|]. rewrite IH. tauto.
Qed.
Theorem C38_cdf_accepted : forall c p l, dc_pmf c = [] -> dc_cdf c = p :: l -> NoDup (dc_fields c) ->
  validate_dist c = None <-> SFltb (cp_cdf p) (S754_zero false) = false
    /\ chained (fun x y => cp_value x < cp_value y /\ SFltb (cp_cdf y) (cp_cdf x) = false) p l
    /\ SFeqb (cp_cdf (last l p)) (S754_finite false 8388608 (-23)) = true.
Proof.
  intros c p l Hp Hc Nd. unfold validate_dist. rewrite Hp, Hc. rewrite (repeats_complete (dc_fields c) [] Nd (fun x _ K => K)). cbn [validate_cdf]. unfold f_zero.
  destruct (SFltb (cp_cdf p) (S754_zero false)); [split; [discriminate|intros [K _]; discriminate K]|]. rewrite cdf_loop_iff. tauto.
Qed.
Print Assumptions C38_weights_sum.
Print Assumptions C38_cdf_accepted.

Definition weighing (m : positive) (e : Z) : dist_config := mkDist (s_ "d") [mkPmf (S754_finite false 8388608 (-25)) [dp_exactly 1]; mkPmf (S754_finite false m e) [dp_range 5 9]] [] [s_ "payload_size"].
(** Weights 1/4 and 3/4, then sums 2^-20 and one float more below, and above, 1. *)
Example C38_ex_weights_sum : validate_dist (weighing 12582912 (-24)) = None
  /\ validate_dist (weighing (12582912 - 16) (-24)) = None /\ validate_dist (weighing (12582912 - 17) (-24)) = Some DEPmfSum
  /\ validate_dist (weighing (12582912 + 16) (-24)) = None /\ validate_dist (weighing (12582912 + 18) (-24)) = Some DEPmfSum
  /\ fold_left f32_add (map pp_pmf (dc_pmf (weighing (12582912 - 17) (-24)))) (S754_zero false) = S754_finite false (16777216 - 17) (-24).
Proof. vm_compute. repeat split; reflexivity. Qed.
