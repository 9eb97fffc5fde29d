(** Sums and differences of doubles, and TimevalToDouble. *)
From Coq Require Import ZArith QArith Qabs Qpower Qfield Bool SpecFloat Lia Lqa.
From Verif Require Import Float_Model Text_Model Float_Proofs Float_Proofs2 Float_Proofs3 Usage_Model.
Open Scope Z_scope.

(** Any positive number is rounded with a relative error of 2^-53. *)
Lemma round_any p e : -400 <= e <= 400 -> Z.pos p < 2 ^ 200 ->
  normal (binary_round 53 1024 false p e) (e - 53) (e + 149) /\ close 1 (val (binary_round 53 1024 false p e)) (inject_Z (Z.pos p) * (2 # 1) ^ e)%Q.
Proof.
  intros He Hp. pose proof (digits_bound p) as DB. set (d := Z.pos (digits2_pos p)) in *. assert (0 < d) by reflexivity.
  assert (D2 : d <= 200) by (apply (digits_lt p 200); lia).
  unfold binary_round. fold d. rewrite fexp_53 by lia.
  destruct (Z_lt_le_dec d 53) as [L|L].
  - destruct (shl_value p e (d + e - 53) ltac:(lia)) as [m' [-> E]]. pose proof (digits_shl p m' (e - (d + e - 53)) ltac:(lia) E) as D. fold d in D.
    assert (M : full m'). { pose proof (digits_bound m') as B. rewrite D in B. replace (d + (e - (d + e - 53))) with 53 in B by lia. exact B. }
    destruct (round_fraction_wide 53 (Z.pos m') 1 (d + e - 53) ltac:(lia) ltac:(lia) ltac:(unfold full in M; lia) ltac:(lia)) as [m [e' [R [F [E' V]]]]].
    rewrite Z.div_1_r, Z.mod_1_r in R. cbn [where_ Z.eqb] in R. unfold where_ in R. cbn [Z.eqb] in R. rewrite R.
    split; [exists m, e'; split; [reflexivity|]; split; [assumption|lia]|].
    pose proof (fraction_close (Z.pos m') 1 m (d + e - 53) e' ltac:(lia) ltac:(lia) ltac:(lia) V) as C.
    assert (X : (inject_Z (Z.pos m') / inject_Z 1 * (2 # 1) ^ (d + e - 53) == inject_Z (Z.pos p) * (2 # 1) ^ e)%Q).
    { rewrite E, inject_Z_mult, <- pow_inject by lia. assert (T : ((2 # 1) ^ e == (2 # 1) ^ (e - (d + e - 53)) * (2 # 1) ^ (d + e - 53))%Q) by (rewrite <- two_pow; replace (e - (d + e - 53) + (d + e - 53)) with e by lia; reflexivity).
      rewrite T. field. }
    destruct C as [C1 [C2 [C3 C4]]]. unfold close. rewrite <- X. repeat split; assumption.
  - rewrite shl_keep by lia.
    destruct (round_fraction_wide 200 (Z.pos p) 1 e ltac:(lia) ltac:(lia)) as [m [e' [R [F [E' V]]]]].
    + split; [|lia]. rewrite Z.mul_1_r. apply Z.le_trans with (2 := proj1 DB). apply Z.pow_le_mono_r; lia.
    + lia.
    + rewrite Z.div_1_r, Z.mod_1_r in R. unfold where_ in R. cbn [Z.eqb] in R. rewrite R.
      split; [exists m, e'; split; [reflexivity|]; split; [assumption|lia]|].
      pose proof (fraction_close (Z.pos p) 1 m e e' ltac:(lia) ltac:(lia) ltac:(lia) V) as C.
      assert (X : (inject_Z (Z.pos p) / inject_Z 1 * (2 # 1) ^ e == inject_Z (Z.pos p) * (2 # 1) ^ e)%Q) by field.
      destruct C as [C1 [C2 [C3 C4]]]. unfold close. rewrite <- X. repeat split; assumption.
Qed.

(** Two doubles brought to the same exponent. *)
Lemma align m e ez : ez <= e -> exists m', fst (shl_align m e ez) = m' /\ Z.pos m' = Z.pos m * 2 ^ (e - ez)
  /\ (val (S754_finite false m e) == inject_Z (Z.pos m') * (2 # 1) ^ ez)%Q.
Proof.
  intros H. destruct (shl_value m e ez H) as [m' [-> E]]. exists m'. split; [reflexivity|]. split; [assumption|].
  unfold val. rewrite E, inject_Z_mult, <- pow_inject by lia. replace e with ((e - ez) + ez) at 1 by lia. rewrite two_pow. ring.
Qed.
Lemma aligned_small m e ez : full m -> 0 <= e - ez <= 140 -> Z.pos m * 2 ^ (e - ez) < 2 ^ 193.
Proof.
  intros [_ F] E. assert (2 ^ (e - ez) <= 2 ^ 140) by (apply Z.pow_le_mono_r; lia). assert (0 < 2 ^ (e - ez)) by (apply Z.pow_pos_nonneg; lia).
  apply Z.lt_le_trans with (2 ^ 53 * 2 ^ (e - ez)); [apply Z.mul_lt_mono_pos_r; assumption|]. change (2 ^ 193) with (2 ^ 53 * 2 ^ 140). apply Z.mul_le_mono_nonneg_l; [lia|assumption].
Qed.
Definition moderate (x : spec_float) : Prop := normal x (-80) 30.
Lemma add_moderate x y : moderate x -> moderate y -> normal (f64_add x y) (-133) 179 /\ close 1 (val (f64_add x y)) (val x + val y)%Q.
Proof.
  intros [m1 [e1 [-> [F1 E1]]]] [m2 [e2 [-> [F2 E2]]]]. unfold f64_add. cbn [SFadd cond_Zopp]. set (ez := Z.min e1 e2).
  destruct (align m1 e1 ez ltac:(lia)) as [a [-> [A1 A2]]]. destruct (align m2 e2 ez ltac:(lia)) as [b [-> [B1 B2]]].
  pose proof (aligned_small m1 e1 ez F1 ltac:(lia)) as SA. pose proof (aligned_small m2 e2 ez F2 ltac:(lia)) as SB.
  change (Z.pos a + Z.pos b) with (Z.pos (a + b)). cbn [binary_normalize].
  assert (S : Z.pos (a + b) < 2 ^ 200). { rewrite Pos2Z.inj_add, A1, B1. change (2 ^ 200) with (128 * 2 ^ 193). lia. }
  destruct (round_any (a + b) ez ltac:(lia) S) as [[m [e [R [F E]]]] C]. rewrite R in *. split; [exists m, e; split; [reflexivity|]; split; [assumption|lia]|].
  assert (X : (inject_Z (Z.pos (a + b)) * (2 # 1) ^ ez == val (S754_finite false m1 e1) + val (S754_finite false m2 e2))%Q).
  { rewrite A2, B2, Pos2Z.inj_add, inject_Z_plus. ring. }
  destruct C as [C1 [C2 [C3 C4]]]. unfold close. rewrite <- X. repeat split; assumption.
Qed.
Lemma sub_moderate x y : moderate x -> moderate y -> (val y < val x)%Q -> normal (f64_sub x y) (-133) 179 /\ close 1 (val (f64_sub x y)) (val x - val y)%Q.
Proof.
  intros [m1 [e1 [-> [F1 E1]]]] [m2 [e2 [-> [F2 E2]]]] L. unfold f64_sub. cbn [SFsub cond_Zopp]. set (ez := Z.min e1 e2).
  destruct (align m1 e1 ez ltac:(lia)) as [a [-> [A1 A2]]]. destruct (align m2 e2 ez ltac:(lia)) as [b [-> [B1 B2]]].
  pose proof (aligned_small m1 e1 ez F1 ltac:(lia)) as SA.
  assert (PE : (0 < (2 # 1) ^ ez)%Q) by (apply Qpower_0_lt; reflexivity).
  assert (AB : Z.pos b < Z.pos a). { rewrite A2, B2 in L. rewrite Zlt_Qlt. apply Qmult_lt_r with (2 := L). exact PE. }
  destruct (Z.pos a - Z.pos b) as [|p|p] eqn:D; [lia| |lia]. cbn [binary_normalize].
  assert (S : Z.pos p < 2 ^ 200). { rewrite <- D, A1. change (2 ^ 200) with (128 * 2 ^ 193). lia. }
  destruct (round_any p ez ltac:(lia) S) as [[m [e [R [F E]]]] C]. rewrite R in *. split; [exists m, e; split; [reflexivity|]; split; [assumption|lia]|].
  assert (X : (inject_Z (Z.pos p) * (2 # 1) ^ ez == val (S754_finite false m1 e1) - val (S754_finite false m2 e2))%Q).
  { rewrite A2, B2, <- D. unfold Zminus, Qminus. rewrite inject_Z_plus, inject_Z_opp. ring. }
  destruct C as [C1 [C2 [C3 C4]]]. unfold close. rewrite <- X. repeat split; assumption.
Qed.
Lemma sub_same x : moderate x \/ x = S754_zero false -> f64_sub x x = S754_zero false.
Proof.
  intros [[m [e [-> [F E]]]]| ->]; [|reflexivity]. unfold f64_sub. cbn [SFsub cond_Zopp].
  destruct (align m e (Z.min e e) ltac:(lia)) as [a [-> _]]. rewrite Z.sub_diag. reflexivity.
Qed.

(** ** TimevalToDouble *)
Open Scope Q_scope.
Definition seconds_of (t : timeval) : Q := inject_Z (tv_sec t) + inject_Z (tv_usec t) / inject_Z 1000000.
Definition sane (t : timeval) : Prop := (0 <= tv_sec t < 2 ^ 30)%Z /\ (0 <= tv_usec t < 1000000)%Z.
Lemma close_abs V W B : close 1 V W -> W <= B -> Qabs (V - W) <= B * (1 # 9007199254740000).
Proof.
  intros [C1 [C2 [C3 C4]]] HB. change (unit_ ^ Z.of_nat 1) with (1 - (1 # 9007199254740992)) in *. apply Qabs_Qle_condition. split; lra.
Qed.
(** The error, in seconds. *)
Definition slack : Q := 1 # 8000000.
Definition represents (x : spec_float) (t : timeval) : Prop :=
  (moderate x \/ x = S754_zero false) /\ Qabs (val x - seconds_of t) <= slack.
Lemma of_Z_small n : (0 <= n < 2 ^ 31)%Z -> (f64_of_Z n = S754_zero false /\ n = 0%Z) \/ (0 < n)%Z /\ normal (f64_of_Z n) (-53) 12 /\ val (f64_of_Z n) == inject_Z n.
Proof.
  intros H. destruct (Z.eq_dec n 0) as [->|N]; [left; split; reflexivity|right].
  split; [lia|]. split; [apply of_Z_close; lia|apply of_Z_exact; lia].
Qed.
Lemma micro_part n : (0 <= n < 1000000)%Z -> let x := f64_div (f64_of_Z n) f64_1e6 in
  (x = S754_zero false /\ n = 0%Z) \/ (0 < n)%Z /\ moderate x /\ Qabs (val x - inject_Z n / inject_Z 1000000) <= 1 # 9007199254740000.
Proof.
  intros H x. destruct (of_Z_small n ltac:(lia)) as [[E ->]|[P [N V]]]; [left; split; [unfold x; rewrite E; reflexivity|reflexivity]|right].
  split; [assumption|]. assert (F : normal f64_1e6 (-33) (-33)) by (exists 8589934592000000%positive, (-33)%Z; split; [reflexivity|]; split; [unfold full; lia|lia]).
  destruct (of_Z_value n ltac:(lia)) as [m [EV [E [D FF]]]].
  assert (N2 : normal (f64_of_Z n) (-53) (-33)).
  { exists m, (Z.pos (digits2_pos (Z.to_pos n)) - 53)%Z. split; [exact EV|]. split; [pose proof (digits_bound m) as B; rewrite FF in B; exact B|].
    assert (Z.pos (digits2_pos (Z.to_pos n)) <= 20)%Z by (apply (digits_lt (Z.to_pos n) 20); [lia|]; rewrite Z2Pos.id by lia; change (2 ^ 20)%Z with 1048576%Z; lia). lia. }
  destruct (div_close (f64_of_Z n) f64_1e6 _ _ _ _ N2 F ltac:(lia) ltac:(lia) ltac:(lia) ltac:(lia)) as [[m' [e' [R [FR ER]]]] C].
  fold x in R, C. split; [exists m', e'; split; [exact R|]; split; [assumption|lia]|].
  assert (VF : val f64_1e6 == inject_Z 1000000) by reflexivity.
  assert (W : val (f64_of_Z n) / val f64_1e6 == inject_Z n / inject_Z 1000000) by (rewrite V, VF; reflexivity).
  assert (B : val (f64_of_Z n) / val f64_1e6 <= 1). { rewrite W. apply Qle_shift_div_r; [reflexivity|]. rewrite Qmult_1_l, <- Zle_Qle. lia. }
  pose proof (close_abs _ _ 1 C B) as A. rewrite W in A. rewrite Qmult_1_l in A. exact A.
Qed.
Lemma timeval_value t : sane t -> represents (timeval_to_double t) t.
Proof.
  intros [S U]. unfold represents, timeval_to_double, seconds_of.
  assert (BS : 0 <= inject_Z (tv_sec t) /\ inject_Z (tv_sec t) <= 1073741824).
  { change 0 with (inject_Z 0). change 1073741824 with (inject_Z 1073741824). rewrite <- !Zle_Qle. change (2 ^ 30)%Z with 1073741824%Z in S. lia. }
  assert (BU : 0 <= inject_Z (tv_usec t) / inject_Z 1000000 /\ inject_Z (tv_usec t) / inject_Z 1000000 <= 1).
  { split; [apply Qle_shift_div_l; [reflexivity|]; rewrite Qmult_0_l; change 0 with (inject_Z 0); rewrite <- Zle_Qle; lia|].
    apply Qle_shift_div_r; [reflexivity|]. rewrite Qmult_1_l, <- Zle_Qle. lia. }
  set (s := inject_Z (tv_sec t)) in *. set (u := inject_Z (tv_usec t) / inject_Z 1000000) in *. unfold slack.
  destruct (of_Z_small (tv_sec t) ltac:(lia)) as [[ES ZS]|[PS [NS VS]]]; destruct (micro_part (tv_usec t) U) as [[EU ZU]|[PU [NU VU]]]; rewrite ?ES, ?EU; try (fold s in VS); try (fold u in VU).
  - split; [right; reflexivity|]. assert (s == 0) by (unfold s; rewrite ZS; reflexivity). assert (u == 0) by (unfold u; rewrite ZU; reflexivity).
    change (val (f64_add (S754_zero false) (S754_zero false))) with 0. apply Qabs_Qle_condition. split; lra.
  - assert (X : f64_add (f64_div (f64_of_Z (tv_usec t)) f64_1e6) (S754_zero false) = f64_div (f64_of_Z (tv_usec t)) f64_1e6).
    { destruct NU as [m [e [-> _]]]. reflexivity. }
    rewrite X. split; [left; assumption|]. assert (s == 0) by (unfold s; rewrite ZS; reflexivity).
    apply Qabs_Qle_condition in VU. apply Qabs_Qle_condition. split; lra.
  - assert (X : f64_add (S754_zero false) (f64_of_Z (tv_sec t)) = f64_of_Z (tv_sec t)).
    { destruct NS as [m [e [-> _]]]. reflexivity. }
    rewrite X. split; [left; destruct NS as [m [e [-> [F E]]]]; exists m, e; split; [reflexivity|]; split; [assumption|lia]|].
    assert (u == 0) by (unfold u; rewrite ZU; reflexivity). apply Qabs_Qle_condition. rewrite VS. split; lra.
  - assert (MS : moderate (f64_of_Z (tv_sec t))) by (destruct NS as [m [e [-> [F E]]]]; exists m, e; split; [reflexivity|]; split; [assumption|lia]).
    destruct (add_moderate _ _ NU MS) as [[m [e [R [F E]]]] C]. rewrite R in *.
    apply Qabs_Qle_condition in VU. assert (VS' : val (f64_of_Z (tv_sec t)) == s) by exact VS.
    pose proof (close_abs _ _ 1073741826 C ltac:(lra)) as A. apply Qabs_Qle_condition in A.
    assert (EB : (-80 <= e <= 30)%Z).
    { assert (V1 : val (S754_finite false m e) <= 1073741828) by lra. assert (V2 : 1 # 2000000 <= val (S754_finite false m e)).
      { assert (1 <= s) by (unfold s; change 1 with (inject_Z 1); rewrite <- Zle_Qle; lia). lra. }
      destruct F as [F1 F2]. split.
      - destruct (Z_le_gt_dec (-80) e) as [|G]; [assumption|exfalso].
        assert (val (S754_finite false m e) <= inject_Z (2 ^ 53) * (2 # 1) ^ (-81)).
        { unfold val. rewrite Qmult_1_l. apply Qle_trans with (inject_Z (2 ^ 53) * (2 # 1) ^ e).
          - apply Qmult_le_compat_r; [rewrite <- Zle_Qle; lia|]. apply Qpower_0_le. discriminate.
          - rewrite !(Qmult_comm (inject_Z (2 ^ 53))). apply Qmult_le_compat_r; [|discriminate]. apply Qpower_le_compat_l; [lia|discriminate]. }
        change (inject_Z (2 ^ 53) * (2 # 1) ^ (-81)) with (9007199254740992 * (1 # 2417851639229258349412352)) in H. lra.
      - destruct (Z_le_gt_dec e 30) as [|G]; [assumption|exfalso].
        assert (inject_Z (2 ^ 52) * (2 # 1) ^ 31 <= val (S754_finite false m e)).
        { unfold val. rewrite Qmult_1_l. apply Qle_trans with (inject_Z (2 ^ 52) * (2 # 1) ^ e).
          - rewrite !(Qmult_comm (inject_Z (2 ^ 52))). apply Qmult_le_compat_r; [|discriminate]. apply Qpower_le_compat_l; [lia|discriminate].
          - apply Qmult_le_compat_r; [rewrite <- Zle_Qle; lia|]. apply Qpower_0_le. discriminate. }
        change (inject_Z (2 ^ 52) * (2 # 1) ^ 31) with (4503599627370496 * 2147483648) in H. lra. }
    split; [left; exists m, e; split; [reflexivity|]; split; [assumption|exact EB]|].
    apply Qabs_Qle_condition. split; lra.
Qed.

(** ** The difference of two times *)
Definition microseconds (t : timeval) : Z := (tv_sec t * 1000000 + tv_usec t)%Z.
Lemma seconds_micro t : seconds_of t * inject_Z 1000000 == inject_Z (microseconds t).
Proof. unfold seconds_of, microseconds. rewrite inject_Z_plus, inject_Z_mult. field. Qed.
(** A finite number that is not negative. *)
Definition counts (x : spec_float) : Prop := match x with S754_zero _ => True | S754_finite s _ _ => s = false | _ => False end.
Lemma represents_val x t : represents x t -> val x * inject_Z 1000000 <= inject_Z (microseconds t) + (1 # 8) /\ inject_Z (microseconds t) - (1 # 8) <= val x * inject_Z 1000000.
Proof.
  intros [_ A]. apply Qabs_Qle_condition in A. rewrite <- seconds_micro. unfold slack in A. change (inject_Z 1000000) with 1000000. split; lra.
Qed.
Lemma span s e : sane s -> sane e -> (microseconds s <= microseconds e)%Z ->
  let d := f64_sub (timeval_to_double e) (timeval_to_double s) in
  counts d /\ Qabs (val d * inject_Z 1000000 - inject_Z (microseconds e - microseconds s)) < 1 # 2.
Proof.
  intros Ss Se L. cbv zeta. destruct (Z.eq_dec (microseconds s) (microseconds e)) as [Q|Q].
  - assert (X : s = e). { destruct s as [s1 s2], e as [e1 e2]. unfold microseconds, sane in *. cbn [tv_sec tv_usec] in *. f_equal; lia. }
    subst e. pose proof (timeval_value s Ss) as [M _]. rewrite (sub_same _ M), Z.sub_diag. split; [exact Logic.I|reflexivity].
  - pose proof (timeval_value s Ss) as Rs. pose proof (timeval_value e Se) as Re.
    pose proof (represents_val _ _ Rs) as [S1 S2]. pose proof (represents_val _ _ Re) as [E1 E2]. destruct Rs as [Ms _], Re as [Me _].
    set (x := timeval_to_double e) in *. set (y := timeval_to_double s) in *.
    assert (D : inject_Z (microseconds s) + 1 <= inject_Z (microseconds e)).
    { change 1 with (inject_Z 1). rewrite <- inject_Z_plus, <- Zle_Qle. lia. }
    assert (DB : inject_Z (microseconds e) <= 1073741824000000 /\ 0 <= inject_Z (microseconds s)).
    { change 1073741824000000 with (inject_Z 1073741824000000). change 0 with (inject_Z 0). rewrite <- !Zle_Qle. unfold sane, microseconds in *. lia. }
    assert (DE : inject_Z (microseconds e - microseconds s) == inject_Z (microseconds e) - inject_Z (microseconds s)).
    { unfold Zminus. rewrite inject_Z_plus, inject_Z_opp. reflexivity. }
    rewrite DE. set (a := inject_Z (microseconds s)) in *. set (b := inject_Z (microseconds e)) in *. change (inject_Z 1000000) with 1000000 in *.
    assert (VL : val y < val x) by lra.
    assert (MX : moderate x). { destruct Me as [|Z]; [assumption|]. rewrite Z in *. cbn [val] in *. exfalso. lra. }
    destruct Ms as [MY|Z].
    + destruct (sub_moderate x y MX MY VL) as [[m [e' [R _]]] C]. rewrite R in *. split; [reflexivity|].
      pose proof (close_abs _ _ 1073741825 C ltac:(lra)) as A. apply Qabs_Qle_condition in A.
      apply Qabs_case; intros; lra.
    + rewrite Z in *. assert (X : f64_sub x (S754_zero false) = x) by (destruct MX as [m [e' [-> _]]]; reflexivity). rewrite X.
      split; [destruct MX as [m [e' [-> _]]]; reflexivity|]. cbn [val] in *. apply Qabs_case; intros; lra.
Qed.
