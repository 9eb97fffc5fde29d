(** Percentile indices, and when the summary is defined. *)
From Coq Require Import Ascii String List ZArith Bool Lia SpecFloat Permutation Sorted.
From Verif Require Import Base_Model Base_Proofs Float_Model Float_Proofs Log_Model Log_Proofs2 Sum_Model Sum_Proofs.
Import ListNotations.
Open Scope Z_scope.

(** ** The index N * (a / b), in double, is the right one *)
Lemma mul_le_l : forall p a b, 0 <= p -> a <= b -> p * a <= p * b.
Proof. intros. apply Z.mul_le_mono_nonneg_l; assumption. Qed.
Lemma slack : forall n a b h, 0 <= n <= 4398046511104 -> 0 <= a <= 1000 -> 0 <= b <= 1000 -> 0 <= h ->
  n * (a * h + b * h + b) <= 4398046511104 * (1000 * h + 1000 * h + 1000).
Proof.
  intros n a b h Hn Ha Hb Hh. assert (A : h * a <= h * 1000) by (apply mul_le_l; lia). assert (B : h * b <= h * 1000) by (apply mul_le_l; lia).
  assert (A0 : 0 <= h * a) by (apply Z.mul_nonneg_nonneg; lia). assert (B0 : 0 <= h * b) by (apply Z.mul_nonneg_nonneg; lia).
  rewrite (Z.mul_comm a h), (Z.mul_comm b h). set (x := h * a) in *. set (y := h * b) in *. clearbody x y. apply Z.mul_le_mono_nonneg; lia.
Qed.
Lemma index_core : forall n a b c h g V q, 0 < n -> 0 < a < b -> 0 < c -> 0 < g -> 1 < h ->
  n * (a * h + b * h + b) < h * h -> a * h - b <= b * c <= a * h + b ->
  q * (h * g) <= V -> V < (q + 1) * (h * g) -> V * h <= n * c * g * (h + 1) -> n * c * g * (h - 1) <= V * h ->
  0 <= q < n /\ b * q <= a * n /\ a * n <= b * (q + 1).
Proof.
  intros n a b c h g V q Hn Ha Hc Hg Hh SLACK [C1 C2] V1 V2 E1 E2.
  assert (HH : 0 < h * h) by (apply Z.mul_pos_pos; lia).
  assert (U : q * (h * h) <= n * c * (h + 1)).
  { apply (Z.mul_le_mono_pos_r _ _ g Hg). replace (q * (h * h) * g) with (h * (q * (h * g))) by ring.
    apply (mul_le_l h) in V1; [|lia]. replace (n * c * (h + 1) * g) with (n * c * g * (h + 1)) by ring. rewrite (Z.mul_comm V h) in E1. lia. }
  assert (L : n * c * (h - 1) < (q + 1) * (h * h)).
  { apply (Z.mul_lt_mono_pos_r g _ _ Hg). replace ((q + 1) * (h * h) * g) with (h * ((q + 1) * (h * g))) by ring.
    apply (Z.mul_lt_mono_pos_l h) in V2; [|lia]. replace (n * c * (h - 1) * g) with (n * c * g * (h - 1)) by ring. rewrite (Z.mul_comm V h) in E2. lia. }
  clear V1 V2 E1 E2.
  assert (UU : b * q * (h * h) <= n * (h + 1) * (a * h + b)).
  { transitivity (n * (h + 1) * (b * c)).
    - replace (n * (h + 1) * (b * c)) with (b * (n * c * (h + 1))) by ring. rewrite <- (Z.mul_assoc b q). apply mul_le_l; [lia|exact U].
    - apply mul_le_l; [apply Z.mul_nonneg_nonneg; lia|exact C2]. }
  assert (LL : n * (h - 1) * (a * h - b) < b * (q + 1) * (h * h)).
  { apply Z.le_lt_trans with (n * (h - 1) * (b * c)).
    - apply mul_le_l; [apply Z.mul_nonneg_nonneg; lia|exact C1].
    - replace (n * (h - 1) * (b * c)) with (b * (n * c * (h - 1))) by ring. rewrite <- (Z.mul_assoc b (q + 1)). apply Z.mul_lt_mono_pos_l; [lia|exact L]. }
  clear U L C1 C2.
  assert (P1 : b * q < a * n + 1).
  { apply (Z.mul_lt_mono_pos_r (h * h) _ _ HH). apply Z.le_lt_trans with (1 := UU).
    replace (n * (h + 1) * (a * h + b)) with (a * n * (h * h) + n * (a * h + b * h + b)) by ring. rewrite Z.mul_add_distr_r. lia. }
  assert (P2 : a * n - 1 < b * (q + 1)).
  { apply (Z.mul_lt_mono_pos_r (h * h) _ _ HH). apply Z.lt_trans with (2 := LL).
    replace (n * (h - 1) * (a * h - b)) with (a * n * (h * h) - n * (a * h + b * h - b)) by ring. rewrite Z.mul_sub_distr_r.
    assert (n * (a * h + b * h - b) <= n * (a * h + b * h + b)) by (apply mul_le_l; lia). lia. }
  clear UU LL SLACK HH. split; [|lia]. split.
  - destruct (Z_lt_le_dec q 0) as [N|N]; [|assumption]. assert (b * (q + 1) <= 0) by (apply Z.mul_nonneg_nonpos; lia).
    assert (0 < a * n) by (apply Z.mul_pos_pos; lia). lia.
  - destruct (Z_lt_le_dec q n) as [N|N]; [assumption|]. assert (b * n <= b * q) by (apply mul_le_l; lia). assert (0 < (b - a) * n) by (apply Z.mul_pos_pos; lia). lia.
Qed.
Lemma index_bounds : forall n a b k, 0 < n <= 2 ^ 42 -> 0 < a < b -> b <= 1000 -> 2 ^ 52 <= Z.pos k < 2 ^ 53 ->
  a * 2 ^ 53 - b <= b * Z.pos k <= a * 2 ^ 53 + b ->
  exists q, f_trunc (f64_mul (f64_of_Z n) (S754_finite false k (-53))) = Some q
    /\ 0 <= q < n /\ b * q <= a * n /\ a * n <= b * (q + 1).
Proof.
  intros n a b k Hn Ha Hb Hk Hc. assert (B42 : 2 ^ 42 = 4398046511104) by reflexivity. rewrite B42 in Hn.
  assert (SL := slack n a b (2 ^ 53) ltac:(lia) ltac:(lia) ltac:(lia) ltac:(discriminate)).
  destruct (mul_trunc n k) as [q [d [V [D1 [D2 [E [Q T]]]]]]]; [split; [lia|]; apply Z.le_lt_trans with (1 := proj2 Hn); reflexivity|exact Hk|].
  exists q. split; [exact T|].
  assert (G : 0 < 2 ^ (53 - d)) by (apply Z.pow_pos_nonneg; lia).
  assert (G2 : 2 ^ (106 - d) = 2 ^ 53 * 2 ^ (53 - d)) by (rewrite <- Z.pow_add_r by lia; f_equal; lia).
  rewrite G2 in Q. set (g := 2 ^ (53 - d)) in *. clearbody g. clear G2.
  assert (S2 : n * (a * 2 ^ 53 + b * 2 ^ 53 + b) < 2 ^ 53 * 2 ^ 53) by (apply Z.le_lt_trans with (1 := SL); reflexivity).
  assert (H1 : 1 < 2 ^ 53) by reflexivity. clear SL Hk T.
  assert (HG : 0 < 2 ^ 53 * g) by (apply Z.mul_pos_pos; [reflexivity|exact G]).
  set (h := 2 ^ 53) in *. clearbody h.
  set (x := n * Z.pos k * g) in *. assert (X0 : 0 < x) by (unfold x; apply Z.mul_pos_pos; lia).
  assert (EE : V * h <= x * (h + 1) /\ x * (h - 1) <= V * h).
  { clearbody x. destruct (Z.abs_spec (V - x)) as [[S A]|[S A]]; rewrite A in E.
    - assert (h * x <= h * V) by (apply mul_le_l; lia). lia.
    - assert (h * V <= h * x) by (apply mul_le_l; lia). lia. }
  apply (index_core n a b (Z.pos k) h g V q); try assumption; try lia.
Qed.

(** ** Percentiles of a list *)
(** At least the fraction a/b of the values is <= v, and at least 1 - a/b is >= v. *)
Definition quantile (a b v : Z) (l : list Z) : Prop :=
  a * len l <= b * len (filter (fun x => x <=? v) l) /\ (b - a) * len l <= b * len (filter (fun x => v <=? x) l).
Lemma filter_perm : forall A (f : A -> bool) l l', Permutation l l' -> Permutation (filter f l) (filter f l').
Proof.
  intros A f l l' P. induction P; cbn [filter]; auto.
  - destruct (f x); auto.
  - destruct (f x), (f y); auto using perm_swap.
  - eapply perm_trans; eassumption.
Qed.
Lemma len_perm : forall A (l l' : list A), Permutation l l' -> len l = len l'.
Proof. intros. unfold len. f_equal. now apply Permutation_length. Qed.
Lemma quantile_perm : forall a b v l l', Permutation l l' -> quantile a b v l -> quantile a b v l'.
Proof.
  intros a b v l l' P [H1 H2]. unfold quantile. rewrite <- (len_perm _ _ _ P).
  rewrite <- (len_perm _ _ _ (filter_perm _ (fun x => x <=? v) _ _ P)), <- (len_perm _ _ _ (filter_perm _ (fun x => v <=? x) _ _ P)). auto.
Qed.
Definition ordered : list Z -> Prop := StronglySorted Z.le.
Lemma filter_all : forall A (f : A -> bool) l, Forall (fun x => f x = true) l -> filter f l = l.
Proof. intros A f l H. induction H as [|x l H1 H2 IH]; cbn [filter]; [reflexivity|]. rewrite H1, IH. reflexivity. Qed.
Lemma sorted_counts : forall l i v, ordered l -> nth_error l i = Some v ->
  Z.of_nat i + 1 <= len (filter (fun x => x <=? v) l) /\ len l - Z.of_nat i <= len (filter (fun x => v <=? x) l).
Proof.
  induction l as [|x l IH]; intros i v S N; [destruct i; discriminate|]. inversion S as [|? ? S1 S2]; subst. destruct i as [|i]; cbn [nth_error] in N.
  - injection N as ->. cbn [filter]. rewrite Z.leb_refl. rewrite (filter_all _ (fun x => v <=? x) l).
    + unfold len. cbn [length]. lia.
    + eapply Forall_impl; [|exact S2]. cbn. intros; lia.
  - destruct (IH i v S1 N) as [A B]. assert (X : x <= v) by (rewrite Forall_forall in S2; apply S2; eapply nth_error_In; eassumption).
    cbn [filter]. destruct (Z.leb_spec x v); [|lia]. unfold len in *. cbn [length]. destruct (v <=? x); cbn [length]; lia.
Qed.
Lemma sorted_mono : forall l i j u v, ordered l -> nth_error l i = Some u -> nth_error l j = Some v -> (i <= j)%nat -> u <= v.
Proof.
  induction l as [|x l IH]; intros i j u v S U V L; [destruct i; discriminate|]. inversion S as [|? ? S1 S2]; subst. destruct i as [|i], j as [|j]; cbn [nth_error] in *.
  - assert (u = v) by congruence. lia.
  - injection U as ->. rewrite Forall_forall in S2. apply S2. eapply nth_error_In; eassumption.
  - lia.
  - eapply IH; eauto. lia.
Qed.
Lemma last_nth : forall A (l : list A) x, l <> [] -> nth_error l (length l - 1) = Some (last l x).
Proof.
  intros A l x. induction l as [|y l IH]; intros N; [congruence|]. destruct l as [|z l]; [reflexivity|].
  cbn [length] in *. replace (S (S (length l)) - 1)%nat with (S (S (length l) - 1))%nat by lia. cbn [nth_error]. rewrite IH by discriminate. reflexivity.
Qed.
Lemma latency_at_spec : forall l a b k, l <> [] -> len l <= 2 ^ 42 -> 0 < a < b -> b <= 1000 -> 2 ^ 52 <= Z.pos k < 2 ^ 53 ->
  a * 2 ^ 53 - b <= b * Z.pos k <= a * 2 ^ 53 + b ->
  exists i v, latency_at l (S754_finite false k (-53)) = Some v /\ nth_error l i = Some v
    /\ Z.of_nat i < len l /\ b * Z.of_nat i <= a * len l /\ a * len l <= b * (Z.of_nat i + 1).
Proof.
  intros l a b k NE HL Ha Hb Hk Hc. assert (0 < len l) by (destruct l; [congruence|]; unfold len; cbn [length]; lia).
  destruct (index_bounds (len l) a b k ltac:(lia) Ha Hb Hk Hc) as [q [T [Q1 [Q2 Q3]]]].
  assert (exists v, nth_error l (Z.to_nat q) = Some v) as [v V].
  { destruct (nth_error l (Z.to_nat q)) eqn:E; [eauto|]. apply nth_error_None in E. unfold len in *. lia. }
  exists (Z.to_nat q), v. rewrite Z2Nat.id by lia. split; [|split; [assumption|split; [lia|auto]]]. unfold latency_at. change (Z.of_nat (length l)) with (len l). rewrite T. cbn [bind].
  destruct (Z.ltb_spec q 0); [lia|assumption].
Qed.
(** What LatencySummary must report about [l]. *)
Definition good_summary (l : list Z) (s : lat_summary) : Prop :=
  la_n s = length l /\
  match la_values s with
  | None => l = []
  | Some (mn, md, p90, p99, p999, mx) =>
      Forall (fun x => In x l) [mn; md; p90; p99; p999; mx]
      /\ (forall x, In x l -> mn <= x <= mx) /\ mn <= md <= p90 /\ p90 <= p99 <= p999 /\ p999 <= mx
      /\ quantile 1 2 md l /\ quantile 9 10 p90 l /\ quantile 99 100 p99 l /\ quantile 999 1000 p999 l
  end.
Lemma latency_summary_good : forall l, ordered l -> len l <= 2 ^ 42 -> exists s, latency_summary l = Some s /\ good_summary l s.
Proof.
  intros l S HL. destruct l as [|x l']; [exists (mkLat 0 None); repeat split|]. set (l := x :: l') in *. assert (NE : l <> []) by discriminate.
  destruct (latency_at_spec l 1 2 4503599627370496 NE HL ltac:(lia) ltac:(lia) ltac:(cbn; lia) ltac:(cbn; lia)) as [i1 [v1 [A1 [B1 [C1 [D1 E1]]]]]].
  destruct (latency_at_spec l 9 10 8106479329266893 NE HL ltac:(lia) ltac:(lia) ltac:(cbn; lia) ltac:(cbn; lia)) as [i2 [v2 [A2 [B2 [C2 [D2 E2]]]]]].
  destruct (latency_at_spec l 99 100 8917127262193582 NE HL ltac:(lia) ltac:(lia) ltac:(cbn; lia) ltac:(cbn; lia)) as [i3 [v3 [A3 [B3 [C3 [D3 E3]]]]]].
  destruct (latency_at_spec l 999 1000 8998192055486251 NE HL ltac:(lia) ltac:(lia) ltac:(cbn; lia) ltac:(cbn; lia)) as [i4 [v4 [A4 [B4 [C4 [D4 E4]]]]]].
  assert (A0 : nth_error l 0 = Some x) by reflexivity. pose proof (last_nth Z l x NE) as A5. set (mx := last l x) in *.
  assert (LEN : 0 < len l) by (unfold len, l; cbn [length]; lia).
  exists (mkLat (length l) (Some (x, v1, v2, v3, v4, mx))). split.
  { unfold latency_summary. unfold l at 1. fold l. unfold f64_0_5, f64_0_9, f64_0_99, f64_0_999. rewrite A1. cbn [bind]. rewrite A2. cbn [bind]. rewrite A3. cbn [bind]. rewrite A4. cbn [bind]. reflexivity. }
  split; [reflexivity|]. cbn [la_values].
  assert (M : forall i j u v, nth_error l i = Some u -> nth_error l j = Some v -> Z.of_nat i <= Z.of_nat j -> u <= v).
  { intros i j u v U V L. eapply sorted_mono; [exact S|exact U|exact V|lia]. }
  assert (Q : forall i v a b, 0 < b -> nth_error l i = Some v -> b * Z.of_nat i <= a * len l -> a * len l <= b * (Z.of_nat i + 1) -> quantile a b v l).
  { intros i v a b Hb N U L. destruct (sorted_counts l i v S N) as [X Y]. split; nia. }
  split; [repeat (apply Forall_cons; [eapply nth_error_In; eassumption|]); apply Forall_nil|].
  split.
  { intros y I. apply In_nth_error in I. destruct I as [j J]. assert (j < length l)%nat by (apply nth_error_Some; congruence).
    split; [eapply M; eauto; lia|eapply M; eauto; lia]. }
  split; [split; eapply M; eauto; lia|]. split; [split; eapply M; eauto; lia|]. split; [eapply M; eauto; unfold len in *; lia|].
  repeat split; eapply Q; eauto; lia.
Qed.
Lemma good_perm : forall l l' s, Permutation l l' -> good_summary l s -> good_summary l' s.
Proof.
  intros l l' s P [A B]. split; [rewrite A; now apply Permutation_length|].
  destruct (la_values s) as [[[[[[mn md] p90] p99] p999] mx]|].
  - destruct B as [B0 [B1 [B2 [B3 [B4 [B5 [B6 [B7 B8]]]]]]]]. split.
    { eapply Forall_impl; [|exact B0]. cbn. intros y Y. eapply Permutation_in; eassumption. }
    split; [intros y Y; apply B1; eapply Permutation_in; [symmetry; eassumption|assumption]|].
    repeat (split; [assumption || (eapply quantile_perm; eassumption)|]). eapply quantile_perm; eassumption.
  - subst l. now apply Permutation_nil.
Qed.
Lemma sort_ordered : forall l, ordered (sort_end (fun z => z) l).
Proof. intros l. apply sort_end_sorted. Qed.
Lemma lat_all_spec : forall m, (forall n v, In (n, v) m -> len v <= 2 ^ 42) ->
  exists r, lat_all m = Some r /\ map fst r = map fst m
    /\ forall n s, In (n, s) r -> exists v, In (n, v) m /\ good_summary v s.
Proof.
  induction m as [|[n v] m IH]; intros H; cbn [lat_all]; [exists []; repeat split; intros n s []|].
  destruct IH as [r [E [K G]]]; [intros; eapply H; right; eassumption|].
  pose proof (sort_end_perm Z (fun z => z) v) as P.
  destruct (latency_summary_good (sort_end (fun z => z) v) (sort_ordered v)) as [s [Es Gs]].
  { rewrite (len_perm _ _ _ P). eapply H. left. reflexivity. }
  rewrite Es. cbn [bind]. rewrite E. cbn [bind]. exists ((n, s) :: r). split; [reflexivity|]. split; [cbn [map fst]; rewrite K; reflexivity|].
  intros k t [I|I].
  - injection I as <- <-. exists v. split; [left; reflexivity|]. eapply good_perm; eassumption.
  - destruct (G k t I) as [w [W1 W2]]. exists w. split; [right|]; assumption.
Qed.

(** ** When the summary is defined *)
Definition big : Z := int64_max.
Record sample_fits (x : nat * sample) : Prop := {
  sf_req : 0 <= req x; sf_resp : 0 <= resp x; sf_end : in_int64 (t1 x) = true }.
Definition bytes (xs : list (nat * sample)) : Z := zsum (map (fun x => req x + resp x) xs).
Lemma bytes_split : forall xs, bytes xs = zsum (map req xs) + zsum (map resp xs).
Proof. induction xs as [|x xs IH]; unfold bytes in *; cbn [map zsum]; lia. Qed.
Lemma bytes_nonneg : forall xs, Forall sample_fits xs -> 0 <= zsum (map req xs) /\ 0 <= zsum (map resp xs).
Proof. intros xs H. induction H as [|x xs [A B C] H2 IH]; cbn [map zsum]; lia. Qed.
Lemma add64_ok : forall a b, 0 <= a -> 0 <= b -> a + b <= int64_max -> add64 a b = Some (a + b).
Proof. intros a b A B C. unfold add64, in_int64, int64_max in *. destruct (Z.leb_spec (-9223372036854775808) (a + b)), (Z.leb_spec (a + b) 9223372036854775807); cbn; try lia; reflexivity. Qed.
Definition acc_pos (a : peer_acc) : Prop :=
  0 <= pf_rpcs (ac_perf a) /\ 0 <= pf_request (ac_perf a) /\ 0 <= pf_response (ac_perf a) /\ 0 <= ac_samples a /\ 0 <= ac_warm a /\ 0 <= ac_failed a.
Ltac acc := unfold acc_pos; cbn [ac_perf perf0 pf_rpcs pf_request pf_response ac_samples ac_failed ac_warm ac_start ac_end ac_lat].
Lemma sum_samples_ok : forall i name l a, acc_pos a -> let xs := map (fun s => (i, s)) l in
  Forall sample_fits (timed xs) ->
  pf_request (ac_perf a) + zsum (map req (timed xs)) <= int64_max ->
  pf_response (ac_perf a) + zsum (map resp (timed xs)) <= int64_max ->
  ac_warm a + len (warm xs) <= int64_max ->
  exists a', sum_samples name l a = Some a'.
Proof.
  intros i name. induction l as [|s l IH]; intros a P xs F R1 R2 W; cbn [sum_samples]; [eauto|]. unfold xs in *. cbn [map] in *.
  destruct P as [P1 [P2 [P3 [P4 [P5 P6]]]]].
  unfold timed, warm in F, R1, R2, W. unfold is_timed in F, R1, R2, W. cbn [filter snd] in F, R1, R2, W. unfold sum_sample.
  destruct (sa_warmup s); cbn [negb] in *.
  - unfold len in W. cbn [length] in W. rewrite add64_ok by lia. cbn [bind]. apply IH; [acc; repeat split; lia|assumption|acc; exact R1|acc; exact R2|acc; unfold len, warm; lia].
  - cbn [map zsum] in R1, R2. inversion F as [|? ? [F1 F2 F3] F4]; subst. destruct (bytes_nonneg _ F4) as [N1 N2].
    unfold req, resp, t1 in *. cbn [snd] in *. unfold add64 at 1. rewrite F3. cbn [bind]. rewrite add64_ok by lia. cbn [bind]. rewrite add64_ok by lia. cbn [bind].
    apply IH; [acc; repeat split; lia|assumption|acc; unfold timed, is_timed, req; lia|acc; unfold timed, is_timed, resp; lia|acc; exact W].
Qed.
Lemma len_nonneg : forall A (l : list A), 0 <= len l.
Proof. intros. unfold len. lia. Qed.
Lemma len_timed_warm : forall xs, len xs = len (timed xs) + len (warm xs).
Proof.
  induction xs as [|x xs IH]; [reflexivity|]. unfold timed, warm, is_timed, len in *. cbn [filter length]. destruct (sa_warmup (snd x)); cbn [negb length]; lia.
Qed.
(** Room left for the samples [xs] and [f] failures. *)
Definition room (a : peer_acc) (xs : list (nat * sample)) (f : Z) : Prop :=
  pf_rpcs (ac_perf a) + len xs <= int64_max /\ pf_request (ac_perf a) + zsum (map req (timed xs)) <= int64_max
  /\ pf_response (ac_perf a) + zsum (map resp (timed xs)) <= int64_max /\ ac_samples a + len xs + f <= int64_max
  /\ ac_warm a + len (warm xs) <= int64_max /\ ac_failed a + f <= int64_max.
Lemma acc_rel_pos : forall names xs n f a a', acc_rel names xs n f a a' -> 0 <= n -> 0 <= f -> Forall sample_fits (timed xs) -> acc_pos a -> acc_pos a'.
Proof.
  intros names xs n f a a' [A1 A2 A3 A4 A5 A6 _ _ _ _ _] N F S [P1 [P2 [P3 [P4 [P5 P6]]]]]. destruct (bytes_nonneg _ S). pose proof (len_nonneg _ (warm xs)).
  repeat split; lia.
Qed.
Lemma sum_rpc_ok : forall names a rl, nth_error names (fst rl) <> None -> acc_pos a -> Forall sample_fits (timed (oks [rl])) ->
  room a (oks [rl]) (len (fails [rl])) -> exists a', sum_rpc names a rl = Some a'.
Proof.
  intros names a [i [ok bad]] N P F [R1 [R2 [R3 [R4 [R5 R6]]]]]. unfold oks, fails in *. cbn [flat_map fst snd] in *. rewrite !app_nil_r in *.
  unfold sum_rpc. cbn [fst snd]. destruct (nth_error names i) as [name|]; [|congruence]. cbn [bind]. cbv zeta.
  destruct P as [P1 [P2 [P3 [P4 [P5 P6]]]]]. unfold len in R1, R4, R6. rewrite ?map_length in R1; rewrite ?map_length in R4; rewrite ?map_length in R6.
  repeat (rewrite add64_ok by lia; cbn [bind]).
  eapply (sum_samples_ok i); [acc; repeat split; lia|exact F|exact R2|exact R3|exact R5].
Qed.
Lemma sum_rpcs_ok : forall names pl a, (forall rl, In rl pl -> nth_error names (fst rl) <> None) -> acc_pos a -> Forall sample_fits (timed (oks pl)) ->
  room a (oks pl) (len (fails pl)) -> exists a', sum_rpcs names pl a = Some a'.
Proof.
  intros names. induction pl as [|rl pl IH]; intros a N P F R; cbn [sum_rpcs]; [eauto|].
  replace (oks (rl :: pl)) with (oks [rl] ++ oks pl) in * by (unfold oks; cbn [flat_map]; rewrite app_nil_r; reflexivity).
  replace (fails (rl :: pl)) with (fails [rl] ++ fails pl) in * by (unfold fails; cbn [flat_map]; rewrite app_nil_r; reflexivity).
  rewrite timed_app in F. apply Forall_app in F. destruct F as [F1 F2]. destruct (bytes_nonneg _ F1) as [B1 B2], (bytes_nonneg _ F2) as [B3 B4].
  unfold room in R. rewrite timed_app, warm_app, !map_app, !zsum_app, !len_app in R. destruct R as [R1 [R2 [R3 [R4 [R5 R6]]]]].
  pose proof (len_nonneg _ (oks pl)). pose proof (len_nonneg _ (fails pl)). pose proof (len_nonneg _ (warm (oks pl))).
  pose proof (len_nonneg _ (oks [rl])). pose proof (len_nonneg _ (fails [rl])). pose proof (len_nonneg _ (warm (oks [rl]))).
  destruct (sum_rpc_ok names a rl) as [b E]; [apply N; left; reflexivity|assumption|assumption|repeat split; lia|].
  rewrite E. cbn [bind]. destruct (sum_rpc_rel names a rl b E) as [name [_ [A _]]].
  apply IH; [intros; apply N; right; assumption|eapply acc_rel_pos; eauto|assumption|]. destruct A. repeat split; lia.
Qed.
(** A result log that the summary can handle. *)
Record peer_fits (names : list str) (p : (str * str) * peer_log) : Prop := {
  pt_names : forall rl, In rl (snd p) -> nth_error names (fst rl) <> None;
  pt_samples : Forall sample_fits (timed (oks (snd p)));
  pt_span : timed (oks (snd p)) <> [] -> in_int64 (span (snd p)) = true }.
Definition all_bytes (ps : list ((str * str) * peer_log)) : Z := zsum (map (fun p => bytes (timed (oks (snd p)))) ps).
Definition all_samples (ps : list ((str * str) * peer_log)) : Z := zsum (map (fun p => len (oks (snd p)) + len (fails (snd p))) ps).
Definition tot_pos (t : totals) : Prop := 0 <= to_samples t /\ 0 <= to_warm t <= to_samples t /\ 0 <= to_failed t <= to_samples t.
Lemma all_bytes_nonneg : forall names ps, Forall (peer_fits names) ps -> 0 <= all_bytes ps.
Proof. intros names ps H. induction H as [|p ps [A B C] H2 IH]; unfold all_bytes in *; cbn [map zsum]; [lia|]. rewrite bytes_split. destruct (bytes_nonneg _ B). lia. Qed.
Lemma all_samples_nonneg : forall ps, 0 <= all_samples ps.
Proof. induction ps as [|p ps IH]; unfold all_samples in *; cbn [map zsum]; [lia|]. pose proof (len_nonneg _ (oks (snd p))). pose proof (len_nonneg _ (fails (snd p))). lia. Qed.
Lemma all_bytes_app : forall a b, all_bytes (a ++ b) = all_bytes a + all_bytes b.
Proof. intros. unfold all_bytes. rewrite map_app, zsum_app. reflexivity. Qed.
Lemma all_samples_app : forall a b, all_samples (a ++ b) = all_samples a + all_samples b.
Proof. intros. unfold all_samples. rewrite map_app, zsum_app. reflexivity. Qed.
Lemma sum_peer_ok : forall names i t p, let ps := [((i, fst p), snd p)] in Forall (peer_fits names) ps -> tot_pos t ->
  all_bytes ps <= int64_max -> to_samples t + all_samples ps <= int64_max ->
  exists t', sum_peer names i t p = Some t'.
Proof.
  intros names i t [d pl] ps F P B S. inversion F as [|? ? [F1 F2 F3] _]; subst. cbn [fst snd] in *. unfold sum_peer. cbn [fst snd].
  destruct P as [P1 [P2 P3]]. unfold ps, all_bytes, all_samples in B, S. cbn [map zsum snd] in B, S. rewrite bytes_split in B.
  destruct (bytes_nonneg _ F2) as [B1 B2]. pose proof (len_timed_warm (oks pl)). pose proof (len_nonneg _ (timed (oks pl))). pose proof (len_nonneg _ (warm (oks pl))). pose proof (len_nonneg _ (fails pl)).
  destruct (sum_rpcs_ok names pl (mkPeer int64_max int64_min perf0 (to_lat t) (to_samples t) (to_warm t) (to_failed t))) as [a E]; [assumption|acc; repeat split; lia|assumption|unfold room; acc; repeat split; lia|].
  rewrite E. cbn [bind]. destruct (sum_rpcs_rel names pl _ a E) as [[_ _ _ _ _ _ A7 A8 _ _ _] _]. cbn [ac_start ac_end] in A7, A8.
  destruct (Z.eqb_spec (ac_start a) int64_max) as [X|X]; [cbn [bind]; eauto|].
  assert (NE : timed (oks pl) <> []) by (intros N; rewrite N in A7; cbn in A7; congruence).
  specialize (F3 NE). unfold span in F3. rewrite <- A7, <- A8 in F3. rewrite F3. cbn [bind]. eauto.
Qed.
Lemma tot_rel_pos : forall names ps t t', tot_rel names ps t t' -> tot_pos t -> tot_pos t' /\ to_samples t' = to_samples t + all_samples ps.
Proof.
  intros names ps t t' [_ A2 A3 A4 _ _ _ _ _ _ _] [P1 [P2 P3]]. split; [|exact A2].
  assert (0 <= zsum (map (fun p => len (fails (snd p))) ps) <= zsum (map (fun p => len (oks (snd p)) + len (fails (snd p))) ps)
          /\ 0 <= zsum (map (fun p => len (warm (oks (snd p)))) ps) <= zsum (map (fun p => len (oks (snd p)) + len (fails (snd p))) ps)).
  { clear. induction ps as [|p ps IH]; cbn [map zsum]; [lia|]. pose proof (len_timed_warm (oks (snd p))). pose proof (len_nonneg _ (timed (oks (snd p)))).
    pose proof (len_nonneg _ (warm (oks (snd p)))). pose proof (len_nonneg _ (fails (snd p))). lia. }
  repeat split; lia.
Qed.
Lemma sum_peers_ok : forall names i l t, let ps := map (fun p => ((i, fst p), snd p)) l in Forall (peer_fits names) ps -> tot_pos t ->
  all_bytes ps <= int64_max -> to_samples t + all_samples ps <= int64_max ->
  exists t', sum_peers names i l t = Some t'.
Proof.
  intros names i. induction l as [|p l IH]; intros t ps F P B S; cbn [sum_peers]; [eauto|]. unfold ps in *. cbn [map] in *.
  change (?x :: ?y) with ([x] ++ y) in F, B, S. rewrite all_bytes_app in B. rewrite all_samples_app in S. apply Forall_app in F. destruct F as [F1 F2].
  pose proof (all_bytes_nonneg _ _ F1). pose proof (all_bytes_nonneg _ _ F2). pose proof (all_samples_nonneg [(i, fst p, snd p)]).
  pose proof (all_samples_nonneg (map (fun p => ((i, fst p), snd p)) l)).
  destruct (sum_peer_ok names i t p) as [u E]; [assumption|assumption|lia|lia|]. rewrite E. cbn [bind].
  destruct (tot_rel_pos _ _ _ _ (sum_peer_rel _ _ _ _ _ E) P) as [P2 S2]. apply IH; [assumption|assumption|lia|lia].
Qed.
Lemma sum_instances_ok : forall names l t, Forall (peer_fits names) (peers l) -> tot_pos t ->
  all_bytes (peers l) <= int64_max -> to_samples t + all_samples (peers l) <= int64_max ->
  exists t', sum_instances names l t = Some t'.
Proof.
  intros names. induction l as [|[i ps] l IH]; intros t F P B S; cbn [sum_instances]; [eauto|]. unfold peers in *. cbn [flat_map fst snd] in *.
  rewrite all_bytes_app in B. rewrite all_samples_app in S. apply Forall_app in F. destruct F as [F1 F2].
  pose proof (all_bytes_nonneg _ _ F1). pose proof (all_bytes_nonneg _ _ F2). pose proof (all_samples_nonneg (map (fun p => ((i, fst p), snd p)) ps)).
  pose proof (all_samples_nonneg (flat_map (fun ip => map (fun p => ((fst ip, fst p), snd p)) (snd ip)) l)).
  destruct (sum_peers_ok names i ps t) as [u E]; [assumption|assumption|lia|lia|]. rewrite E. cbn [bind].
  destruct (tot_rel_pos _ _ _ _ (sum_peers_rel _ _ _ _ _ E) P) as [P2 S2]. apply IH; [assumption|assumption|lia|lia].
Qed.
Lemma inst_all_ok : forall l t, Forall (fun e => 0 <= pf_rpcs (snd e) /\ 0 <= pf_request (snd e) /\ 0 <= pf_response (snd e)) l ->
  0 <= it_rpcs t -> 0 <= it_tx t -> (forall k, 0 <= is_tx (inst_get k (it_map t)) <= it_tx t /\ 0 <= is_rx (inst_get k (it_map t)) <= it_tx t) ->
  it_rpcs t + zsum (map (fun e => pf_rpcs (snd e)) l) <= int64_max ->
  it_tx t + zsum (map (fun e => pf_request (snd e) + pf_response (snd e)) l) <= int64_max ->
  exists t', inst_all l t = Some t'.
Proof.
  induction l as [|[[i d] p] l IH]; intros t F N1 N2 M R T; cbn [inst_all]; [eauto|]. inversion F as [|? ? [F1 [F2 F3]] F4]; subst. cbn [map zsum snd] in *.
  assert (Z1 : 0 <= zsum (map (fun e => pf_rpcs (snd e)) l) /\ 0 <= zsum (map (fun e => pf_request (snd e) + pf_response (snd e)) l)).
  { clear - F4. induction F4 as [|e l [A [B C]] H IH]; cbn [map zsum]; lia. }
  assert (E : exists t1, inst_step t ((i, d), p) = Some t1).
  { unfold inst_step. rewrite add64_ok by lia. cbn [bind]. rewrite add64_ok by lia. cbn [bind]. rewrite add64_ok by lia. cbn [bind]. cbv zeta.
    pose proof (M i) as [Mi1 Mi2]. rewrite add64_ok by lia. cbn [bind]. rewrite add64_ok by lia. cbn [bind]. cbv zeta.
    set (m1 := map_set i _ _). assert (G : 0 <= is_tx (inst_get d m1) <= it_tx t + pf_request p /\ 0 <= is_rx (inst_get d m1) <= it_tx t + pf_response p).
    { unfold m1. destruct (str_eqb_spec d i) as [->|X]; [rewrite inst_get_same; cbn [is_tx is_rx]; lia|]. rewrite inst_get_other by assumption. pose proof (M d). lia. }
    rewrite add64_ok by lia. cbn [bind]. rewrite add64_ok by lia. cbn [bind]. eauto. }
  destruct E as [u E]. rewrite E. cbn [bind]. unfold inst_step in E. inv_bind E. cbv zeta in E. inv_bind E. cbv zeta in E. inv_bind E. injection E as <-.
  apply IH; cbn [it_rpcs it_tx it_map]; try lia; [assumption|]. intros k. pose proof (M k). pose proof (M i). pose proof (M d).
  destruct (str_eqb_spec k d) as [->|X]; [rewrite inst_get_same|rewrite inst_get_other by assumption]; cbn [is_tx is_rx].
  - destruct (str_eqb_spec d i) as [->|Y]; [rewrite inst_get_same; cbn [is_tx is_rx]; lia|]. rewrite inst_get_other by assumption. lia.
  - destruct (str_eqb_spec k i) as [->|Y]; [rewrite inst_get_same; cbn [is_tx is_rx]; lia|]. rewrite inst_get_other by assumption. lia.
Qed.
