(** Proofs about Dist_Model: support, canonical form, generator tables. *)
From Coq Require Import Ascii String List ZArith Bool Lia Arith SpecFloat.
From Verif Require Import Base_Model Base_Proofs Float_Model Dist_Model.
Import ListNotations.
Open Scope Z_scope.

(** ** What a sample may be *)
Definition within (d : data_point) (v : Z) : Prop :=
  match dp_exact d with Some x => v = x | None => dp_lower d <= v <= dp_upper d end.
Definition int_range (d : data_point) : Prop :=
  match dp_exact d with Some _ => True | None => -2147483648 <= dp_lower d <= 2147483647 /\ -2147483648 <= dp_upper d <= 2147483647 end.
Definition int_ranges (l : list pmf_point) : Prop := Forall (fun p => Forall int_range (pp_data p)) l.

Lemma to_int32_id : forall z, -2147483648 <= z <= 2147483647 -> to_int32 z = z.
Proof. intros z H. unfold to_int32. rewrite Z.mod_small by lia. lia. Qed.
Lemma draw_within : forall d draws s, Forall int_range d -> draw_values (map value_of_point d) draws = Some s -> Forall2 within d s.
Proof.
  induction d as [|x d IH]; intros draws s R H; cbn [map draw_values] in H.
  - destruct draws; [|discriminate]. injection H as <-. constructor.
  - inversion R as [|? ? Rx Rd]; subst. unfold value_of_point at 1 in H. unfold int_range in Rx. destruct (dp_exact x) as [v|] eqn:E.
    + destruct (draw_values _ draws) as [s'|] eqn:D; [|discriminate]. injection H as <-. constructor; [unfold within; now rewrite E|eauto].
    + destruct draws as [|w draws]; [discriminate|]. rewrite !to_int32_id in H by tauto.
      destruct (Z.leb_spec (dp_lower x) w) as [L1|L1]; [|discriminate]. destruct (Z.leb_spec w (dp_upper x)) as [L2|L2]; [|discriminate]. cbn [andb] in H.
      destruct (draw_values _ draws) as [s'|] eqn:D; [|discriminate]. injection H as <-. constructor; [unfold within; rewrite E; lia|eauto].
Qed.
Lemma init_pmf_inv : forall l g, init_pmf l = GenOk g ->
  exists p r, l = p :: r /\ ge_dims g = length (pp_data p) /\ ge_weights g = map pp_pmf l
    /\ ge_values g = map (fun q => map value_of_point (pp_data q)) l
    /\ Forall (fun q => length (pp_data q) = length (pp_data p)) l
    /\ Forall (fun q => Forall (fun d => value_ok (value_of_point d) = true) (pp_data q)) l
    /\ Forall (fun q => weight_ok (pp_pmf q) = true) l /\ Exists (fun q => weight_positive (pp_pmf q) = true) l.
Proof.
  intros [|p r] g H; [discriminate|]. unfold init_pmf in H. cbv zeta in H.
  destruct (forallb (fun q => Nat.eqb (length (pp_data q)) (length (pp_data p))) (p :: r)) eqn:A; [|discriminate].
  destruct (forallb (forallb value_ok) (map (fun q => map value_of_point (pp_data q)) (p :: r))) eqn:B; [|discriminate].
  destruct (forallb weight_ok (map pp_pmf (p :: r))) eqn:C; [|discriminate].
  destruct (existsb weight_positive (map pp_pmf (p :: r))) eqn:D; [|discriminate]. cbn [andb] in H. injection H as <-.
  exists p, r. split; [reflexivity|]. cbn [ge_dims ge_weights ge_values]. split; [reflexivity|]. split; [reflexivity|]. split; [reflexivity|].
  rewrite forallb_forall in A, B, C. rewrite existsb_exists in D. repeat split.
  - apply Forall_forall. intros q Hq. now apply Nat.eqb_eq, A.
  - apply Forall_forall. intros q Hq. apply Forall_forall. intros d Hd. specialize (B (map value_of_point (pp_data q))).
    rewrite forallb_forall in B. apply B; [apply in_map_iff; eauto|now apply in_map].
  - apply Forall_forall. intros q Hq. apply C. now apply in_map.
  - apply Exists_exists. destruct D as [w [Hw W]]. apply in_map_iff in Hw. destruct Hw as [q [<- Hq]]. eauto.
Qed.
Lemma sample_inv : forall l g i draws s, init_pmf l = GenOk g -> random_sample g i draws = Drawn s ->
  exists p, nth_error l i = Some p /\ weight_positive (pp_pmf p) = true /\ draw_values (map value_of_point (pp_data p)) draws = Some s.
Proof.
  intros l g i draws s G H. destruct (init_pmf_inv _ _ G) as [p0 [r [El [_ [W [V _]]]]]]. unfold random_sample in H. rewrite W, V in H.
  rewrite !nth_error_map in H. destruct (nth_error l i) as [p|]; [|discriminate]. cbn [option_map] in H.
  destruct (weight_positive (pp_pmf p)) eqn:P; [|discriminate]. destruct (draw_values _ draws) as [s'|] eqn:D; [|discriminate].
  injection H as <-. eauto.
Qed.
Lemma draw_length : forall vs draws s, draw_values vs draws = Some s -> length s = length vs.
Proof.
  induction vs as [|[v|lo hi] r IH]; intros draws s H; cbn [draw_values] in H.
  - destruct draws; [|discriminate]. now injection H as <-.
  - destruct (draw_values r draws) as [s'|] eqn:D; [|discriminate]. injection H as <-. cbn [length]. f_equal. eauto.
  - destruct draws as [|d ds]; [discriminate|]. destruct ((lo <=? d) && (d <=? hi)); [|discriminate].
    destruct (draw_values r ds) as [s'|] eqn:D; [|discriminate]. injection H as <-. cbn [length]. f_equal. eauto.
Qed.
(** Every sample comes from one point of positive weight. *)
Lemma pmf_support : forall l g i draws s, init_pmf l = GenOk g -> int_ranges l -> random_sample g i draws = Drawn s ->
  exists p, nth_error l i = Some p /\ weight_positive (pp_pmf p) = true /\ Forall2 within (pp_data p) s.
Proof.
  intros l g i draws s G R H. destruct (sample_inv _ _ _ _ _ G H) as [p [N [W D]]]. exists p. split; [assumption|]. split; [assumption|].
  eapply draw_within; [|eassumption]. unfold int_ranges in R. rewrite Forall_forall in R. apply R. eapply nth_error_In; eauto.
Qed.
(** Conversely every value of such a point can be drawn. *)
Lemma draw_complete : forall d s, Forall int_range d -> Forall2 within d s -> exists draws, draw_values (map value_of_point d) draws = Some s.
Proof.
  intros d s R H. induction H as [|x v d s Hx Hd IH]; [exists []; reflexivity|]. inversion R as [|? ? Rx Rd]; subst.
  destruct (IH Rd) as [draws E]. cbn [map draw_values]. unfold value_of_point at 1. unfold within in Hx. unfold int_range in Rx. destruct (dp_exact x) as [y|] eqn:Ex.
  - exists draws. cbn [draw_values]. rewrite E. now subst v.
  - exists (v :: draws). cbn [draw_values]. rewrite !to_int32_id by tauto. rewrite E.
    destruct (Z.leb_spec (dp_lower x) v); [|lia]. destruct (Z.leb_spec v (dp_upper x)); [|lia]. reflexivity.
Qed.
Lemma pmf_reach : forall l g i p s, init_pmf l = GenOk g -> int_ranges l -> nth_error l i = Some p -> weight_positive (pp_pmf p) = true ->
  Forall2 within (pp_data p) s -> exists draws, random_sample g i draws = Drawn s.
Proof.
  intros l g i p s G R N W H. destruct (init_pmf_inv _ _ G) as [p0 [r [El [_ [W0 [V0 _]]]]]].
  assert (Rp : Forall int_range (pp_data p)). { unfold int_ranges in R. rewrite Forall_forall in R. apply R. eapply nth_error_In; eauto. }
  destruct (draw_complete _ _ Rp H) as [draws D]. exists draws. unfold random_sample. rewrite W0, V0, !nth_error_map, N. cbn [option_map]. now rewrite W, D.
Qed.

(** ** Values of a CDF *)
(** The CDF points with their lower bounds: (lower, previous cdf, point). *)
Fixpoint increasing (prev : Z) (l : list cdf_point) : Prop :=
  match l with [] => True | p :: r => prev < cp_value p /\ increasing (cp_value p) r end.
Lemma cdf_loop_inv : forall l c v, cdf_loop c v l = None -> increasing v l /\ SFeqb (cp_cdf (last l (mkCdf c v))) f32_one = true.
Proof.
  induction l as [|p r IH]; intros c v H; cbn [cdf_loop] in H.
  - cbn [last cp_cdf]. split; [exact I|]. now destruct (SFeqb c f32_one).
  - destruct (Z.leb_spec (cp_value p) v); [discriminate|]. destruct (SFltb _ _); [discriminate|].
    destruct (IH _ _ H) as [A B]. split; [split; assumption|]. destruct r as [|q r]; [assumption|]. destruct p as [pc pv].
    cbn [cp_cdf cp_value] in B. change (last (mkCdf pc pv :: q :: r) (mkCdf c v)) with (last (q :: r) (mkCdf c v)).
    assert (E : forall (z : cdf_point) l d1 d2, last (z :: l) d1 = last (z :: l) d2). { intros z l0. revert z. induction l0 as [|y l0 IHl]; intros z d1 d2; [reflexivity|]. cbn [last]. apply (IHl y). }
    rewrite (E q r (mkCdf c v) (mkCdf pc pv)). assumption.
Qed.
Lemma increasing_le : forall l prev p, increasing prev l -> In p l -> prev < cp_value p.
Proof. induction l as [|q l IH]; intros prev p H I; [contradiction|]. destruct H as [A B]. destruct I as [->|I]; [assumption|]. specialize (IH _ _ B I). lia. Qed.

(** [gap first l k lo hi]: interval number k of the CDF [first :: l]. *)
Definition gap_lower (first : cdf_point) (l : list cdf_point) (k : nat) : option Z :=
  match k with O => Some (cp_value first) | S j => option_map (fun p => cp_value p + 1) (nth_error l j) end.
Definition in_gap (first : cdf_point) (l : list cdf_point) (k : nat) (v : Z) : Prop :=
  exists lo p, gap_lower first l k = Some lo /\ nth_error l k = Some p /\ lo <= v <= cp_value p.
Lemma gaps_nonempty : forall first l k p, increasing (cp_value first) l -> nth_error l k = Some p -> in_gap first l k (cp_value p).
Proof.
  intros first l k p H N. unfold in_gap. destruct k as [|j].
  - exists (cp_value first), p. split; [reflexivity|]. split; [assumption|]. apply increasing_le with (p := p) in H; [lia|eapply nth_error_In; eauto].
  - cbn [gap_lower]. revert first j H N. induction l as [|q l IH]; intros first j H N; [destruct j; discriminate|]. destruct H as [A B].
    destruct j as [|j].
    + assert (X : In p l) by (destruct l as [|y l]; [discriminate|]; cbn in N; injection N as <-; left; reflexivity).
      apply increasing_le with (p := p) in B; [|assumption]. exists (cp_value q + 1), p. split; [reflexivity|]. split; [assumption|lia].
    + change (nth_error (q :: l) (S (S j))) with (nth_error l (S j)) in N |- *. change (nth_error (q :: l) (S j)) with (nth_error l j). now apply (IH q).
Qed.
Lemma gaps_shift : forall first q l k v, in_gap first (q :: l) (S (S k)) v <-> in_gap q l (S k) v.
Proof. intros. unfold in_gap. cbn [gap_lower]. change (nth_error (q :: l) (S (S k))) with (nth_error l (S k)). change (nth_error (q :: l) (S k)) with (nth_error l k). reflexivity. Qed.
Lemma gaps_above : forall l first k v, increasing (cp_value first) l -> in_gap first l k v -> cp_value first <= v.
Proof.
  intros l first k v H [lo [p [A [B C]]]]. destruct k as [|j]; cbn [gap_lower] in A; [injection A as <-; lia|].
  destruct (nth_error l j) as [q|] eqn:N; [|discriminate]. injection A as <-. apply increasing_le with (p := q) in H; [lia|eapply nth_error_In; eauto].
Qed.
Lemma gaps_above_S : forall l first k v, increasing (cp_value first) l -> in_gap first l (S k) v -> cp_value first + 1 < v.
Proof.
  intros l first k v H [lo [p [A [B C]]]]. cbn [gap_lower] in A.
  destruct (nth_error l k) as [q|] eqn:N; [|discriminate]. injection A as <-. apply increasing_le with (p := q) in H; [lia|eapply nth_error_In; eauto].
Qed.
Lemma gaps_unique : forall l first j k v, increasing (cp_value first) l -> in_gap first l j v -> in_gap first l k v -> j = k.
Proof.
  induction l as [|q l IH]; intros first j k v H A B.
  - destruct A as [? [p [_ [N _]]]]. destruct j; discriminate.
  - destruct H as [H1 H2].
    assert (Z0 : forall x k0, in_gap first (q :: l) 0 x -> in_gap first (q :: l) (S k0) x -> False).
    { intros x k0 [lo [p [X1 [X2 X3]]]] Y. cbn [gap_lower nth_error] in X1, X2. injection X1 as <-. injection X2 as <-.
      destruct k0 as [|k0].
      - destruct Y as [lo [p [Y1 [Y2 Y3]]]]. cbn [gap_lower nth_error option_map] in Y1. injection Y1 as <-. lia.
      - apply (proj1 (gaps_shift _ _ _ _ _)) in Y. pose proof (gaps_above_S _ _ _ _ H2 Y). lia. }
    destruct j as [|j], k as [|k]; [reflexivity|exfalso; eapply Z0; eauto|exfalso; eapply Z0; eauto|].
    f_equal. assert (TR : forall x, in_gap first (q :: l) (S x) v -> in_gap q l x v).
    { intros [|x] X; [|exact (proj1 (gaps_shift _ _ _ _ _) X)]. destruct X as [lo [p [X1 [X2 X3]]]]. cbn [gap_lower nth_error option_map] in X1. injection X1 as <-.
      exists (cp_value q), p. split; [reflexivity|]. split; [exact X2|lia]. }
    eapply IH; [exact H2|apply TR, A|apply TR, B].
Qed.
Lemma gaps_cover : forall l first v, increasing (cp_value first) l -> l <> [] ->
  cp_value first <= v <= cp_value (last l first) -> exists k, in_gap first l k v.
Proof.
  induction l as [|q l IH]; intros first v H N V; [congruence|]. destruct H as [H1 H2].
  destruct (Z_le_gt_dec v (cp_value q)) as [L|L].
  - exists O, (cp_value first), q. split; [reflexivity|]. split; [reflexivity|lia].
  - destruct l as [|q2 l]; [cbn [last] in V; lia|].
    destruct (IH q v H2 ltac:(discriminate)) as [k K].
    { split; [lia|]. change (last (q :: q2 :: l) first) with (last (q2 :: l) first) in V.
      assert (E : forall (z : cdf_point) l d1 d2, last (z :: l) d1 = last (z :: l) d2). { intros z l0. revert z. induction l0 as [|y l0 IHl]; intros z d1 d2; [reflexivity|]. cbn [last]. apply (IHl y). }
      rewrite (E q2 l q first). lia. }
    exists (S k). destruct k as [|k]; [|exact (proj2 (gaps_shift _ _ _ _ _) K)].
    destruct K as [lo [p [K1 [K2 K3]]]]. cbn [nth_error] in K2. injection K2 as <-. exists (cp_value q + 1), q2. split; [reflexivity|]. split; [reflexivity|lia].
Qed.
Lemma gaps_upper : forall l first k v, increasing (cp_value first) l -> in_gap first l k v -> v <= cp_value (last l first).
Proof.
  intros l first k v H [lo [p [_ [B C]]]]. assert (X : In p l) by (eapply nth_error_In; eauto). revert first H X. clear B. induction l as [|q l IH]; intros first H X; [contradiction|].
  destruct H as [H1 H2]. destruct l as [|q2 l].
  - destruct X as [->|[]]. cbn [last]. lia.
  - change (last (q :: q2 :: l) first) with (last (q2 :: l) first).
    assert (E : forall (z : cdf_point) l d1 d2, last (z :: l) d1 = last (z :: l) d2). { intros z l0. revert z. induction l0 as [|y l0 IHl]; intros z d1 d2; [reflexivity|]. cbn [last]. apply (IHl y). }
    rewrite (E q2 l first q). destruct X as [->|X]; [|now apply IH].
    assert (cp_value p < cp_value (last (q2 :: l) p)); [|lia]. apply increasing_le with (1 := H2). clear. revert q2 p. induction l as [|y l IH]; intros q2 p; [left; reflexivity|].
    right. change (last (q2 :: y :: l) p) with (last (y :: l) p). apply IH.
Qed.

(** ** The points made from a CDF, both in InitializeWithCdf and in the canonical form *)
Lemma cdf_points_gap : forall l pc first ps k p, cdf_to_pmf true pc (cp_value first) l = Some ps -> nth_error ps k = Some p ->
  exists lo q, gap_lower first l k = Some lo /\ nth_error l k = Some q /\ pp_data p = [dp_range lo (cp_value q)].
Proof.
  induction l as [|q l IH]; intros pc first ps k p H N; cbn [cdf_to_pmf] in H.
  - injection H as <-. destruct k; discriminate.
  - destruct (in_int64 (cp_value q + 1)); [|discriminate]. destruct (cdf_to_pmf true (cp_cdf q) (cp_value q + 1) l) as [qs|] eqn:Q; [|discriminate].
    injection H as <-. destruct k as [|k].
    + cbn [nth_error] in N. injection N as <-. exists (cp_value first), q. cbn. auto.
    + cbn [nth_error] in N. destruct (IH (cp_cdf q) (mkCdf (cp_cdf q) (cp_value q + 1)) qs k p Q N) as [lo [q' [A [B C]]]].
      exists lo, q'. split; [|split; [exact B|exact C]]. cbn [gap_lower]. destruct k as [|k]; [cbn [nth_error option_map]; exact A|].
      cbn [gap_lower] in A. exact A.
Qed.
Lemma canon_points_gap : forall n l pc first ps k p, canon_uniform n pc (cp_value first) l = Some ps -> nth_error ps k = Some p ->
  exists lo q, gap_lower first l k = Some lo /\ nth_error l k = Some q /\ pp_data p = repeat (dp_range lo (cp_value q)) n.
Proof.
  induction l as [|q l IH]; intros pc first ps k p H N; cbn [canon_uniform] in H.
  - injection H as <-. destruct k; discriminate.
  - destruct (in_int64 (cp_value q + 1)); [|discriminate]. destruct (canon_uniform n (f64_of_f32 (cp_cdf q)) (cp_value q + 1) l) as [qs|] eqn:Q; [|discriminate].
    injection H as <-. destruct k as [|k].
    + cbn [nth_error] in N. injection N as <-. exists (cp_value first), q. cbn. auto.
    + cbn [nth_error] in N. destruct (IH (f64_of_f32 (cp_cdf q)) (mkCdf (cp_cdf q) (cp_value q + 1)) qs k p Q N) as [lo [q' [A [B C]]]].
      exists lo, q'. split; [|split; [exact B|exact C]]. cbn [gap_lower]. destruct k as [|k]; [cbn [nth_error option_map]; exact A|].
      cbn [gap_lower] in A. exact A.
Qed.
Lemma canon_exact_nth : forall n l pc k p, nth_error (canon_exact n pc l) k = Some p ->
  exists q, nth_error l k = Some q /\ pp_data p = repeat (dp_exactly (cp_value q)) n.
Proof.
  induction l as [|q l IH]; intros pc k p H; [destruct k; discriminate|]. destruct k as [|k]; cbn [canon_exact nth_error] in H |- *.
  - injection H as <-. eauto.
  - eauto.
Qed.
Lemma cdf_points_exact : forall l pc lo ps k p, cdf_to_pmf false pc lo l = Some ps -> nth_error ps k = Some p ->
  exists q, nth_error l k = Some q /\ pp_data p = [dp_exactly (cp_value q)].
Proof.
  induction l as [|q l IH]; intros pc lo ps k p H N; cbn [cdf_to_pmf] in H.
  - injection H as <-. destruct k; discriminate.
  - destruct (in_int64 (cp_value q + 1)); [|discriminate]. destruct (cdf_to_pmf false (cp_cdf q) (cp_value q + 1) l) as [qs|] eqn:Q; [|discriminate].
    injection H as <-. destruct k as [|k]; cbn [nth_error] in N |- *; [injection N as <-; eauto|eauto].
Qed.
