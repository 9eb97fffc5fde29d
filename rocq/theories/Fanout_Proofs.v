(** Specifications and lemmas for fanout target selection. *)
From Coq Require Import Ascii String List NArith ZArith QArith Bool Lia ZifyBool ZifyNat ZifyN Permutation Sorted.
From Verif Require Import Base_Model Base_Proofs Grid_Model Grid_Proofs Fanout_Model.
Import ListNotations.
Open Scope Z_scope.
Ltac Zify.zify_post_hook ::= idtac.

(** Situations in which a running engine picks targets. *)
Record env_ok (e : fanout_env) : Prop := mkEnvOk {
  ek_can : canonical (fe_peer e);
  ek_n : fe_n e = get_count (fe_peer e);
  ek_self : fe_exclude_self e = true ->
            0 <= fe_self e < fe_n e /\ service_index (fe_peer e) (fe_self e) = Some (fe_me e);
  ek_me : 0 <= gx (fe_me e) /\ 0 <= gy (fe_me e) /\ 0 <= gz (fe_me e);
  ek_counter : 0 <= fe_counter e;
  ek_draw : forall lo hi, lo <= hi -> lo <= fe_draw e lo hi <= hi;
  ek_shuffle : forall l, Permutation (fe_shuffle e l) l }.

(** ** Lists *)
Lemma zrange_In a b i : In i (zrange a b) <-> a <= i < b.
Proof.
  unfold zrange. rewrite in_map_iff. split.
  - intros (k & <- & H). apply in_seq in H. lia.
  - intros H. exists (Z.to_nat (i - a)). split; [lia|]. apply in_seq. lia.
Qed.
Lemma zrange_NoDup a b : NoDup (zrange a b).
Proof. unfold zrange. apply NoDup_map_inj; [intros; lia|apply seq_NoDup]. Qed.
Lemma zrange_length a b : length (zrange a b) = Z.to_nat (b - a).
Proof. unfold zrange. rewrite map_length, seq_length. reflexivity. Qed.

Lemma NoDup_flat_map {A B} (f : A -> list B) l :
  NoDup l -> (forall a, In a l -> NoDup (f a)) ->
  (forall a b x, In a l -> In b l -> In x (f a) -> In x (f b) -> a = b) -> NoDup (flat_map f l).
Proof.
  intros H. induction H as [|a l Ha H IH]; intros Hf Hd; cbn [flat_map]; [constructor|].
  apply NoDup_app_intro.
  - apply Hf. left. reflexivity.
  - apply IH; [intros; apply Hf; right; assumption|]. intros x y z Hx Hy. apply Hd; right; assumption.
  - intros x Hx K. apply in_flat_map in K as (b & Hb & K).
    assert (a = b) as <- by (eapply Hd; eauto; [left; reflexivity|right; exact Hb]). auto.
Qed.

Lemma remove_value_In v l t : In t (remove_value v l) <-> In t l /\ t <> v.
Proof. unfold remove_value. rewrite filter_In. split; intros [H1 H2]; split; auto; lia. Qed.
Lemma remove_value_NoDup v l : NoDup l -> NoDup (remove_value v l).
Proof. intros H. unfold remove_value. apply NoDup_filter. exact H. Qed.

Lemma insert_by_perm key t l : Permutation (insert_by key t l) (t :: l).
Proof.
  induction l as [|u l IH]; cbn [insert_by]; [reflexivity|].
  destruct (key t <=? key u); [reflexivity|].
  rewrite IH. apply perm_swap.
Qed.
Lemma sort_by_perm key l : Permutation (sort_by key l) l.
Proof.
  induction l as [|t l IH]; cbn [sort_by]; [reflexivity|].
  rewrite insert_by_perm, IH. reflexivity.
Qed.
Lemma insert_by_sorted (key : Z -> Z) t l :
  StronglySorted (fun a b => key a <= key b) l -> StronglySorted (fun a b => key a <= key b) (insert_by key t l).
Proof.
  induction 1 as [|u l Hs IH Hu]; cbn [insert_by]; [repeat constructor|].
  destruct (Z.leb_spec (key t) (key u)) as [H|H].
  - constructor; [constructor; assumption|]. constructor; [exact H|].
    rewrite Forall_forall in *. intros x Hx. specialize (Hu x Hx). lia.
  - constructor; [exact IH|]. rewrite Forall_forall in *. intros x Hx.
    apply (Permutation_in _ (insert_by_perm key t l)) in Hx. destruct Hx as [<-|Hx]; [lia|auto].
Qed.
Lemma sort_by_sorted (key : Z -> Z) l : StronglySorted (fun a b => key a <= key b) (sort_by key l).
Proof. induction l as [|t l IH]; cbn [sort_by]; [constructor|apply insert_by_sorted, IH]. Qed.

Lemma sorted_unique (key : Z -> Z) l1 : forall l2,
  StronglySorted (fun a b => key a <= key b) l1 -> StronglySorted (fun a b => key a <= key b) l2 ->
  (forall a b, In a l1 -> In b l1 -> key a = key b -> a = b) ->
  Permutation l1 l2 -> l1 = l2.
Proof.
  induction l1 as [|a l1 IH]; intros l2 S1 S2 Hi Hp.
  - apply Permutation_nil in Hp. congruence.
  - destruct l2 as [|b l2]; [apply Permutation_sym, Permutation_nil in Hp; discriminate|].
    inversion S1 as [|? ? S1' F1]; subst. inversion S2 as [|? ? S2' F2]; subst.
    rewrite Forall_forall in F1, F2.
    assert (Hb : In b (a :: l1)) by (apply Permutation_sym in Hp; apply (Permutation_in _ Hp); left; reflexivity).
    assert (Ha : In a (b :: l2)) by (apply (Permutation_in _ Hp); left; reflexivity).
    assert (E : a = b).
    { apply Hi; [left; reflexivity|exact Hb|].
      destruct Hb as [->|Hb]; [reflexivity|]. destruct Ha as [->|Ha]; [reflexivity|].
      specialize (F1 _ Hb). specialize (F2 _ Ha). lia. }
    subst b. f_equal. apply IH; auto.
    + intros x y Hx Hy. apply Hi; right; assumption.
    + apply Permutation_cons_inv in Hp. exact Hp.
Qed.

(** ** The common tail of target selection *)
Definition raw_good (e : fanout_env) (l : list Z) : Prop :=
  NoDup l /\ forall t, In t l -> 0 <= t < fe_n e.

Lemma pick_tail e f l :
  env_ok e -> (match f with FStochastic _ => False | _ => True end) ->
  (fe_exclude_self e = true -> fe_n e <> 1 -> raw_targets e f = PickOk l) ->
  (fe_exclude_self e = false -> raw_targets e f = PickOk l) ->
  (fe_exclude_self e = true -> fe_n e = 1 -> forall t, In t l -> t = fe_self e) ->
  exists l', pick_targets e f = PickOk l' /\
    (forall t, In t l' <-> In t l /\ (fe_exclude_self e = true -> t <> fe_self e)) /\
    (NoDup l -> NoDup l').
Proof.
  intros Hok Hf H1 H2 H3. unfold pick_targets.
  destruct (fe_exclude_self e) eqn:Ex.
  - destruct (Z.eqb_spec (fe_n e) 1) as [E1|E1]; cbn [andb].
    + exists []. split; [reflexivity|]. split; [|intros; constructor].
      intros t. split; [intros []|]. intros [Hin Hne]. specialize (H3 eq_refl E1 t Hin).
      exfalso. apply Hne; auto.
    + rewrite H1 by auto.
      set (r := remove_value (fe_self e) l).
      exists (sort_by (rot_key (fe_n e) (fe_self e)) r).
      split; [destruct f; try reflexivity; contradiction|].
      split.
      * intros t. split.
        -- intros K. apply (Permutation_in _ (sort_by_perm _ _)) in K. apply remove_value_In in K. tauto.
        -- intros [K1 K2]. apply (Permutation_in _ (Permutation_sym (sort_by_perm _ _))).
           apply remove_value_In. auto.
      * intros ND. apply (Permutation_NoDup (Permutation_sym (sort_by_perm _ _))).
        apply remove_value_NoDup, ND.
  - cbn [andb]. rewrite H2 by auto. exists (fe_shuffle e l).
    split; [destruct f; try reflexivity; contradiction|].
    pose proof (ek_shuffle e Hok l) as P. split.
    + intros t. split; [intros K; split; [apply (Permutation_in _ P K)|discriminate]|].
      intros [K _]. apply (Permutation_in _ (Permutation_sym P) K).
    + intros ND. apply (Permutation_NoDup (Permutation_sym P) ND).
Qed.

(** ** Grid filters *)
Definition matches (f : bool) (a b : Z) : Prop := f = true -> a = b.

Lemma same_service_in_grid e : env_ok e -> fe_exclude_self e = true ->
  in_grid (fe_peer e) (fe_me e) /\ instance_from_grid (fe_peer e) (fe_me e) = fe_self e.
Proof.
  intros H Ex. destruct (ek_self e H Ex) as [R E].
  rewrite (ek_n e H) in R.
  destruct (proj1 (grid_bijection _ (ek_can e H)) _ R) as (g & E1 & E2 & E3).
  assert (g = fe_me e) as <- by congruence. auto.
Qed.

(** The named coordinates of the sender exist in the target grid. *)
Definition grid_compatible (e : fanout_env) (fx fy fz : bool) : Prop :=
  (fx = true -> gx (fe_me e) < x_size (fe_peer e)) /\
  (fy = true -> gy (fe_me e) < y_size (fe_peer e)) /\
  (fz = true -> gz (fe_me e) < z_size (fe_peer e)).

Lemma same_service_compatible e fx fy fz : env_ok e -> fe_exclude_self e = true -> grid_compatible e fx fy fz.
Proof. intros H Ex. destruct (same_service_in_grid e H Ex) as [(A & B & C) _]. repeat split; intros; lia. Qed.

Lemma axis_range (f : bool) me size i : 0 <= me -> (f = true -> me < size) ->
  In i (if f then zrange me (me + 1) else zrange 0 size) <-> 0 <= i < size /\ matches f i me.
Proof.
  intros H0 Hc. unfold matches. destruct f; rewrite zrange_In.
  - specialize (Hc eq_refl). split; [intros; split; [lia|intros; lia]|intros [A B]; specialize (B eq_refl); lia].
  - split; [intros; split; [lia|discriminate]|tauto].
Qed.

Lemma pick_grid_In e fx fy fz t : env_ok e -> grid_compatible e fx fy fz ->
  (In t (pick_grid fx fy fz (fe_me e) (fe_peer e)) <->
   exists g, in_grid (fe_peer e) g /\ matches fx (gx g) (gx (fe_me e)) /\
             matches fy (gy g) (gy (fe_me e)) /\ matches fz (gz g) (gz (fe_me e)) /\
             t = instance_from_grid (fe_peer e) g).
Proof.
  intros H (Cx & Cy & Cz). destruct (ek_me e H) as (Mx & My & Mz).
  unfold pick_grid. cbv zeta. rewrite in_flat_map. split.
  - intros (i & Hi & K). apply in_flat_map in K as (j & Hj & K). apply in_map_iff in K as (k & <- & Hk).
    apply axis_range in Hi; auto. apply axis_range in Hj; auto. apply axis_range in Hk; auto.
    exists (mkGI i j k). unfold in_grid, instance_from_grid; cbn [gx gy gz]. tauto.
  - intros ([i j k] & (Gx & Gy & Gz) & Kx & Ky & Kz & ->); cbn [gx gy gz] in *.
    exists i. split; [apply axis_range; auto|]. apply in_flat_map.
    exists j. split; [apply axis_range; auto|]. apply in_map_iff.
    exists k. split; [reflexivity|]. apply axis_range; auto.
Qed.

Lemma instance_inj s g1 g2 : canonical s -> in_grid s g1 -> in_grid s g2 ->
  instance_from_grid s g1 = instance_from_grid s g2 -> g1 = g2.
Proof.
  intros Hc H1 H2 E. destruct (proj2 (grid_bijection s Hc) g1 H1) as [_ E1].
  destruct (proj2 (grid_bijection s Hc) g2 H2) as [_ E2]. congruence.
Qed.

Lemma pick_grid_NoDup e fx fy fz : env_ok e -> grid_compatible e fx fy fz ->
  NoDup (pick_grid fx fy fz (fe_me e) (fe_peer e)).
Proof.
  intros H (Cx & Cy & Cz). destruct (ek_me e H) as (Mx & My & Mz). pose proof (ek_can e H) as Hc.
  set (p := fe_peer e) in *. set (me := fe_me e) in *.
  assert (Inj : forall i j k i' j' k',
    0 <= i < x_size p -> 0 <= j < y_size p -> 0 <= k < z_size p ->
    0 <= i' < x_size p -> 0 <= j' < y_size p -> 0 <= k' < z_size p ->
    i + j * x_size p + k * x_size p * y_size p = i' + j' * x_size p + k' * x_size p * y_size p ->
    i = i' /\ j = j' /\ k = k').
  { intros i j k i' j' k' A1 A2 A3 A4 A5 A6 E.
    pose proof (instance_inj p (mkGI i j k) (mkGI i' j' k') Hc) as K.
    unfold in_grid, instance_from_grid in K; cbn [gx gy gz] in K.
    specialize (K (conj A1 (conj A2 A3)) (conj A4 (conj A5 A6)) E). injection K as -> -> ->. auto. }
  unfold pick_grid. cbv zeta.
  assert (RX : forall i, In i (if fx then zrange (gx me) (gx me + 1) else zrange 0 (x_size p)) -> 0 <= i < x_size p)
    by (intros i Hi; apply axis_range in Hi; tauto).
  assert (RY : forall i, In i (if fy then zrange (gy me) (gy me + 1) else zrange 0 (y_size p)) -> 0 <= i < y_size p)
    by (intros i Hi; apply axis_range in Hi; tauto).
  assert (RZ : forall i, In i (if fz then zrange (gz me) (gz me + 1) else zrange 0 (z_size p)) -> 0 <= i < z_size p)
    by (intros i Hi; apply axis_range in Hi; tauto).
  apply NoDup_flat_map.
  - destruct fx; apply zrange_NoDup.
  - intros i Hi. apply NoDup_flat_map.
    + destruct fy; apply zrange_NoDup.
    + intros j Hj. apply NoDup_map_inj; [|destruct fz; apply zrange_NoDup].
      intros k k' Hk Hk' E. apply (Inj i j k i j k') in E; auto. tauto.
    + intros j j' t Hj Hj' K K'. apply in_map_iff in K as (k & <- & Hk). apply in_map_iff in K' as (k' & E & Hk').
      apply (Inj i j' k' i j k) in E; auto. intuition.
  - intros i i' t Hi Hi' K K'. apply in_flat_map in K as (j & Hj & K). apply in_flat_map in K' as (j' & Hj' & K').
    apply in_map_iff in K as (k & <- & Hk). apply in_map_iff in K' as (k' & E & Hk').
    apply (Inj i' j' k' i j k) in E; auto. intuition.
Qed.

Lemma in_grid_range e g : env_ok e -> in_grid (fe_peer e) g ->
  0 <= instance_from_grid (fe_peer e) g < fe_n e.
Proof. intros H Hg. rewrite (ek_n e H). apply (proj2 (grid_bijection _ (ek_can e H)) g Hg). Qed.

Lemma single_in_grid e : env_ok e -> fe_n e = 1 -> forall t, 0 <= t < fe_n e -> t = 0.
Proof. intros. lia. Qed.

Lemma grid_targets e fx fy fz : env_ok e -> grid_compatible e fx fy fz ->
  exists l, pick_targets e (FGrid fx fy fz) = PickOk l /\ NoDup l /\
    forall t, In t l <->
      exists g, in_grid (fe_peer e) g /\ matches fx (gx g) (gx (fe_me e)) /\
             matches fy (gy g) (gy (fe_me e)) /\ matches fz (gz g) (gz (fe_me e)) /\
             t = instance_from_grid (fe_peer e) g /\ (fe_exclude_self e = true -> t <> fe_self e).
Proof.
  intros H Hc.
  destruct (pick_tail e (FGrid fx fy fz) (pick_grid fx fy fz (fe_me e) (fe_peer e)) H I) as (l & E & Hin & Hnd).
  - reflexivity.
  - reflexivity.
  - intros Ex E1 t Ht. apply pick_grid_In in Ht as (g & Hg & _ & _ & _ & ->); auto.
    pose proof (in_grid_range e g H Hg). destruct (ek_self e H Ex). lia.
  - exists l. split; [exact E|]. split; [apply Hnd, pick_grid_NoDup; assumption|].
    intros t. rewrite Hin, pick_grid_In by assumption. split.
    + intros [(g & A & B & C & D & F) K]. exists g. tauto.
    + intros (g & A & B & C & D & F & K). split; [exists g; tauto|exact K].
Qed.

(** ** Linear filters *)
Definition shifted (a : axis) (d : Z) (g g' : grid_index) : Prop :=
  gx g' = gx g + (match a with AxX => d | _ => 0 end) /\
  gy g' = gy g + (match a with AxY => d | _ => 0 end) /\
  gz g' = gz g + (match a with AxZ => d | _ => 0 end).

Lemma pick_linear_In a d me p t :
  In t (pick_linear a d me p) <->
  exists g, in_grid p g /\ shifted a d me g /\ t = instance_from_grid p g.
Proof.
  unfold pick_linear. cbv zeta.
  set (x := match a with AxX => gx me + d | _ => gx me end).
  set (y := match a with AxY => gy me + d | _ => gy me end).
  set (z := match a with AxZ => gz me + d | _ => gz me end).
  assert (S : forall g, shifted a d me g <-> g = mkGI x y z).
  { intros [i j k]. unfold shifted, x, y, z; cbn [gx gy gz]. destruct a; split; intros; 
    try (f_equal; lia); match goal with K : _ = _ |- _ => injection K as -> -> -> end; lia. }
  destruct ((x <? 0) || (y <? 0) || (z <? 0)) eqn:E1.
  { split; [intros []|]. intros (g & G & K & ->). apply S in K as ->. unfold in_grid in G; cbn [gx gy gz] in G. lia. }
  destruct ((x_size p <=? x) || (y_size p <=? y) || (z_size p <=? z)) eqn:E2.
  { split; [intros []|]. intros (g & G & K & ->). apply S in K as ->. unfold in_grid in G; cbn [gx gy gz] in G. lia. }
  split.
  - intros [<-|[]]. exists (mkGI x y z). split; [unfold in_grid; cbn [gx gy gz]; lia|]. split; [apply S; reflexivity|reflexivity].
  - intros (g & G & K & ->). apply S in K as ->. left. reflexivity.
Qed.

Lemma pick_linear_NoDup a d me p : NoDup (pick_linear a d me p).
Proof.
  unfold pick_linear. cbv zeta.
  match goal with |- context [if ?b then _ else _] => destruct b; [constructor|] end.
  match goal with |- context [if ?b then _ else _] => destruct b; [constructor|] end.
  repeat constructor. intros [].
Qed.

Lemma linear_targets e a d : env_ok e ->
  exists l, pick_targets e (FLinear a d) = PickOk l /\ NoDup l /\ (length l <= 1)%nat /\
    forall t, In t l <-> exists g, in_grid (fe_peer e) g /\ shifted a d (fe_me e) g /\
                          t = instance_from_grid (fe_peer e) g /\ (fe_exclude_self e = true -> t <> fe_self e).
Proof.
  intros H.
  destruct (pick_tail e (FLinear a d) (pick_linear a d (fe_me e) (fe_peer e)) H I) as (l & E & Hin & Hnd).
  - reflexivity.
  - reflexivity.
  - intros Ex E1 t Ht. apply pick_linear_In in Ht as (g & Hg & _ & ->).
    pose proof (in_grid_range e g H Hg). destruct (ek_self e H Ex). lia.
  - exists l. split; [exact E|]. split; [apply Hnd, pick_linear_NoDup|].
    assert (P : forall t, In t l <-> exists g, in_grid (fe_peer e) g /\ shifted a d (fe_me e) g /\
                          t = instance_from_grid (fe_peer e) g /\ (fe_exclude_self e = true -> t <> fe_self e)).
    { intros t. rewrite Hin, pick_linear_In. split.
      + intros [(g & A & B & C) K]. exists g. tauto.
      + intros (g & A & B & C & K). split; [exists g; tauto|exact K]. }
    split; [|exact P].
    assert (ND : NoDup l) by (apply Hnd, pick_linear_NoDup).
    destruct l as [|t1 [|t2 r]]; [cbn; lia|cbn; lia|exfalso].
    assert (t1 = t2).
    { destruct (proj1 (P t1) (or_introl eq_refl)) as (g1 & _ & S1 & -> & _).
      destruct (proj1 (P t2) (or_intror (or_introl eq_refl))) as (g2 & _ & S2 & -> & _).
      f_equal. destruct g1 as [i1 j1 k1], g2 as [i2 j2 k2]. unfold shifted in S1, S2; cbn [gx gy gz] in S1, S2. f_equal; lia. }
    subst. inversion ND; subst. cbn in *. tauto.
Qed.

(** ** Rings *)
Definition axis_get (a : axis) (g : grid_index) : Z :=
  match a with AxX => gx g | AxY => gy g | AxZ => gz g end.
Definition axis_size (a : axis) (s : service_spec) : Z :=
  match a with AxX => x_size s | AxY => y_size s | AxZ => z_size s end.
(** [g'] is one step of [d] further than [g] around the ring of axis [a]. *)
Definition ring_step (s : service_spec) (a : axis) (d : Z) (g g' : grid_index) : Prop :=
  axis_get a g' = (axis_get a g + d) mod axis_size a s /\
  forall b, b <> a -> axis_get b g' = axis_get b g.
(** The direction of travel: alternating rings run backwards on lines whose
    cross coordinate is odd. *)
Definition cross (a : axis) : axis := match a with AxX => AxY | _ => AxX end.
Definition direction (alternating : bool) (a : axis) (g : grid_index) : Z :=
  if alternating && Z.odd (axis_get (cross a) g) then -1 else 1.

Definition axis_set (a : axis) (g : grid_index) (v : Z) : grid_index :=
  match a with AxX => mkGI v (gy g) (gz g) | AxY => mkGI (gx g) v (gz g) | AxZ => mkGI (gx g) (gy g) v end.
Definition ring_next (s : service_spec) (alternating : bool) (a : axis) (g : grid_index) : grid_index :=
  axis_set a g ((axis_get a g + direction alternating a g) mod axis_size a s).

Lemma ring_next_step s alt a g : ring_step s a (direction alt a g) g (ring_next s alt a g).
Proof.
  unfold ring_step, ring_next. split.
  - destruct a; reflexivity.
  - intros b Hb. destruct a, b; try congruence; reflexivity.
Qed.

Lemma axis_size_pos s a : canonical s -> 0 < axis_size a s.
Proof. intros H. destruct (canonical_pos s H) as (A & B & C). destruct a; assumption. Qed.

Lemma in_grid_axes s g : in_grid s g <-> forall a, 0 <= axis_get a g < axis_size a s.
Proof.
  split.
  - intros (A & B & C) a. destruct a; assumption.
  - intros H. split; [apply (H AxX)|split; [apply (H AxY)|apply (H AxZ)]].
Qed.

Lemma ring_next_in_grid s alt a g : canonical s -> in_grid s g -> in_grid s (ring_next s alt a g).
Proof.
  intros Hc Hg. rewrite in_grid_axes in *. intros b.
  assert (D : {b = a} + {b <> a}) by (destruct a, b; auto; right; discriminate).
  destruct (ring_next_step s alt a g) as [E1 E2].
  destruct D as [->|D].
  - rewrite E1. apply Z.mod_pos_bound. apply axis_size_pos, Hc.
  - rewrite (E2 b D). apply Hg.
Qed.

Lemma rem_wrap c size d : 0 < size -> 0 <= c < size -> -1 <= d <= 1 ->
  Z.rem (c + size + d) size = (c + d) mod size.
Proof.
  intros Hs Hc Hd. rewrite Z.rem_mod_nonneg by lia.
  replace (c + size + d) with (c + d + 1 * size) by ring. apply Z.mod_add. lia.
Qed.

Lemma pick_ring_eq alt a me s : canonical s -> in_grid s me ->
  pick_ring alt a me s = Some [instance_from_grid s (ring_next s alt a me)].
Proof.
  intros Hc Hg. destruct (canonical_pos s Hc) as (Px & Py & Pz).
  destruct Hg as (Gx & Gy & Gz).
  unfold pick_ring, cmod. cbv zeta.
  destruct (Z.eqb_spec (x_size s) 0); [lia|]. destruct (Z.eqb_spec (y_size s) 0); [lia|].
  destruct (Z.eqb_spec (z_size s) 0); [lia|].
  assert (Hd : forall v, -1 <= (if alt then alt_step v else 1) <= 1)
    by (intros v; unfold alt_step; destruct alt; [destruct (Z.odd v)|]; lia).
  assert (H0 : forall c size, 0 < size -> 0 <= c < size -> Z.rem (c + size) size = c).
  { intros c size A B. rewrite Z.rem_mod_nonneg by lia. 
    replace (c + size) with (c + 1 * size) by ring. rewrite Z.mod_add by lia. apply Z.mod_small. lia. }
  unfold ring_next, instance_from_grid, direction.
  destruct a; cbn [axis_get axis_set axis_size cross gx gy gz].
  - rewrite rem_wrap, !H0 by auto. unfold alt_step. destruct alt; [destruct (Z.odd (gy me))|]; reflexivity.
  - rewrite rem_wrap, !H0 by auto. unfold alt_step. destruct alt; [destruct (Z.odd (gx me))|]; reflexivity.
  - rewrite rem_wrap, !H0 by auto. unfold alt_step. destruct alt; [destruct (Z.odd (gx me))|]; reflexivity.
Qed.

Definition ring_filter (alternating : bool) (a : axis) : fanout :=
  if alternating then FAltRing a else FRing a.

Lemma ring_targets e alt a : env_ok e -> in_grid (fe_peer e) (fe_me e) ->
  exists g', in_grid (fe_peer e) g' /\ ring_step (fe_peer e) a (direction alt a (fe_me e)) (fe_me e) g' /\
    let t := instance_from_grid (fe_peer e) g' in
    pick_targets e (ring_filter alt a) = PickOk (if fe_exclude_self e && (t =? fe_self e) then [] else [t]).
Proof.
  intros H Hg. exists (ring_next (fe_peer e) alt a (fe_me e)).
  pose proof (ring_next_in_grid _ alt a _ (ek_can e H) Hg) as Hn.
  split; [exact Hn|]. split; [apply ring_next_step|]. cbv zeta.
  set (t := instance_from_grid (fe_peer e) (ring_next (fe_peer e) alt a (fe_me e))).
  pose proof (in_grid_range e _ H Hn) as Ht. fold t in Ht.
  assert (R : raw_targets e (ring_filter alt a) = PickOk [t]).
  { unfold ring_filter, raw_targets. destruct alt; rewrite pick_ring_eq by (auto; apply (ek_can e H)); reflexivity. }
  unfold pick_targets. rewrite R.
  destruct (fe_exclude_self e) eqn:Ex; cbn [andb].
  - destruct (ek_self e H Ex) as [Rs _].
    destruct (Z.eqb_spec (fe_n e) 1) as [E1|E1].
    + destruct (Z.eqb_spec t (fe_self e)); [reflexivity|lia].
    + unfold remove_value; cbn [filter]. destruct (Z.eqb_spec t (fe_self e)); destruct alt; reflexivity.
  - assert (fe_shuffle e [t] = [t]) as ->.
    { apply Permutation_length_1_inv. apply Permutation_sym, (ek_shuffle e H). }
    destruct alt; reflexivity.
Qed.

(** The ring relation is a permutation: each coordinate has one successor and
    one predecessor. *)
Lemma mod_step_inj n a b d : 0 < n -> 0 <= a < n -> 0 <= b < n -> (a + d) mod n = (b + d) mod n -> a = b.
Proof.
  intros Hn Ha Hb E.
  assert (((a + d) mod n - d) mod n = ((b + d) mod n - d) mod n) by congruence.
  rewrite !Zminus_mod_idemp_l in *.
  replace (a + d - d) with a in * by ring. replace (b + d - d) with b in * by ring.
  rewrite !Z.mod_small in * by lia. assumption.
Qed.

Lemma grid_eq g g' : (forall b, axis_get b g = axis_get b g') -> g = g'.
Proof.
  intros H. destruct g, g'. pose proof (H AxX). pose proof (H AxY). pose proof (H AxZ). cbn in *. congruence.
Qed.

Lemma cross_neq a : cross a <> a.
Proof. destruct a; discriminate. Qed.

Lemma direction_next s alt a g : direction alt a (ring_next s alt a g) = direction alt a g.
Proof.
  unfold direction. destruct (ring_next_step s alt a g) as [_ E].
  rewrite (E (cross a) (cross_neq a)). reflexivity.
Qed.

Lemma ring_next_inj s alt a g1 g2 : canonical s -> in_grid s g1 -> in_grid s g2 ->
  ring_next s alt a g1 = ring_next s alt a g2 -> g1 = g2.
Proof.
  intros Hc H1 H2 E.
  destruct (ring_next_step s alt a g1) as [A1 B1]. destruct (ring_next_step s alt a g2) as [A2 B2].
  pose proof (direction_next s alt a g1) as D1. pose proof (direction_next s alt a g2) as D2.
  rewrite E in *. apply grid_eq. intros b.
  assert (D : {b = a} + {b <> a}) by (destruct a, b; auto; right; discriminate).
  destruct D as [->|D]; [|rewrite <- (B1 b D), <- (B2 b D); reflexivity].
  rewrite in_grid_axes in H1, H2.
  apply (mod_step_inj (axis_size a s) _ _ (direction alt a g1)); auto using axis_size_pos.
  rewrite <- A1, A2, <- D1, D2. reflexivity.
Qed.

(** Walking the ring: k steps move the coordinate by k (mod size). *)
Fixpoint iter {A} (k : nat) (f : A -> A) (x : A) : A :=
  match k with O => x | S k' => f (iter k' f x) end.

Lemma ring_walk s alt a g k : canonical s -> in_grid s g ->
  ring_step s a (direction alt a g * Z.of_nat k) g (iter k (ring_next s alt a) g) /\
  direction alt a (iter k (ring_next s alt a) g) = direction alt a g.
Proof.
  intros Hc Hg. induction k as [|k [[IH1 IH2] IH3]]; cbn [iter].
  - split; [|reflexivity]. split; [|reflexivity].
    rewrite in_grid_axes in Hg. rewrite Z.mod_small; [lia|]. specialize (Hg a). lia.
  - split; [|rewrite direction_next; exact IH3].
    destruct (ring_next_step s alt a (iter k (ring_next s alt a) g)) as [A B]. split.
    + rewrite A, IH1, IH3. rewrite Zplus_mod_idemp_l. f_equal. lia.
    + intros b Hb. rewrite (B b Hb). apply IH2, Hb.
Qed.

(** Any two coordinates on one line are connected within fewer steps than the
    line is long. *)
Lemma ring_reaches s alt a g g' : canonical s -> in_grid s g -> in_grid s g' ->
  (forall b, b <> a -> axis_get b g' = axis_get b g) ->
  exists k, (Z.of_nat k < axis_size a s) /\ iter k (ring_next s alt a) g = g'.
Proof.
  intros Hc Hg Hg' Hl. pose proof (axis_size_pos s a Hc) as Hp.
  set (d := direction alt a g).
  assert (Hd : d = 1 \/ d = -1) by (unfold d, direction; destruct (_ && _); auto).
  set (delta := (d * (axis_get a g' - axis_get a g)) mod axis_size a s).
  assert (Hdl : 0 <= delta < axis_size a s) by (apply Z.mod_pos_bound; lia).
  exists (Z.to_nat delta). split; [lia|].
  destruct (ring_walk s alt a g (Z.to_nat delta) Hc Hg) as [[A B] _].
  apply grid_eq. intros b.
  assert (D : {b = a} + {b <> a}) by (destruct a, b; auto; right; discriminate).
  destruct D as [->|D]; [|rewrite (B b D), (Hl b D); reflexivity].
  rewrite A. fold d. rewrite Z2Nat.id by lia. unfold delta.
  rewrite in_grid_axes in Hg'. specialize (Hg' a).
  rewrite <- Zplus_mod_idemp_r, Zmult_mod_idemp_r, Zplus_mod_idemp_r.
  replace (axis_get a g + d * (d * (axis_get a g' - axis_get a g))) with (axis_get a g')
    by (destruct Hd as [-> | ->]; ring).
  apply Z.mod_small. lia.
Qed.

(** ** Round robin and random_single *)
Definition eligible (e : fanout_env) : list Z :=
  if fe_exclude_self e then remove_value (fe_self e) (zrange 0 (fe_n e)) else zrange 0 (fe_n e).
Definition with_counter (e : fanout_env) (c : Z) : fanout_env :=
  mkEnv (fe_exclude_self e) (fe_self e) (fe_me e) (fe_peer e) (fe_n e) c (fe_draw e) (fe_rv e) (fe_shuffle e).
Definition with_draw (e : fanout_env) (r : Z) : fanout_env :=
  mkEnv (fe_exclude_self e) (fe_self e) (fe_me e) (fe_peer e) (fe_n e) (fe_counter e)
        (fun _ _ => r) (fe_rv e) (fe_shuffle e).
Definition num_eligible (e : fanout_env) : Z := if fe_exclude_self e then fe_n e - 1 else fe_n e.

(** The single target drawn from slot [k] of [0..num_eligible). *)
Definition slot_target (e : fanout_env) (k : Z) : Z :=
  if fe_exclude_self e && (k =? fe_self e) then fe_n e - 1 else k.

Lemma fe_n_pos e : env_ok e -> 0 < fe_n e.
Proof.
  intros H. rewrite (ek_n e H), (canonical_count _ (ek_can e H)).
  destruct (canonical_pos _ (ek_can e H)) as (A & B & C). nia.
Qed.

Lemma single_tail e f t : env_ok e -> (match f with FStochastic _ => False | _ => True end) ->
  (fe_exclude_self e = true -> fe_n e <> 1 /\ t <> fe_self e) ->
  raw_targets e f = PickOk [t] -> pick_targets e f = PickOk [t].
Proof.
  intros H Hf Hn R. unfold pick_targets. rewrite R. destruct (fe_exclude_self e); cbn [andb].
  - destruct (Hn eq_refl) as [N1 N2]. destruct (Z.eqb_spec (fe_n e) 1); [contradiction|].
    unfold remove_value; cbn [filter]. destruct (Z.eqb_spec t (fe_self e)); [contradiction|].
    destruct f; try reflexivity; contradiction.
  - assert (fe_shuffle e [t] = [t]) as ->.
    { apply Permutation_length_1_inv. apply Permutation_sym, (ek_shuffle e H). }
    destruct f; try reflexivity; contradiction.
Qed.

Lemma round_robin_target e c : env_ok e -> 0 <= c -> 0 < num_eligible e ->
  pick_targets (with_counter e c) FRoundRobin = PickOk [slot_target e (c mod num_eligible e)].
Proof.
  intros H Hc Hm.
  assert (H' : env_ok (with_counter e c)) by (destruct H; constructor; auto).
  apply (single_tail (with_counter e c)); [exact H'|exact I| |].
  - cbn [with_counter fe_exclude_self fe_n fe_self]. intros Ex. unfold num_eligible, slot_target in *. rewrite Ex in *.
    destruct (ek_self e H Ex) as [Rs _].
    pose proof (Z.mod_pos_bound c (fe_n e - 1) Hm). split; [lia|].
    cbn [andb]. destruct (Z.eqb_spec (c mod (fe_n e - 1)) (fe_self e)); lia.
  - unfold raw_targets. cbn [with_counter fe_exclude_self fe_n fe_self fe_counter].
    unfold num_eligible, slot_target, cmod in *. destruct (fe_exclude_self e); cbn [andb].
    + destruct (Z.eqb_spec (fe_n e - 1) 0); [lia|]. rewrite Z.rem_mod_nonneg by lia. reflexivity.
    + destruct (Z.eqb_spec (fe_n e) 0); [lia|]. rewrite Z.rem_mod_nonneg by lia. reflexivity.
Qed.

Lemma random_single_target e r : env_ok e -> 0 <= r < num_eligible e ->
  pick_targets (with_draw e r) FRandomSingle = PickOk [slot_target e r].
Proof.
  intros H Hr.
  assert (E : pick_targets (with_draw e r) FRandomSingle =
     if fe_exclude_self e && (fe_n e =? 1) then PickOk []
     else if fe_exclude_self e then PickOk (sort_by (rot_key (fe_n e) (fe_self e)) (remove_value (fe_self e) [slot_target e r]))
     else PickOk (fe_shuffle e [slot_target e r])).
  { unfold pick_targets, raw_targets. cbn [with_draw fe_exclude_self fe_n fe_self fe_draw fe_shuffle].
    unfold num_eligible, slot_target in *. destruct (fe_exclude_self e); cbn [andb].
    - destruct (Z.eqb_spec (fe_n e) 1); [reflexivity|]. destruct (Z.ltb_spec (fe_n e - 2) 0); [lia|]. reflexivity.
    - destruct (Z.ltb_spec (fe_n e - 1) 0); [lia|]. reflexivity. }
  rewrite E. unfold num_eligible in Hr. destruct (fe_exclude_self e) eqn:Ex; cbn [andb].
  - destruct (ek_self e H Ex) as [Rs _]. destruct (Z.eqb_spec (fe_n e) 1); [lia|].
    unfold slot_target. rewrite Ex. cbn [andb]. unfold remove_value; cbn [filter].
    destruct (Z.eqb_spec r (fe_self e)).
    + destruct (Z.eqb_spec (fe_n e - 1) (fe_self e)); [lia|reflexivity].
    + destruct (Z.eqb_spec r (fe_self e)); [lia|reflexivity].
  - f_equal. apply Permutation_length_1_inv. apply Permutation_sym, (ek_shuffle e H).
Qed.

Lemma slot_target_perm e : env_ok e -> (fe_exclude_self e = true -> fe_n e <> 1) ->
  Permutation (map (slot_target e) (zrange 0 (num_eligible e))) (eligible e).
Proof.
  intros H Hn. pose proof (fe_n_pos e H) as Hp.
  unfold slot_target, num_eligible, eligible in *. destruct (fe_exclude_self e) eqn:Ex; cbn [andb].
  2:{ rewrite map_id. reflexivity. }
  destruct (ek_self e H Ex) as [Rs _]. specialize (Hn eq_refl).
  apply NoDup_Permutation.
  - apply NoDup_map_inj; [|apply zrange_NoDup]. intros a b Ha Hb. rewrite zrange_In in Ha, Hb.
    destruct (Z.eqb_spec a (fe_self e)), (Z.eqb_spec b (fe_self e)); lia.
  - apply remove_value_NoDup, zrange_NoDup.
  - intros t. rewrite in_map_iff, remove_value_In, zrange_In. split.
    + intros (k & <- & Hk). rewrite zrange_In in Hk. destruct (Z.eqb_spec k (fe_self e)); lia.
    + intros [Ht Ns]. destruct (Z.eq_dec t (fe_n e - 1)) as [->|N].
      * exists (fe_self e). rewrite Z.eqb_refl, zrange_In. lia.
      * exists t. rewrite zrange_In. destruct (Z.eqb_spec t (fe_self e)); lia.
Qed.

(** Residues of m consecutive numbers are a permutation of 0..m-1. *)
Lemma residues_perm c m : 0 < m -> 0 <= c ->
  Permutation (map (fun k => (c + k) mod m) (zrange 0 m)) (zrange 0 m).
Proof.
  intros Hm Hc. apply NoDup_Permutation_bis.
  - apply NoDup_map_inj; [|apply zrange_NoDup]. intros a b Ha Hb E. rewrite zrange_In in Ha, Hb.
    rewrite (Z.add_comm c a), (Z.add_comm c b) in E. apply (mod_step_inj m a b c); auto.
  - rewrite map_length. lia.
  - intros t K. apply in_map_iff in K as (k & <- & _). rewrite zrange_In. apply Z.mod_pos_bound. lia.
Qed.

Definition the_target (r : pick_result) : list Z := match r with PickOk l => l | PickUB => [] end.

Lemma round_robin_window e c : env_ok e -> 0 <= c -> 0 < num_eligible e ->
  Permutation
    (flat_map (fun k => the_target (pick_targets (with_counter e (c + k)) FRoundRobin)) (zrange 0 (num_eligible e)))
    (eligible e).
Proof.
  intros H Hc Hm.
  assert (E : flat_map (fun k => the_target (pick_targets (with_counter e (c + k)) FRoundRobin)) (zrange 0 (num_eligible e))
            = map (slot_target e) (map (fun k => (c + k) mod num_eligible e) (zrange 0 (num_eligible e)))).
  { rewrite map_map. assert (K : forall k, In k (zrange 0 (num_eligible e)) -> 0 <= k) by (intros k; rewrite zrange_In; lia).
    revert K. generalize (zrange 0 (num_eligible e)). intros l K. induction l as [|k l IH]; [reflexivity|].
    cbn [flat_map map]. rewrite round_robin_target by (auto; specialize (K k (or_introl eq_refl)); lia).
    cbn [the_target app]. rewrite IH by (intros; apply K; right; assumption). reflexivity. }
  rewrite E, residues_perm by assumption. apply slot_target_perm; [exact H|].
  unfold num_eligible in Hm. intros Ex. rewrite Ex in Hm. lia.
Qed.

Lemma random_single_bijective e : env_ok e -> 0 < num_eligible e ->
  Permutation
    (flat_map (fun r => the_target (pick_targets (with_draw e r) FRandomSingle)) (zrange 0 (num_eligible e)))
    (eligible e).
Proof.
  intros H Hm.
  assert (E : flat_map (fun r => the_target (pick_targets (with_draw e r) FRandomSingle)) (zrange 0 (num_eligible e))
            = map (slot_target e) (zrange 0 (num_eligible e))).
  { assert (K : forall k, In k (zrange 0 (num_eligible e)) -> 0 <= k < num_eligible e) by (intros k; rewrite zrange_In; lia).
    revert K. generalize (zrange 0 (num_eligible e)). intros l K. induction l as [|k l IH]; [reflexivity|].
    cbn [flat_map map]. rewrite random_single_target by (auto; specialize (K k (or_introl eq_refl)); lia).
    cbn [the_target app]. rewrite IH by (intros; apply K; right; assumption). reflexivity. }
  rewrite E. apply slot_target_perm; [exact H|].
  unfold num_eligible in Hm. intros Ex. rewrite Ex in Hm. lia.
Qed.

(** ** Staggering *)
Lemma all_targets_perm e : env_ok e ->
  Permutation (pick_grid false false false (fe_me e) (fe_peer e)) (zrange 0 (fe_n e)).
Proof.
  intros H. assert (C : grid_compatible e false false false) by (repeat split; discriminate).
  apply NoDup_Permutation.
  - apply pick_grid_NoDup; assumption.
  - apply zrange_NoDup.
  - intros t. rewrite pick_grid_In by assumption. rewrite zrange_In. split.
    + intros (g & Hg & _ & _ & _ & ->). apply in_grid_range; assumption.
    + intros Ht. rewrite (ek_n e H) in Ht.
      destruct (proj1 (grid_bijection _ (ek_can e H)) t Ht) as (g & _ & Hg & E).
      exists g. unfold matches. split; [exact Hg|]. repeat split; try discriminate. auto.
Qed.

Lemma rot_key_eq n self t : 0 < n -> 0 <= self < n -> 0 <= t -> rot_key n self t = (t - self) mod n.
Proof.
  intros. unfold rot_key. rewrite Z.rem_mod_nonneg by lia.
  replace (t + (n - self)) with (t - self + 1 * n) by ring. apply Z.mod_add. lia.
Qed.

Lemma sub_mod n self k : 0 < n -> 0 <= k < n -> ((self + k) mod n - self) mod n = k.
Proof.
  intros. rewrite Zminus_mod_idemp_l. replace (self + k - self) with k by ring. apply Z.mod_small. lia.
Qed.

Lemma map_StronglySorted {A B} (R : B -> B -> Prop) (f : A -> B) l :
  StronglySorted (fun a b => R (f a) (f b)) l -> StronglySorted R (map f l).
Proof.
  induction 1 as [|a l S IH F]; cbn [map]; constructor; auto.
  rewrite Forall_forall in *. intros y Hy. apply in_map_iff in Hy as (x & <- & Hx). auto.
Qed.

Lemma seq_sorted n : forall a, StronglySorted (fun i j => (i <= j)%nat) (seq a n).
Proof.
  induction n as [|n IH]; intros a; cbn [seq]; constructor; auto.
  rewrite Forall_forall. intros x Hx. apply in_seq in Hx. lia.
Qed.

Lemma StronglySorted_weaken {A} (R1 R2 : A -> A -> Prop) l :
  (forall a b, In a l -> In b l -> R1 a b -> R2 a b) -> StronglySorted R1 l -> StronglySorted R2 l.
Proof.
  intros HR S. induction S as [|a l S IH F]; constructor.
  - apply IH. intros x y Hx Hy. apply HR; right; assumption.
  - rewrite Forall_forall in *. intros x Hx. apply HR; [left; reflexivity|right; exact Hx|auto].
Qed.

Lemma zrange_sorted a b : StronglySorted Z.le (zrange a b).
Proof.
  unfold zrange. apply map_StronglySorted. eapply StronglySorted_weaken; [|apply seq_sorted].
  cbn. intros. lia.
Qed.

Lemma staggered e : env_ok e -> fe_exclude_self e = true ->
  pick_targets e (FGrid false false false) =
  PickOk (map (fun k => (fe_self e + k) mod fe_n e) (zrange 1 (fe_n e))).
Proof.
  intros H Ex. destruct (ek_self e H Ex) as [Rs _]. pose proof (fe_n_pos e H) as Hp.
  unfold pick_targets, raw_targets. rewrite Ex. cbn [andb].
  destruct (Z.eqb_spec (fe_n e) 1) as [E1|E1].
  { rewrite E1. reflexivity. }
  f_equal. set (n := fe_n e) in *. set (self := fe_self e) in *.
  set (L := map (fun k => (self + k) mod n) (zrange 1 n)).
  assert (KeyL : forall k, 0 <= k < n -> rot_key n self ((self + k) mod n) = k).
  { intros k Hk. rewrite rot_key_eq; auto; [apply sub_mod; lia|]. apply Z.mod_pos_bound. lia. }
  apply sorted_unique with (key := rot_key n self).
  - apply sort_by_sorted.
  - unfold L. apply map_StronglySorted. eapply StronglySorted_weaken; [|apply zrange_sorted].
    intros a b Ha Hb. rewrite zrange_In in Ha, Hb. rewrite !KeyL by lia. auto.
  - intros a b Ha Hb. apply (Permutation_in _ (sort_by_perm _ _)) in Ha, Hb.
    apply remove_value_In in Ha as [Ha _]. apply remove_value_In in Hb as [Hb _].
    apply (Permutation_in _ (all_targets_perm e H)) in Ha, Hb. rewrite zrange_In in Ha, Hb. fold n in Ha, Hb.
    rewrite !rot_key_eq by lia. intros E. apply (mod_step_inj n a b (- self)); auto.
  - rewrite sort_by_perm. apply NoDup_Permutation.
    + apply remove_value_NoDup. apply (Permutation_NoDup (Permutation_sym (all_targets_perm e H))). apply zrange_NoDup.
    + unfold L. apply NoDup_map_inj; [|apply zrange_NoDup]. intros a b Ha Hb E. rewrite zrange_In in Ha, Hb.
      rewrite (Z.add_comm self a), (Z.add_comm self b) in E. apply (mod_step_inj n a b self); auto; lia.
    + intros t. rewrite remove_value_In. fold self.
      assert (A : In t (pick_grid false false false (fe_me e) (fe_peer e)) <-> 0 <= t < n).
      { rewrite <- zrange_In. split; apply Permutation_in; [|apply Permutation_sym]; apply (all_targets_perm e H). }
      rewrite A. unfold L. rewrite in_map_iff. split.
      * intros [Ht Nt]. exists ((t - self) mod n). rewrite zrange_In.
        pose proof (Z.mod_pos_bound (t - self) n Hp) as Hb. split.
        -- rewrite Zplus_mod_idemp_r. replace (self + (t - self)) with t by ring. apply Z.mod_small. lia.
        -- assert ((t - self) mod n <> 0); [|lia]. intros Z0.
           apply Nt. apply (mod_step_inj n t self (- self)); auto.
           replace (self + - self) with 0 by ring. rewrite Z.mod_0_l by lia. exact Z0.
      * intros (k & <- & Hk). rewrite zrange_In in Hk. split; [apply Z.mod_pos_bound; lia|].
        intros E. pose proof (sub_mod n self k Hp) as K. rewrite E in K. rewrite Z.sub_diag, Z.mod_0_l in K by lia. lia.
Qed.

Lemma staggered_distinct e1 e2 l1 l2 k t1 t2 :
  env_ok e1 -> env_ok e2 -> fe_exclude_self e1 = true -> fe_exclude_self e2 = true ->
  fe_peer e1 = fe_peer e2 -> fe_self e1 <> fe_self e2 ->
  pick_targets e1 (FGrid false false false) = PickOk l1 ->
  pick_targets e2 (FGrid false false false) = PickOk l2 ->
  nth_error l1 k = Some t1 -> nth_error l2 k = Some t2 -> t1 <> t2.
Proof.
  intros H1 H2 X1 X2 Ep Hs P1 P2 N1 N2.
  rewrite (staggered e1 H1 X1) in P1. rewrite (staggered e2 H2 X2) in P2.
  injection P1 as <-. injection P2 as <-.
  assert (En : fe_n e1 = fe_n e2) by (rewrite (ek_n e1 H1), (ek_n e2 H2), Ep; reflexivity).
  rewrite nth_error_map in N1, N2. rewrite <- En in N2.
  destruct (nth_error (zrange 1 (fe_n e1)) k) as [j|]; [|discriminate].
  cbn [option_map] in N1, N2. injection N1 as <-. injection N2 as <-.
  intros E. apply Hs. destruct (ek_self e1 H1 X1) as [R1 _]. destruct (ek_self e2 H2 X2) as [R2 _].
  apply (mod_step_inj (fe_n e1) _ _ j); auto; lia.
Qed.

(** ** All filters together *)
Definition supported (e : fanout_env) (f : fanout) : Prop :=
  match f with
  | FGrid fx fy fz => grid_compatible e fx fy fz
  | FStochastic _ => False
  | _ => True
  end.

Lemma slot_valid e f k : env_ok e -> (match f with FStochastic _ => False | _ => True end) ->
  (0 < num_eligible e -> 0 <= k < num_eligible e) ->
  (0 < num_eligible e -> raw_targets e f = PickOk [slot_target e k]) ->
  exists l, pick_targets e f = PickOk l /\ NoDup l /\
    forall t, In t l -> 0 <= t < fe_n e /\ (fe_exclude_self e = true -> t <> fe_self e).
Proof.
  intros H Hf Hk Hr. pose proof (fe_n_pos e H) as Hp.
  destruct (Z.ltb_spec 0 (num_eligible e)) as [Hm|Hm].
  - specialize (Hk Hm). specialize (Hr Hm). exists [slot_target e k].
    assert (R : 0 <= slot_target e k < fe_n e /\ (fe_exclude_self e = true -> fe_n e <> 1 /\ slot_target e k <> fe_self e)).
    { unfold slot_target, num_eligible in *. destruct (fe_exclude_self e) eqn:Ex; cbn [andb]; [|split; [lia|discriminate]].
      destruct (ek_self e H Ex) as [Rs _]. destruct (Z.eqb_spec k (fe_self e)); split; try lia; intros; lia. }
    split; [apply single_tail; tauto|]. split; [repeat constructor; intros []|].
    intros t [<-|[]]. tauto.
  - exists []. unfold num_eligible in Hm. unfold pick_targets.
    destruct (fe_exclude_self e); [|lia]. destruct (Z.eqb_spec (fe_n e) 1); [|lia].
    split; [reflexivity|]. split; [constructor|intros t []].
Qed.

(** Rings wrap around, so they name an existing instance even when the sender's
    coordinate lies outside the target grid. *)
Lemma pick_ring_range alt a e : env_ok e ->
  exists t, pick_ring alt a (fe_me e) (fe_peer e) = Some [t] /\ 0 <= t < fe_n e.
Proof.
  intros H. pose proof (ek_can e H) as Hc. destruct (canonical_pos _ Hc) as (Px & Py & Pz).
  destruct (ek_me e H) as (Gx & Gy & Gz).
  set (s := fe_peer e) in *. set (me := fe_me e) in *.
  unfold pick_ring, cmod. cbv zeta.
  destruct (Z.eqb_spec (x_size s) 0); [lia|]. destruct (Z.eqb_spec (y_size s) 0); [lia|].
  destruct (Z.eqb_spec (z_size s) 0); [lia|].
  assert (Hd : forall v, -1 <= (if alt then alt_step v else 1) <= 1)
    by (intros v; unfold alt_step; destruct alt; [destruct (Z.odd v)|]; lia).
  assert (B : forall c size, 0 < size -> 0 <= c -> 0 <= Z.rem c size < size)
    by (intros; apply Z.rem_bound_pos; lia).
  match goal with |- exists t, Some [?x + ?y * _ + ?z * _ * _] = _ /\ _ =>
    pose proof (in_grid_range e (mkGI x y z) H) as K end.
  eexists. split; [reflexivity|]. apply K. unfold in_grid; cbn [gx gy gz]. fold s.
  pose proof (Hd (gx me)). pose proof (Hd (gy me)).
  repeat split; try (apply B; [assumption|]; destruct a; lia).
Qed.

Lemma ring_valid e alt a : env_ok e ->
  exists l, pick_targets e (ring_filter alt a) = PickOk l /\ NoDup l /\
    forall t, In t l -> 0 <= t < fe_n e /\ (fe_exclude_self e = true -> t <> fe_self e).
Proof.
  intros H. destruct (pick_ring_range alt a e H) as (t & E & R).
  assert (RT : raw_targets e (ring_filter alt a) = PickOk [t])
    by (unfold ring_filter, raw_targets; destruct alt; rewrite E; reflexivity).
  destruct (pick_tail e (ring_filter alt a) [t] H) as (l & El & Hin & Hnd); auto.
  - destruct alt; exact I.
  - intros Ex E1 u [<-|[]]. destruct (ek_self e H Ex). lia.
  - exists l. split; [exact El|]. split; [apply Hnd; repeat constructor; intros []|].
    intros u Hu. apply Hin in Hu as [[<-|[]] K]. auto.
Qed.

Lemma targets_valid e f : env_ok e -> supported e f ->
  exists l, pick_targets e f = PickOk l /\ NoDup l /\
    forall t, In t l -> 0 <= t < fe_n e /\ (fe_exclude_self e = true -> t <> fe_self e).
Proof.
  intros H Hs. pose proof (fe_n_pos e H) as Hp. destruct f as [fx fy fz|a|a|a d| | |dist]; cbn [supported] in Hs.
  - destruct (grid_targets e fx fy fz H Hs) as (l & E & ND & P). exists l. split; [exact E|]. split; [exact ND|].
    intros t Ht. apply P in Ht as (g & Hg & _ & _ & _ & -> & K). split; [apply in_grid_range; assumption|exact K].
  - exact (ring_valid e false a H).
  - exact (ring_valid e true a H).
  - destruct (linear_targets e a d H) as (l & E & ND & _ & P). exists l. split; [exact E|]. split; [exact ND|].
    intros t Ht. apply P in Ht as (g & Hg & _ & -> & K). split; [apply in_grid_range; assumption|exact K].
  - apply (slot_valid e FRandomSingle (fe_draw e 0 (num_eligible e - 1)) H I).
    + intros Hm. pose proof (ek_draw e H 0 (num_eligible e - 1)). lia.
    + intros Hm. unfold raw_targets, slot_target, num_eligible in *. destruct (fe_exclude_self e); cbn [andb].
      * replace (fe_n e - 1 - 1) with (fe_n e - 2) by ring.
        destruct (Z.ltb_spec (fe_n e - 2) 0); [lia|reflexivity].
      * destruct (Z.ltb_spec (fe_n e - 1) 0); [lia|reflexivity].
  - pose proof (ek_counter e H) as Hk.
    apply (slot_valid e FRoundRobin (fe_counter e mod num_eligible e) H I).
    + intros Hm. apply Z.mod_pos_bound, Hm.
    + intros Hm. unfold raw_targets, slot_target, num_eligible, cmod in *. destruct (fe_exclude_self e); cbn [andb].
      * destruct (Z.eqb_spec (fe_n e - 1) 0); [lia|]. rewrite Z.rem_mod_nonneg by lia. reflexivity.
      * destruct (Z.eqb_spec (fe_n e) 0); [lia|]. rewrite Z.rem_mod_nonneg by lia. reflexivity.
  - destruct Hs.
Qed.

(** ** Stochastic fanout *)
Lemma stochastic_targets e dist : env_ok e ->
  exists k, pick_targets e (FStochastic dist) = PickOk (repeat 0 k) /\
    (Z.of_nat k <= Z.max 0 (stochastic_count dist (fe_rv e) 0)) /\ Z.of_nat k <= fe_n e /\
    (fe_exclude_self e = false -> 0 <= stochastic_count dist (fe_rv e) 0 ->
     Z.of_nat k = Z.min (stochastic_count dist (fe_rv e) 0) (fe_n e)) /\
    (fe_exclude_self e = true -> fe_self e = 0 -> k = 0%nat) /\
    (fe_exclude_self e = true -> fe_self e <> 0 -> 0 <= stochastic_count dist (fe_rv e) 0 ->
     Z.of_nat k = Z.min (stochastic_count dist (fe_rv e) 0) (fe_n e)).
Proof.
  intros H. pose proof (fe_n_pos e H) as Hp. unfold pick_targets.
  destruct (fe_exclude_self e) eqn:Ex.
  - destruct (ek_self e H Ex) as [Rs _]. cbn [andb].
    destruct (Z.eqb_spec (fe_n e) 1) as [E1|E1].
    + exists 0%nat. split; [reflexivity|]. repeat split; intros; try discriminate; try lia.
    + unfold raw_targets. rewrite Ex. cbn [remove_value filter].
      assert (fe_shuffle e [] = []) as ->.
      { apply Permutation_nil, Permutation_sym, (ek_shuffle e H). }
      rewrite firstn_nil. cbn [app length]. rewrite Nat.sub_0_r.
      set (c := stochastic_count dist (fe_rv e) 0).
      set (m := Z.to_nat (if fe_n e <? c then fe_n e else c)).
      assert (Hm : Z.of_nat m = Z.max 0 (Z.min c (fe_n e))) by (unfold m; destruct (Z.ltb_spec (fe_n e) c); lia).
      destruct (Z.eq_dec (fe_self e) 0) as [S0|S0].
      * exists 0%nat. split; [|repeat split; intros; try discriminate; lia].
        f_equal. cbn [repeat]. rewrite S0. clear. induction m as [|m IH]; [reflexivity|exact IH].
      * exists m. split; [|repeat split; intros; try discriminate; lia].
        f_equal. clear Hm. unfold remove_value. induction m as [|m IH]; [reflexivity|].
        cbn [repeat filter]. destruct (Z.eqb_spec 0 (fe_self e)); [congruence|]. cbn [negb]. f_equal. exact IH.
  - cbn [andb]. unfold raw_targets. rewrite Ex.
    assert (fe_shuffle e [] = []) as ->.
    { apply Permutation_nil, Permutation_sym, (ek_shuffle e H). }
    rewrite firstn_nil. cbn [app length]. rewrite Nat.sub_0_r. eexists. split; [reflexivity|].
    set (c := stochastic_count dist (fe_rv e) 0).
    destruct (Z.ltb_spec (fe_n e) c); repeat split; intros; try discriminate; lia.
Qed.

(** The drawn cardinality is the first entry whose cumulative probability
    reaches the random value (and 0 when there is none). *)
Fixpoint cumulative (dist : list (Q * Z)) : Q :=
  match dist with [] => 0 | (p, _) :: r => (p + cumulative r)%Q end.

Lemma stochastic_count_spec_aux dist : forall rv acc c,
  stochastic_count dist rv acc = c ->
  (exists pre p post, dist = pre ++ (p, c) :: post /\ (rv <= acc + cumulative pre + p)%Q /\
     forall q m mid, pre = q ++ m :: mid -> (acc + cumulative q + fst m < rv)%Q) \/
  (c = 0 /\ forall q m mid, dist = q ++ m :: mid -> (acc + cumulative q + fst m < rv)%Q).
Proof.
  induction dist as [|[p n] dist IH]; intros rv acc c; cbn [stochastic_count].
  - intros <-. right. split; [reflexivity|]. intros q m mid E. destruct q; discriminate.
  - destruct (Qle_bool rv (acc + p)) eqn:E.
    + intros <-. left. exists [], p, dist. split; [reflexivity|]. split.
      * apply Qle_bool_iff in E. cbn [cumulative]. rewrite Qplus_0_r. exact E.
      * intros q m mid K. destruct q; discriminate.
    + assert (L : (acc + p < rv)%Q).
      { apply Qnot_le_lt. intros K. apply Qle_bool_iff in K. congruence. }
      intros Hc. destruct (IH _ _ _ Hc) as [(pre & p' & post & -> & A & B)|[-> B]].
      * left. exists ((p, n) :: pre), p', post. split; [reflexivity|]. split.
        -- cbn [cumulative]. rewrite Qplus_assoc. exact A.
        -- intros q m mid K. destruct q as [|m0 q]; cbn [app] in K.
           ++ injection K as <- _. cbn [cumulative fst]. rewrite Qplus_0_r. exact L.
           ++ injection K as <- K. cbn [cumulative]. rewrite Qplus_assoc. eapply B. exact K.
      * right. split; [reflexivity|]. intros q m mid K. destruct q as [|m0 q]; cbn [app] in K.
        -- injection K as <- _. cbn [cumulative fst]. rewrite Qplus_0_r. exact L.
        -- injection K as <- K. cbn [cumulative]. rewrite Qplus_assoc. eapply B. exact K.
Qed.

(** ** Sequential round robin *)
Lemma rr_sequential target_of c m : forall k st,
  rr_counter st = c + Z.of_nat k ->
  rr_targets (fold_left (rr_exec target_of) (flat_map (fun i => [RRPick i; RRIncr i]) (seq k m)) st)
  = rr_targets st ++ map (fun i => (i, target_of (c + Z.of_nat i))) (seq k m).
Proof.
  induction m as [|m IH]; intros k st Hc; cbn [seq flat_map map app fold_left].
  - rewrite app_nil_r. reflexivity.
  - rewrite IH by (cbn [rr_exec rr_counter]; lia). cbn [rr_exec rr_targets].
    rewrite <- app_assoc. cbn [app]. rewrite Hc. reflexivity.
Qed.

Lemma round_robin_fair e c target_of k :
  env_ok e -> 0 <= c -> 0 < num_eligible e ->
  (forall v, 0 <= v -> pick_targets (with_counter e v) FRoundRobin = PickOk [target_of v]) ->
  let run := fold_left (rr_exec target_of)
               (flat_map (fun i => [RRPick i; RRIncr i]) (seq 0 (k + Z.to_nat (num_eligible e)))) (mkRR c []) in
  Permutation (skipn k (map snd (rr_targets run))) (eligible e).
Proof.
  intros H Hc Hm Ht. cbv zeta. rewrite (rr_sequential target_of c) by (cbn; lia).
  cbn [rr_targets app]. rewrite map_map. cbn [snd]. rewrite seq_app, map_app, Nat.add_0_l.
  assert (Sk : forall (a b : list Z), skipn (length a) (a ++ b) = b).
  { intros a b. rewrite skipn_app, skipn_all, Nat.sub_diag. reflexivity. }
  match goal with |- Permutation (skipn k (?a ++ ?b)) _ =>
    replace (skipn k (a ++ b)) with (skipn (length a) (a ++ b)) by (rewrite map_length, seq_length; reflexivity) end.
  rewrite Sk.
  eapply Permutation_trans; [|apply (round_robin_window e (c + Z.of_nat k) H); [lia|exact Hm]].
  unfold zrange. rewrite Z.sub_0_r.
  assert (E : map (fun x => target_of (c + Z.of_nat x)) (seq k (Z.to_nat (num_eligible e)))
            = flat_map (fun j => the_target (pick_targets (with_counter e (c + Z.of_nat k + j)) FRoundRobin))
                (map (fun i => 0 + Z.of_nat i) (seq 0 (Z.to_nat (num_eligible e))))); [|rewrite E; reflexivity].
  rewrite flat_map_concat_map, map_map.
  assert (S : seq k (Z.to_nat (num_eligible e)) = map (fun i => (k + i)%nat) (seq 0 (Z.to_nat (num_eligible e)))).
  { generalize (Z.to_nat (num_eligible e)). intros n. clear.
    assert (G : forall n a, seq (k + a) n = map (fun i => (k + i)%nat) (seq a n)).
    { clear. induction n as [|n IH]; intros a; cbn [seq map]; [reflexivity|].
      f_equal. rewrite <- IH. f_equal. lia. }
    rewrite <- G. f_equal. lia. }
  rewrite S, map_map. generalize (seq 0 (Z.to_nat (num_eligible e))). intros l.
  induction l as [|i l IH]; [reflexivity|]. cbn [map concat]. rewrite Ht by lia. cbn [the_target app].
  f_equal; [|exact IH]. f_equal. lia.
Qed.

(** ** Parsing *)
Lemma split_brace_at n p : ~ In lbrace n -> split_brace (n ++ lbrace :: p) = Some (n, lbrace :: p).
Proof.
  induction n as [|c n IH]; intros Hn; cbn [app split_brace].
  - reflexivity.
  - destruct (Ascii.eqb_spec c lbrace) as [->|_]; [exfalso; apply Hn; left; reflexivity|].
    rewrite IH; [reflexivity|]. intros K. apply Hn. right. exact K.
Qed.


Lemma map_find_none {V} k (m : list (str * V)) : (forall v, ~ In (k, v) m) -> map_find k m = None.
Proof.
  intros H. destruct (map_find k m) eqn:E; [|reflexivity]. exfalso. eapply H. apply map_find_In. exact E.
Qed.

Lemma fixed_no_brace k v : In (k, v) fixed_filters -> ~ In lbrace k.
Proof.
  intros H. cbn in H.
  repeat (destruct H as [H|H]; [injection H as <- _; cbn; intuition discriminate|]). destruct H.
Qed.

Lemma linear_parses ps d :
  parse_filter ps (s_ "linear_x{" ++ dec_of_Z d ++ s_ "}") = Some (FLinear AxX d) /\
  parse_filter ps (s_ "linear_y{" ++ dec_of_Z d ++ s_ "}") = Some (FLinear AxY d) /\
  parse_filter ps (s_ "linear_z{" ++ dec_of_Z d ++ s_ "}") = Some (FLinear AxZ d).
Proof.
  assert (G : forall n, ~ In lbrace n -> 
     map_find (n ++ lbrace :: dec_of_Z d ++ s_ "}") fixed_filters = None /\
     split_brace (n ++ lbrace :: dec_of_Z d ++ s_ "}") = Some (n, lbrace :: dec_of_Z d ++ s_ "}")).
  { intros n Hn. split; [|apply split_brace_at, Hn]. apply map_find_none. intros v Hv.
    apply fixed_no_brace in Hv. apply Hv. apply in_or_app. right. left. reflexivity. }
  assert (D : sscanf_distance (lbrace :: dec_of_Z d ++ s_ "}") = Some d).
  { cbn [sscanf_distance]. rewrite Ascii.eqb_refl, scan_d_dec by reflexivity. reflexivity. }
  assert (N : forall n, In n ["linear_x"; "linear_y"; "linear_z"]%string -> ~ In lbrace (s_ n)).
  { intros n Hn. cbn in Hn. repeat (destruct Hn as [<-|Hn]; [cbn; intuition discriminate|]). destruct Hn. }
  repeat split; unfold parse_filter.
  - change (s_ "linear_x{" ++ dec_of_Z d ++ s_ "}") with (s_ "linear_x" ++ lbrace :: dec_of_Z d ++ s_ "}").
    destruct (G (s_ "linear_x")) as [-> ->]; [apply N; cbn; auto|]. rewrite D. reflexivity.
  - change (s_ "linear_y{" ++ dec_of_Z d ++ s_ "}") with (s_ "linear_y" ++ lbrace :: dec_of_Z d ++ s_ "}").
    destruct (G (s_ "linear_y")) as [-> ->]; [apply N; cbn; auto|]. rewrite D. reflexivity.
  - change (s_ "linear_z{" ++ dec_of_Z d ++ s_ "}") with (s_ "linear_z" ++ lbrace :: dec_of_Z d ++ s_ "}").
    destruct (G (s_ "linear_z")) as [-> ->]; [apply N; cbn; auto|]. rewrite D. reflexivity.
Qed.
