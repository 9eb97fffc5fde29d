(** Grid filters whose sender lies outside the target grid, and round robin
    with iterations in parallel. *)
From Coq Require Import Ascii String List NArith ZArith QArith Bool Lia Permutation.
From Verif Require Import Base_Model Base_Proofs Grid_Model Grid_Proofs Fanout_Model Fanout_Proofs.
Import ListNotations.
Open Scope Z_scope.

(** * Grid filters *)

(** The largest value taken by one coordinate. *)
Definition top (f : bool) (me size : Z) : Z := if f then me else size - 1.
(** The largest instance number a grid filter names. *)
Definition furthest (e : fanout_env) (fx fy fz : bool) : Z :=
  let p := fe_peer e in
  top fx (gx (fe_me e)) (x_size p) + top fy (gy (fe_me e)) (y_size p) * x_size p +
  top fz (gz (fe_me e)) (z_size p) * x_size p * y_size p.

Lemma range_top (f : bool) me size i : 0 <= me -> 0 < size ->
  In i (if f then zrange me (me + 1) else zrange 0 size) -> 0 <= i <= top f me size.
Proof. unfold top. intros Hm Hs. destruct f; rewrite zrange_In; lia. Qed.
Lemma top_range (f : bool) me size : 0 <= me -> 0 < size ->
  In (top f me size) (if f then zrange me (me + 1) else zrange 0 size).
Proof. unfold top. intros Hm Hs. destruct f; rewrite zrange_In; lia. Qed.

Lemma pick_grid_max e fx fy fz : env_ok e ->
  In (furthest e fx fy fz) (pick_grid fx fy fz (fe_me e) (fe_peer e)) /\
  forall t, In t (pick_grid fx fy fz (fe_me e) (fe_peer e)) -> 0 <= t <= furthest e fx fy fz.
Proof.
  intros H. destruct (ek_me e H) as (Mx & My & Mz). destruct (canonical_pos _ (ek_can e H)) as (Px & Py & Pz).
  unfold pick_grid, furthest. cbv zeta. set (p := fe_peer e) in *. split.
  - apply in_flat_map. eexists. split; [apply (top_range fx (gx (fe_me e)) (x_size p)); assumption|].
    apply in_flat_map. eexists. split; [apply (top_range fy (gy (fe_me e)) (y_size p)); assumption|].
    apply in_map_iff. eexists. split; [reflexivity|apply (top_range fz (gz (fe_me e)) (z_size p)); assumption].
  - intros t K. apply in_flat_map in K as (i & Hi & K). apply in_flat_map in K as (j & Hj & K).
    apply in_map_iff in K as (k & <- & Hk).
    apply range_top in Hi; [|assumption..]. apply range_top in Hj; [|assumption..]. apply range_top in Hk; [|assumption..].
    assert (j * x_size p <= top fy (gy (fe_me e)) (y_size p) * x_size p) by (apply Z.mul_le_mono_nonneg_r; lia).
    assert (k * x_size p <= top fz (gz (fe_me e)) (z_size p) * x_size p) by (apply Z.mul_le_mono_nonneg_r; lia).
    assert (k * x_size p * y_size p <= top fz (gz (fe_me e)) (z_size p) * x_size p * y_size p)
      by (apply Z.mul_le_mono_nonneg_r; lia).
    assert (0 <= j * x_size p) by (apply Z.mul_nonneg_nonneg; lia).
    assert (0 <= k * x_size p) by (apply Z.mul_nonneg_nonneg; lia).
    assert (0 <= k * x_size p * y_size p) by (apply Z.mul_nonneg_nonneg; lia).
    lia.
Qed.

Lemma grid_exact e fx fy fz : env_ok e -> fe_exclude_self e = false ->
  exists l, pick_targets e (FGrid fx fy fz) = PickOk l /\ l <> [] /\
    ((forall t, In t l -> 0 <= t < fe_n e) <-> furthest e fx fy fz < fe_n e).
Proof.
  intros H Ex.
  destruct (pick_tail e (FGrid fx fy fz) (pick_grid fx fy fz (fe_me e) (fe_peer e)) H Logic.I) as (l & E & Hin & _);
    [congruence|reflexivity|congruence|].
  destruct (pick_grid_max e fx fy fz H) as [A B].
  assert (A' : In (furthest e fx fy fz) l) by (apply Hin; split; [exact A|congruence]).
  exists l. split; [exact E|]. split; [intros ->; destruct A'|]. split.
  - intros K. apply (K _ A').
  - intros K t Ht. apply Hin in Ht as [Ht _]. specialize (B _ Ht). lia.
Qed.

(** No target of an incompatible filter is the instance it names. *)
Lemma grid_foreign e fx fy fz : env_ok e -> ~ grid_compatible e fx fy fz ->
  exists l, pick_targets e (FGrid fx fy fz) = PickOk l /\ l <> [] /\
    forall t g, In t l -> in_grid (fe_peer e) g -> t = instance_from_grid (fe_peer e) g ->
      ~ (matches fx (gx g) (gx (fe_me e)) /\ matches fy (gy g) (gy (fe_me e)) /\ matches fz (gz g) (gz (fe_me e))).
Proof.
  intros H N. destruct (fe_exclude_self e) eqn:Ex; [exfalso; apply N, same_service_compatible; assumption|].
  destruct (grid_exact e fx fy fz H Ex) as (l & E & Ne & _). exists l. split; [exact E|]. split; [exact Ne|].
  intros t g _ (Gx & Gy & Gz) _ (A & B & C). apply N. unfold matches in *.
  repeat split; intros F; [specialize (A F)|specialize (B F)|specialize (C F)]; lia.
Qed.

(** * Round robin in parallel *)
Fixpoint in_flight (k : nat) (active : list nat) (sched : list rr_step) : Prop :=
  match sched with
  | [] => True
  | RRPick i :: r => ~ In i active /\ (length active < k)%nat /\ in_flight k (i :: active) r
  | RRIncr i :: r => In i active /\ in_flight k (remove Nat.eq_dec i active) r
  end.
Definition increments (sched : list rr_step) : Z :=
  Z.of_nat (length (filter (fun s => match s with RRIncr _ => true | RRPick _ => false end) sched)).
Definition received (t : Z) (l : list (nat * Z)) : Z := Z.of_nat (length (filter (fun p => snd p =? t) l)).

(** The run that records the counter instead of the target. *)
Lemma rr_ghost f sched : forall st st', rr_counter st = rr_counter st' ->
  rr_targets st = map (fun p => (fst p, f (snd p))) (rr_targets st') ->
  rr_targets (fold_left (rr_exec f) sched st) =
  map (fun p => (fst p, f (snd p))) (rr_targets (fold_left (rr_exec (fun v => v)) sched st')).
Proof.
  induction sched as [|[i|i] r IH]; intros st st' E1 E2; cbn [fold_left]; [exact E2| |].
  - apply IH; cbn [rr_exec rr_counter rr_targets]; [exact E1|]. rewrite E2, map_app, E1. reflexivity.
  - apply IH; cbn [rr_exec rr_counter rr_targets]; [lia|exact E2].
Qed.

Definition times (v : Z) (l : list (nat * Z)) : nat := length (filter (fun p => snd p =? v) l).
Lemma times_app v a b : times v (a ++ b) = (times v a + times v b)%nat.
Proof. unfold times. rewrite filter_app, app_length. reflexivity. Qed.

Lemma remove_length_one i l : NoDup l -> In i l -> S (length (remove Nat.eq_dec i l)) = length l.
Proof.
  induction 1 as [|a l Na ND IH]; intros Hin; [destruct Hin|]. cbn [remove length].
  destruct (Nat.eq_dec i a) as [->|D].
  - rewrite notin_remove by assumption. reflexivity.
  - destruct Hin as [->|Hin]; [congruence|]. cbn [length]. rewrite IH by assumption. reflexivity.
Qed.
Lemma NoDup_remove_one i l : NoDup l -> NoDup (remove Nat.eq_dec i l).
Proof.
  induction 1 as [|a l Na ND IH]; [constructor|]. cbn [remove]. destruct (Nat.eq_dec i a); [exact IH|].
  constructor; [|exact IH]. intros K. apply in_remove in K. tauto.
Qed.

Lemma rr_values k sched : forall c0 active st, (0 < k)%nat ->
  in_flight k active sched -> NoDup active -> (length active <= k)%nat -> c0 <= rr_counter st ->
  (forall p, In p (rr_targets st) -> c0 <= snd p <= rr_counter st) ->
  (forall v, (times v (rr_targets st) <= k)%nat) ->
  (times (rr_counter st) (rr_targets st) <= length active)%nat ->
  let out := fold_left (rr_exec (fun v => v)) sched st in
  rr_counter out = rr_counter st + increments sched /\
  (forall p, In p (rr_targets out) -> c0 <= snd p <= rr_counter out) /\
  (forall v, (times v (rr_targets out) <= k)%nat).
Proof.
  induction sched as [|[i|i] r IH]; intros c0 active st Hk F ND L C R T A; cbn [fold_left in_flight] in *.
  - split; [unfold increments; cbn; lia|]. split; assumption.
  - destruct F as (Ni & Lt & F).
    destruct (IH c0 (i :: active) (rr_exec (fun v => v) st (RRPick i))) as (E & B & D);
      cbn [rr_exec rr_counter rr_targets] in *; auto.
    + constructor; assumption.
    + intros p K. apply in_app_or in K as [K|[<-|[]]]; [auto|cbn [snd]; lia].
    + intros v. rewrite times_app. unfold times at 2. cbn [filter snd].
      destruct (Z.eqb_spec (rr_counter st) v) as [<-|]; cbn [length]; [lia|specialize (T v); lia].
    + rewrite times_app. unfold times at 2. cbn [filter snd]. rewrite Z.eqb_refl. cbn [length]. lia.
  - destruct F as (Hi & F).
    destruct (IH c0 (remove Nat.eq_dec i active) (rr_exec (fun v => v) st (RRIncr i))) as (E & B & D);
      cbn [rr_exec rr_counter rr_targets] in *; auto.
    + apply NoDup_remove_one, ND.
    + pose proof (remove_length_one i active ND Hi). lia.
    + lia.
    + intros p K. specialize (R p K). lia.
    + assert (times (rr_counter st + 1) (rr_targets st) = 0%nat) as ->; [|lia].
      unfold times. destruct (filter _ _) as [|p l] eqn:Q; [reflexivity|].
      assert (K : In p (p :: l)) by (left; reflexivity). rewrite <- Q in K.
      apply filter_In in K as [K1 K2]. specialize (R p K1). lia.
    + split; [|split; assumption]. rewrite E. unfold increments. cbn [filter length]. lia.
Qed.

Lemma multiset_bound k (U : list Z) : forall l, (forall p, In p l -> In (snd p) U) ->
  (forall v, (times v l <= k)%nat) -> (length l <= k * length U)%nat.
Proof.
  induction U as [|u U IH]; intros l Hin Hk.
  - destruct l as [|p l]; [cbn; lia|]. destruct (Hin p). left. reflexivity.
  - set (l' := filter (fun p => negb (snd p =? u)) l).
    assert (E : length l = (times u l + length l')%nat).
    { unfold times, l'. clear. induction l as [|p l IH]; [reflexivity|]. cbn [filter].
      destruct (snd p =? u); cbn [negb length]; lia. }
    assert (B : (length l' <= k * length U)%nat).
    { apply IH.
      - intros p K. apply filter_In in K as [K1 K2]. destruct (Hin p K1) as [Q|Q]; [|exact Q].
        rewrite Q, Z.eqb_refl in K2. discriminate.
      - intros v. specialize (Hk v). enough (times v l' <= times v l)%nat by lia.
        unfold times, l'. clear. induction l as [|p l IH]; [apply le_n|]. cbn [filter].
        destruct (snd p =? u); cbn [negb filter]; destruct (snd p =? v); cbn [length]; lia. }
    rewrite E. cbn [length]. specialize (Hk u). lia.
Qed.

Lemma residue_count c m E r : 0 < E -> 0 <= m ->
  Z.of_nat (length (filter (fun v => v mod E =? r) (zrange c (c + m + 1)))) <= m / E + 1.
Proof.
  intros HE Hm. set (l := filter _ _).
  assert (ND : NoDup l) by (apply NoDup_filter, zrange_NoDup).
  assert (R : forall v, In v l -> c <= v <= c + m /\ v mod E = r).
  { intros v K. apply filter_In in K as [K1 K2]. rewrite zrange_In in K1. lia. }
  pose proof (Z.div_pos m E Hm HE) as Pq.
  assert (NM : NoDup (map (fun v => (v - c) / E) l)).
  { clear - ND R HE. induction ND as [|a l Na ND IH]; [constructor|]. cbn [map]. constructor.
    - intros K. apply in_map_iff in K as (b & Eb & Kb). apply Na.
      enough (a = b) by (subst; exact Kb).
      destruct (R a (or_introl eq_refl)) as [Ra Ma]. destruct (R b (or_intror Kb)) as [Rb Mb].
      assert (X : (a - c) mod E = (b - c) mod E) by (rewrite (Zminus_mod a), (Zminus_mod b), Ma, Mb; reflexivity).
      pose proof (Z.div_mod (a - c) E ltac:(lia)). pose proof (Z.div_mod (b - c) E ltac:(lia)).
      rewrite <- Eb, <- X in *. lia.
    - apply IH. intros v K. apply R. right. exact K. }
  assert (I' : incl (map (fun v => (v - c) / E) l) (zrange 0 (m / E + 1))).
  { intros q K. apply in_map_iff in K as (v & <- & Kv). apply zrange_In. destruct (R v Kv) as [Rv _].
    split; [apply Z.div_pos; lia|]. assert ((v - c) / E <= m / E) by (apply Z.div_le_mono; lia). lia. }
  pose proof (NoDup_incl_length NM I') as Len. rewrite map_length, zrange_length in Len. lia.
Qed.

Lemma slot_inj e a b : env_ok e -> 0 <= a < num_eligible e -> 0 <= b < num_eligible e ->
  slot_target e a = slot_target e b -> a = b.
Proof.
  unfold slot_target, num_eligible. intros H Ha Hb. destruct (fe_exclude_self e) eqn:Ex; cbn [andb]; [|auto].
  destruct (ek_self e H Ex) as [Rs _].
  destruct (Z.eqb_spec a (fe_self e)), (Z.eqb_spec b (fe_self e)); lia.
Qed.

Lemma round_robin_parallel e c target_of k sched t : env_ok e -> 0 <= c -> 0 < num_eligible e -> (0 < k)%nat ->
  (forall v, 0 <= v -> pick_targets (with_counter e v) FRoundRobin = PickOk [target_of v]) ->
  in_flight k [] sched ->
  received t (rr_targets (fold_left (rr_exec target_of) sched (mkRR c []))) <=
  Z.of_nat k * (increments sched / num_eligible e + 1).
Proof.
  intros H Hc Hn Hk Ht F.
  assert (TE : forall v, 0 <= v -> target_of v = slot_target e (v mod num_eligible e)).
  { intros v Hv. specialize (Ht v Hv). rewrite round_robin_target in Ht by assumption. congruence. }
  rewrite (rr_ghost target_of sched (mkRR c []) (mkRR c [])) by reflexivity.
  destruct (rr_values k sched c [] (mkRR c []) Hk F) as (E & B & D);
    try (cbn; intros; lia); try (constructor); try (cbn; contradiction).
  cbn zeta in *. cbn [rr_counter] in E.
  set (out := fold_left (rr_exec (fun v => v)) sched (mkRR c [])) in *.
  set (hit := filter (fun p => target_of (snd p) =? t) (rr_targets out)).
  assert (RC : received t (map (fun p => (fst p, target_of (snd p))) (rr_targets out)) = Z.of_nat (length hit)).
  { unfold received, hit. f_equal. clear. induction (rr_targets out) as [|p l IH]; [reflexivity|].
    cbn [map filter snd]. destruct (target_of (snd p) =? t); cbn [length]; lia. }
  rewrite RC. clear RC.
  assert (M0 : 0 <= increments sched) by (unfold increments; lia).
  destruct hit as [|p0 hit0] eqn:Qh.
  { cbn [length]. pose proof (Z.div_pos (increments sched) (num_eligible e) M0 Hn). nia. }
  rewrite <- Qh in *.
  assert (P0 : In p0 hit) by (rewrite Qh; left; reflexivity).
  unfold hit in P0. apply filter_In in P0 as [P0 T0]. apply Z.eqb_eq in T0. pose proof (B _ P0) as R0.
  set (r := snd p0 mod num_eligible e).
  set (U := filter (fun v => v mod num_eligible e =? r) (zrange c (c + increments sched + 1))).
  assert (L : (length hit <= k * length U)%nat).
  { apply multiset_bound.
    - intros p K. unfold hit in K. apply filter_In in K as [K1 K2]. apply Z.eqb_eq in K2.
      pose proof (B _ K1) as R1. apply filter_In. split; [apply zrange_In; lia|]. apply Z.eqb_eq.
      rewrite TE in K2, T0 by lia. unfold r.
      apply (slot_inj e); try (apply Z.mod_pos_bound; lia); [exact H|congruence].
    - intros v. specialize (D v). enough (times v hit <= times v (rr_targets out))%nat by lia.
      unfold times, hit. clear. induction (rr_targets out) as [|p l IH]; [apply le_n|]. cbn [filter].
      destruct (target_of (snd p) =? t); cbn [filter]; destruct (snd p =? v); cbn [length]; lia. }
  pose proof (residue_count c (increments sched) (num_eligible e) r Hn M0) as RB. fold U in RB. nia.
Qed.

(** Two iterations that stay in step. *)
Fixpoint lockstep (n : nat) : list rr_step :=
  match n with
  | O => []
  | S m => RRPick 0 :: RRPick 1 :: RRIncr 0 :: RRIncr 1 :: lockstep m
  end.
Lemma lockstep_ok n : in_flight 2 [] (lockstep n).
Proof.
  induction n as [|n IH]; cbn [lockstep in_flight]; [exact Logic.I|].
  repeat split; cbn; auto; try (intros [K|[]]; discriminate).
Qed.
Lemma lockstep_run target_of n : forall c l, exists l',
  fold_left (rr_exec target_of) (lockstep n) (mkRR c l) = mkRR (c + 2 * Z.of_nat n) (l ++ l') /\
  length l' = (2 * n)%nat /\ forall p, In p l' -> exists q, 0 <= q /\ snd p = target_of (c + 2 * q).
Proof.
  induction n as [|n IH]; intros c l.
  - exists []. cbn [lockstep fold_left]. rewrite app_nil_r. split; [f_equal; lia|]. split; [reflexivity|intros p []].
  - cbn [lockstep fold_left rr_exec rr_counter rr_targets].
    destruct (IH (c + 1 + 1) ((l ++ [(0%nat, target_of c)]) ++ [(1%nat, target_of c)])) as (l' & E & L & P).
    exists ((0%nat, target_of c) :: (1%nat, target_of c) :: l'). rewrite E. split.
    { f_equal; [lia|]. rewrite <- !app_assoc. reflexivity. }
    split; [cbn [length]; lia|]. intros p [<-|[<-|K]].
    + exists 0. split; [lia|]. cbn [snd]. f_equal. lia.
    + exists 0. split; [lia|]. cbn [snd]. f_equal. lia.
    + destruct (P p K) as (q & Hq & Eq). exists (q + 1). split; [lia|]. rewrite Eq. f_equal. lia.
Qed.

(** * Which linear filters are accepted *)
Definition starts_with_number (r : str) : Prop :=
  exists w sg d rest, r = w ++ sg ++ d :: rest /\ all_space w = true /\ In sg [[]; [minus]; [plus_]] /\ is_digit d = true.

Lemma skip_space_split s : exists w, s = w ++ skip_space s /\ all_space w = true.
Proof.
  induction s as [|c s (w & E & A)]; [exists []; auto|]. cbn [skip_space].
  destruct (is_space c) eqn:K; [|exists []; auto]. exists (c :: w). cbn [app all_space forallb]. rewrite K.
  split; [f_equal; exact E|exact A].
Qed.
Lemma skip_space_app w s : all_space w = true -> skip_space (w ++ s) = skip_space s.
Proof.
  induction w as [|c w IH]; [reflexivity|]. cbn [all_space forallb app skip_space]. intros H.
  apply andb_prop in H as [-> H]. apply IH, H.
Qed.
Lemma skip_space_nil s : skip_space s = [] <-> all_space s = true.
Proof.
  induction s as [|c s IH]; [split; reflexivity|]. cbn [skip_space all_space forallb].
  destruct (is_space c); [exact IH|split; discriminate].
Qed.

Lemma scan_d_cases r :
  (scan_d r = ScanEof <-> all_space r = true) /\
  ((exists z rest, scan_d r = ScanInt z rest) <-> starts_with_number r).
Proof.
  unfold scan_d. split.
  - destruct (skip_space r) as [|c s] eqn:E.
    + apply skip_space_nil in E. tauto.
    + split; [|intros K; apply skip_space_nil in K; congruence].
      destruct (if Ascii.eqb c minus then _ else _) as [neg [|d b]]; [discriminate|].
      destruct (is_digit d); [destruct (digits_prefix _ _)|]; discriminate.
  - split.
    + intros (z & rest & K). destruct (skip_space_split r) as (w & Er & Aw).
      destruct (skip_space r) as [|c s] eqn:E; [discriminate|].
      destruct (Ascii.eqb_spec c minus) as [->|N1].
      { destruct s as [|d s]; [discriminate|]. destruct (is_digit d) eqn:Dg; [|discriminate].
        exists w, [minus], d, s. rewrite Er at 1. cbn; repeat split; auto. }
      destruct (Ascii.eqb_spec c plus_) as [->|N2].
      { destruct s as [|d s]; [discriminate|]. destruct (is_digit d) eqn:Dg; [|discriminate].
        exists w, [plus_], d, s. rewrite Er at 1. cbn; repeat split; auto. }
      destruct (is_digit c) eqn:Dg; [|discriminate]. exists w, [], c, s. rewrite Er at 1. cbn; repeat split; auto.
    + intros (w & sg & d & rest & -> & Aw & Sg & Dg). rewrite skip_space_app by exact Aw.
      pose proof (digit_not_space d Dg) as Ns.
      assert (Nm : Ascii.eqb d minus = false) by (destruct (Ascii.eqb_spec d minus) as [->|]; [discriminate Dg|reflexivity]).
      assert (Np : Ascii.eqb d plus_ = false) by (destruct (Ascii.eqb_spec d plus_) as [->|]; [discriminate Dg|reflexivity]).
      destruct Sg as [<-|[<-|[<-|[]]]]; cbn [app skip_space].
      * rewrite Ns, Nm, Np, Dg. destruct (digits_prefix _ _) as [v u]. eauto.
      * change (is_space minus) with false. cbv iota. rewrite Ascii.eqb_refl. cbv iota. rewrite Dg.
        destruct (digits_prefix _ _) as [v u]. eauto.
      * change (is_space plus_) with false. change (Ascii.eqb plus_ minus) with false. cbv iota.
        rewrite Ascii.eqb_refl. replace (Ascii.eqb plus_ minus) with false by reflexivity. cbv iota. rewrite Dg.
        destruct (digits_prefix _ _) as [v u]. eauto.
Qed.

Definition linear_name (a : axis) : str :=
  match a with AxX => s_ "linear_x" | AxY => s_ "linear_y" | AxZ => s_ "linear_z" end.

Lemma linear_parse ps a r : parse_filter ps (linear_name a ++ lbrace :: r) = option_map (FLinear a) (sscanf_distance (lbrace :: r)).
Proof.
  assert (Hn : ~ In lbrace (linear_name a)) by (destruct a; cbn; intuition discriminate).
  unfold parse_filter. rewrite map_find_none.
  2:{ intros v Hv. apply fixed_no_brace in Hv. apply Hv, in_or_app. right. left. reflexivity. }
  rewrite split_brace_at by exact Hn. destruct a; reflexivity.
Qed.

Lemma linear_accepts ps a r :
  (all_space r = true -> parse_filter ps (linear_name a ++ lbrace :: r) = Some (FLinear a 0)) /\
  (starts_with_number r -> exists d, parse_filter ps (linear_name a ++ lbrace :: r) = Some (FLinear a d)) /\
  (all_space r = false -> ~ starts_with_number r -> parse_filter ps (linear_name a ++ lbrace :: r) = None).
Proof.
  rewrite linear_parse. cbn [sscanf_distance]. rewrite Ascii.eqb_refl.
  destruct (scan_d_cases r) as [A B]. split; [|split].
  - intros K. apply A in K. rewrite K. reflexivity.
  - intros K. apply B in K as (z & rest & ->). exists z. reflexivity.
  - intros K1 K2. destruct (scan_d r) as [| |z rest] eqn:E; [|reflexivity|].
    + rewrite (proj1 A eq_refl) in K1. discriminate.
    + exfalso. apply K2, B. eauto.
Qed.
