(** Open loops with a cancellation, driven by the passes of RunActionList. *)
From Coq Require Import List ZArith Bool Lia.
From Verif Require Import Base_Model Iter_Model Iter_Proofs Iter_Proofs2.
Import ListNotations.
Open Scope Z_scope.

(** What other threads do to an action. *)
Definition elsewhere (a : it_action) : Prop :=
  match a with AEnd _ | AFinish _ _ | ACancel => True | ATick _ _ | AHandled => False end.

(** One pass of the loop over one action: at most one start, then, when the
    action has called back by the end of the wait, HandleFinishedActions;
    other threads act before and after the start. *)
Record pass := mkPass { ps_before : list it_action; ps_tick : option (Z * Z); ps_after : list it_action }.
Definition started (p : pass) : list it_action :=
  ps_before p ++ (match ps_tick p with Some (now, gap) => [ATick now gap] | None => [] end) ++ ps_after p.
Definition pass_ok (p : pass) : Prop := Forall elsewhere (ps_before p) /\ Forall elsewhere (ps_after p).
Definition looped (done : list pass) (last : pass) : list it_action :=
  flat_map (fun p => started p ++ [AHandled]) done ++ started last.

Definition weight (s : it_state) : nat := (it_calls s + length (it_live s))%nat.
Definition at_start (s : it_state) : Prop :=
  it_calls s = 0%nat \/ (it_nit s = None /\ (weight s <= 2)%nat).
Definition before_tick (s : it_state) : Prop :=
  it_calls s = 0%nat \/ (weight s <= 1)%nat \/ (it_nit s = None /\ (weight s <= 2)%nat).
Definition after_tick (s : it_state) : Prop := it_calls s = 0%nat \/ (weight s <= 2)%nat.

Lemma live_set_len k o l : length (live_set k o l) = length l.
Proof. rewrite <- (map_length fst), live_set_fst, map_length. reflexivity. Qed.

Lemma elsewhere_step c per a s s' : ic_period c = Some per -> inv c s -> elsewhere a -> it_step c a s = ItNext s' ->
  it_nit s' = it_nit s /\ (weight s' <= weight s)%nat /\
  (it_calls s = 0%nat -> it_calls s' = 0%nat \/ weight s' = 1%nat).
Proof.
  intros P V El E. pose proof (inv_step _ _ _ _ V E) as V'.
  destruct a as [k|k now|now gap| |]; cbn [elsewhere it_step] in *; try contradiction.
  - destruct (live_get _ _) as [[?|]|]; try discriminate. injection E as <-.
    unfold weight; cbn [it_nit it_calls it_live]. rewrite live_set_len. auto.
  - destruct (live_get _ _) as [[obs|]|] eqn:G; try discriminate. pose proof (live_del_len _ _ _ G) as L.
    unfold finish_iteration in E. rewrite P in E. cbn [negb] in E. rewrite andb_false_r in E. cbn [andb orb] in E.
    rewrite orb_false_r in E. destruct (in_int32 _); cbn [negb] in E; [|discriminate].
    destruct (_ && _) eqn:D; injection E as <-; unfold weight in *; cbn [it_nit it_calls it_live] in *.
    + split; [reflexivity|]. split; [lia|]. intros Z0. right. pose proof (v_live _ _ V') as Q.
      cbn [it_next it_finished it_live] in Q. apply andb_prop in D as [_ D]. apply Z.eqb_eq in D. lia.
    + split; [reflexivity|]. split; [lia|auto].
  - destruct (it_canceled s); [discriminate|]. injection E as <-. unfold weight; cbn [it_nit it_calls it_live]. auto.
Qed.

Lemma elsewhere_run c per l : forall s s', ic_period c = Some per -> inv c s -> Forall elsewhere l -> it_run c l s = ItNext s' ->
  inv c s' /\ (before_tick s -> before_tick s') /\ (after_tick s -> after_tick s').
Proof.
  induction l as [|a l IH]; intros s s' P V F E; cbn [it_run] in E.
  - injection E as <-. auto.
  - inversion F as [|? ? Fa Fl]; subst. destruct (it_step c a s) as [| | |t] eqn:St; try discriminate; [eauto|].
    pose proof (inv_step _ _ _ _ V St) as V'. destruct (elsewhere_step _ _ _ _ _ P V Fa St) as (A & B & C).
    destruct (IH _ _ P V' Fl E) as (X & Y & Z). split; [exact X|]. split.
    + intros K. apply Y. unfold before_tick in *. rewrite A. destruct K as [K|[K|[K1 K2]]].
      * destruct (C K) as [K'|K']; [auto|right; left; lia].
      * right; left; lia.
      * right; right; split; [exact K1|lia].
    + intros K. apply Z. unfold after_tick in *. destruct K as [K|K].
      * destruct (C K) as [K'|K']; [auto|right; lia].
      * right; lia.
Qed.

Lemma tick_step c per now gap s s' : ic_period c = Some per -> before_tick s -> it_step c (ATick now gap) s = ItNext s' ->
  after_tick s'.
Proof.
  intros P B E. cbn [it_step] in E. rewrite P in E. unfold open_loop_tick in E.
  unfold before_tick, after_tick, weight in *.
  destruct (it_nit s) as [t|] eqn:N; [|discriminate]. destruct (negb (t <? now)); [discriminate|].
  destruct (_ >=? _); [injection E as <-; cbn [it_calls it_live]; destruct B as [B|[B|[B _]]]; [auto|right; lia|discriminate]|].
  destruct (negb _); [discriminate|]. injection E as <-. cbn [it_calls it_live]. rewrite app_length. cbn [length].
  destruct B as [B|[B|[B _]]]; [auto|right; lia|discriminate].
Qed.

Lemma before_after s : before_tick s -> after_tick s.
Proof. unfold before_tick, after_tick. intros [K|[K|[_ K]]]; [auto|right; lia|auto]. Qed.

Lemma started_run c per p s s' : ic_period c = Some per -> inv c s -> pass_ok p -> at_start s ->
  it_run c (started p) s = ItNext s' -> inv c s' /\ after_tick s'.
Proof.
  intros P V (Fb & Fa) A E. unfold started in E.
  assert (B : before_tick s) by (unfold at_start, before_tick in *; tauto).
  destruct (it_run c (ps_before p) s) as [| | |s1] eqn:E1.
  1,2,3: exfalso; revert E1 E; clear; generalize s; induction (ps_before p) as [|a l IH]; intros x E1 E; cbn [it_run app] in *;
    [discriminate|]; destruct (it_step c a x); try discriminate; eauto.
  rewrite (run_app _ _ _ _ _ E1) in E. destruct (elsewhere_run _ _ _ _ _ P V Fb E1) as (V1 & B1 & _). specialize (B1 B).
  destruct (ps_tick p) as [[now gap]|]; cbn [app] in E.
  - cbn [it_run] in E. destruct (it_step c (ATick now gap) s1) as [| | |s2] eqn:St; try discriminate.
    + destruct (elsewhere_run _ _ _ _ _ P V1 Fa E) as (V2 & _ & A2). split; [exact V2|apply A2, before_after, B1].
    + pose proof (inv_step _ _ _ _ V1 St) as V2. pose proof (tick_step _ _ _ _ _ _ P B1 St) as T.
      destruct (elsewhere_run _ _ _ _ _ P V2 Fa E) as (V3 & _ & A3). auto.
  - destruct (elsewhere_run _ _ _ _ _ P V1 Fa E) as (V2 & _ & A2). split; [exact V2|apply A2, before_after, B1].
Qed.

Lemma run_split c l1 l2 s s' : it_run c (l1 ++ l2) s = ItNext s' ->
  exists t, it_run c l1 s = ItNext t /\ it_run c l2 t = ItNext s'.
Proof.
  revert s. induction l1 as [|a l IH]; intros s E; cbn [it_run app] in *; [eauto|].
  destruct (it_step c a s); try discriminate; eauto.
Qed.

Lemma looped_run c per done last : forall s s', ic_period c = Some per -> inv c s -> Forall pass_ok done -> pass_ok last ->
  at_start s -> it_run c (looped done last) s = ItNext s' -> inv c s' /\ after_tick s'.
Proof.
  induction done as [|p done IH]; intros s s' P V F Fl A E; unfold looped in E; cbn [flat_map app] in E.
  - eapply started_run; eassumption.
  - rewrite <- !app_assoc in E. inversion F as [|? ? Fp Fr]; subst.
    apply run_split in E as (t & E1 & E2). destruct (started_run _ _ _ _ _ P V Fp A E1) as (V1 & A1).
    cbn [app it_run] in E2.
    assert (exists u, inv c u /\ at_start u /\ it_run c (looped done last) u = ItNext s') as (u & Vu & Au & Eu).
    { destruct (it_step c AHandled t) as [| | |u] eqn:St; try discriminate.
      - exists t. split; [exact V1|]. split; [|exact E2]. cbn [it_step] in St.
        destruct (Nat.eqb_spec (it_calls t) 0); [left; assumption|discriminate].
      - exists u. split; [eapply inv_step; eassumption|]. split; [|exact E2]. cbn [it_step] in St.
        destruct (Nat.eqb_spec (it_calls t) 0) as [|N]; [discriminate|]. injection St as <-.
        right. unfold after_tick, weight in *. cbn [it_nit it_calls it_live]. split; [reflexivity|]. destruct A1; [contradiction|assumption]. }
    eapply IH; eassumption.
Qed.

Lemma at_most_twice c per first done last s : Forall pass_ok done -> pass_ok last ->
  open_run c per first (looped done last) s -> (calls (it_log s) <= 2)%nat.
Proof.
  intros F Fl [P [s0 [E R]]].
  assert (V0 : inv c s0) by (eapply inv_initiate; eassumption).
  assert (A0 : at_start s0) by (rewrite (open_initiate _ _ _ _ _ P E); left; reflexivity).
  destruct (looped_run _ _ _ _ _ _ P V0 F Fl A0 R) as (V & A).
  rewrite (v_calls _ _ V). unfold after_tick, weight in A. lia.
Qed.

(** * After the loop was left *)
Definition told (l : list (Z * option bool)) : Prop := forall k x, In (k, x) l -> x <> Some false.

Lemma live_set_told k l : told l -> NoDup (map fst l) -> told (live_set k (Some true) l).
Proof.
  intros T ND j x K. apply live_set_In in K as [[_ ->]|[_ K]]; [discriminate|eauto|exact ND].
Qed.

Lemma told_run c per sch : forall s s', ic_period c = Some per -> inv c s -> it_canceled s = true -> told (it_live s) ->
  (it_live s <> [] \/ (0 < it_calls s)%nat) -> (forall now gap, ~ In (ATick now gap) sch) ->
  it_run c sch s = ItNext s' -> inv c s' /\ (it_live s' <> [] \/ (0 < it_calls s')%nat).
Proof.
  induction sch as [|a r IH]; intros s s' P V C T L N E; cbn [it_run] in E.
  - injection E as <-. auto.
  - assert (Nr : forall now gap, ~ In (ATick now gap) r) by (intros now gap K; apply (N now gap); right; exact K).
    destruct (it_step c a s) as [| | |t] eqn:St; try discriminate; [eauto|].
    pose proof (inv_step _ _ _ _ V St) as V'.
    enough (it_canceled t = true /\ told (it_live t) /\ (it_live t <> [] \/ (0 < it_calls t)%nat)) as (A & B & D) by eauto.
    destruct a as [k|k now|now gap| |]; cbn [it_step] in St.
    + destruct (live_get _ _) as [[?|]|] eqn:G; try discriminate. injection St as <-. cbn [it_canceled it_live it_calls].
      split; [exact C|]. rewrite C. split; [apply live_set_told; [exact T|apply (v_nodup _ _ V)]|].
      left. intros K. apply (f_equal (@length _)) in K. rewrite live_set_len in K. destruct (it_live s); [discriminate|discriminate].
    + destruct (live_get _ _) as [[obs|]|] eqn:G; try discriminate. pose proof (live_del_len _ _ _ G) as Ln.
      pose proof (live_get_In _ _ _ G) as Gi. assert (obs = true) as -> by (destruct obs; [reflexivity|destruct (T _ _ Gi); reflexivity]).
      assert (Td : told (live_del k (it_live s))).
      { intros j x K. apply live_del_In in K; [|apply (v_nodup _ _ V)]. apply (T j x), K. }
      unfold finish_iteration in St. rewrite P in St. cbn [negb orb] in St. 
      assert ((if it_next s =? ic_limit c then true else true) = true) as X by (destruct (_ =? _); reflexivity).
      rewrite X in St. cbn [negb andb orb] in St. destruct (in_int32 _); cbn [negb orb] in St; [|discriminate].
      destruct (_ =? 0) eqn:D; injection St as <-; cbn [it_canceled it_live it_calls]; split; auto; split; auto.
      * right. lia.
      * left. intros K. rewrite K in Ln. cbn [length] in Ln. pose proof (v_live _ _ V). apply Z.eqb_neq in D. lia.
    + destruct (N now gap). left. reflexivity.
    + rewrite C in St. discriminate.
    + destruct (Nat.eqb_spec (it_calls s) 0); [discriminate|]. injection St as <-. cbn [it_canceled it_live it_calls].
      split; [exact C|]. split; [exact T|right; lia].
Qed.

Lemma cancelled_completes c per first sch s sch' s' : open_run c per first sch s ->
  it_canceled s = true -> it_live s <> [] -> told (it_live s) ->
  (forall now gap, ~ In (ATick now gap) sch') -> it_run c sch' s = ItNext s' -> it_live s' = [] -> In ICall (it_log s').
Proof.
  intros R C L T N E Z0. pose proof (open_inv _ _ _ _ _ R) as V. destruct R as [P _].
  destruct (told_run c per sch' s s' P V C T (or_introl L) N E) as (V' & [K|K]); [contradiction|].
  rewrite <- (v_calls _ _ V') in K. unfold calls in K. destruct (filter _ _) as [|e l] eqn:Q; [cbn in K; lia|].
  assert (X : In e (e :: l)) by (left; reflexivity). rewrite <- Q in X. apply filter_In in X as [X1 X2].
  destruct e; try discriminate. exact X1.
Qed.
