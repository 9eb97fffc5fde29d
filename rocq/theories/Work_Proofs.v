(** Action lists that are run to their end. *)
From Coq Require Import Ascii String List NArith ZArith Bool Arith Lia Permutation.
From Verif Require Import Base_Model Base_Proofs Iter_Model Iter_Proofs Iter_Proofs2 Iter_Props AList_Model AList_Proofs AList_Props.
Import ListNotations.
Open Scope Z_scope.

(** ** Iterations *)
(** An open loop that completes without being cancelled has made all its
    iterations, if it has no time limit. *)
Lemma open_exact c per first sch s : open_run c per first sch s -> ic_time_limit c = None -> ~ In ICancel (it_log s) -> In ICall (it_log s) ->
  rev (starts (it_log s)) = upto (ic_limit c).
Proof.
  intros (P & s0 & E & R) T Nc Ca.
  assert (G : inv c s /\ (it_canceled s = false -> it_calls s <> 0%nat -> it_next s = ic_limit c)).
  { refine (run_ind c (fun s => inv c s /\ (it_canceled s = false -> it_calls s <> 0%nat -> it_next s = ic_limit c)) _ sch s0 s _ R).
    - clear -P T. intros a s s' (I & H) St. split; [exact (inv_step _ _ _ _ I St)|]. destruct a as [k|k now|now gap| |]; cbn [it_step] in St.
      + destruct (live_get k (it_live s)) as [[?|]|]; try discriminate. injection St as <-. exact H.
      + destruct (live_get k (it_live s)) as [[obs|]|] eqn:G; try discriminate. pose proof (finish_cases _ _ _ _ _ _ St) as F. cbv zeta in F. unfold finish_done in F. rewrite P in F.
        destruct F as [(_ & Q & _)|[(D & _ & ->)|(_ & ->)]]; [congruence| |exact H]. cbn [it_canceled it_calls it_next]. intros C _.
        destruct (Z.eqb_spec (it_next s) (ic_limit c)) as [Q|Q]; [exact Q|]. rewrite T in D. destruct obs.
        * exfalso. apply (v_obs _ _ I C k). clear -G. induction (it_live s) as [|[j x] l IH]; cbn [live_get] in G; [discriminate|]. destruct (Z.eqb_spec j k) as [->|]; [left; congruence|right; auto].
        * destruct (it_nit s); discriminate.
      + rewrite P in St. unfold open_loop_tick in St. destruct (it_nit s) as [t|]; [|discriminate]. destruct (negb (t <? now)); [discriminate|]. cbv zeta in St.
        destruct (it_next s >=? ic_limit c) eqn:Q; [injection St as <-; exact H|]. destruct (negb (in_int32 (it_next s + 1))); [discriminate|]. injection St as <-. cbn [it_canceled it_calls it_next].
        intros C N. specialize (H C N). rewrite H, Z.geb_leb, Z.leb_refl in Q. discriminate.
      + destruct (it_canceled s); [discriminate|]. injection St as <-. discriminate.
      + destruct (Nat.eqb (it_calls s) 0); [discriminate|]. injection St as <-. exact H.
    - split; [exact (inv_initiate _ _ _ _ E)|]. rewrite (open_initiate _ _ _ _ _ P E). cbn [it_calls]. congruence. }
  destruct G as (I & H). rewrite (v_starts _ _ I), H; [reflexivity| |].
  - destruct (it_canceled s) eqn:Q; [|reflexivity]. destruct Nc. apply (v_cancel _ _ I), Q.
  - rewrite <- (v_calls _ _ I). apply in_split in Ca as (a & b & ->). rewrite calls_app, calls_cons. lia.
Qed.

(** ** Lists *)
Definition no_predicates (acts : list al_action) : Prop := forall a, In a acts -> aa_preds a = [].
Lemma none_skipped acts preds s : list_ok acts -> no_predicates acts -> reachable acts preds s -> forall i t, ~ In (LStart i true t) (al_log s).
Proof.
  intros Ok Np R. assert (G : forall l2 l1, al_log s = l1 ++ l2 -> forall i t, ~ In (LStart i true t) l2).
  { induction l2 as [|e l2 IH]; intros l1 E i t; [auto|]. intros [->|I].
    - destruct (C24_start_rule acts preds s Ok R l1 i true t l2 E) as (a & Na & _ & _ & (Sk & _) & _). destruct (Sk eq_refl) as [(p & Ip & _)|(j & t' & _ & Ij)].
      + rewrite (Np a (nth_error_In _ _ Na)) in Ip. destruct Ip.
      + apply (IH (l1 ++ [LStart i true t]) ltac:(rewrite <- app_assoc; exact E) j t' Ij).
    - apply (IH (l1 ++ [e]) ltac:(rewrite <- app_assoc; exact E) i t I). }
  exact (G (al_log s) [] eq_refl).
Qed.
(** An action that is given up does not complete, unless it is skipped. *)
Definition silent_ok (acts : list al_action) (l : list al_event) : Prop :=
  forall i a, nth_error acts i = Some a -> aa_silent a = true -> aa_activity a = false -> In (LCall i) l -> exists t, In (LStart i true t) l.
Lemma silent_app acts l l' : silent_ok acts l -> (forall i, ~ In (LCall i) l') -> silent_ok acts (l' ++ l).
Proof. intros H N i a A B C I. apply in_app_iff in I as [I|I]; [destruct (N i I)|]. destruct (H i a A B C I) as (t & J). exists t. apply in_app_iff. right. exact J. Qed.
Lemma enter_log acts i a s : silent_ok acts (al_log s) -> nth_error acts i = Some a ->
  (aa_silent a = false \/ aa_activity a = true \/ exists t, In (LStart i true t) (al_log s)) -> silent_ok acts (al_log (enter_callback i a s)).
Proof.
  intros H Na Hc. unfold enter_callback. cbv zeta. cbn [al_log].
  assert (H1 : silent_ok acts (LCall i :: al_log s)).
  { intros j b Nb B C [[= <-]|I].
    - assert (b = a) by congruence. subst b. destruct Hc as [Q|[Q|(t & I)]]; [congruence|congruence|]. exists t. right. exact I.
    - destruct (H j b Nb B C I) as (t & J). exists t. right. exact J. }
  assert (H2 : forall x l, silent_ok acts l -> (forall j, x <> LCall j) -> silent_ok acts (x :: l)).
  { intros x l K N. apply (silent_app acts l [x] K). intros j [->|[]]. exact (N j eq_refl). }
  destruct (e_sends (al_tbl s i)), (aa_cancel a && negb (al_canceled s)); repeat (apply H2; [|discriminate]); exact H1.
Qed.
Lemma finish_log i s : al_log (finish_action i s) = LFinish i :: al_log s.
Proof. reflexivity. Qed.
Lemma silent_step acts preds x s s' : silent_ok acts (al_log s) -> al_step acts preds x s = AlNext s' -> silent_ok acts (al_log s').
Proof.
  intros H E. assert (Hf : forall p s0, silent_ok acts (al_log s) -> handle_finished p s = AlNext s0 -> silent_ok acts (al_log s0)).
  { intros p s0 K Q. unfold handle_finished in Q. destruct (some_finished s); [|discriminate]. injection Q as <-. cbn [al_log]. apply silent_app; [exact K|].
    intros i I. apply in_rev in I. apply in_map_iff in I as (j & Q & _). discriminate. }
  assert (Fin : forall i a s0, silent_ok acts (al_log s0) -> nth_error acts i = Some a -> (aa_silent a = false \/ aa_activity a = true \/ exists t, In (LStart i true t) (al_log s0)) ->
    silent_ok acts (al_log (finish_action i (enter_callback i a s0)))).
  { intros i a s0 K Na Hc. rewrite finish_log. apply (silent_app acts _ [LFinish i]); [exact (enter_log acts i a s0 K Na Hc)|]. intros j [Q|[]]. discriminate. }
  destruct x as [now d|i|i|]; cbn [al_step] in E.
  - unfold main_step in E. destruct (al_pc_ s) as [|i t| | |i some| | |] eqn:Pc.
    + injection E as <-. exact H.
    + destruct (Nat.ltb i (size acts)); [|destruct (all_finished acts s); injection E as <-; exact H].
      unfold scan_action in E. destruct (nth_error acts i) as [a|] eqn:Na; [|discriminate]. cbv zeta in E.
      destruct (e_started (al_tbl s i)); [injection E as <-; exact H|]. destruct (e_waiting (al_tbl s i) && _); [injection E as <-; exact H|].
      destruct (deps_status acts (al_tbl s) (aa_deps a) false) as [[[|] ds]|]; [|injection E as <-; exact H|discriminate].
      destruct (negb (e_waiting (al_tbl s i)) && aa_delay a).
      { injection E as <-. cbn [al_log]. apply (silent_app acts _ [_]); [exact H|]. intros j [Q|[]]. discriminate. }
      destruct (ds || negb (subset_of (aa_preds a) preds)) eqn:Sk; cbn [negb andb] in E.
      * injection E as <-. apply Fin; [|exact Na|right; right; exists t; left; reflexivity]. cbn [al_log]. apply (silent_app acts _ [_]); [exact H|]. intros j [Q|[]]. discriminate.
      * destruct (aa_fatal a); [discriminate|]. injection E as <-. cbn [al_log]. apply (silent_app acts _ [_]); [exact H|]. intros j [Q|[]]. discriminate.
    + destruct (some_finished s) eqn:Sf; [exact (Hf _ _ H E)|]. destruct (timed_wait acts s); [|discriminate]. injection E as <-. exact H.
    + injection E as <-. exact H.
    + destruct (Nat.ltb i (size acts)).
      * destruct (nth_error acts i) as [a|] eqn:Na; [|discriminate]. cbv zeta in E. destruct (aa_activity a) eqn:Ac; cbn [negb] in E.
        -- destruct (e_finished (al_tbl s i) || negb (e_started (al_tbl s i)) || false); [injection E as <-; exact H|]. destruct (e_cb (al_tbl s i)); try discriminate. injection E as <-.
           change (al_log (set_pc ?p ?x)) with (al_log x). cbn [set_pc al_log]. apply (Fin i a s H Na). right. left. exact Ac.
        -- rewrite orb_true_r in E. injection E as <-. exact H.
      * destruct some; [exact (Hf _ _ H E)|injection E as <-; exact H].
    + destruct (some_finished s); [|discriminate]. destruct (handle_finished PDrain s) as [| |s1] eqn:Q; [discriminate|discriminate|]. injection E as <-. cbn [set_pc al_log]. exact (Hf _ _ H Q).
    + injection E as <-. cbn [al_log]. destruct (al_early s); [apply (silent_app acts _ [_])|apply (silent_app acts _ [_; _])]; try exact H; intros j J; cbn [In] in J; destruct J as [J|J]; try discriminate; try (destruct J as [J|J]; [discriminate|]); destruct J.
    + discriminate.
  - destruct (nth_error acts i) as [a|] eqn:Na; [|discriminate]. cbv zeta in E. destruct (e_started (al_tbl s i) && negb (aa_silent a)) eqn:Q; [|discriminate]. apply andb_prop in Q as (_ & Q). apply negb_true_iff in Q.
    destruct (e_cb (al_tbl s i)); [|discriminate|discriminate].
    destruct (al_pc_ s) eqn:Pc; try discriminate; (destruct (aa_activity a); [cbn [scanning] in E; try discriminate; injection E as <-; apply Fin; auto|injection E as <-; apply enter_log; auto]).
  - destruct (e_cb (al_tbl s i)); try discriminate. destruct (al_pc_ s); try discriminate; injection E as <-; rewrite finish_log; (apply (silent_app acts _ [_]); [exact H|]; intros j [Q|[]]; discriminate).
  - destruct (al_canceled s); [discriminate|]. injection E as <-. cbn [al_log]. apply (silent_app acts _ [_]); [exact H|]. intros j [Q|[]]. discriminate.
Qed.
Lemma silent_reachable acts preds s : reachable acts preds s -> silent_ok acts (al_log s).
Proof.
  intros (l & R). assert (G : forall l s0, silent_ok acts (al_log s0) -> al_run acts preds l s0 = AlNext s -> silent_ok acts (al_log s)).
  { clear l R. induction l as [|x l IH]; intros s0 H R; cbn [al_run] in R; [injection R as <-; exact H|]. destruct (al_step acts preds x s0) as [| |s1] eqn:E; [exact (IH _ H R)|discriminate|]. exact (IH _ (silent_step _ _ _ _ _ H E) R). }
  apply (G l al_init); [|exact R]. intros i a _ _ _ [].
Qed.
(** A list that has returned, was not cancelled and has no predicates has run
    all its actions. *)
Lemma all_run acts preds s : list_ok acts -> no_predicates acts -> reachable acts preds s -> In LFree (al_log s) -> ~ In LCancel (al_log s) ->
  forall i a, nth_error acts i = Some a -> (exists t, In (LStart i false t) (al_log s)) /\ In (LCall i) (al_log s) /\ (aa_activity a = false -> aa_silent a = false).
Proof.
  intros Ok Np R Fr Nc i a Na. apply in_split in Fr as (l1 & l2 & E). destruct (C24_complete acts preds s Ok R l1 l2 E) as (_ & Al).
  assert (D : In (LDone i) l2). { apply Al; [intro Q; apply Nc; rewrite E; apply in_app_iff; right; right; exact Q|]. apply nth_error_Some. congruence. }
  assert (Cy : forall e l l', al_log s = l ++ e :: l' -> match e with LCall i => ~ In (LCall i) l' /\ exists sk t, In (LStart i sk t) l' | LFinish i => ~ In (LFinish i) l' /\ In (LCall i) l' | LDone i => ~ In (LDone i) l' /\ In (LFinish i) l' | _ => True end).
  { intros e l l' Q. exact (C24_life_cycle acts preds s Ok R l e l' Q). }
  assert (Sub : forall l x, al_log s = l ++ x -> forall y, In y x -> In y (al_log s)) by (intros l x Q y Y; rewrite Q; apply in_app_iff; right; exact Y).
  apply (Sub (l1 ++ [LFree]) l2) in D; [|rewrite <- app_assoc; exact E]. apply in_split in D as (m1 & m2 & E1). destruct (Cy _ _ _ E1) as (_ & F).
  apply (Sub (m1 ++ [LDone i]) m2) in F; [|rewrite <- app_assoc; exact E1]. apply in_split in F as (k1 & k2 & E2). destruct (Cy _ _ _ E2) as (_ & F).
  apply (Sub (k1 ++ [LFinish i]) k2) in F; [|rewrite <- app_assoc; exact E2]. pose proof F as Fc. apply in_split in F as (j1 & j2 & E3). destruct (Cy _ _ _ E3) as (_ & sk & t & F).
  apply (Sub (j1 ++ [LCall i]) j2) in F; [|rewrite <- app_assoc; exact E3]. pose proof (none_skipped acts preds s Ok Np R i) as Ns.
  destruct sk; [destruct (Ns t F)|]. split; [eauto|]. split; [exact Fc|]. intro Ac. destruct (aa_silent a) eqn:Si; [|reflexivity].
  destruct (silent_reachable acts preds s R i a Na Si Ac Fc) as (t' & I). destruct (Ns t' I).
Qed.
