(** Property C88, continued: RPCs can always be completed. *)
From Coq Require Import List NArith ZArith Bool Arith Lia.
From Verif Require Import Wire_Model Wire_Proofs2 Wire_Props Grpc_Model Grpc_Proofs Merc_Model Merc_Proofs Merc_Props
  Msrv_Model Msrv_Proofs Msrv_Proofs2 Msrv_Props Mnet_Model Mnet_Proofs Mnet_Proofs2 Mnet_Props.
Import ListNotations.
Open Scope nat_scope.

(** What the threads and Mercury do of their own, without errors. *)
Definition carries_on (a : naction) : Prop :=
  match a with
  | NClient _ (MCreate _ true) | NClient _ (MForward _ true) | NClient _ (MPoll None) => True
  | NServer _ SPoll | NServer _ (STrigger TNone) | NServer _ (SOp true) | NServer _ (STask _ true) | NServer _ (SProgress _) => True
  | NDeliver _ _ | NReply _ _ _ => True
  | _ => False
  end.
Definition answers (w : mworld) : Prop := forall j q m,
  exists o, In (OSend o) (hs_inline (w_h w j q m) ++ match hs_work (w_h w j q m) with Some k => k | None => [] end).

Lemma lset_same {A} (l : list A) : forall j x, nth_error l j = Some x -> lset j x l = l.
Proof. induction l as [|y l IH]; intros [|j] x E; try discriminate; cbn [nth_error lset] in *; [congruence|rewrite IH by exact E; reflexivity]. Qed.
Lemma lset_twice {A} (l : list A) : forall j x y, lset j x (lset j y l) = lset j x l.
Proof. induction l as [|z l IH]; intros [|j] x y; cbn [lset]; [reflexivity..|rewrite IH; reflexivity]. Qed.
Lemma nrun_app w l1 : forall l2 x x1, nrun w l1 x = NNext x1 -> nrun w (l1 ++ l2) x = nrun w l2 x1.
Proof. induction l1 as [|a l IH]; intros l2 x x1 E; cbn [nrun app] in *; [congruence|]. destruct (nstep w a x); try discriminate; eauto. Qed.

Lemma client_move s : minv s -> m_notified s = false -> existsb mheld (m_rpcs s) = true ->
  (exists a s', match a with MCreate _ true | MForward _ true | MPoll None => True | _ => False end /\ mstep a s = MNext s' /\ mwork s' < mwork s) \/
  (m_poller s = MpTrigger /\ exists i r, nth_error (m_rpcs s) i = Some r /\ m_phase r = MFlying).
Proof.
  intros I Nn H. destruct (existsb (in_phase MStarted) (m_rpcs s)) eqn:E1.
  { left. apply find_phase in E1. destruct E1 as (i & r & F & P). unfold in_phase in P. destruct (m_phase r) eqn:Ph; try discriminate.
    eexists (MCreate i true), _. split; [exact Logic.I|]. cbn [mstep]. unfold mcreate. rewrite F, Ph. split; [reflexivity|].
    unfold mwork. cbn [mset_rpc m_rpcs m_poller].
    match goal with |- context [lset i ?r' _] => pose proof (total_lset mweight _ i r r' F) as T end.
    unfold mweight at 2 4 in T. rewrite Ph in T. cbn [m_phase] in T. lia. }
  destruct (existsb (in_phase MCreated) (m_rpcs s)) eqn:E2.
  { left. apply find_phase in E2. destruct E2 as (i & r & F & P). unfold in_phase in P. destruct (m_phase r) eqn:Ph; try discriminate.
    eexists (MForward i true), _. split; [exact Logic.I|]. cbn [mstep]. unfold mforward. rewrite F, Ph. split; [reflexivity|].
    unfold mwork. cbn [mset_rpc m_rpcs m_poller].
    match goal with |- context [lset i ?r' _] => pose proof (total_lset mweight _ i r r' F) as T end.
    unfold mweight at 2 4 in T. rewrite Ph in T. cbn [m_phase mset_phase] in T. lia. }
  assert (Nb : forall i, mbusy i (m_rpcs s) = false).
  { intro i. destruct (mbusy i (m_rpcs s)) eqn:E; [|reflexivity]. unfold mbusy in E. apply find_phase in E. destruct E as (j & r & F & P).
    apply andb_true_iff in P. destruct P as [_ P].
    pose proof (existsb_none _ _ E1 j r F) as N1. pose proof (existsb_none _ _ E2 j r F) as N2. unfold in_phase in *.
    destruct (m_phase r); discriminate. }
  destruct (m_poller s) eqn:Po.
  - left. eexists (MPoll None), _. split; [exact Logic.I|]. cbn [mstep]. unfold mpoll. rewrite Po, Nn. split; [reflexivity|].
    unfold mwork. rewrite Po. cbn [mset_poller m_rpcs m_poller]. lia.
  - right. split; [reflexivity|]. apply find_phase in H. destruct H as (i & r & F & P). unfold mheld in P.
    pose proof (existsb_none _ _ E1 i r F) as N1. pose proof (existsb_none _ _ E2 i r F) as N2. unfold in_phase in N1, N2.
    destruct (m_phase r) eqn:Ph; try discriminate; [eauto|]. pose proof (mi_calling _ I i r F Ph). congruence.
  - left. destruct (mi_in _ I i Po) as (r & F & Ph).
    eexists (MPoll None), _. split; [exact Logic.I|]. cbn [mstep]. unfold mpoll. rewrite Po, F, Nb. split; [reflexivity|].
    unfold mwork. rewrite Po. cbn [mset_rpc mset_poller mset_pending m_rpcs m_poller].
    match goal with |- context [lset i ?r' _] => pose proof (total_lset mweight _ i r r' F) as T end.
    unfold mweight at 2 4 in T. rewrite Ph in T. cbn [m_phase mset_phase] in T. lia.
  - pose proof (mi_exit _ I Po). congruence.
Qed.
Lemma on_server_count w j a o x x' : on_server w j a o x = NNext x' -> length (x_servers x') = length (x_servers x).
Proof. intros E. apply on_server_next in E. destruct E as (s & s' & f & _ & _ & _ & ->). apply lset_length. Qed.
Lemma on_client_count c a x x' : on_client c a x = NNext x' -> x_servers x' = x_servers x /\ length (x_clients x') = length (x_clients x).
Proof. intros E. apply on_client_next in E. destruct E as (s & s' & _ & _ & ->). split; [reflexivity|apply lset_length]. Qed.
Lemma moved_count w a x x' : moved w a x x' -> length (x_servers x') = length (x_servers x) /\ length (x_clients x') = length (x_clients x).
Proof. intros []; cbn [x_servers x_clients]; rewrite ?lset_length; auto. Qed.
Lemma counts w peers l : forall x x', ninv w peers x -> nrun w l x = NNext x' -> length (x_servers x') = length (x_servers x) /\ length (x_clients x') = length (x_clients x).
Proof.
  induction l as [|a l IH]; intros x x' V R; cbn [nrun] in R; [injection R as <-; auto|].
  destruct (nstep w a x) as [x1| |] eqn:E; [|discriminate|eauto]. destruct (moved_count w a x x1 (nstep_moved _ _ _ _ _ V E)) as [A B].
  destruct (IH _ _ (ninv_step _ _ _ _ _ V E) R). split; congruence.
Qed.
Lemma same_nths {A} (l : list A) : forall l', (forall i, nth_error l i = nth_error l' i) -> l = l'.
Proof.
  induction l as [|x l IH]; intros [|y l'] H; [reflexivity|specialize (H 0); discriminate|specialize (H 0); discriminate|].
  f_equal; [specialize (H 0); cbn in H; congruence|]. apply IH. intros i. exact (H (S i)).
Qed.
(** Without new RPCs the list of RPCs stays. *)
Lemma pairs_grow s s' : cgrow s s' -> length (m_rpcs s') = length (m_rpcs s) ->
  map (fun r => (m_peer r, m_given r)) (m_rpcs s') = map (fun r => (m_peer r, m_given r)) (m_rpcs s).
Proof.
  intros G L. apply same_nths. intros i. rewrite !nth_error_map. destruct (nth_error (m_rpcs s) i) as [r|] eqn:E.
  - destruct (G _ _ E) as (r' & E' & Gr). rewrite E'. cbn. rewrite (g_peer _ _ Gr), (g_given _ _ Gr). reflexivity.
  - assert (E' : nth_error (m_rpcs s') i = None) by (apply nth_error_None; rewrite L; apply nth_error_None; exact E). rewrite E'. reflexivity.
Qed.
Lemma no_new a s s' : cstep a s s' -> (forall p q o, a <> MInitiate p q o) -> length (m_rpcs s') = length (m_rpcs s).
Proof.
  intros T N. apply Nat.le_antisymm.
  - destruct (Nat.le_gt_cases (length (m_rpcs s')) (length (m_rpcs s))) as [|L]; [assumption|]. exfalso.
    destruct (nth_error (m_rpcs s') (length (m_rpcs s))) as [r|] eqn:E; [|apply nth_error_None in E; lia].
    destruct (t_new _ _ _ T _ _ E) as [[r0 H]|(p & q & o & -> & _)]; [|exact (N p q o eq_refl)].
    assert (nth_error (m_rpcs s) (length (m_rpcs s)) <> None) as K by congruence. apply nth_error_Some in K. lia.
  - destruct (m_rpcs s) as [|r l] eqn:E using rev_ind; [cbn; lia|]. rewrite app_length. cbn [length].
    assert (H : nth_error (m_rpcs s) (length l) = Some r) by (rewrite E, nth_error_app2, Nat.sub_diag by lia; reflexivity).
    destruct (t_grow _ _ _ T _ _ H) as (r' & H' & _). assert (nth_error (m_rpcs s') (length l) <> None) as K by congruence. apply nth_error_Some in K. lia.
Qed.
Lemma same_rpcs w peers l : Forall carries_on l -> forall x x', ninv w peers x -> nrun w l x = NNext x' ->
  length (x_clients x') = length (x_clients x) /\
  forall c cl2, nth_error (x_clients x') c = Some cl2 -> exists cl, nth_error (x_clients x) c = Some cl /\
    map (fun r => (m_peer r, m_given r)) (m_rpcs cl2) = map (fun r => (m_peer r, m_given r)) (m_rpcs cl).
Proof.
  intros F x x' V R. split; [exact (proj2 (counts w peers l x x' V R))|]. revert F x x' V R.
  induction l as [|a l IH]; intros F x x' V R c cl2 E2; cbn [nrun] in R; [injection R as <-; eauto|]. inversion F as [|? ? Fa F']; subst.
  destruct (nstep w a x) as [x1| |] eqn:E; [|discriminate|eapply IH; eassumption].
  destruct (IH F' x1 x' (ninv_step _ _ _ _ _ V E) R c cl2 E2) as (cl1 & Ec1 & Q1).
  destruct (nstep_moved _ _ _ _ _ V E) as [c' ca s s' Ec M B A|]; cbn [x_clients] in Ec1; [|eauto].
  destruct (lset_inv _ _ _ _ _ Ec1) as [[-> ->]|[_ K]]; [|eauto]. exists s. split; [exact Ec|]. rewrite Q1.
  pose proof (mstep_cstep _ _ _ (nv_minv _ _ _ _ _ V Ec) M) as T. apply pairs_grow; [apply T|]. eapply no_new; [exact T|]. intros p q o ->.
  destruct a as [? ?| | | |]; try contradiction; [destruct A as [_ ->]; exact Fa|destruct A as (_ & ? & A); discriminate].
Qed.

Section World.
Variable w : mworld.
Variable peers : list nat.
Hypothesis W : well w.
Hypothesis An : answers w.

Lemma own_nstep j a x : sown a -> nstep w (NServer j a) x = on_server w j a [] x.
Proof. destruct a as [| |[| |]|[|]| |? [|]|]; try contradiction; reflexivity. Qed.
Lemma lift j l : forall x s s' f, nth_error (x_servers x) j = Some s -> nth_error (x_from x) j = Some f -> Forall sown l ->
  srun (w_build w) (w_mem w) (w_h w j) l s = SvNext s' ->
  nrun w (map (NServer j) l) x = NNext (mkNet (x_clients x) (lset j s' (x_servers x)) (x_from x)).
Proof.
  induction l as [|a l IH]; intros x s s' f Es Ef F R; cbn [map nrun srun] in *.
  - injection R as <-. rewrite (lset_same _ _ _ Es). destruct x; reflexivity.
  - inversion F as [|? ? O F']; subst. rewrite (own_nstep _ _ _ O). unfold on_server. rewrite Es, Ef.
    destruct (sstep _ _ _ a s) as [s1| | | |] eqn:E; try discriminate.
    + rewrite app_nil_r, (lset_same _ _ _ Ef). erewrite IH; [| |cbn [x_from]; exact Ef|exact F'|exact R]; cbn [x_clients x_servers x_from].
      * rewrite lset_twice. reflexivity.
      * apply (lset_eq _ _ _ _ Es).
    + eapply IH; eassumption.
Qed.
Lemma own_carries j l : Forall sown l -> Forall carries_on (map (NServer j) l).
Proof.
  intros F. apply Forall_map. eapply Forall_impl; [|exact F]. intros a. destruct a as [| |[| |]|[|]| |? [|]|]; auto.
Qed.
Definition servers_up (x : mnet) : Prop := forall j s, nth_error (x_servers x) j = Some s -> sv_notified s = false /\ fine s.
Definition clients_up (x : mnet) : Prop := forall c s, nth_error (x_clients x) c = Some s -> m_notified s = false.
Lemma up_alive x j s : ninv w peers x -> servers_up x -> nth_error (x_servers x) j = Some s -> alive (w_mem w) (w_h w j) s.
Proof.
  intros V U E. destruct (nv_s _ _ _ V _ _ E) as [[l R] _]. destruct (U _ _ E). split; [exact (sinv_run _ _ _ _ _ R)|auto].
Qed.
Lemma up_set x j s' h mem cl fr : servers_up x -> alive mem h s' -> servers_up (mkNet cl (lset j s' (x_servers x)) fr).
Proof.
  intros U (_ & A & B) k s E. cbn [x_servers] in E. destruct (lset_inv _ _ _ _ _ E) as [[-> ->]|[_ K]]; [auto|exact (U _ _ K)].
Qed.
Lemma contract : forall j i m, tidy (w_h w j i m).
Proof. intros j. exact (proj1 (proj2 W j)). Qed.

(** The server of a flying RPC gets the request and settles. *)
Lemma handled x c i r s : ninv w peers x -> servers_up x ->
  (forall c cl i r, nth_error (x_clients x) c = Some cl -> nth_error (m_rpcs cl) i = Some r -> sized w (m_given r)) ->
  flying c i x = Some r -> nth_error (x_servers x) (w_route w c (m_peer r)) = Some s ->
  exists l x2 s2 f2 q, Forall carries_on l /\ nrun w l x = NNext x2 /\ x_clients x2 = x_clients x /\ length (x_servers x2) = length (x_servers x) /\
    servers_up x2 /\ nth_error (x_servers x2) (w_route w c (m_peer r)) = Some s2 /\ nth_error (x_from x2) (w_route w c (m_peer r)) = Some f2 /\
    nth_error f2 q = Some (c, i) /\ sv_poller s2 = SpTest /\ sv_tasks s2 = [] /\
    forall p, In p (sv_resps s2) -> rp_phase p = RSent \/ rp_phase p = RFreed.
Proof.
  intros V U G Fl Es. set (j := w_route w c (m_peer r)) in *.
  assert (Ef : exists f, nth_error (x_from x) j = Some f).
  { destruct (nth_error (x_from x) j) as [f|] eqn:Ef; [eauto|]. exfalso. apply nth_error_None in Ef. rewrite (nv_len _ _ _ V) in Ef.
    assert (j < length (x_servers x)) by (apply nth_error_Some; congruence). lia. }
  destruct Ef as [f Ef]. destruct (settle (w_build w) (w_mem w) (w_h w j) (contract j) s (up_alive _ _ _ V U Es)) as (s1 & (l1 & F1 & R1) & A1 & Q1 & P1 & Z1 & H1).
  pose proof (lift j l1 x s s1 f Es Ef F1 R1) as N1.
  set (x1 := mkNet (x_clients x) (lset j s1 (x_servers x)) (x_from x)) in *.
  assert (U1 : servers_up x1) by (eapply up_set; eassumption).
  assert (E1 : nth_error (x_servers x1) j = Some s1) by exact (lset_eq _ _ _ _ Es).
  destruct (flying_some _ _ _ _ Fl) as (cl & Ec & Er & Ph).
  destruct (existsb (is_rpc (c, i)) (concat (x_from x))) eqn:Ex.
  - exists (map (NServer j) l1), x1, s1, f. apply existsb_exists in Ex. destruct Ex as (o & Ho & Eo). apply is_rpc_true in Eo. subst o.
    apply in_concat in Ho. destruct Ho as (f' & Hf & Hi). apply In_nth_error in Hf. destruct Hf as [j' Hj]. apply In_nth_error in Hi. destruct Hi as [q Hq].
    assert (exists s', nth_error (x_servers x) j' = Some s') as [s' Es'].
    { destruct (nth_error (x_servers x) j') eqn:E; [eauto|]. exfalso. apply nth_error_None in E. rewrite <- (nv_len _ _ _ V) in E.
      assert (j' < length (x_from x)) by (apply nth_error_Some; congruence). lia. }
    destruct (nv_f _ _ _ V _ _ _ Es' Hj) as [_ K]. destruct (K _ _ _ Hq) as (wire & seen & _ & cl2 & r2 & Ec2 & Er2 & _ & Ro & _).
    assert (cl2 = cl) by congruence. subst cl2. assert (r2 = r) by congruence. subst r2. fold j in Ro. subst j'. assert (f' = f) by congruence. subst f'.
    exists q. split; [apply own_carries, F1|]. split; [exact N1|]. split; [reflexivity|]. split; [apply lset_length|]. split; [exact U1|]. split; [exact E1|]. auto.
  - set (s2 := sset_poller SpTrigger s1).
    assert (S1 : sstep (w_build w) (w_mem w) (w_h w j) SPoll s1 = SvNext s2).
    { cbn [sstep]. rewrite P1. destruct A1 as (_ & N & _). rewrite N. reflexivity. }
    pose proof (mi_rpc _ (nv_minv _ _ _ _ _ V Ec) _ _ Er) as O. unfold mrpc_ok in O. rewrite Ph in O. destruct O as (O & _).
    destruct (G _ _ _ _ Ec Er) as (A & B & C). destruct W as [M _].
    destruct (C48_message (w_mem w) (w_room w) _ A B M C) as (wire & E3 & _ & E4 & _).
    pose proof (ninv_run w peers _ _ _ V N1) as V1. assert (St : sv_set s1 = true) by (eapply (nv_s _ _ _ V1), E1).
    set (hs := w_h w j (length (sv_reqs s1)) (Some (m_given r))).
    set (s3 := mkMsrv (sv_set s2) (sv_reqs s2 ++ [mkMreq wire (Some (m_given r)) [LDestroy; LFreeInput; LGetInput] 0]) (sv_resps s2)
                     (sv_tasks s2) (SpIn (length (sv_reqs s2)) (hs_inline hs) (hs_work hs)) (sv_progress s2) (sv_notified s2) (sv_shut s2)).
    assert (S2 : sstep (w_build w) (w_mem w) (w_h w j) (STrigger (TRequest wire)) s2 = SvNext s3).
    { cbn [sstep]. unfold s2 at 1. cbn [sset_poller sv_poller]. cbn [do_trigger]. unfold request_callback. rewrite E4. unfold s2 at 1. cbn [sset_poller sv_set]. rewrite St. reflexivity. }
    assert (A3 : alive (w_mem w) (w_h w j) s3).
    { destruct A1 as (Vs & Nn & Fi). pose proof (sinv_step _ _ _ _ _ _ Vs S1) as Vs2. pose proof (sinv_step _ _ _ _ _ _ Vs2 S2) as Vs3. split; [exact Vs3|split; [exact Nn|exact Fi]]. }
    destruct (settle (w_build w) (w_mem w) (w_h w j) (contract j) s3 A3) as (s4 & (l4 & F4 & R4) & A4 & Q4 & P4 & Z4 & H4).
    set (x3 := mkNet (x_clients x) (lset j s3 (x_servers x)) (lset j (f ++ [(c, i)]) (x_from x))).
    assert (N3 : nrun w [NServer j SPoll; NDeliver c i] x1 = NNext x3).
    { assert (Na : nstep w (NServer j SPoll) x1 = NNext (mkNet (x_clients x) (lset j s2 (x_servers x)) (x_from x))).
      { rewrite (own_nstep j SPoll x1 Logic.I). unfold on_server. rewrite E1, S1. unfold x1. cbn [x_clients x_servers x_from].
        rewrite Ef, app_nil_r, (lset_same _ _ _ Ef), lset_twice. reflexivity. }
      assert (Nb : nstep w (NDeliver c i) (mkNet (x_clients x) (lset j s2 (x_servers x)) (x_from x)) = NNext x3).
      { cbn [nstep]. unfold flying. cbn [x_clients x_from]. rewrite Ec, Er, Ph, Ex, O, E3. fold j. unfold on_server. cbn [x_clients x_servers x_from].
        rewrite (lset_eq _ _ _ _ Es), Ef, S2, lset_twice. reflexivity. }
      cbn [nrun]. rewrite Na, Nb. reflexivity. }
    assert (E3s : nth_error (x_servers x3) j = Some s3) by exact (lset_eq _ _ _ _ Es).
    assert (E3f : nth_error (x_from x3) j = Some (f ++ [(c, i)])) by exact (lset_eq _ _ _ _ Ef).
    pose proof (lift j l4 x3 s3 s4 _ E3s E3f F4 R4) as N4. cbn [x3 x_clients x_servers x_from] in N4. rewrite lset_twice in N4.
    exists (map (NServer j) l1 ++ [NServer j SPoll; NDeliver c i] ++ map (NServer j) l4), (mkNet (x_clients x) (lset j s4 (x_servers x)) (lset j (f ++ [(c, i)]) (x_from x))), s4, (f ++ [(c, i)]), (length f).
    cbn [x_clients x_servers x_from]. split.
    { apply Forall_app. split; [apply own_carries, F1|]. constructor; [exact Logic.I|]. constructor; [exact Logic.I|]. apply own_carries, F4. }
    split. { rewrite (nrun_app _ _ _ _ _ N1), (nrun_app _ _ _ _ _ N3). exact N4. }
    split; [reflexivity|]. split; [apply lset_length|]. split; [eapply up_set; eassumption|]. split; [exact (lset_eq _ _ _ _ Es)|]. split; [exact (lset_eq _ _ _ _ Ef)|].
    split; [rewrite nth_error_app2, Nat.sub_diag by lia; reflexivity|]. auto.
Qed.

(** and its client the response. *)
Lemma fetch x c i r s : ninv w peers x -> servers_up x ->
  (forall c cl i r, nth_error (x_clients x) c = Some cl -> nth_error (m_rpcs cl) i = Some r -> sized w (m_given r)) ->
  flying c i x = Some r -> triggers c x = true -> nth_error (x_servers x) (w_route w c (m_peer r)) = Some s ->
  exists l x' cl cl' str, Forall carries_on l /\ nrun w l x = NNext x' /\ nth_error (x_clients x) c = Some cl /\
    mstep (MPoll (Some (i, 0%Z, Some str))) cl = MNext cl' /\ x_clients x' = lset c cl' (x_clients x) /\
    length (x_servers x') = length (x_servers x) /\ servers_up x'.
Proof.
  intros V U G Fl Tr Es. destruct (handled x c i r s V U G Fl Es) as (l & x2 & s2 & f2 & q & Fc & R & Ecl & Ln & U2 & Es2 & Ef2 & Eq & P2 & Z2 & H2).
  pose proof (ninv_run w peers _ _ _ V R) as V2. set (j := w_route w c (m_peer r)) in *.
  destruct (nv_f _ _ _ V2 _ _ _ Es2 Ef2) as [_ K]. destruct (K _ _ _ Eq) as (wire0 & seen & Nq & _).
  rewrite nth_error_map in Nq. destruct (nth_error (sv_reqs s2) q) as [req|] eqn:Eqr; [|discriminate].
  destruct (An j q (rq_seen req)) as [m Hm]. destruct (nv_s _ _ _ V2 _ _ Es2) as [[ls Rs] _].
  destruct (settled_answers (w_mem w) (w_h w j) s2 q req m (sinv_run _ _ _ _ _ Rs) P2 Z2 Eqr Hm) as (k & p & Ek & Ep & Em).
  destruct W as [M Sz]. destruct (proj2 (Sz j) _ _ _ Hm) as (A & B & C). destruct (C48_message (w_mem w) (w_room w) m A B M C) as (wire & E3 & _ & _ & str & E4 & _).
  destruct (flying_some _ _ _ _ Fl) as (cl & Ec & Er & Ph).
  assert (Po : m_poller cl = MpTrigger). { unfold triggers in Tr. rewrite Ec in Tr. destruct (m_poller cl); try discriminate. reflexivity. }
  eexists (l ++ [NReply c i k]), _, cl, (mcallback i 0%Z (Some str) r (mset_poller MpTest cl)), str.
  assert (Ms : mstep (MPoll (Some (i, 0%Z, Some str))) cl = MNext (mcallback i 0%Z (Some str) r (mset_poller MpTest cl))).
  { cbn [mstep]. unfold mpoll. rewrite Po, Er, Ph. reflexivity. }
  split. { apply Forall_app. split; [exact Fc|]. constructor; [exact Logic.I|constructor]. }
  split.
  { rewrite (nrun_app _ _ _ _ _ R). cbn [nrun nstep].
    assert (Fl2 : flying c i x2 = Some r) by (unfold flying; rewrite Ecl, Ec, Er, Ph; reflexivity). rewrite Fl2. fold j. rewrite Es2, Ef2, Ek, Ep, Eq, is_rpc_refl. cbn [negb].
    assert (Tr2 : triggers c x2 = true) by (unfold triggers; rewrite Ecl, Ec, Po; reflexivity). rewrite Tr2. cbn [negb]. rewrite Em, E3.
    assert (Oc : on_client c (MPoll (Some (i, 0%Z, get_output (w_mem w) wire))) x2 = NNext (mkNet (lset c (mcallback i 0%Z (Some str) r (mset_poller MpTest cl)) (x_clients x2)) (x_servers x2) (x_from x2))).
    { unfold on_client. rewrite Ecl, Ec, E4, Ms. reflexivity. }
    destruct (H2 p (nth_error_In _ _ Ek)) as [Hp|Hp]; rewrite Hp, Oc; reflexivity. }
  cbn [x_clients x_servers x_from]. rewrite Ecl. split; [exact Ec|]. split; [exact Ms|]. split; [reflexivity|]. split; [exact Ln|exact U2].
Qed.

Variable n : nat.
Hypothesis Ro : forall c k p, nth_error peers c = Some k -> p < k -> w_route w c p < n.
Definition calm (x : mnet) : Prop :=
  ninv w peers x /\ servers_up x /\ clients_up x /\ length (x_servers x) = n /\
  (forall c cl i r, nth_error (x_clients x) c = Some cl -> nth_error (m_rpcs cl) i = Some r -> sized w (m_given r)).
Lemma quiet_sized l : Forall carries_on l -> requests_sized w l.
Proof. intros F c p q o H. rewrite Forall_forall in F. destruct (F _ H). Qed.
Lemma finish k : forall x, total mwork (x_clients x) < k -> calm x ->
  exists l x', Forall carries_on l /\ nrun w l x = NNext x' /\ calm x' /\
    forall c cl i r, nth_error (x_clients x') c = Some cl -> nth_error (m_rpcs cl) i = Some r -> mheld r = false.
Proof.
  induction k as [|k IH]; intros x L Cm; [lia|]. pose proof Cm as (V & U & Cu & Ln & G).
  destruct (existsb (fun cl => existsb mheld (m_rpcs cl)) (x_clients x)) eqn:E.
  2: { exists [], x. split; [constructor|]. split; [reflexivity|]. split; [exact Cm|]. intros c cl i r Ec Er.
       exact (existsb_none _ _ (existsb_none _ _ E _ _ Ec) _ _ Er). }
  apply existsb_exists in E. destruct E as (cl & Hc & Hd). apply In_nth_error in Hc. destruct Hc as [c Ec].
  assert (Step : exists l x1, Forall carries_on l /\ nrun w l x = NNext x1 /\ servers_up x1 /\ length (x_servers x1) = n /\
     exists a cl1, mown a /\ mstep a cl = MNext cl1 /\ x_clients x1 = lset c cl1 (x_clients x) /\ mwork cl1 < mwork cl).
  { destruct (client_move cl (nv_minv _ _ _ _ _ V Ec) (Cu _ _ Ec) Hd) as [(a & cl1 & Oa & M & Lw)|(Po & i & r & Er & Ph)].
    - exists [NClient c a], (mkNet (lset c cl1 (x_clients x)) (x_servers x) (x_from x)).
      assert (N : nstep w (NClient c a) x = NNext (mkNet (lset c cl1 (x_clients x)) (x_servers x) (x_from x))).
      { assert (nstep w (NClient c a) x = on_client c a x) as -> by (destruct a as [| ? [|] |? [|]|[|]|]; try contradiction; reflexivity).
        unfold on_client. rewrite Ec, M. reflexivity. }
      split. { constructor; [|constructor]. destruct a as [| ? [|] |? [|]|[|]|]; try contradiction; exact Logic.I. }
      split. { cbn [nrun]. rewrite N. reflexivity. }
      split; [exact U|]. split; [exact Ln|]. exists a, cl1. split; [destruct a as [| ? [|] |? [|]|[|]|]; try contradiction; exact Logic.I|]. auto.
    - assert (Es : exists s, nth_error (x_servers x) (w_route w c (m_peer r)) = Some s).
      { destruct (nth_error (x_servers x) (w_route w c (m_peer r))) eqn:E; [eauto|]. exfalso. apply nth_error_None in E. rewrite Ln in E.
        destruct (nv_c _ _ _ V _ _ Ec) as (np & lc & En & Rc). pose proof (mi_peer _ (nv_minv _ _ _ _ _ V Ec) _ _ Er) as P.
        rewrite (mrun_peers _ _ _ (minv_start np) Rc) in P. cbn [mstart m_peers] in P. pose proof (Ro c np (m_peer r) En P). lia. }
      destruct Es as [s Es].
      destruct (fetch x c i r s V U G) as (l & x1 & cl2 & cl1 & str & F & R & Ec2 & M & Xc & Xl & U1).
      + unfold flying. rewrite Ec, Er, Ph. reflexivity.
      + unfold triggers. rewrite Ec, Po. reflexivity.
      + exact Es.
      + assert (cl2 = cl) by congruence. subst cl2. exists l, x1. split; [exact F|]. split; [exact R|]. split; [exact U1|]. split; [congruence|].
        eexists (MPoll _), cl1. split; [exact Logic.I|]. split; [exact M|]. split; [exact Xc|].
        cbn [mstep] in M. unfold mpoll in M. rewrite Po, Er, Ph in M. injection M as <-.
        unfold mwork, mcallback. rewrite Po. cbn [mset_rpc mset_poller mset_pending m_rpcs m_poller].
        match goal with |- context [lset i ?r' _] => pose proof (total_lset mweight _ i r r' Er) as T end.
        unfold mweight at 2 4 in T. rewrite Ph in T. cbn [m_phase] in T. lia. }
  destruct Step as (l & x1 & F & R & U1 & Ln1 & a & cl1 & Oa & M & Xc & Lw).
  destruct (IH x1) as (l2 & x2 & F2 & R2 & C2 & H2).
  - rewrite Xc. pose proof (total_lset mwork (x_clients x) c cl cl1 Ec) as T. lia.
  - split; [eapply ninv_run; eassumption|]. split; [exact U1|]. split; [|split; [exact Ln1|]].
    + intros c2 s2 E2. rewrite Xc in E2. destruct (lset_inv _ _ _ _ _ E2) as [[-> ->]|[_ K]]; [|exact (Cu _ _ K)].
      destruct (own_keeps _ _ _ Oa M) as [K _]. rewrite K. exact (Cu _ _ Ec).
    + eapply (given_sized w peers l (quiet_sized l F) x x1); eassumption.
  - exists (l ++ l2), x2. split; [apply Forall_app; auto|]. split; [rewrite (nrun_app _ _ _ _ _ R); exact R2|]. auto.
Qed.
End World.

(** As long as no server and no client is shutting down and Mercury refused
    nothing, the threads can go on, without further errors, until every RPC
    made so far has had its callback with its handler's response. *)
Theorem C88_can_finish : forall w peers n l x, well w -> answers w -> requests_sized w l -> (forall c, unharmed c l) ->
  (forall c k p, nth_error peers c = Some k -> p < k -> w_route w c p < n) ->
  nrun w l (nstart peers n) = NNext x ->
  (forall j s, nth_error (x_servers x) j = Some s -> sv_notified s = false /\ forall p, In p (sv_resps s) -> rp_phase p <> RRefused) ->
  (forall c cl, nth_error (x_clients x) c = Some cl -> m_notified cl = false) ->
  exists l2 x2, Forall carries_on l2 /\ nrun w l2 x = NNext x2 /\ length (x_clients x2) = length (x_clients x) /\
    (forall c cl2, nth_error (x_clients x2) c = Some cl2 -> exists cl, nth_error (x_clients x) c = Some cl /\
       map (fun r => (m_peer r, m_given r)) (m_rpcs cl2) = map (fun r => (m_peer r, m_given r)) (m_rpcs cl)) /\
    (forall c cl2 i r, nth_error (x_clients x2) c = Some cl2 -> nth_error (m_rpcs cl2) i = Some r ->
       m_phase r = MReleased /\ exists m, m_calls r = [mkMs (m_given r) m (Some true)]).
Proof.
  intros w peers n l x W An Q U Ro R Su Cu.
  pose proof (ninv_run w peers l _ _ (ninv_start w peers n) R) as V.
  assert (Cm : calm w peers n x).
  { split; [exact V|]. split; [exact Su|]. split; [exact Cu|]. split; [|exact (given_sized w peers l Q _ _ (ninv_start w peers n) (start_sized w peers n) R)].
    rewrite (proj1 (counts w peers l _ _ (ninv_start w peers n) R)). cbn [nstart x_servers]. apply repeat_length. }
  destruct (finish w peers W An n Ro _ x (Nat.lt_succ_diag_r _) Cm) as (l2 & x2 & F & R2 & _ & H).
  exists l2, x2. split; [exact F|]. split; [exact R2|].
  destruct (same_rpcs w peers l2 F x x2 V R2) as [K1 K2]. split; [exact K1|]. split; [exact K2|].
  intros c cl2 i r Ec Er. assert (R3 : nrun w (l ++ l2) (nstart peers n) = NNext x2) by (rewrite (nrun_app _ _ _ _ _ R); exact R2).
  assert (U2 : unharmed c (l ++ l2)).
  { intros a Ha. apply in_app_or in Ha. destruct Ha as [Ha|Ha]; [exact (U c a Ha)|]. rewrite Forall_forall in F. specialize (F a Ha).
    destruct a as [? [| ? [|] |? [|]|[|]|]| | | |]; cbn in F; auto; contradiction. }
  assert (Nl : m_phase r <> MLost).
  { apply (never_lost w peers c (l ++ l2) W U2 (nstart peers n) x2) with cl2 i; auto; [apply ninv_start|].
    intros cl0 i0 r0 E0 F0. cbn [nstart x_clients] in E0. rewrite nth_error_map in E0. destruct (nth_error peers c); [|discriminate]. cbn in E0. injection E0 as <-.
    destruct i0; discriminate. }
  pose proof (H c cl2 i r Ec Er) as Hh. assert (Ph : m_phase r = MReleased) by (unfold mheld in Hh; destruct (m_phase r); try discriminate; congruence).
  split; [exact Ph|]. pose proof (ninv_run w peers _ _ _ (ninv_start w peers n) R3) as V2. destruct (nv_c _ _ _ V2 _ _ Ec) as (np & lc & _ & Rc).
  destruct (C64_once np lc cl2 i r Rc Er) as (_ & _ & One). specialize (One Ph). destruct (m_calls r) as [|st [|]] eqn:Cs; try discriminate.
  assert (Q3 : requests_sized w (l ++ l2)).
  { intros c0 p q o Hi. apply in_app_or in Hi. destruct Hi as [Hi|Hi]; [exact (Q _ _ _ _ Hi)|exact (quiet_sized w l2 F _ _ _ _ Hi)]. }
  destruct (C88_exchange w peers n (l ++ l2) x2 c cl2 i r st W Q3 R3 Ec Er) as (A & B & _); [rewrite Cs; left; reflexivity|].
  exists (ms_response st). destruct st as [a b d]. cbn [ms_success ms_request ms_response] in *. subst. reflexivity.
Qed.

(** A server that is gone before the request arrived never answers: unless
    Mercury reports an error, the RPC has no callback and ShutdownClient does
    not return. *)
Lemma stays_flying a s s' i r : minv s -> mstep a s = MNext s' -> (forall ret out, a <> MPoll (Some (i, ret, out))) ->
  nth_error (m_rpcs s) i = Some r -> m_phase r = MFlying -> exists r', nth_error (m_rpcs s') i = Some r' /\ m_phase r' = MFlying /\ m_late r' = m_late r.
Proof.
  intros V E N Er Ph.
  assert (Keep : forall j r1 s1, j <> i -> m_rpcs s1 = lset j r1 (m_rpcs s) -> exists r', nth_error (m_rpcs s1) i = Some r' /\ m_phase r' = MFlying /\ m_late r' = m_late r).
  { intros j r1 s1 D ->. exists r. rewrite lset_neq by congruence. auto. }
  destruct a as [p q o|j ok|j ok|c|]; cbn [mstep] in E.
  - unfold minitiate in E. match type of E with (if negb ?b then _ else _) = _ => destruct b end; cbn [negb] in E; [|discriminate].
    destruct (p <? 0)%Z; [discriminate|]. destruct (_ <=? p)%Z; [discriminate|]. injection E as <-. exists r. cbn [m_rpcs].
    rewrite nth_error_app1 by (apply nth_error_Some; congruence). auto.
  - unfold mcreate in E. destruct (nth_error (m_rpcs s) j) as [r1|] eqn:F; [|discriminate]. destruct (m_phase r1) eqn:P1; try discriminate.
    injection E as <-. destruct ok; eapply Keep; try reflexivity; intros ->; congruence.
  - unfold mforward in E. destruct (nth_error (m_rpcs s) j) as [r1|] eqn:F; [|discriminate]. destruct (m_phase r1) eqn:P1; try discriminate.
    injection E as <-. destruct ok; eapply Keep; try reflexivity; intros ->; congruence.
  - unfold mpoll in E. destruct (m_poller s) as [| |j|] eqn:Po.
    + injection E as <-. eauto.
    + destruct c as [[[j ret] out]|]; [|injection E as <-; eauto]. destruct (nth_error (m_rpcs s) j) as [r1|] eqn:F; [|discriminate].
      destruct (m_phase r1) eqn:P1; try discriminate. injection E as <-. assert (j <> i) by (intros ->; exact (N ret out eq_refl)).
      unfold mcallback. destruct out; eapply Keep; try reflexivity; assumption.
    + destruct (mi_in _ V _ Po) as (r1 & F & P1). rewrite F in E. destruct (mbusy _ _); [discriminate|]. injection E as <-.
      eapply Keep; [|reflexivity]. intros ->. congruence.
    + discriminate.
  - unfold mshutdown in E. destruct (m_shut s); try (destruct (Z.eqb _ _); [|discriminate]); try (destruct (m_poller s); try discriminate);
      injection E as <-; eauto.
Qed.
Lemma up_sinv w peers x j s : ninv w peers x -> nth_error (x_servers x) j = Some s -> sinv (w_mem w) (w_h w j) s.
Proof. intros V E. destruct (nv_s _ _ _ V _ _ E) as [[l R] _]. exact (sinv_run _ _ _ _ _ R). Qed.
Lemma gone_stays w peers l : (forall ret, ~ In (NFail 0 0 ret) l) -> forall x x' s0 cl r, ninv w peers x ->
  x_servers x = [s0] -> sv_shut s0 = ShDone -> x_from x = [[]] -> nth_error (x_clients x) 0 = Some cl -> nth_error (m_rpcs cl) 0 = Some r -> m_phase r = MFlying -> m_late r = false ->
  nrun w l x = NNext x' -> exists cl' r', nth_error (x_clients x') 0 = Some cl' /\ nth_error (m_rpcs cl') 0 = Some r' /\ m_phase r' = MFlying /\ m_late r' = false.
Proof.
  induction l as [|a l IH]; intros N x x' s0 cl r V Es D Ef Ec Er Ph La R; cbn [nrun] in R; [injection R as <-; eauto 10|].
  assert (N' : forall ret, ~ In (NFail 0 0 ret) l) by (intros ret H; apply (N ret); right; exact H).
  destruct (nstep w a x) as [x1| |] eqn:E; [|discriminate|eapply IH; eassumption].
  pose proof (ninv_step _ _ _ _ _ V E) as V1.
  destruct (nstep_moved _ _ _ _ _ V E) as [c ca s s' Ec2 M B A|j sa s s' f o Es2 Ef2 M L ND C].
  - destruct c as [|c].
    + assert (s = cl) by congruence. subst s.
      assert (Nr : forall ret out, ca <> MPoll (Some (0, ret, out))).
      { intros ret out ->. destruct a as [c' a'|j sa|c' i'|c' i' k|c' i' ret']; try contradiction.
        - destruct A as [-> ->]. cbn [nstep] in E. discriminate.
        - destruct A as (-> & out' & A). injection A as <- -> ->.
          destruct (B 0 r 0%Z out' Er eq_refl) as [[Hz _]|(_ & s1 & f1 & k1 & q & m & wire & H1 & H2 & H3 & _)]; [congruence|].
          rewrite Ef in H2. destruct (w_route w 0 (m_peer r)) as [|[|z]]; try discriminate. cbn in H2. injection H2 as <-. destruct q; discriminate.
        - destruct A as (-> & _ & A). injection A as <- -> ->. apply (N ret'). left. reflexivity. }
      destruct (stays_flying _ _ _ _ _ (nv_minv _ _ _ _ _ V Ec) M Nr Er Ph) as (r' & Er' & Ph' & La'). rewrite La in La'.
      eapply (IH N' _ x' s0 s' r' V1); cbn [x_servers x_from x_clients]; try eassumption. exact (lset_eq _ _ _ _ Ec).
    + eapply (IH N' _ x' s0 cl r V1); cbn [x_servers x_from x_clients]; try eassumption. rewrite lset_neq by discriminate. exact Ec.
  - rewrite Es in Es2. destruct j as [|[|j]]; try discriminate. cbn in Es2. injection Es2 as <-. rewrite Ef in Ef2. cbn in Ef2. injection Ef2 as <-.
    assert (Vs : sinv (w_mem w) (w_h w 0) s0) by (eapply up_sinv; [exact V|rewrite Es; reflexivity]).
    destruct (done_quiet _ _ (w_build w) sa s0 Vs D) as [K|K]; rewrite K in M; [discriminate|]. injection M as <-.
    assert (o = []) as ->.
    { assert (news (w_mem w) sa = []) as Nw.
      { destruct sa as [| |[|wire|]| | | |]; try reflexivity. exfalso. cbn [sstep] in K. pose proof (i_shut _ _ _ Vs) as Ks. rewrite D in Ks. destruct Ks as [Ks _]. rewrite Ks in K. discriminate. }
      rewrite Nw in L. destruct o; [reflexivity|discriminate]. }
    eapply (IH N' _ x' s0 cl r V1); cbn [x_servers x_from x_clients]; try eassumption; rewrite ?Es, ?Ef; reflexivity.
Qed.
Theorem C88_server_gone_refuted : forall w, w_route w 0 0 = 0 -> forall q,
  let l := [NClient 0 (MInitiate 0 q None); NClient 0 (MCreate 0 true); NClient 0 (MForward 0 true);
            NServer 0 SShut; NServer 0 SPoll; NServer 0 SShut; NServer 0 SShut] in
  exists x, nrun w l (nstart [1] 1) = NNext x /\
    forall l2 x2, (forall ret, ~ In (NFail 0 0 ret) l2) -> nrun w l2 x = NNext x2 ->
      exists cl r, nth_error (x_clients x2) 0 = Some cl /\ nth_error (m_rpcs cl) 0 = Some r /\ m_phase r = MFlying /\ m_calls r = [] /\ m_shut cl <> MsDone.
Proof.
  intros w Ro q l.
  assert (K : exists x s0 cl r, nrun w l (nstart [1] 1) = NNext x /\ x_servers x = [s0] /\ sv_shut s0 = ShDone /\ x_from x = [[]] /\
     nth_error (x_clients x) 0 = Some cl /\ nth_error (m_rpcs cl) 0 = Some r /\ m_phase r = MFlying /\ m_late r = false).
  { eexists _, _, _, _. split; [vm_compute; reflexivity|]. repeat split. }
  destruct K as (x & s0 & cl0 & r0 & R0 & K1 & K2 & K3 & K4 & K5 & K6 & K7). pose proof (ninv_run w [1] l _ _ (ninv_start w [1] 1) R0) as V.
  exists x. split; [exact R0|]. clear R0. clearbody l. intros l2 x2 N R.
  destruct (gone_stays w [1] l2 N x x2 s0 cl0 r0 V K1 K2 K3 K4 K5 K6 K7 R) as (cl & r & Ec & Er & Ph & Late).
  exists cl, r. pose proof (ninv_run w [1] _ _ _ V R) as V2. pose proof (nv_minv _ _ _ _ _ V2 Ec) as Vm.
  pose proof (mi_rpc _ Vm _ _ Er) as O. unfold mrpc_ok in O. rewrite Ph in O. split; [exact Ec|]. split; [exact Er|]. split; [exact Ph|].
  split; [apply O|]. intros D.
  destruct (nv_c _ _ _ V2 _ _ Ec) as (np & lc & _ & Rc). destruct (C64_shutdown_waits np lc cl Rc D) as [_ K]. destruct (K _ _ Er Late); congruence.
Qed.

(** Two clients, two servers; one server answers at once, the other from its
    pool; one callback makes another RPC. *)
Definition ex_w : mworld := mkWorld Debug 1000 1000 (fun _ p => p)
  (fun j q m => match j with
                | O => mkHs [OSend (set_payload empty_grr (Some [7%N])); OFree] None
                | _ => mkHs [] (Some [OSend sample; OFree])
                end).
Definition ex_calls : list naction :=
  [NClient 0 (MInitiate 1 sample None); NClient 0 (MCreate 0 true); NClient 1 (MInitiate 0 empty_grr None); NClient 0 (MForward 0 true);
   NClient 1 (MCreate 0 true); NClient 1 (MForward 0 true);
   NServer 1 SPoll; NDeliver 0 0; NServer 1 (SOp true); NServer 1 (SProgress []);
   NServer 0 SPoll; NDeliver 1 0; NServer 0 (SOp true); NServer 1 (STask 0 true)].
Definition ex_rest : list naction :=
  [NServer 0 (SOp true); NServer 0 (SOp true); NServer 0 (SProgress [0]);
   NClient 1 (MPoll None); NReply 1 0 0; NClient 1 (MInitiate 1 sample (Some 0)); NClient 1 (MCreate 1 true); NClient 1 (MForward 1 true); NClient 1 (MPoll None);
   NServer 1 (STask 0 true); NServer 1 (STask 0 true); NServer 1 SPoll; NServer 1 (STrigger TNone); NServer 1 (SProgress [0]);
   NClient 0 (MPoll None); NReply 0 0 0; NClient 0 (MPoll None);
   NServer 1 SPoll; NDeliver 1 1; NServer 1 (SOp true); NServer 1 (STask 0 true); NServer 1 (SProgress [1]);
   NClient 1 MShutdown; NClient 1 (MPoll None); NReply 1 1 1; NClient 1 (MPoll None);
   NClient 1 MShutdown; NClient 1 MShutdown; NClient 1 (MPoll None); NClient 1 MShutdown].
Lemma empty_ok : grr_ok empty_grr.
Proof. constructor; cbn; auto; discriminate. Qed.
Lemma sized_sample : sized ex_w sample.
Proof. split; [exact (proj1 C48_ex)|]. split; vm_compute; discriminate. Qed.
Lemma sized_empty : sized ex_w empty_grr.
Proof. split; [exact empty_ok|]. split; vm_compute; discriminate. Qed.
Example C88_world : well ex_w /\ answers ex_w.
Proof.
  split.
  - split; [reflexivity|]. intros [|j]; (split; [intros q m; right; eexists; reflexivity|]).
    + intros q m o [E|[E|[]]]; [|discriminate]. injection E as <-. split; [|split; vm_compute; discriminate]. destruct empty_ok. constructor; cbn; auto; try discriminate.
      vm_compute. repeat constructor.
    + intros q m o [E|[E|[]]]; [|discriminate]. injection E as <-. exact sized_sample.
  - intros [|j] q m; eexists; left; reflexivity.
Qed.
Example C88_example : requests_sized ex_w (ex_calls ++ ex_rest) /\ (forall c, unharmed c (ex_calls ++ ex_rest)) /\
  (forall c p q o, In (NClient c (MInitiate p q o)) (ex_calls ++ ex_rest) -> exists k, nth_error [2; 2] c = Some k /\ (0 <= p < Z.of_nat k)%Z) /\
  exists x, nrun ex_w (ex_calls ++ ex_rest) (nstart [2; 2] 2) = NNext x /\
    x_from x = [[(1, 0)]; [(0, 0); (1, 1)]] /\ map m_shut (x_clients x) = [MsNot; MsDone] /\
    map (fun cl => map (fun r => (m_late r, map ms_success (m_calls r))) (m_rpcs cl)) (x_clients x) =
      [[(false, [Some true])]; [(false, [Some true]); (false, [Some true])]].
Proof.
  split; [|split; [|split]].
  - intros c p q o H. vm_compute in H. repeat (destruct H as [H|H]; [try discriminate; injection H; intros; subst; first [exact sized_sample|exact sized_empty]|]). destruct H.
  - intros c a H. vm_compute in H. repeat (destruct H as [<-|H]; [cbn; auto|]). destruct H.
  - intros c p q o H. vm_compute in H. repeat match goal with K : _ \/ _ |- _ => destruct K as [K|K] | K : False |- _ => destruct K end;
      try discriminate; injection H; intros; subst; exists 2; (split; [reflexivity|lia]).
  - eexists. split; [vm_compute; reflexivity|]. vm_compute. auto.
Qed.
(** After the first part nothing is shutting down and both RPCs are under way. *)
Example C88_can_finish_example : exists x, nrun ex_w ex_calls (nstart [2; 2] 2) = NNext x /\
  map sv_notified (x_servers x) = [false; false] /\ map (fun s => map rp_phase (sv_resps s)) (x_servers x) = [[RPosted]; [RPosted]] /\
  map m_notified (x_clients x) = [false; false] /\ map (fun cl => map m_phase (m_rpcs cl)) (x_clients x) = [[MFlying]; [MFlying]] /\
  (forall c k p, nth_error [2; 2] c = Some k -> p < k -> w_route ex_w c p < 2).
Proof.
  eexists. split; [vm_compute; reflexivity|]. repeat (split; [reflexivity|]). intros [|[|[|c]]] k p E L; try discriminate; injection E as <-; exact L.
Qed.

Print Assumptions C88_can_finish.
Print Assumptions C88_server_gone_refuted.
