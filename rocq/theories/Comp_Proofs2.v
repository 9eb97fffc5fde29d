(** Proofs about composite drivers (Comp_Model.v): use as documented. *)
From Coq Require Import Ascii String List NArith ZArith Bool Arith Lia.
From Verif Require Import Base_Model Driver_Model Driver_Proofs Grpc_Model Grpc_Proofs Comp_Model Comp_Proofs.
Import ListNotations.
Open Scope nat_scope.

Section Disc.
Context (d : driver) (kinds : list nat -> kind) (stubs : list nat -> list bool).
Local Notation kinv := (kinv d kinds stubs).
(** Only connected peers are addressed; once ShutdownClient has been called no
    RPC is initiated, not even from callbacks. *)
Definition kallowed (a : kaction) (x : comp) : Prop :=
  match a with
  | KInitiate peer _ _ => p_shut x = KNot /\ forall p, In p (leaf_paths [] (fresh d)) -> nth_error (stubs p) peer = Some true
  | KShutdown => p_shut x = KNot -> Forall (eq CDone) (sy_calls (p_sys x))
  | _ => True
  end.
Fixpoint kdisciplined (l : list kaction) (x : comp) : Prop :=
  match l with
  | [] => True
  | a :: r => kallowed a x /\ match kstep a x with KNext x' => kdisciplined r x' | KCrash _ => True | KStuck => kdisciplined r x end
  end.
Record kdisc (x : comp) : Prop := {
  kd_disc : forall p k s, p_leaf x p = Some (k, s) -> inv k s /\ disc (stubs p) s;
  kd_conn : forall j ci, nth_error (p_info x) j = Some ci -> forall p, In p (leaf_paths [] (fresh d)) -> nth_error (stubs p) (ci_peer ci) = Some true;
  kd_done : p_shut x <> KNot -> Forall (eq CDone) (sy_calls (p_sys x));
  kd_not : p_shut x = KNot -> forall p k s, p_leaf x p = Some (k, s) -> c_shut s = ShNot;
  kd_at : forall e p rest, p_shut x = KAt e p rest -> exists before, leaf_paths [] (fresh d) = before ++ p :: rest /\
    forall q k s, In q before -> p_leaf x q = Some (k, s) -> c_shut s = ShDone;
  kd_end : p_shut x = KDone -> forall p k s, p_leaf x p = Some (k, s) -> c_shut s = ShDone;
  kd_entered : forall p k s, p_leaf x p = Some (k, s) -> c_shut s <> ShNot -> c_shut s <> ShDone -> exists rest, p_shut x = KAt true p rest }.
Lemma kdisc_start : kdisc (kstart d kinds stubs).
Proof.
  assert (L : forall p k s, p_leaf (kstart d kinds stubs) p = Some (k, s) -> s = start_client (stubs p)).
  { intros p k s. cbn [kstart p_leaf]. destruct (existsb (path_eqb p) (leaf_paths [] (fresh d))); [|discriminate]. congruence. }
  constructor.
  - intros p k s E. rewrite (L _ _ _ E). split; [apply inv_start|apply disc_start].
  - intros [|j] ci E; discriminate.
  - intros _. constructor.
  - intros _ p k s E. rewrite (L _ _ _ E). reflexivity.
  - discriminate.
  - discriminate.
  - intros p k s E. rewrite (L _ _ _ E). intros N. destruct (N eq_refl).
Qed.
Lemma no_starting x p i r : kinv x -> Forall (eq CDone) (sy_calls (p_sys x)) -> rpc_at x p i = Some r -> starting r = false.
Proof.
  intros V F E. destruct (ki_sur _ _ _ _ V _ _ _ E) as (j & ci & Hj & Er).
  destruct (nth_error (sy_calls (p_sys x)) j) as [c|] eqn:Ec.
  - assert (c = CDone) by (rewrite Forall_forall in F; symmetry; apply F; exact (nth_error_In _ _ Ec)). subst c.
    destruct (ki_call _ _ _ _ V _ _ _ Ec Hj) as (q & n & r' & A & B & _ & _ & _ & S).
    assert (W : (q, n) = (p, i)) by congruence. injection W as -> ->. congruence.
  - apply nth_error_None in Ec. rewrite <- (ki_len _ _ _ _ V) in Ec. assert (j < length (p_info x)) by (apply nth_error_Some; congruence). lia.
Qed.
Lemma shutdown_allowed x p k s : kinv x -> Forall (eq CDone) (sy_calls (p_sys x)) -> p_leaf x p = Some (k, s) -> allowed (stubs p) Shutdown s.
Proof.
  intros V F L _ i r E _ P. assert (H : rpc_at x p i = Some r) by (unfold rpc_at; rewrite L; exact E).
  pose proof (no_starting x p i r V F H) as St. unfold starting in St. rewrite P in St. discriminate.
Qed.
Lemma initiate_allowed x j p ci k s : kinv x -> kdisc x -> nth_error (sy_calls (p_sys x)) j = Some (CDown p) -> nth_error (p_info x) j = Some ci ->
  p_leaf x p = Some (k, s) -> allowed (stubs p) (Initiate (ci_peer ci) (ci_request ci) None) s.
Proof.
  intros V D Ec Ei L. cbn [allowed]. split.
  - destruct (p_shut x) eqn:Sh; [exact (kd_not _ D Sh _ _ _ L)| |];
      (assert (F : Forall (eq CDone) (sy_calls (p_sys x))) by (apply (kd_done _ D); congruence); rewrite Forall_forall in F; specialize (F _ (nth_error_In _ _ Ec)); discriminate).
  - apply (kd_conn _ D _ _ Ei). apply (ki_leaf _ _ _ _ V). congruence.
Qed.
Lemma snoc_app {A} (l : list A) x y r m : l ++ x :: y :: r = m -> (l ++ [x]) ++ y :: r = m.
Proof. rewrite <- app_assoc. exact (fun H => H). Qed.
Lemma kdisc_move a x x' : kinv x -> kdisc x -> kallowed a x -> kmove a x x' -> kdisc x'.
Proof.
  intros V D Al M.
  destruct M as [peer q o Ea|j c t' c' ci Ea Ec Ei St G|j p ci k s s' t' c' Ea Ec Ei L C St|p k s b s' sh L C Ni Nb Sb|p rest Ea Sh Lp|p k s rest Ea Sh L Cs].
  - subst a. destruct Al as [Sh Cn]. constructor; cbn [p_sys p_info p_leaf p_shut sy_calls]; try apply D.
    + intros j ci H. destruct (Nat.lt_ge_cases j (length (p_info x))) as [Lt|Ge]; [rewrite nth_error_app1 in H by exact Lt; exact (kd_conn _ D _ _ H)|].
      rewrite nth_error_app2 in H by exact Ge. destruct (j - length (p_info x)) as [|[|n]]; try discriminate. injection H as <-. exact Cn.
    + congruence.
  - constructor; cbn [p_sys p_info p_leaf p_shut sy_calls]; try apply D.
    intros N. pose proof (kd_done _ D N) as F. exfalso. rewrite Forall_forall in F. specialize (F _ (nth_error_In _ _ Ec)). subst c. exact G.
  - assert (Kn : p_shut x = KNot).
    { destruct (p_shut x) eqn:Sh; [reflexivity| |];
      (assert (F : Forall (eq CDone) (sy_calls (p_sys x))) by (apply (kd_done _ D); congruence); rewrite Forall_forall in F; specialize (F _ (nth_error_In _ _ Ec)); discriminate). }
    destruct (kd_disc _ D _ _ _ L) as [Iv Ds]. pose proof (initiate_allowed x j p ci k s V D Ec Ei L) as Ia.
    pose proof (ck_shut _ _ _ (cstep_kept _ _ _ _ C)) as Cs.
    constructor; cbn [p_sys p_info p_leaf p_shut sy_calls]; try congruence.
    + intros q k2 s2. unfold leaf_upd. destruct (path_eqb_spec q p) as [->|]; [|apply D]. intros E. injection E as <- <-. split; [eapply inv_step; eassumption|eapply disc_step; eassumption].
    + intros j2 ci2 H. destruct (lset_inv _ _ _ _ _ H) as [[-> ->]|[N H2]]; [exact (kd_conn _ D _ _ Ei)|exact (kd_conn _ D _ _ H2)].
    + intros _ q k2 s2. unfold leaf_upd. destruct (path_eqb_spec q p) as [->|]; [|apply (kd_not _ D Kn)]. intros E. injection E as <- <-.
      rewrite Cs by discriminate. exact (kd_not _ D Kn _ _ _ L).
    + intros q k2 s2 E N1 N2. exfalso. apply N1. clear N1 N2. unfold leaf_upd in E. destruct (path_eqb_spec q p) as [->|]; [|exact (kd_not _ D Kn _ _ _ E)]. injection E as <- <-.
      rewrite Cs by discriminate. exact (kd_not _ D Kn _ _ _ L).
  - destruct (kd_disc _ D _ _ _ L) as [Iv Ds]. pose proof (ck_shut _ _ _ (cstep_kept _ _ _ _ C)) as Cs.
    assert (Ab : allowed (stubs p) b s).
    { destruct b; try exact Logic.I; [destruct (Ni _ _ _ eq_refl)|]. destruct (Sb eq_refl) as (_ & e & rest & Sh & _). apply (shutdown_allowed x p k s V); [|exact L]. apply (kd_done _ D). congruence. }
    assert (Dd : forall q k2 s2, leaf_upd p k s' (p_leaf x) q = Some (k2, s2) -> inv k2 s2 /\ disc (stubs q) s2).
    { intros q k2 s2. unfold leaf_upd. destruct (path_eqb_spec q p) as [->|]; [|apply D]. intros E. injection E as <- <-. split; [eapply inv_step; eassumption|eapply disc_step; eassumption]. }
    assert (Dec : b = Shutdown \/ b <> Shutdown) by (destruct b; auto; right; discriminate).
    destruct Dec as [->|Nb'].
    + destruct (Sb eq_refl) as (_ & e & rest & Sh & -> & Ne).
      constructor; cbn [p_sys p_info p_leaf p_shut sy_calls]; try discriminate; auto; try apply D.
      * intros _. apply (kd_done _ D). congruence.
      * intros e2 p2 rest2 E. injection E as <- <- <-. destruct (kd_at _ D _ _ _ Sh) as (before & Lp & Bd). exists before. split; [exact Lp|].
        intros q k2 s2 Iq. unfold leaf_upd. destruct (path_eqb_spec q p) as [->|]; [|exact (Bd _ _ _ Iq)]. exfalso.
        pose proof (leaf_paths_nodup (fresh d) []) as Nd. rewrite Lp in Nd. apply NoDup_remove_2 in Nd. apply Nd. apply in_app_iff. auto.
      * intros q k2 s2 E N1 N2. unfold leaf_upd in E. destruct (path_eqb_spec q p) as [->|Np]; [eauto|]. destruct (kd_entered _ D _ _ _ E N1 N2) as (r2 & E2). congruence.
    + destruct (Nb Nb') as [-> _]. specialize (Cs Nb').
      assert (Same : forall q k2 s2, leaf_upd p k s' (p_leaf x) q = Some (k2, s2) -> exists s3, p_leaf x q = Some (k2, s3) /\ c_shut s2 = c_shut s3).
      { intros q k2 s2. unfold leaf_upd. destruct (path_eqb_spec q p) as [->|]; [|eauto]. intros E. injection E as <- <-. eauto. }
      constructor; cbn [p_sys p_info p_leaf p_shut sy_calls]; auto; try apply D.
      * intros N q k2 s2 E. destruct (Same _ _ _ E) as (s3 & E3 & ->). exact (kd_not _ D N _ _ _ E3).
      * intros e2 p2 rest2 Sh. destruct (kd_at _ D _ _ _ Sh) as (before & Lp & Bd). exists before. split; [exact Lp|].
        intros q k2 s2 Iq E. destruct (Same _ _ _ E) as (s3 & E3 & ->). exact (Bd _ _ _ Iq E3).
      * intros N q k2 s2 E. destruct (Same _ _ _ E) as (s3 & E3 & ->). exact (kd_end _ D N _ _ _ E3).
      * intros q k2 s2 E. destruct (Same _ _ _ E) as (s3 & E3 & ->). exact (kd_entered _ D _ _ _ E3).
  - subst a. cbn [kallowed] in Al. destruct (ki_sys _ _ _ _ V) as [acts R]. pose proof (leaf_paths_shape _ _ [] (run_shape _ _ _ R)) as Q. cbn [sy_tree] in Q.
    constructor; cbn [p_sys p_info p_leaf p_shut sy_calls]; try discriminate; try apply D.
    + intros _. destruct Sh as [Sh|Sh]; [exact (Al Sh)|apply (kd_done _ D); congruence].
    + intros e2 p2 rest2 E. injection E as <- <- <-. exists []. split; [rewrite Q; exact Lp|]. intros q k s [].
    + intros q k s E N1 N2. exfalso. destruct (kd_entered _ D _ _ _ E N1 N2) as (r2 & E2). destruct Sh; congruence.
  - destruct (kd_at _ D _ _ _ Sh) as (before & Lp & Bd).
    assert (Bd' : forall q k s, In q (before ++ [p]) -> p_leaf x q = Some (k, s) -> c_shut s = ShDone).
    { intros q k2 s2 Iq E. apply in_app_iff in Iq. destruct Iq as [Iq|[->|[]]]; [exact (Bd _ _ _ Iq E)|]. assert (s2 = s) by congruence. subst s2. exact Cs. }
    assert (En : forall q k s, p_leaf x q = Some (k, s) -> c_shut s <> ShNot -> c_shut s <> ShDone -> False).
    { intros q k2 s2 E N1 N2. destruct (kd_entered _ D _ _ _ E N1 N2) as (r2 & E2). assert (q = p) by congruence. subst q. assert (s2 = s) by congruence. subst s2. congruence. }
    constructor; cbn [p_sys p_info p_leaf p_shut sy_calls]; try apply D.
    + intros _. apply (kd_done _ D). congruence.
    + destruct rest; discriminate.
    + intros e2 p2 rest2 E. destruct rest as [|q r]; [discriminate|]. injection E as <- <- <-. exists (before ++ [p]). split; [apply eq_sym, snoc_app, eq_sym; exact Lp|exact Bd'].
    + intros E q k2 s2 Eq. destruct rest as [|q' r]; [|discriminate]. apply (Bd' q k2 s2); [|exact Eq]. rewrite <- Lp. apply (ki_leaf _ _ _ _ V). congruence.
    + intros q k2 s2 E N1 N2. destruct (En _ _ _ E N1 N2).
Qed.
Lemma client_no_crash x p k s b c : kdisc x -> p_leaf x p = Some (k, s) -> allowed (stubs p) b s -> cstep k b s <> Crash c.
Proof. intros D L Al. destruct (kd_disc _ D _ _ _ L) as [I Ds]. exact (disc_no_crash _ _ _ _ _ I Ds Al). Qed.
Lemma kno_crash a x c : kinv x -> kdisc x -> kallowed a x -> kstep a x <> KCrash c.
Proof.
  intros V D Al. destruct a as [peer q o|j|p b|]; cbn [kstep].
  - match goal with |- (if ?b then _ else _) <> _ => destruct b end; discriminate.
  - unfold thread_step. destruct (nth_error (sy_calls (p_sys x)) j) as [cs|] eqn:Ec; [|discriminate].
    assert (T : forall y, tree_step j y <> KCrash c) by (intros y; unfold tree_step; destruct (sys_step _ _); discriminate).
    destruct cs as [p|p|]; [| |discriminate]; destruct (nth_error (p_info x) j) as [ci|] eqn:Ei; try discriminate.
    + destruct (p_leaf x p) as [[k s]|] eqn:L; [|apply T]. unfold client_step. rewrite L.
      pose proof (client_no_crash x p k s (Initiate (ci_peer ci) (ci_request ci) None) c D L (initiate_allowed x j p ci k s V D Ec Ei L)) as N.
      destruct (cstep k _ s) as [s'|c1|]; [apply T|congruence|discriminate].
    + destruct (ci_rpc ci) as [[q i]|]; [|discriminate]. destruct (rpc_at x q i) as [r|]; [|discriminate]. destruct (starting r); [|apply T].
      unfold client_step. destruct (p_leaf x q) as [[k s]|] eqn:L; [|discriminate]. pose proof (client_no_crash x q k s (Advance i) c D L Logic.I) as N.
      destruct (cstep k _ s); congruence.
  - destruct (background x p b) eqn:B; [|discriminate]. unfold client_step. unfold background in B. destruct (p_leaf x p) as [[k s]|] eqn:L; [|discriminate].
    assert (Ab : allowed (stubs p) b s) by (destruct b; try discriminate; exact Logic.I). pose proof (client_no_crash x p k s b c D L Ab) as N. destruct (cstep k _ s); congruence.
  - unfold shutdown_step. destruct (p_shut x) as [|e p rest|] eqn:Sh; [destruct (leaf_paths _ _); discriminate| |destruct (leaf_paths _ _); discriminate].
    destruct (p_leaf x p) as [[k s]|] eqn:L; [|discriminate].
    assert (G : match client_step p Shutdown x with KNext x' => KNext (set_kshut (KAt true p rest) x') | e0 => e0 end <> KCrash c).
    { unfold client_step. rewrite L. assert (F : Forall (eq CDone) (sy_calls (p_sys x))) by (apply (kd_done _ D); congruence).
      pose proof (client_no_crash x p k s Shutdown c D L (shutdown_allowed x p k s V F L)) as N. destruct (cstep k Shutdown s); congruence. }
    destruct e; [|exact G]. destruct (c_shut s); try exact G. discriminate.
Qed.
Lemma kdisc_run l : forall x, kinv x -> kdisc x -> kdisciplined l x -> exists x', krun l x = KNext x' /\ kinv x' /\ kdisc x'.
Proof.
  induction l as [|a l IH]; intros x V D Di; cbn [krun kdisciplined] in *; [eauto|]. destruct Di as [Al Di].
  destruct (kstep a x) as [x1|c|] eqn:E.
  - pose proof (kstep_move _ _ _ E) as M. apply IH; [eapply kinv_move; eassumption|eapply kdisc_move; eassumption|exact Di].
  - destruct (kno_crash _ _ _ V D Al E).
  - apply IH; assumption.
Qed.

(** ** Progress *)
Definition kinternal (a : kaction) (x : comp) : Prop :=
  match a with KInitiate _ _ _ => False | KShutdown => p_shut x <> KNot /\ p_shut x <> KDone | _ => True end.
Lemma at_rest_calls x : kinv x -> kdisc x -> (forall a, kinternal a x -> kstep a x = KStuck) -> Forall (eq CDone) (sy_calls (p_sys x)).
Proof.
  intros V D St. apply Forall_forall. intros c Ic. apply In_nth_error in Ic. destruct Ic as [j Ec]. destruct c as [p|p|]; [exfalso|exfalso|reflexivity].
  - destruct (ki_sys _ _ _ _ V) as [acts R]. pose proof (good_run _ _ _ (good_start d) R) as G.
    pose proof (nth_Forall _ _ _ _ (good_valid _ G) Ec) as Vc. destruct (call_progress _ _ Vc ltac:(discriminate)) as (t' & c' & C & _).
    pose proof (St (KThread j) Logic.I) as Q. cbn [kstep] in Q. unfold thread_step in Q. rewrite Ec in Q.
    destruct (nth_error (p_info x) j) as [ci|] eqn:Ei; [|apply nth_error_None in Ei; rewrite (ki_len _ _ _ _ V) in Ei; assert (j < length (sy_calls (p_sys x))) by (apply nth_error_Some; congruence); lia].
    destruct (p_leaf x p) as [[k s]|] eqn:L.
    + unfold client_step in Q. rewrite L in Q. pose proof (initiate_allowed x j p ci k s V D Ec Ei L) as Ia.
      assert (K : exists s', cstep k (Initiate (ci_peer ci) (ci_request ci) None) s = Next s').
      { pose proof (client_no_crash x p k s _ IndexCheck D L Ia) as N. destruct Ia as [Sn Pe]. cbn [cstep] in N |- *. unfold initiate in *. cbn [negb] in *.
        destruct (ci_peer ci <? length (c_stubs s)); [eauto|congruence]. }
      destruct K as (s' & K). rewrite K in Q. unfold tree_step in Q. cbn [set_info set_leaf p_sys sys_step] in Q. rewrite Ec, C in Q. discriminate.
    + unfold tree_step in Q. cbn [sys_step] in Q. rewrite Ec, C in Q. discriminate.
  - destruct (ki_sys _ _ _ _ V) as [acts R]. pose proof (good_run _ _ _ (good_start d) R) as G.
    pose proof (nth_Forall _ _ _ _ (good_valid _ G) Ec) as Vc. destruct (call_progress _ _ Vc ltac:(discriminate)) as (t' & c' & C & _).
    pose proof (St (KThread j) Logic.I) as Q. cbn [kstep] in Q. unfold thread_step in Q. rewrite Ec in Q.
    destruct (nth_error (p_info x) j) as [ci|] eqn:Ei; [|apply nth_error_None in Ei; rewrite (ki_len _ _ _ _ V) in Ei; assert (j < length (sy_calls (p_sys x))) by (apply nth_error_Some; congruence); lia].
    destruct (ki_call _ _ _ _ V _ _ _ Ec Ei) as (q & i & r & A & B & _). rewrite A, B in Q. destruct (starting r) eqn:Sr.
    + unfold client_step in Q. unfold rpc_at in B. destruct (p_leaf x q) as [[k s]|] eqn:L; [|discriminate].
      pose proof (client_no_crash x q k s (Advance i)) as N. cbn [cstep] in N, Q. unfold advance in N, Q. rewrite B in N, Q. unfold starting in Sr.
      destruct (r_phase r) eqn:P; try discriminate. unfold post in N, Q. destruct (nth_error (c_stubs s) (r_peer r)) as [[|]|].
      * destruct k; [destruct (c_cq_shut s); discriminate|discriminate].
      * discriminate.
      * discriminate.
    + unfold tree_step in Q. cbn [sys_step] in Q. rewrite Ec, C in Q. discriminate.
Qed.
Lemma at_rest_clients x : kinv x -> kdisc x -> (forall a, kinternal a x -> kstep a x = KStuck) ->
  (forall p i r, rpc_at x p i = Some r -> r_phase r = Released) /\ (p_shut x = KNot \/ p_shut x = KDone).
Proof.
  intros V D St. pose proof (at_rest_calls x V D St) as F.
  assert (Nb : forall j, calls_below x j = false).
  { intros j. unfold calls_below. destruct (existsb _ _) eqn:E; [|reflexivity]. apply existsb_exists in E. destruct E as ([c ci] & I & E).
    apply in_combine_l in I. rewrite Forall_forall in F. rewrite <- (F _ I) in E. discriminate. }
  assert (Nh : forall p i, held_up x p i = false).
  { intros p i. unfold held_up. destruct (rpc_at x p i) as [r|]; [|reflexivity]. destruct (r_phase r); try reflexivity. destruct (existsb _ _) eqn:E; [|reflexivity].
    apply existsb_exists in E. destruct E as (j & _ & E). destruct (nth_error (p_info x) j); [|discriminate]. rewrite Nb, andb_false_r in E. discriminate. }
  assert (Fin : forall p k s, p_leaf x p = Some (k, s) -> (forall i r, nth_error (c_rpcs s) i = Some r -> r_phase r = Released) /\ (c_shut s = ShNot \/ c_shut s = ShDone)).
  { intros p k s L. destruct (kd_disc _ D _ _ _ L) as [I Ds]. apply (final_state (stubs p) k s I Ds). intros a Ia.
    assert (G : background x p a = true -> cstep k a s = Stuck).
    { intros B. pose proof (St (KClient p a) Logic.I) as Q. cbn [kstep] in Q. rewrite B in Q. unfold client_step in Q. rewrite L in Q. destruct (cstep k a s); congruence. }
    unfold background in G. rewrite L in G. destruct a as [u v w|i|i st resp|t|]; [destruct Ia| | | |].
    - destruct (nth_error (c_rpcs s) i) as [r|] eqn:E; [|cbn [cstep]; unfold advance; rewrite E; reflexivity].
      apply G. rewrite Nh. rewrite (no_starting x p i r V F); [reflexivity|]. unfold rpc_at. rewrite L. exact E.
    - apply G. reflexivity.
    - apply G. destruct (c_poller s); auto. rewrite Nh. reflexivity.
    - destruct Ia as [N1 N2]. destruct (kd_entered _ D _ _ _ L N1 N2) as (rest & Sh).
      assert (Q : kstep KShutdown x = KStuck) by (apply St; cbn [kinternal]; split; congruence). cbn [kstep] in Q. unfold shutdown_step in Q. rewrite Sh, L in Q.
      unfold client_step in Q. rewrite L in Q. destruct (cstep k Shutdown s); auto; destruct (c_shut s); congruence. }
  split.
  - intros p i r E. unfold rpc_at in E. destruct (p_leaf x p) as [[k s]|] eqn:L; [|discriminate]. exact (proj1 (Fin _ _ _ L) _ _ E).
  - destruct (p_shut x) as [|e p rest|] eqn:Sh; auto. exfalso.
    assert (Q : kstep KShutdown x = KStuck) by (apply St; cbn [kinternal]; split; congruence). cbn [kstep] in Q. unfold shutdown_step in Q. rewrite Sh in Q.
    destruct (kd_at _ D _ _ _ Sh) as (before & Lp & _). assert (Lf : p_leaf x p <> None) by (apply (ki_leaf _ _ _ _ V); rewrite Lp; apply in_app_iff; right; left; reflexivity).
    destruct (p_leaf x p) as [[k s]|] eqn:L; [|congruence]. unfold client_step in Q. rewrite L in Q. cbn [cstep] in Q. unfold shutdown in Q.
    destruct (proj2 (Fin _ _ _ L)) as [C|C]; rewrite C in Q; destruct e; discriminate.
Qed.
End Disc.

(** ** Termination *)
Definition client_work (f : list nat -> option (kind * client)) (p : list nat) : nat := match f p with Some (_, s) => work s | None => 0 end.
Lemma total_upd p k s s' f : f p = Some (k, s) -> forall l, NoDup l -> In p l ->
  total (client_work (leaf_upd p k s' f)) l + work s = total (client_work f) l + work s'.
Proof.
  intros L. assert (Out : forall l, ~ In p l -> total (client_work (leaf_upd p k s' f)) l = total (client_work f) l).
  { induction l as [|q l IH]; intros N; [reflexivity|]. cbn [total fold_right] in *. unfold client_work at 1 3, leaf_upd.
    destruct (path_eqb_spec q p) as [->|_]; [destruct N; left; reflexivity|]. f_equal. apply IH. intro H. apply N. right. exact H. }
  induction l as [|q l IH]; intros Nd I; [destruct I|]. inversion_clear Nd as [|? ? Nq Nd']. destruct I as [->|I].
  - specialize (Out l Nq). cbn [total fold_right] in *. unfold client_work at 1 3, leaf_upd at 1. rewrite path_eqb_refl, L. unfold total in *. lia.
  - specialize (IH Nd' I). assert (q <> p) by (intros ->; exact (Nq I)). cbn [total fold_right] in *. unfold client_work at 1 3, leaf_upd at 1.
    destruct (path_eqb_spec q p); [congruence|]. unfold total in *. lia.
Qed.
Definition shut_left (s : kshut) : nat := match s with KNot | KDone => 0 | KAt e _ rest => 2 * length rest + (if e then 1 else 2) end.
Definition kwork (d : driver) (x : comp) : nat :=
  30 * Driver_Proofs.total (height d) (sy_calls (p_sys x)) + total (client_work (p_leaf x)) (leaf_paths [] (fresh d)) + 20 * shut_left (p_shut x).
Lemma theight_fresh d : theight (fresh d) = height d.
Proof. induction d; cbn [fresh theight height]; congruence. Qed.
Lemma initiate_work k p q o s s' : cstep k (Initiate p q o) s = Next s' -> work s' = work s + 10.
Proof.
  cbn [cstep]. unfold initiate. match goal with |- context [negb ?b] => destruct b end; cbn [negb]; [|discriminate]. destruct (_ <? _); [|discriminate].
  intros E. injection E as <-. unfold work, poller_rank, shut_rank. cbn [c_rpcs c_poller c_notified c_shut].
  assert (T : forall l r, total rank (l ++ [r]) = total rank l + rank r) by (clear; induction l as [|x l IH]; intros r; unfold total in *; cbn [app fold_right]; [lia|rewrite IH; lia]).
  rewrite T. unfold rank at 2. cbn [r_phase rank_of]. lia.
Qed.
Lemma kwork_decreases d kinds stubs a x x' : kinv d kinds stubs x -> kinternal a x -> kmove a x x' -> kwork d x' < kwork d x.
Proof.
  intros V Ia M. destruct (ki_sys _ _ _ _ V) as [acts R]. pose proof (good_run _ _ _ (good_start d) R) as G.
  assert (H : theight (sy_tree (p_sys x)) = height d) by (rewrite <- (theight_shape _ _ (run_shape _ _ _ R)); apply theight_fresh).
  assert (Dn : forall j c t' c', nth_error (sy_calls (p_sys x)) j = Some c -> call_step (sy_tree (p_sys x)) c = Stepped t' c' ->
    Driver_Proofs.total (height d) (set_nth j c' (sy_calls (p_sys x))) < Driver_Proofs.total (height d) (sy_calls (p_sys x))).
  { intros j c t' c' Ec St. pose proof (nth_Forall _ _ _ _ (good_valid _ G) Ec) as Vc. assert (Nd : c <> CDone) by (intros ->; discriminate).
    destruct (call_progress _ _ Vc Nd) as (t2 & c2 & C & W). rewrite H in W. rewrite St in C. injection C as <- <-. pose proof (total_set (height d) _ _ _ c' Ec). lia. }
  assert (Lf : forall p k s s', p_leaf x p = Some (k, s) -> total (client_work (leaf_upd p k s' (p_leaf x))) (leaf_paths [] (fresh d)) + work s = total (client_work (p_leaf x)) (leaf_paths [] (fresh d)) + work s').
  { intros p k s s' L. apply total_upd; [exact L|apply leaf_paths_nodup|]. apply (ki_leaf _ _ _ _ V). congruence. }
  unfold kwork.
  destruct M as [peer q o Ea|j c t' c' ci Ea Ec Ei St _|j p ci k s s' t' c' Ea Ec Ei L C St|p k s b s' sh L C Ni Nb Sb|p rest Ea Sh Lp|p k s rest Ea Sh L Cs];
    cbn [p_sys p_info p_leaf p_shut sy_calls].
  - subst a. destruct Ia.
  - specialize (Dn _ _ _ _ Ec St). lia.
  - specialize (Dn _ _ _ _ Ec St). specialize (Lf p k s s' L). rewrite (initiate_work _ _ _ _ _ _ C) in Lf. lia.
  - specialize (Lf p k s s' L). destruct (ki_client _ _ _ _ V _ _ _ L) as (_ & l & Rl). pose proof (inv_run k l _ _ (inv_start k (stubs p)) Rl) as Iv.
    assert (Dec : b = Shutdown \/ b <> Shutdown) by (destruct b; auto; right; discriminate). destruct Dec as [->|N].
    + destruct (Sb eq_refl) as (_ & e & rest & Sh & -> & Ne). rewrite Sh. cbn [shut_left].
      assert (Dec : (c_shut s <> ShNot /\ c_shut s <> ShDone) \/ (c_shut s = ShNot \/ c_shut s = ShDone)) by (destruct (c_shut s); auto; left; split; discriminate).
      destruct Dec as [In|Out].
      * pose proof (work_decreases k Shutdown s s' Iv In C). destruct e; lia.
      * assert (e = false) by (destruct e; [|reflexivity]; destruct Out as [O|O]; [destruct (ki_in _ _ _ _ V _ _ _ _ Sh L O)|destruct (Ne eq_refl O)]). subst e.
        assert (work s' = work s + 8); [|lia]. cbn [cstep] in C. unfold shutdown in C.
        destruct Out as [O|O]; rewrite O in C; injection C as <-; unfold work, poller_rank, shut_rank; cbn [set_shut c_rpcs c_poller c_notified c_shut]; rewrite O; lia.
    + destruct (Nb N) as [-> _]. assert (Int : internal b s) by (destruct b; try exact Logic.I; [destruct (Ni _ _ _ eq_refl)|congruence]).
      pose proof (work_decreases k b s s' Iv Int C). lia.
  - subst a. destruct Ia as [N1 N2]. destruct Sh; congruence.
  - rewrite Sh. destruct rest as [|q r]; cbn [shut_left length]; lia.
Qed.
