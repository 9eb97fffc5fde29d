(** The main thread, the ShutdownNode RPCs and the local node managers. *)
From Coq Require Import Ascii String List NArith ZArith Bool Arith Lia.
From Verif Require Import Base_Model Base_Proofs Place_Model Seq_Model Seq_Proofs Cli_Model Cli_Props2 Life_Model Life_Proofs.
Import ListNotations.
Open Scope nat_scope.

Ltac fields := cbn [lf_nodes lf_reg lf_asked lf_up lf_sequences lf_registering lf_replies lf_main lf_sent lf_delivered lf_returned lf_wait
  with_nodes with_main with_asked with_sequences with_down with_registering with_registry with_sent with_delivered with_returned with_wait put] in *.
Section Runs2.
Variable nlocal : nat.
Variable reqs : list reg_request.
Hypothesis distinct : NoDup (map rq_text reqs).
Notation step := (Life_Model.step nlocal).
Notation run := (Life_Model.run nlocal).

(** ** The main thread *)
(** How many times Shutdown has sent its RPCs. *)
Definition rounds (m : mphase) : nat :=
  match m with
  | MStart _ | MWait | MSend 1 | MCrash => 0
  | MSend _ | MCollect 1 | MClose 1 | MLocal _ => 1
  | MCollect _ | MClose _ | MDone => 2
  end.
Definition wait_returned (m : mphase) : bool :=
  match m with MLocal _ | MSend 2 | MCollect 2 | MClose 2 | MDone => true | _ => false end.
Definition valid_phase (m : mphase) : Prop :=
  match m with MSend r | MCollect r | MClose r => r = 1 \/ r = 2 | _ => True end.
Definition before_shutdown (m : mphase) : bool := match m with MStart _ | MWait => true | _ => false end.
Definition tagged (r : nat) (ids : list Z) : list tag := map (fun i => (r, i)) ids.
Record main_ok (s : life) : Prop := mkMO {
  k_valid : valid_phase (lf_main s);
  k_sent : exists ids1 ids2, NoDup ids1 /\ NoDup ids2 /\ (forall id, In id ids1 -> occupied (lf_reg s) id) /\
    lf_sent s = (if rounds (lf_main s) =? 0 then [] else tagged 1 ids1 ++ if rounds (lf_main s) =? 2 then tagged 2 ids2 else []) /\
    (rounds (lf_main s) = 2 -> forall id, In id ids2 <-> occupied (lf_reg s) id);
  k_asked : before_shutdown (lf_main s) = false -> lf_asked s = true;
  k_up : lf_up s = match lf_main s with MClose _ => false | m => negb (wait_returned m) end;
  k_quiet : wait_returned (lf_main s) = true -> lf_sequences s = 0 /\ lf_registering s = [];
  k_wait : (forall t, In t (lf_wait s) -> In t (lf_sent s)) /\ match lf_main s with MCollect _ => True | _ => lf_wait s = [] end }.
Definition main_inv (s : life) : Prop := lf_main s <> MCrash -> main_ok s.

Lemma mo_same s s' : main_ok s -> lf_main s' = lf_main s -> lf_sent s' = lf_sent s -> lf_up s' = lf_up s -> lf_reg s' = lf_reg s ->
  (lf_asked s = true -> lf_asked s' = true) -> lf_sequences s' = lf_sequences s -> lf_registering s' = lf_registering s -> lf_wait s' = lf_wait s -> main_ok s'.
Proof.
  intros [] E1 E2 E3 E4 E5 E6 E7 E8. constructor; rewrite ?E1, ?E2, ?E3, ?E4, ?E6, ?E7, ?E8; auto.
Qed.
Lemma tagged_in r ids t : In t (tagged r ids) <-> fst t = r /\ In (snd t) ids.
Proof.
  unfold tagged. rewrite in_map_iff. destruct t as [r' i]. cbn [fst snd]. split; [intros (x & E & I); injection E as <- <-; auto|]. intros (<- & I). eauto.
Qed.
Lemma mi_step e s s' : registered_ok reqs s -> main_inv s -> step e s = Some s' -> main_inv s'.
Proof.
  intros O Inv H. apply step_moves in H. intro Nc.
  assert (Nc' : lf_main s <> MCrash).
  { intro C. destruct H; fields; congruence. }
  specialize (Inv Nc'). pose proof Inv as Inv0. destruct Inv as [V (ids1 & ids2 & D1 & D2 & S1 & Es & S2) A U Q (W1 & W2)].
  assert (Put : forall k n, main_ok (put k n s)) by (intros k n; apply (mo_same s); auto).
  destruct H; try apply Put;
    try match goal with E : lf_main s = _ |- _ => rewrite E in * end; try (fields; contradiction Nc; reflexivity).
  - (* MWait *) cbn [valid_phase rounds wait_returned before_shutdown negb Nat.eqb] in *. constructor; fields; cbn [valid_phase rounds wait_returned before_shutdown negb Nat.eqb]; auto; try discriminate.
    exists ids1, ids2. auto.
  - cbn [valid_phase rounds wait_returned before_shutdown negb Nat.eqb] in *. constructor; fields; cbn [valid_phase rounds wait_returned before_shutdown negb Nat.eqb]; auto; try discriminate.
    exists ids1, ids2. auto.
  - cbn [valid_phase rounds wait_returned before_shutdown negb Nat.eqb] in *. constructor; fields; cbn [valid_phase rounds wait_returned before_shutdown negb Nat.eqb]; auto; try discriminate.
    exists ids1, ids2. repeat split; auto; discriminate.
  - destruct (targets_ok reqs s O) as (ids' & T & D & Oc). assert (ids' = ids) as -> by congruence. destruct V as [-> | ->];
      cbn [valid_phase rounds wait_returned before_shutdown negb Nat.eqb] in *; constructor; fields; cbn [valid_phase rounds wait_returned before_shutdown negb Nat.eqb]; auto; try discriminate.
    + exists ids, ids. rewrite Es. cbn [app]. split; [exact D|]. split; [exact D|]. split; [intros id I; apply Oc, I|]. rewrite app_nil_r. split; [reflexivity|discriminate].
    + split; [|exact Logic.I]. intros t I. apply in_app_iff. right. exact I.
    + exists ids1, ids. rewrite Es, app_nil_r. auto.
    + split; [|exact Logic.I]. intros t I. apply in_app_iff. right. exact I.
  - destruct V as [-> | ->]; cbn [valid_phase rounds wait_returned before_shutdown negb Nat.eqb] in *; constructor; fields; cbn [valid_phase rounds wait_returned before_shutdown negb Nat.eqb]; auto; try discriminate.
    + exists ids1, ids2. auto.
    + rewrite orb_true_r. auto.
    + exists ids1, ids2. auto.
    + rewrite orb_true_r. auto.
  - destruct V as [-> | ->]; cbn [valid_phase rounds wait_returned before_shutdown negb Nat.eqb] in *; constructor; fields; cbn [valid_phase rounds wait_returned before_shutdown negb Nat.eqb]; auto; try discriminate.
    + exists ids1, ids2. auto.
    + exists ids1, ids2. auto.
  - cbn [valid_phase rounds wait_returned before_shutdown negb Nat.eqb] in *. constructor; fields; cbn [valid_phase rounds wait_returned before_shutdown negb Nat.eqb]; auto; try discriminate.
    exists ids1, ids2. auto.
  - cbn [valid_phase rounds wait_returned before_shutdown negb Nat.eqb] in *. constructor; fields; cbn [valid_phase rounds wait_returned before_shutdown negb Nat.eqb]; auto; try discriminate.
    exists ids1, ids2. auto.
  - (* EAccept *) constructor; fields; auto; [exists ids1, ids2; auto|]. intro R. exfalso.
    assert (lf_up s = false) by (rewrite U; destruct (lf_main s); try reflexivity; rewrite R; reflexivity). congruence.
  - (* ERegister *)
    match goal with E : register_node _ _ _ = _ |- _ => pose proof (register_step _ _ _ _ _ (o_reg _ s O) E) as St end.
    assert (Keep : forall id, occupied (lf_reg s) id -> occupied r id).
    { intros id Hid. destruct (ri_owner _ (o_reg _ s O) id Hid) as (t & Et). pose proof (step_stable _ _ _ _ _ (o_reg _ s O) St) as (K & _).
      destruct (ri_ids _ (step_inv _ _ _ _ _ (o_reg _ s O) St) t id (K _ _ Et)) as (m & E1 & E2). exists m. auto. }
    constructor; fields; auto.
    + exists ids1, ids2. split; [exact D1|]. split; [exact D2|]. split; [auto|]. split; [exact Es|]. intros R2. exfalso.
      assert (Hin : lf_registering s = []).
      { destruct (lf_main s) as [| |[|[|[|]]]|[|[|[|]]]|[|[|[|]]]| | |]; cbn [rounds] in R2; try discriminate R2; cbn [valid_phase] in V; try lia; apply Q; reflexivity. }
      rewrite Hin in *. contradiction.
    + intro R. destruct (Q R) as (Q1 & Q2). rewrite Q2. auto.
  - (* EBegin *) constructor; fields; auto; [exists ids1, ids2; auto|]. intro R. exfalso.
    assert (lf_up s = false) by (rewrite U; destruct (lf_main s); try reflexivity; rewrite R; reflexivity). congruence.
  - (* EEnd *) constructor; fields; auto; [exists ids1, ids2; auto| |].
    + intro R. rewrite (A R). reflexivity.
    + intro R. destruct (Q R) as (Q1 & Q2). congruence.
  - apply (mo_same (put k (begin_stop t n) s)); auto.
  - (* EComplete *) constructor; fields; auto; [exists ids1, ids2; auto|]. split; [intros u I; apply drop_tag_in in I as (I & _); auto|].
    destruct (lf_main s); auto; rewrite W2; reflexivity.
  - apply (mo_same (put k (set_handlers (drop_nth i (ln_handlers n)) n) s)); auto.
Qed.
Lemma mi_start : main_inv (life_start reqs).
Proof.
  intros _. constructor; cbn [life_start lf_main lf_sent lf_asked lf_up lf_sequences lf_registering lf_wait valid_phase rounds before_shutdown wait_returned negb Nat.eqb]; auto; try discriminate.
  - exists [], []. split; [constructor|]. split; [constructor|]. split; [intros id []|]. split; [reflexivity|discriminate].
Qed.
Lemma mi_run l s : run l (life_start reqs) = Some s -> registered_ok reqs s /\ main_inv s.
Proof.
  intro H. refine (run_invariant nlocal (fun s => registered_ok reqs s /\ main_inv s) _ l _ _ (conj (ro_start reqs) mi_start) H).
  intros e a b (O & M) E. split; [exact (ro_step nlocal reqs distinct e a b O E)|exact (mi_step e a b O M E)].
Qed.

(** ** Delivery *)
Record delivery_ok (s : life) : Prop := mkDO {
  d_sent : forall t, In t (lf_sent s) -> exists k a, In (k, RegOk (snd t) a) (lf_replies s);
  d_nodup : NoDup (lf_delivered s);
  d_sub : forall t, In t (lf_delivered s) -> In t (lf_sent s);
  d_told : forall t, In t (lf_delivered s) -> exists k a n, In (k, RegOk (snd t) a) (lf_replies s) /\ nth_error (lf_nodes s) k = Some n /\ ln_told n = true;
  d_returned : forall t, In t (lf_returned s) -> In t (lf_delivered s);
  d_handlers : forall k n t b, nth_error (lf_nodes s) k = Some n -> In (HStop t b) (ln_handlers n) -> In t (lf_delivered s);
  d_closing : forall k n, nth_error (lf_nodes s) k = Some n -> ln_phase n = NClosing -> ln_told n = true;
  d_new : forall k n, nth_error (lf_nodes s) k = Some n -> ln_phase n = NNew -> ln_told n = false;
  d_why : forall k n, nth_error (lf_nodes s) k = Some n -> nlocal <= k -> ln_told n = true -> ln_phase n <> NGone ->
    exists t a, In t (lf_delivered s) /\ In (k, RegOk (snd t) a) (lf_replies s) }.
Lemma drop_nth_in {A} i (l : list A) x : In x (drop_nth i l) -> In x l.
Proof.
  unfold drop_nth. rewrite in_app_iff. rewrite <- (firstn_skipn i l) at 3. rewrite in_app_iff. intros [I|I]; [auto|right].
  revert l I. induction i as [|i IH]; intros [|y l] I; cbn [skipn] in *; try contradiction; [right; exact I|]. apply IH, I.
Qed.
(** Replacing one node, everything else unchanged. *)
Lemma do_put s k n n' : delivery_ok s -> nth_error (lf_nodes s) k = Some n -> (ln_told n = true -> ln_told n' = true) ->
  (forall h, In h (ln_handlers n') -> In h (ln_handlers n) \/ exists b, h = HCall b) ->
  (ln_phase n' = NClosing -> ln_told n' = true) -> (ln_phase n' = NNew -> ln_told n' = false) ->
  (nlocal <= k -> ln_told n' = true -> ln_phase n' <> NGone -> ln_told n = true /\ ln_phase n <> NGone) -> delivery_ok (put k n' s).
Proof.
  intros [] E T Hh Hc Hn Hw. constructor; fields; auto.
  - intros t I. destruct (d_told0 t I) as (j & a & m & Q1 & Q2 & Q3). destruct (Nat.eq_dec k j) as [<-|N].
    + exists k, a, n'. rewrite (node_set_same _ _ _ _ E). rewrite E in Q2. injection Q2 as <-. auto.
    + exists j, a, m. rewrite node_set_other by exact N. auto.
  - intros j m t b Em I. destruct (node_set_get _ _ _ _ _ _ E Em) as [(-> & ->)|(N & Em')]; [|eauto].
    destruct (Hh _ I) as [I'|(b' & Eb)]; [eauto|discriminate].
  - intros j m Em P. destruct (node_set_get _ _ _ _ _ _ E Em) as [(-> & ->)|(N & Em')]; [auto|eauto].
  - intros j m Em P. destruct (node_set_get _ _ _ _ _ _ E Em) as [(-> & ->)|(N & Em')]; [auto|eauto].
  - intros j m Em L Tm P. destruct (node_set_get _ _ _ _ _ _ E Em) as [(-> & ->)|(N & Em')]; [|eauto].
    destruct (Hw L Tm P) as (T1 & P1). eauto.
Qed.
Lemma do_same s s' : delivery_ok s -> lf_nodes s' = lf_nodes s -> lf_sent s' = lf_sent s -> lf_delivered s' = lf_delivered s -> lf_returned s' = lf_returned s ->
  (forall x, In x (lf_replies s) -> In x (lf_replies s')) -> delivery_ok s'.
Proof.
  intros [] E1 E2 E3 E4 R. constructor; rewrite ?E1, ?E2, ?E3, ?E4; auto.
  - intros t I. destruct (d_sent0 t I) as (k & a & Q). eauto.
  - intros t I. destruct (d_told0 t I) as (k & a & n & Q1 & Q2). eauto 6.
  - intros k n Q1 Q2 Q3 Q4. destruct (d_why0 k n Q1 Q2 Q3 Q4) as (t & a & T1 & T2). eauto.
Qed.
Lemma do_step e s s' : registered_ok reqs s -> delivery_ok s -> step e s = Some s' -> delivery_ok s'.
Proof.
  intros O D H. apply step_moves in H.
  destruct H; try (apply (do_same s); auto; fail);
    try (eapply (do_put s); [exact D|eassumption|..]; cbn [ln_told ln_phase ln_handlers set_phase set_told set_handlers]; auto; try discriminate; try congruence; try (intros; split; congruence); fail).
  - (* send *) destruct (targets_ok reqs s O) as (ids' & T & _ & Oc). assert (ids' = ids) as -> by congruence.
    destruct D. constructor; fields; auto.
    + intros t I. apply in_app_iff in I as [I|I]; [auto|]. apply tagged_in in I as (_ & I). apply Oc in I. apply (occupied_reply reqs s _ O), I.
    + intros t I. apply in_app_iff. left. auto.
  - (* local *) match goal with K : owner_step _ = _ |- _ => apply owner_spec in K as [(P & T & ->)|[(P & T & ->)|(P & T & ->)]] end;
    (eapply (do_put s); [exact D|eassumption|..]; cbn [ln_told ln_phase ln_handlers set_phase set_told set_handlers]; auto; try discriminate; try congruence; try lia; try (intros; split; congruence)).
  - (* reply, register *) apply (do_same s); fields; auto. intros x I. apply in_app_iff. auto.
  - apply (do_same s); fields; auto. intros x I. apply in_app_iff. auto.
  - (* deliver *)
    destruct (d_sent s D t H) as (k' & a & Ik). pose proof (reply_reached reqs distinct s k' (snd t) a O Ik) as Rk. assert (k' = k) as -> by congruence.
    destruct D. constructor; fields; auto.
    + match goal with N : ~ In t (lf_delivered s) |- _ => rename N into Nt end. clear -d_nodup0 Nt. induction (lf_delivered s) as [|x l IH]; cbn [app]; [repeat constructor; auto|].
      inversion_clear d_nodup0 as [|? ? Nx D']. constructor; [|apply IH; [exact D'|intro; apply Nt; right; assumption]].
      rewrite in_app_iff. intros [K|[K|[]]]; [auto|]. apply Nt. left. congruence.
    + intros u I. apply in_app_iff in I as [I|[<-|[]]]; auto.
    + intros u I. apply in_app_iff in I as [I|[<-|[]]].
      * destruct (d_told0 u I) as (j & a' & m & Q1 & Q2 & Q3). destruct (Nat.eq_dec k j) as [<-|N].
        -- exists k, a', (begin_stop t n). rewrite (node_set_same _ _ _ _ H2). auto.
        -- exists j, a', m. rewrite node_set_other by exact N. auto.
      * exists k, a, (begin_stop t n). rewrite (node_set_same _ _ _ _ H2). auto.
    + intros u I. apply in_app_iff. auto.
    + intros j m u b Em I. apply in_app_iff. destruct (node_set_get _ _ _ _ _ _ H2 Em) as [(-> & ->)|(N & Em')]; [|eauto].
      unfold begin_stop in I. cbn [ln_handlers set_told set_handlers] in I. apply in_app_iff in I as [I|[I|[]]]; [eauto|]. injection I as <- _. right. left. reflexivity.
    + intros j m Em P. destruct (node_set_get _ _ _ _ _ _ H2 Em) as [(-> & ->)|(N & Em')]; [reflexivity|eauto].
    + intros j m Em P. destruct (node_set_get _ _ _ _ _ _ H2 Em) as [(-> & ->)|(N & Em')]; [|eauto].
      unfold begin_stop in P. cbn [ln_phase set_told set_handlers] in P. unfold accepting in H3. rewrite P in H3. discriminate.
    + intros j m Em L T P. destruct (node_set_get _ _ _ _ _ _ H2 Em) as [(-> & ->)|(N & Em')].
      * exists t, a. split; [apply in_app_iff; right; left; reflexivity|exact Ik].
      * destruct (d_why0 j m Em' L T P) as (u & a' & U1 & U2). exists u, a'. split; [apply in_app_iff; left; exact U1|exact U2].
  - (* call *) eapply (do_put s); [exact D|eassumption|..]; cbn [ln_told ln_phase ln_handlers set_handlers]; auto.
    + intros h I. apply in_app_iff in I as [I|[<-|[]]]; eauto.
    + intro P. exact (d_closing s D k n H P).
    + intro P. exact (d_new s D k n H P).
  - eapply (do_put s); [exact D|eassumption|..]; cbn [ln_told ln_phase ln_handlers set_handlers]; auto.
    + intros h I. left. exact (drop_nth_in i _ h I).
    + intro P. exact (d_closing s D k n H P).
    + intro P. exact (d_new s D k n H P).
  - assert (D' : delivery_ok (put k (set_handlers (drop_nth i (ln_handlers n)) n) s)).
    { eapply (do_put s); [exact D|eassumption|..]; cbn [ln_told ln_phase ln_handlers set_handlers]; auto.
      + intros h I. left. exact (drop_nth_in i _ h I).
      + intro P. exact (d_closing s D k n H P).
      + intro P. exact (d_new s D k n H P). }
    pose proof (d_handlers s D k n t b H (nth_error_In _ _ H0)) as It. destruct D'. constructor; fields; auto.
    intros u I. apply in_app_iff in I as [I|[<-|[]]]; auto.
  - match goal with K : owner_step _ = _ |- _ => apply owner_spec in K as [(P & T & ->)|[(P & T & ->)|(P & T & ->)]] end;
    (eapply (do_put s); [exact D|eassumption|..]; cbn [ln_told ln_phase ln_handlers set_phase set_told set_handlers]; auto; try discriminate; try congruence; try lia; try (intros; split; congruence)).
Qed.
Lemma do_start : delivery_ok (life_start reqs).
Proof.
  assert (N : forall k n, nth_error (map (fun q => mkLN q NNew false []) reqs) k = Some n -> ln_phase n = NNew /\ ln_told n = false /\ ln_handlers n = []).
  { intros k n E. rewrite nth_error_map in E. destruct (nth_error reqs k); [|discriminate]. injection E as <-. auto. }
  constructor; cbn [life_start lf_nodes lf_sent lf_delivered lf_returned lf_replies]; try (intros t []; fail); [constructor|..].
  - intros k n t b E I. destruct (N k n E) as (_ & _ & Hn). rewrite Hn in I. destruct I.
  - intros k n E P. destruct (N k n E) as (Q & _). congruence.
  - intros k n E P. apply (N k n E).
  - intros k n E L T. destruct (N k n E) as (_ & Q & _). congruence.
Qed.

(** ** Local node managers *)
Definition ok_local (m : mphase) (k : nat) (p : nphase) : Prop :=
  match m with
  | MStart j => if k <? j then p = NServing \/ p = NGone else if k =? j then p <> NClosing else p = NNew
  | MWait | MSend 1 | MCollect 1 | MClose 1 => p = NServing \/ p = NGone
  | MLocal j => if k <? j then p = NGone else if k =? j then p = NServing \/ p = NClosing \/ p = NGone else p = NServing \/ p = NGone
  | MCrash => True
  | _ => p = NGone
  end.
Definition local_ok (s : life) : Prop := forall k n, k < nlocal -> nth_error (lf_nodes s) k = Some n -> ok_local (lf_main s) k (ln_phase n).
Lemma lo_put s k n n' : local_ok s -> nth_error (lf_nodes s) k = Some n -> (k < nlocal -> ok_local (lf_main s) k (ln_phase n) -> ok_local (lf_main s) k (ln_phase n')) -> local_ok (put k n' s).
Proof.
  intros L E H j m Lj Em. fields. destruct (node_set_get _ _ _ _ _ _ E Em) as [(-> & ->)|(N & Em')]; [|eauto]. apply (H Lj). exact (L k n Lj E).
Qed.
(** A local node manager that is still in Initialize is the one the main thread
    is starting. *)
Lemma lo_current s k n : local_ok s -> lf_main s <> MCrash -> k < nlocal -> nth_error (lf_nodes s) k = Some n -> (ln_phase n = NRegistering \/ ln_phase n = NFailing) -> lf_main s = MStart k.
Proof.
  intros L Nc Lk E P. specialize (L k n Lk E). destruct (lf_main s) as [j| |[|[|[|]]]|[|[|[|]]]|[|[|[|]]]|j| |]; cbn [ok_local] in L; try (destruct P; intuition congruence).
  - destruct (k <? j) eqn:B1; [destruct P; intuition congruence|]. destruct (Nat.eqb_spec k j); [congruence|]. destruct P; congruence.
  - destruct (k <? j) eqn:B1; [destruct P; intuition congruence|]. destruct (Nat.eqb_spec k j); destruct P; intuition congruence.
Qed.
Lemma lo_step e s s' : main_inv s -> local_ok s -> step e s = Some s' -> local_ok s'.
Proof.
  intros M L H. apply step_moves in H.
  assert (Cur : forall k n p, nth_error (lf_nodes s) k = Some n -> ln_phase n = NRegistering \/ ln_phase n = NFailing -> p <> NClosing -> local_ok (put k (set_phase p n) s)).
  { intros k n p E P Np. apply (lo_put s k n); [exact L|exact E|]. intros Lk _. cbn [ln_phase set_phase]. destruct (lf_main s) eqn:Em; try exact Logic.I.
    all: try (pose proof (lo_current s k n L ltac:(congruence) Lk E P) as Em'; rewrite Em in Em'; try discriminate Em'; injection Em' as ->).
    cbn [ok_local]. rewrite Nat.ltb_irrefl, Nat.eqb_refl. exact Np. }
  destruct H; try (intros k' n' Lk' E'; fields; specialize (L k' n' Lk' E'); exact L);
    try (eapply (lo_put s); [exact L|eassumption|auto]; fail); try (eapply Cur; eauto; discriminate).
  - intros k' n' Lk' E'. fields. specialize (L k' n' Lk' E'). rewrite H in L. cbn [ok_local] in *. destruct (Nat.ltb_spec k' j); [exact L|lia].
  - intros k' n' Lk' E'. fields. pose proof (L k' n' Lk' E') as L'. rewrite H in L'. cbn [ok_local] in *. destruct (Nat.ltb_spec k' j).
    + destruct (Nat.ltb_spec k' (S j)); [exact L'|lia].
    + destruct (Nat.eqb_spec k' j) as [->|N]; [rewrite (proj2 (Nat.ltb_lt j (S j))) by lia; assert (n' = n) as -> by congruence; assumption|].
      destruct (Nat.ltb_spec k' (S j)); [lia|]. destruct (Nat.eqb_spec k' (S j)); [|exact L']. congruence.
  - intros k' n' Lk' E'. fields. specialize (L k' n' Lk' E'). rewrite H in L. exact L.
  - intros k' n' Lk' E'. fields. specialize (L k' n' Lk' E'). rewrite H in L. exact L.
  - intros k' n' Lk' E'. exact Logic.I.
  - intros k' n' Lk' E'. fields. specialize (L k' n' Lk' E'). rewrite H in L. exact L.
  - assert (V : r = 1 \/ r = 2). { assert (Nc : lf_main s <> MCrash) by congruence. pose proof (k_valid s (M Nc)) as V. rewrite H in V. exact V. }
    intros k' n' Lk' E'. fields. specialize (L k' n' Lk' E'). rewrite H in L. destruct V as [-> | ->]; cbn [Nat.eqb ok_local] in *; [|exact L].
    destruct (Nat.ltb_spec k' 0); [lia|]. destruct (k' =? 0); tauto.
  - intros k' n' Lk' E'. fields. specialize (L k' n' Lk' E'). rewrite H in L. cbn [ok_local] in *. destruct (Nat.ltb_spec k' j); [exact L|lia].
  - intros k' n' Lk' E'. fields. pose proof (L k' n' Lk' E') as L'. rewrite H in L'. cbn [ok_local] in *. destruct (Nat.ltb_spec k' j).
    + destruct (Nat.ltb_spec k' (S j)); [exact L'|lia].
    + destruct (Nat.eqb_spec k' j) as [->|N]; [rewrite (proj2 (Nat.ltb_lt j (S j))) by lia; assert (n' = n) as -> by congruence; assumption|].
      destruct (Nat.ltb_spec k' (S j)); [lia|]. destruct (Nat.eqb_spec k' (S j)); tauto.
  - apply (lo_put s j n); [exact L|assumption|]. rewrite H. cbn [ok_local]. rewrite Nat.ltb_irrefl, Nat.eqb_refl. intros _ _.
    match goal with K : owner_step _ = _ |- _ => apply owner_spec in K as [(P & T & ->)|[(P & T & ->)|(P & T & ->)]] end; cbn [ln_phase set_phase set_told]; auto.
  - apply (lo_put s k n); [exact L|assumption|]. intros Lk _. destruct H1 as [Lk'| ->]; [lia|]. cbn [ok_local ln_phase set_phase]. rewrite Nat.ltb_irrefl, Nat.eqb_refl. discriminate.
  - apply (lo_put s k n); [exact L|assumption|]. intros Lk _. destruct H1 as [Lk'| ->]; [lia|]. cbn [ok_local ln_phase set_phase set_told]. rewrite Nat.ltb_irrefl, Nat.eqb_refl. discriminate.
  - intros k' n' Lk' E'. exact Logic.I.
  - match goal with K : owner_step _ = _ |- _ => apply owner_spec in K as [(P & T & ->)|[(P & T & ->)|(P & T & ->)]] end.
    + apply (lo_put s k n); [exact L|assumption|]. intros Lk _. destruct H0; [lia|congruence].
    + apply (lo_put s k n); [exact L|assumption|]. intros Lk _. destruct H0; [lia|congruence].
    + intros k' n' Lk' E'. fields. assert (Q : local_ok (put k (set_phase NGone n) s)) by (eapply Cur; eauto; discriminate).
      destruct (node_set_get _ _ _ _ _ _ H E') as [(-> & ->)|(N & Em')]; [|exact (L k' n' Lk' Em')].
      exact (Q k (set_phase NGone n) Lk' (node_set_same _ _ _ _ H)).
Qed.
Lemma lo_start : local_ok (life_start reqs).
Proof.
  intros k n L E. cbn [life_start lf_nodes lf_main ok_local] in *. rewrite nth_error_map in E. destruct (nth_error reqs k); [|discriminate]. injection E as <-. cbn [ln_phase].
  destruct (Nat.ltb_spec k 0); [lia|]. destruct (k =? 0); [discriminate|reflexivity].
Qed.

Record life_ok (s : life) : Prop := mkLO { l_reg : registered_ok reqs s; l_main : main_inv s; l_dlv : delivery_ok s; l_loc : local_ok s }.
Lemma lk_step e s s' : life_ok s -> step e s = Some s' -> life_ok s'.
Proof. intros [] E. constructor; [eapply ro_step|eapply mi_step|eapply do_step|eapply lo_step]; eassumption. Qed.
Lemma lk_run l s : run l (life_start reqs) = Some s -> life_ok s.
Proof. intro H. refine (run_invariant nlocal life_ok lk_step l _ _ _ H). constructor; [apply ro_start|apply mi_start|apply do_start|apply lo_start]. Qed.
End Runs2.
