(** Lemmas about the polling gRPC server. *)
From Coq Require Import Ascii String List NArith ZArith Bool Arith Lia.
From Verif Require Import Base_Model Grpc_Model Grpc_Proofs.
Import ListNotations.
Open Scope nat_scope.

(** What a handler may do: read, send once, read, free once and nothing more;
    a [full] handler goes through to the end. *)
Fixpoint after_send (full : bool) (l : list hop) : bool :=
  match l with
  | [] => negb full
  | HRead :: r => after_send full r
  | HSend :: _ => false
  | HFree :: r => match r with [] => true | _ => false end
  end.
Fixpoint contract (full : bool) (l : list hop) : bool :=
  match l with
  | [] => negb full
  | HRead :: r => contract full r
  | HSend :: r => after_send full r
  | HFree :: _ => false
  end.

(** Operations or events of one FSM. *)
Definition sel {A} (i : nat) (l : list (nat * A)) : list A := map snd (filter (fun p => fst p =? i) l).
Lemma sel_app {A} i (a b : list (nat * A)) : sel i (a ++ b) = sel i a ++ sel i b.
Proof. unfold sel. rewrite filter_app, map_app. reflexivity. Qed.
Lemma sel_one_same {A} i (x : A) : sel i [(i, x)] = [x].
Proof. unfold sel. cbn [filter fst]. rewrite Nat.eqb_refl. reflexivity. Qed.
Lemma sel_one_other {A} i j (x : A) : j <> i -> sel i [(j, x)] = [].
Proof. intro N. unfold sel. cbn [filter fst]. destruct (Nat.eqb_spec j i); [congruence|reflexivity]. Qed.
Lemma sel_ldel_other {A} (l : list (nat * A)) : forall n i x j, nth_error l n = Some (i, x) -> j <> i -> sel j (ldel n l) = sel j l.
Proof.
  induction l as [|[k y] r IH]; intros [|n] i x j E N; cbn [nth_error ldel] in *; try discriminate.
  - injection E as -> ->. unfold sel. cbn [filter fst]. destruct (Nat.eqb_spec i j); [congruence|reflexivity].
  - specialize (IH n i x j E N). unfold sel in *. cbn [filter fst]. destruct (k =? j); cbn [map]; [f_equal|]; exact IH.
Qed.
Lemma sel_ldel_same {A} (l : list (nat * A)) : forall n i x y, nth_error l n = Some (i, x) -> sel i l = [y] -> y = x /\ sel i (ldel n l) = [].
Proof.
  induction l as [|[k z] r IH]; intros [|n] i x y E F; cbn [nth_error ldel] in *; try discriminate.
  - injection E as -> ->. unfold sel in *. cbn [filter fst map] in F. rewrite Nat.eqb_refl in F. cbn [map snd] in F. injection F as <- H. auto.
  - unfold sel in *. cbn [filter fst] in *. destruct (Nat.eqb_spec k i) as [->|N]; cbn [map snd] in *.
    + exfalso. injection F as _ F. apply nth_error_In in E. assert (I : In x (map snd (filter (fun p => fst p =? i) r))).
      { apply in_map_iff. exists (i, x). split; [reflexivity|]. apply filter_In. cbn [fst]. rewrite Nat.eqb_refl. auto. }
      rewrite F in I. destruct I.
    + exact (IH n i x y E F).
Qed.
Lemma sel_In {A} i (x : A) l : In x (sel i l) <-> In (i, x) l.
Proof.
  unfold sel. rewrite in_map_iff. split.
  - intros ([j y] & E & I). apply filter_In in I. destruct I as [I H]. cbn [fst snd] in *. apply Nat.eqb_eq in H. congruence.
  - intro I. exists (i, x). split; [reflexivity|]. apply filter_In. cbn [fst]. rewrite Nat.eqb_refl. auto.
Qed.
Lemma nth_sel {A} (l : list (nat * A)) n i x : nth_error l n = Some (i, x) -> In x (sel i l).
Proof. intro E. apply sel_In. eapply nth_error_In. exact E. Qed.

(** ** Invariant *)
(** What FSM [i] looks like; [st] is what its state_ must be while its handler
    is called or after it was. *)
Inductive fsm_ok (full here : bool) : fsm -> list op -> list bool -> Prop :=
  | FWaiting : here = false -> fsm_ok full here (mkFsm ProcessingRequest 1 0 None 0 false false) [OpRequest] []
  | FArrived ok : here = false -> fsm_ok full here (mkFsm ProcessingRequest 1 0 None 0 ok false) [] [ok]
  | FRejected : here = false -> fsm_ok full here (mkFsm ProcessingRequest 0 1 None 0 false false) [] []
  | FRunning l : contract full l = true ->
      fsm_ok full here (mkFsm (if here then ProcessingRequest else FinishedSending) 2 0 (Some l) 0 true false) [] []
  | FSending l : after_send full l = true ->
      fsm_ok full here (mkFsm (if here then ProcessingRequest else FinishedSending) 2 0 (Some l) 1 true false) [OpFinish] []
  | FSent l ok : after_send full l = true ->
      fsm_ok full here (mkFsm (if here then ProcessingRequest else FinishedSending) 2 0 (Some l) 1 true true) [] [ok]
  | FNoticed l : after_send full l = true -> here = false -> fsm_ok full here (mkFsm FinishedSending 1 0 (Some l) 1 true true) [] []
  | FFreedSending :
      fsm_ok full here (mkFsm (if here then ProcessingRequest else FinishedSending) 1 0 (Some []) 1 true false) [OpFinish] []
  | FFreedSent ok :
      fsm_ok full here (mkFsm (if here then ProcessingRequest else FinishedSending) 1 0 (Some []) 1 true true) [] [ok]
  | FGone : here = false -> fsm_ok full here (mkFsm FinishedSending 0 1 (Some []) 1 true true) [] [].
Definition here (s : server) (i : nat) : bool := match v_poller s with SpIn j => j =? i | _ => false end.
(** Still waiting for a request or with the outcome of that in the queue. *)
Definition waiting (f : fsm) : bool := match f_ops f, f_deleted f with None, O => true | _, _ => false end.
Definition settled (s : server) : bool := match v_shut s with SsReturned | SsDetected | SsQueue | SsJoined => true | _ => false end.
Record sinv (full : bool) (s : server) : Prop := {
  i_fsm : forall i f, nth_error (v_fsms s) i = Some f -> fsm_ok full (here s i) f (sel i (v_ops s)) (sel i (v_events s));
  i_dom : forall i, length (v_fsms s) <= i -> sel i (v_ops s) = [] /\ sel i (v_events s) = [] /\ here s i = false;
  i_detected : v_detected s = negb (v_post_new s);
  i_waiting : cnt waiting (v_fsms s) <= 1 /\ (v_detected s = false -> cnt waiting (v_fsms s) = 1);
  i_settled : settled s = true -> forall i f, nth_error (v_fsms s) i = Some f -> f_accepted f = true -> f_closed f = true;
  i_queue : queue_shut s = true -> v_detected s = true;
  i_late : v_shut s = SsDetected -> v_detected s = true;
  i_handler : v_shut s <> SsNot -> v_handler_set s = true;
  i_exited : v_poller s = SpExited -> queue_shut s = true /\ v_ops s = [] /\ v_events s = [];
  i_wait : v_poller s <> SpWait -> v_handler_set s = true;
  i_full : full = true -> v_handler_set s = true -> v_handler s = true }.
(** The handlers obey the contract once there is one. *)
Definition good_prog (full : bool) (prog : nat -> list hop) : Prop := forall i, contract full (prog i) = true.
(** In runs with full handlers, one is set before shutdown. *)
Definition sallowed (full : bool) (a : saction) (s : server) : Prop :=
  match a with ShutdownServer => full = true -> v_handler s = true | _ => True end.

Lemma sinv_start full : sinv full start_server.
Proof.
  constructor; cbn [start_server v_fsms v_ops v_events v_poller v_post_new v_detected v_handler v_handler_set v_shut]; try discriminate; auto.
  - intros [|[|i]] f E; cbn [nth_error] in E; try discriminate. injection E as <-. unfold sel. cbn. apply FWaiting. reflexivity.
  - intros [|i] L; cbn [length] in L; [lia|]. auto.
Qed.

(** A change of FSM [i], the queue and the polling thread. *)
Lemma fsm_change full s s' i f : sinv full s -> nth_error (v_fsms s) i = Some f ->
  forall f', v_fsms s' = lset i f' (v_fsms s) ->
  (forall j, j <> i -> sel j (v_ops s') = sel j (v_ops s) /\ sel j (v_events s') = sel j (v_events s) /\ here s' j = here s j) ->
  fsm_ok full (here s' i) f' (sel i (v_ops s')) (sel i (v_events s')) ->
  (forall j g, nth_error (v_fsms s') j = Some g -> fsm_ok full (here s' j) g (sel j (v_ops s')) (sel j (v_events s')))
  /\ (forall j, length (v_fsms s') <= j -> sel j (v_ops s') = [] /\ sel j (v_events s') = [] /\ here s' j = false).
Proof.
  intros I E f' Ef Ot Fo. split.
  - intros j g F. rewrite Ef in F. destruct (lset_inv _ _ _ _ _ F) as [[-> ->]|[N F']]; [exact Fo|].
    destruct (Ot j N) as (-> & -> & ->). exact (i_fsm _ _ I j g F').
  - intros j L. rewrite Ef, lset_length in L. assert (N : j <> i) by (intros ->; assert (i < length (v_fsms s)) by (apply nth_error_Some; congruence); lia).
    destruct (Ot j N) as (-> & -> & ->). exact (i_dom _ _ I j L).
Qed.
Lemma here_neq s i j : v_poller s = SpIn i -> j <> i -> here s j = false.
Proof. intros P N. unfold here. rewrite P. destruct (Nat.eqb_spec i j); [congruence|reflexivity]. Qed.
Lemma here_eq s i : v_poller s = SpIn i -> here s i = true.
Proof. intros P. unfold here. rewrite P. apply Nat.eqb_refl. Qed.

Lemma op_of full s n i o : sinv full s -> nth_error (v_ops s) n = Some (i, o) ->
  exists f, nth_error (v_fsms s) i = Some f /\ fsm_ok full (here s i) f (sel i (v_ops s)) (sel i (v_events s)) /\ In o (sel i (v_ops s)).
Proof.
  intros I E. pose proof (nth_sel _ _ _ _ E) as S. destruct (nth_error (v_fsms s) i) as [f|] eqn:F.
  - exists f. split; [reflexivity|]. split; [exact (i_fsm _ _ I i f F)|exact S].
  - apply nth_error_None in F. destruct (i_dom _ _ I i F) as (Z & _). rewrite Z in S. destruct S.
Qed.
Lemma event_of full s n i o : sinv full s -> nth_error (v_events s) n = Some (i, o) ->
  exists f, nth_error (v_fsms s) i = Some f /\ fsm_ok full (here s i) f (sel i (v_ops s)) (sel i (v_events s)) /\ In o (sel i (v_events s)).
Proof.
  intros I E. pose proof (nth_sel _ _ _ _ E) as S. destruct (nth_error (v_fsms s) i) as [f|] eqn:F.
  - exists f. split; [reflexivity|]. split; [exact (i_fsm _ _ I i f F)|exact S].
  - apply nth_error_None in F. destruct (i_dom _ _ I i F) as (_ & Z & _). rewrite Z in S. destruct S.
Qed.
Lemma not_exited full s n i o : sinv full s -> nth_error (v_events s) n = Some (i, o) \/ (exists x, nth_error (v_ops s) n = Some (i, x)) -> v_poller s <> SpExited.
Proof.
  intros I E P. destruct (i_exited _ _ I P) as (_ & A & B). rewrite A, B in E.
  destruct E as [E|[x E]]; destruct n; discriminate.
Qed.

Ltac flds := cbn [set_fsm set_spoller set_queue set_sshut v_fsms v_ops v_events v_poller v_post_new v_detected v_handler v_handler_set v_shut
                  f_state f_ref f_deleted f_ops f_finish f_accepted f_closed] in *.
Lemma lset_waiting i f f' l : nth_error l i = Some f -> waiting f' = waiting f -> cnt waiting (lset i f' l) = cnt waiting l.
Proof. intros E W. pose proof (cnt_lset waiting l i f f' E) as K. rewrite W in K. lia. Qed.
(** A step that changes FSM [i] without changing who waits, and the queue. *)
Lemma sinv_upd full s s' i f f' : sinv full s -> nth_error (v_fsms s) i = Some f -> v_fsms s' = lset i f' (v_fsms s) ->
  (forall j, j <> i -> sel j (v_ops s') = sel j (v_ops s) /\ sel j (v_events s') = sel j (v_events s) /\ here s' j = here s j) ->
  fsm_ok full (here s' i) f' (sel i (v_ops s')) (sel i (v_events s')) ->
  waiting f' = waiting f ->
  v_detected s' = v_detected s -> v_post_new s' = v_post_new s -> v_shut s' = v_shut s -> v_handler s' = v_handler s -> v_handler_set s' = v_handler_set s ->
  (v_poller s' = v_poller s \/ v_poller s' = SpNext /\ v_poller s <> SpWait /\ v_poller s <> SpExited) ->
  (settled s = true -> (f_accepted f' = true -> f_accepted f = true) /\ (f_closed f = true -> f_closed f' = true)) ->
  (v_poller s = SpExited -> False) ->
  sinv full s'.
Proof.
  intros I E Ef Ot Fo Wa H1 H2 H3 H4 H5 Hp Ac Nx. destruct (fsm_change full s s' i f I E f' Ef Ot Fo) as [G1 G2].
  pose proof I as [I1 I2 I3 I4 I5 I6 I7 I8 I9 I10 I11].
  constructor; auto; unfold settled, queue_shut; rewrite ?H1, ?H2, ?H3, ?H4, ?H5; auto.
  - rewrite Ef, (lset_waiting i f f' _ E Wa). exact I4.
  - intros S j g F A. rewrite Ef in F. destruct (lset_inv _ _ _ _ _ F) as [[-> ->]|[N F']]; [|exact (I5 S j g F' A)].
    destruct (Ac S) as [A1 A2]. apply A2. exact (I5 S i f E (A1 A)).
  - intro P. exfalso. destruct Hp as [Q|(Q & _)]; rewrite Q in P; [exact (Nx P)|discriminate].
  - intro P. apply I10. destruct Hp as [Q|(Q & R & _)]; [rewrite Q in P; exact P|exact R].
Qed.
Lemma handle_step full i s : sinv full s -> match handle_op i s with SNext s' => sinv full s' | SCrash _ => False | SStuck => True end.
Proof.
  intros I. unfold handle_op, access. destruct (nth_error (v_fsms s) i) as [f|] eqn:E; [|exact Logic.I].
  pose proof (i_fsm _ _ I i f E) as Fo.
  destruct (f_ops f) as [[|o rest]|] eqn:Ops; [exact Logic.I| |exact Logic.I].
  assert (Nx : v_poller s = SpExited -> forall x, sel i (v_ops s) = [x] -> False) by (intros P x H; destruct (i_exited _ _ I P) as (_ & A & _); rewrite A in H; discriminate).
  assert (Fq : settled s = true -> f_closed f = false -> f_accepted f = true -> False) by (intros S C A; pose proof (i_settled _ _ I S i f E A); congruence).
  assert (Qs : queue_shut s = true -> settled s = true) by (unfold queue_shut, settled; destruct (v_shut s); auto).
  (* an update by [f'] leaving queue and thread alone, or appending a finish *)
  assert (Ex : v_poller s = SpExited -> settled s = true /\ sel i (v_ops s) = [] /\ sel i (v_events s) = []).
  { intro P. destruct (i_exited _ _ I P) as (A & B & C). split; [exact (Qs A)|]. rewrite B, C. split; reflexivity. }
  assert (G : forall f', fsm_ok full (here s i) f' (sel i (v_ops s)) (sel i (v_events s)) -> waiting f' = waiting f ->
              f_accepted f' = f_accepted f -> f_closed f' = f_closed f -> sinv full (set_fsm i f' s)).
  { intros f' Fo' W A C. destruct (fsm_change full s (set_fsm i f' s) i f I E f' eq_refl (fun j _ => conj eq_refl (conj eq_refl eq_refl)) Fo') as [G1 G2].
    pose proof I as [I1 I2 I3 I4 I5 I6 I7 I8 I9 I10 I11]. constructor; flds; auto.
    - rewrite (lset_waiting i f f' _ E W). exact I4.
    - intros S j g F Ag. destruct (lset_inv _ _ _ _ _ F) as [[-> ->]|[N F']]; [rewrite C; apply (I5 S i f E); congruence|exact (I5 S j g F' Ag)]. }
  inversion Fo as [| | |l Cl Ef Eo Ee|l Cl Ef Eo Ee|l ok Cl Ef Eo Ee|l Cl Hh Ef Eo Ee|Ef Eo Ee|ok Ef Eo Ee|]; subst f; flds; try discriminate; injection Ops as ->; cbn [contract after_send] in Cl; destruct o; try discriminate.
  - (* running, read *) apply G; [rewrite <- Eo, <- Ee; apply FRunning; exact Cl| | | ]; reflexivity.
  - (* running, send *) destruct (queue_shut s) eqn:Q; [exact (Fq (Qs eq_refl) eq_refl eq_refl)|].
    eapply sinv_upd; [exact I|exact E|reflexivity| | | |reflexivity|reflexivity|reflexivity|reflexivity|reflexivity|left; reflexivity| |]; flds.
    + intros j N. rewrite sel_app, sel_one_other by congruence. rewrite app_nil_r. split; [reflexivity|]. split; reflexivity.
    + rewrite sel_app, <- Eo, <- Ee, sel_one_same. cbn [app]. apply FSending. exact Cl.
    + reflexivity.
    + auto.
    + intro P. destruct (i_exited _ _ I P) as (A & _). congruence.
  - apply G; [rewrite <- Eo, <- Ee; apply FSending; exact Cl| | | ]; reflexivity.
  - destruct rest; [|discriminate]. apply G; [rewrite <- Eo, <- Ee; apply FFreedSending| | | ]; reflexivity.
  - apply G; [rewrite <- Eo, <- Ee; apply FSent; exact Cl| | | ]; reflexivity.
  - destruct rest; [|discriminate]. apply G; [rewrite <- Eo, <- Ee; apply FFreedSent| | | ]; reflexivity.
  - apply G; [rewrite <- Eo, <- Ee; apply FNoticed; [exact Cl|exact Hh]| | | ]; reflexivity.
  - destruct rest; [|discriminate]. apply G; [rewrite <- Eo, <- Ee; apply FGone; exact Hh| | | ]; reflexivity.
Qed.
Lemma shut_op full s n i o : sinv full s -> nth_error (v_ops s) n = Some (i, o) -> v_poller s <> SpExited.
Proof. intros I E P. destruct (i_exited _ _ I P) as (_ & A & _). rewrite A in E. destruct n; discriminate. Qed.
Lemma complete_op_step full want n ok s : sinv full s -> (want = OpRequest -> ok = true -> settled s = false) ->
  match complete_op want n ok s with SNext s' => sinv full s' | SCrash _ => False | SStuck => True end.
Proof.
  intros I Sh. unfold complete_op. destruct (nth_error (v_ops s) n) as [[i o]|] eqn:E; [|exact Logic.I].
  destruct (op_of full s n i o I E) as (f & Ef & Fo & In_). pose proof (shut_op _ _ _ _ _ I E) as Nx. rewrite Ef.
  assert (K : forall y, sel i (v_ops s) = [y] -> y = o /\ sel i (ldel n (v_ops s)) = []) by (intros y H; exact (sel_ldel_same _ _ _ _ _ E H)).
  assert (Ot : forall f', let s' := set_fsm i f' (set_queue (ldel n (v_ops s)) (v_events s ++ [(i, ok)]) s) in
             forall j, j <> i -> sel j (v_ops s') = sel j (v_ops s) /\ sel j (v_events s') = sel j (v_events s) /\ here s' j = here s j).
  { intros f' s' j N. unfold s'. flds. split; [exact (sel_ldel_other _ _ _ _ _ E N)|]. split; [|reflexivity].
    rewrite sel_app, sel_one_other by congruence. apply app_nil_r. }
  inversion Fo as [Hh Eq Eo Ee|ok' Hh Eq Eo Ee|Hh Eq Eo Ee|l Cl Eq Eo Ee|l Cl Eq Eo Ee|l ok' Cl Eq Eo Ee|l Cl Hh Eq Eo Ee|Eq Eo Ee|ok' Eq Eo Ee|Hh Eq Eo Ee];
    rewrite <- Eo in In_; try (destruct In_; fail); destruct In_ as [<-|[]]; destruct want; try exact Logic.I.
  - destruct (K OpRequest (eq_sym Eo)) as [_ Kd].
    eapply sinv_upd; [exact I|exact Ef|reflexivity|apply Ot| | |reflexivity|reflexivity|reflexivity|reflexivity|reflexivity|left; reflexivity| |exact Nx]; flds.
    + rewrite Kd, sel_app, <- Ee, sel_one_same. cbn [app]. subst f. apply FArrived. exact Hh.
    + subst f. reflexivity.
    + subst f. flds. intro S. split; [|auto]. intros ->. rewrite (Sh eq_refl eq_refl) in S. discriminate.
  - destruct (K OpFinish (eq_sym Eo)) as [_ Kd].
    eapply sinv_upd; [exact I|exact Ef|reflexivity|apply Ot| | |reflexivity|reflexivity|reflexivity|reflexivity|reflexivity|left; reflexivity| |exact Nx]; flds.
    + rewrite Kd, sel_app, <- Ee, sel_one_same. cbn [app]. subst f. apply FSent. exact Cl.
    + subst f. reflexivity.
    + subst f. flds. auto.
  - destruct (K OpFinish (eq_sym Eo)) as [_ Kd].
    eapply sinv_upd; [exact I|exact Ef|reflexivity|apply Ot| | |reflexivity|reflexivity|reflexivity|reflexivity|reflexivity|left; reflexivity| |exact Nx]; flds.
    + rewrite Kd, sel_app, <- Ee, sel_one_same. cbn [app]. subst f. apply FFreedSent.
    + subst f. reflexivity.
    + subst f. flds. auto.
Qed.

Lemma new_fsm_eq s s2 : new_fsm s = SNext s2 -> queue_shut s = false /\
  s2 = mkServer (v_fsms s ++ [mkFsm ProcessingRequest 1 0 None 0 false false]) (v_ops s ++ [(length (v_fsms s), OpRequest)])
         (v_events s) (v_poller s) (v_post_new s) (v_detected s) (v_handler s) (v_handler_set s) (v_shut s).
Proof. unfold new_fsm. destruct (queue_shut s); [discriminate|]. intro H. injection H as <-. auto. Qed.
Lemma poll_step full prog n s : good_prog full prog -> sinv full s ->
  match poll_server prog n s with SNext s' => sinv full s' | SCrash _ => False | SStuck => True end.
Proof.
  intros Gp I. unfold poll_server. pose proof I as [I1 I2 I3 I4 I5 I6 I7 I8 I9 I10 I11].
  destruct (v_poller s) as [| |i|] eqn:Po; [| | |exact Logic.I].
  - destruct (v_handler_set s) eqn:Hs; [|exact Logic.I].
    constructor; flds; auto; try discriminate.
    + intros j f E. pose proof (I1 j f E) as Fo. unfold here in *. flds. rewrite Po in Fo. exact Fo.
    + intros j L. destruct (I2 j L) as (A & B & _). auto.
  - destruct (nth_error (v_events s) n) as [[i ok]|] eqn:E.
    2:{ destruct (v_events s) eqn:Ev; [|exact Logic.I]. destruct (v_ops s) eqn:Op; [|exact Logic.I]. destruct (queue_shut s) eqn:Q; [|exact Logic.I].
        constructor; flds; auto.
        - intros j f Ej. pose proof (I1 j f Ej) as Fo. unfold here in *. flds. rewrite Po in Fo. rewrite Op, Ev. exact Fo.
        - rewrite Op, Ev. intros j L. repeat split; reflexivity.
        - intros _. apply I10. discriminate. }
    destruct (event_of full s n i ok I E) as (f & Ef & Fo & In_). unfold access. flds. rewrite Ef.
    assert (Hh : forall j, here s j = false) by (intro j; unfold here; rewrite Po; reflexivity).
    rewrite Hh in Fo.
    assert (K : forall y, sel i (v_events s) = [y] -> y = ok /\ sel i (ldel n (v_events s)) = []) by (intros y H; exact (sel_ldel_same _ _ _ _ _ E H)).
    assert (Oe : forall j, j <> i -> sel j (ldel n (v_events s)) = sel j (v_events s)) by (intros j N; exact (sel_ldel_other _ _ _ _ _ E N)).
    assert (Li : i < length (v_fsms s)) by (apply nth_error_Some; congruence).
    (* handling an arrived request *)
    assert (Call : forall s2, v_poller s2 = SpNext -> sel i (v_ops s2) = [] -> sel i (v_events s2) = [] ->
              (forall j g, j <> i -> nth_error (v_fsms s2) j = Some g -> fsm_ok full false g (sel j (v_ops s2)) (sel j (v_events s2))) ->
              (forall j, length (v_fsms s2) <= j -> sel j (v_ops s2) = [] /\ sel j (v_events s2) = []) ->
              nth_error (v_fsms s2) i = Some (mkFsm ProcessingRequest 1 0 None 0 true false) ->
              f = mkFsm ProcessingRequest 1 0 None 0 true false ->
              v_detected s2 = v_detected s -> v_post_new s2 = v_post_new s -> v_shut s2 = v_shut s -> v_handler s2 = v_handler s -> v_handler_set s2 = v_handler_set s ->
              cnt waiting (v_fsms s2) <= 2 /\ (v_detected s = false -> cnt waiting (v_fsms s2) = 2) ->
              settled s = false -> sinv full (call_handler prog i f s2)).
    { intros s2 P2 A1 A2 A3 A4 A5 A6 B1 B2 B3 B4 B5 B6 B7. subst f. unfold call_handler. flds.
      set (f' := mkFsm ProcessingRequest (1 + 1) 0 (Some (if v_handler s2 then prog i else [])) 0 true false).
      assert (Ct : contract full (if v_handler s2 then prog i else []) = true).
      { rewrite B4. destruct (v_handler s) eqn:Hd; [apply Gp|]. destruct full; [|reflexivity].
        assert (X : false = true) by (apply I11; [reflexivity|apply I10; discriminate]). discriminate X. }
      pose proof (cnt_lset waiting _ i _ f' A5) as Cw. cbn [waiting f_ops f_deleted b2n f'] in Cw.
      constructor; flds.
      - intros j g Ej. destruct (lset_inv _ _ _ _ _ Ej) as [[-> ->]|[N Ej']].
        + unfold here. flds. rewrite Nat.eqb_refl, A1, A2. apply (FRunning full true). exact Ct.
        + unfold here. flds. replace (i =? j) with false by (symmetry; apply Nat.eqb_neq; congruence). exact (A3 j g N Ej').
      - intros j L. rewrite lset_length in L. destruct (A4 j L) as [C1 C2]. rewrite C1, C2. split; [reflexivity|]. split; [reflexivity|].
        unfold here. flds. apply Nat.eqb_neq. intros ->. assert (j < length (v_fsms s2)) by (apply nth_error_Some; congruence). lia.
      - congruence.
      - rewrite B1. destruct B6 as [B6 B8]. split; [lia|]. intro D. specialize (B8 D). lia.
      - unfold settled in *. flds. rewrite B3. intro S. rewrite B7 in S. discriminate.
      - unfold queue_shut in *. flds. rewrite B1, B3. exact I6.
      - rewrite B1, B3. exact I7.
      - rewrite B3, B5. exact I8.
      - discriminate.
      - intros _. rewrite B5. apply I10. discriminate.
      - rewrite B4, B5. exact I11. }
    (* an event that drops a reference *)
    assert (Drop : forall f' s', s' = set_fsm i f' (set_queue (v_ops s) (ldel n (v_events s)) s) \/
                     s' = set_fsm i f' (mkServer (v_fsms s) (v_ops s) (ldel n (v_events s)) SpNext false true (v_handler s) (v_handler_set s) (v_shut s)) ->
              sel i (ldel n (v_events s)) = [] -> fsm_ok full false f' (sel i (v_ops s)) [] ->
              f_accepted f' = f_accepted f -> f_closed f' = f_closed f ->
              (waiting f' = waiting f \/ (waiting f = true /\ waiting f' = false /\ v_detected s' = true)) -> sinv full s').
    { intros f' s' Hs Sd Fo' Ha Hc Hw.
      assert (Fs : v_fsms s' = lset i f' (v_fsms s)) by (destruct Hs as [->| ->]; reflexivity).
      assert (Os : v_ops s' = v_ops s) by (destruct Hs as [->| ->]; reflexivity).
      assert (Es : v_events s' = ldel n (v_events s)) by (destruct Hs as [->| ->]; reflexivity).
      assert (Ps : v_poller s' = SpNext) by (destruct Hs as [->| ->]; flds; [exact Po|reflexivity]).
      assert (Ss : v_shut s' = v_shut s) by (destruct Hs as [->| ->]; reflexivity).
      assert (H4 : v_handler s' = v_handler s) by (destruct Hs as [->| ->]; reflexivity).
      assert (H5 : v_handler_set s' = v_handler_set s) by (destruct Hs as [->| ->]; reflexivity).
      assert (Ds : v_detected s' = true \/ v_detected s' = v_detected s) by (destruct Hs as [->| ->]; flds; auto).
      pose proof (cnt_lset waiting _ i f f' Ef) as Cw.
      constructor; rewrite ?Fs, ?Os, ?Es.
      - intros j g Ej. unfold here. rewrite Ps. destruct (lset_inv _ _ _ _ _ Ej) as [[-> ->]|[N Ej']]; [rewrite Sd; exact Fo'|].
        rewrite (Oe j N). pose proof (I1 j g Ej') as X. rewrite Hh in X. exact X.
      - intros j L. rewrite lset_length in L. assert (N : j <> i) by lia. rewrite (Oe j N). destruct (I2 j L) as (C1 & C2 & _). unfold here. rewrite Ps. auto.
      - destruct Hs as [->| ->]; flds; [exact I3|reflexivity].
      - destruct I4 as [I4a I4b]. destruct Hw as [Hw|(Hw1 & Hw2 & Hw3)].
        + rewrite Hw in Cw. split; [lia|]. intro D. assert (D2 : v_detected s = false) by (destruct Ds; congruence). specialize (I4b D2). lia.
        + rewrite Hw1, Hw2 in Cw. cbn [b2n] in Cw. split; [lia|]. congruence.
      - unfold settled. rewrite Ss. intros S j g Ej A. destruct (lset_inv _ _ _ _ _ Ej) as [[-> ->]|[N Ej']].
        + rewrite Hc. rewrite Ha in A. exact (I5 S i f Ef A).
        + exact (I5 S j g Ej' A).
      - unfold queue_shut. rewrite Ss. intro Q. destruct Ds as [D|D]; [exact D|rewrite D; exact (I6 Q)].
      - rewrite Ss. intro Q. destruct Ds as [D|D]; [exact D|rewrite D; exact (I7 Q)].
      - rewrite Ss, H5. exact I8.
      - rewrite Ps. discriminate.
      - rewrite H5. intros _. apply I10. discriminate.
      - rewrite H4, H5. exact I11. }
    inversion Fo as [Q Eq Eo Ee|ok' Q Eq Eo Ee|Q Eq Eo Ee|l Cl Eq Eo Ee|l Cl Eq Eo Ee|l ok' Cl Eq Eo Ee|l Cl Q Eq Eo Ee|Eq Eo Ee|ok' Eq Eo Ee|Q Eq Eo Ee];
      rewrite <- Ee in In_; try (destruct In_; fail); destruct In_ as [<-|[]]; flds.
    + (* outcome of waiting *)
      destruct (K ok' (eq_sym Ee)) as [_ Kd]. destruct ok'.
      * assert (Sf : settled s = false).
        { destruct (settled s) eqn:S; [|reflexivity]. pose proof (I5 eq_refl i f Ef) as X. rewrite <- Eq in X. discriminate (X eq_refl). }
        subst f. flds. set (s1 := set_queue (v_ops s) (ldel n (v_events s)) s).
        destruct (v_post_new s) eqn:Pn.
        -- destruct (new_fsm s1) as [s2|c|] eqn:Nf.
           ++ destruct (new_fsm_eq s1 s2 Nf) as [Qf Es2]. unfold s1 in Es2. flds. subst s2.
              apply Call; flds; try reflexivity; auto.
              ** rewrite sel_app, <- Eo, sel_one_other by lia. reflexivity.
              ** intros j g N Ej. destruct (snoc_inv _ _ _ _ Ej) as [Ej'|[-> ->]].
                 --- assert (Lj : j < length (v_fsms s)) by (apply nth_error_Some; congruence).
                     rewrite sel_app, sel_one_other by lia. rewrite app_nil_r, (Oe j N). pose proof (I1 j g Ej') as X. rewrite Hh in X. exact X.
                 --- destruct (I2 (length (v_fsms s)) (le_n _)) as (C1 & C2 & _). rewrite sel_app, C1, sel_one_same, (Oe _ N), C2. apply FWaiting. reflexivity.
              ** intros j L. rewrite app_length in L. cbn [length] in L. assert (N : j <> i) by lia.
                 rewrite sel_app, sel_one_other by lia. rewrite app_nil_r, (Oe j N). destruct (I2 j) as (C1 & C2 & _); [lia|]. auto.
              ** apply snoc_old. exact Ef.
              ** rewrite cnt_snoc. cbn [waiting f_ops f_deleted b2n]. destruct I4 as [I4a I4b]. split; [lia|]. intro D. specialize (I4b D). lia.
           ++ unfold new_fsm in Nf. destruct (queue_shut s1) eqn:Qs; [|discriminate]. unfold s1, queue_shut in Qs. flds.
              assert (Dt : v_detected s = true) by (apply I6; exact Qs). rewrite I3 in Dt. discriminate.
           ++ unfold new_fsm in Nf. destruct (queue_shut s1); discriminate.
        -- unfold s1. apply Call; flds; try reflexivity; auto.
           ++ intros j g N Ej. rewrite (Oe j N). pose proof (I1 j g Ej) as X. rewrite Hh in X. exact X.
           ++ intros j L. assert (N : j <> i) by lia. rewrite (Oe j N). destruct (I2 j L) as (C1 & C2 & _). auto.
           ++ destruct I4 as [I4a I4b]. split; [lia|]. rewrite I3. discriminate.
      * eapply Drop; [right; rewrite Po; reflexivity|exact Kd| | | |]; subst f; unfold dec_ref; flds.
        -- rewrite <- Eo. apply FRejected. reflexivity.
        -- reflexivity.
        -- reflexivity.
        -- right. split; [reflexivity|]. split; reflexivity.
    + destruct (K ok' (eq_sym Ee)) as [_ Kd]. destruct ok'.
      * eapply Drop; [left; reflexivity|exact Kd| | | |]; subst f; unfold dec_ref; flds; [rewrite <- Eo; apply FNoticed; [exact Cl|reflexivity]|reflexivity|reflexivity|left; reflexivity].
      * eapply Drop; [right; rewrite Po; reflexivity|exact Kd| | | |]; subst f; unfold dec_ref; flds; [rewrite <- Eo; apply FNoticed; [exact Cl|reflexivity]|reflexivity|reflexivity|left; reflexivity].
    + destruct (K ok' (eq_sym Ee)) as [_ Kd]. destruct ok'.
      * eapply Drop; [left; reflexivity|exact Kd| | | |]; subst f; unfold dec_ref; flds; [rewrite <- Eo; apply FGone; reflexivity|reflexivity|reflexivity|left; reflexivity].
      * eapply Drop; [right; rewrite Po; reflexivity|exact Kd| | | |]; subst f; unfold dec_ref; flds; [rewrite <- Eo; apply FGone; reflexivity|reflexivity|reflexivity|left; reflexivity].
  - unfold access. destruct (nth_error (v_fsms s) i) as [f|] eqn:Ef; [|exact Logic.I]. pose proof (I1 i f Ef) as Fo. rewrite (here_eq s i Po) in Fo.
    assert (G : f_deleted f = 0 -> fsm_ok full false (mkFsm FinishedSending (f_ref f) (f_deleted f) (f_ops f) (f_finish f) (f_accepted f) (f_closed f)) (sel i (v_ops s)) (sel i (v_events s)) ->
               match f_deleted f with 0 => SNext (set_spoller SpNext (set_fsm i (mkFsm FinishedSending (f_ref f) (f_deleted f) (f_ops f) (f_finish f) (f_accepted f) (f_closed f)) s)) | S _ => SCrash (UseAfterFree i) end
               = SNext (set_spoller SpNext (set_fsm i (mkFsm FinishedSending (f_ref f) (f_deleted f) (f_ops f) (f_finish f) (f_accepted f) (f_closed f)) s)) /\
               sinv full (set_spoller SpNext (set_fsm i (mkFsm FinishedSending (f_ref f) (f_deleted f) (f_ops f) (f_finish f) (f_accepted f) (f_closed f)) s))).
    { intros D Fo'. split; [rewrite D; reflexivity|].
      eapply sinv_upd; [exact I|exact Ef|reflexivity| |exact Fo'|reflexivity|reflexivity|reflexivity|reflexivity|reflexivity|reflexivity| |auto|rewrite Po; discriminate].
      - intros j N. flds. split; [reflexivity|]. split; [reflexivity|]. rewrite (here_neq s i j Po N). reflexivity.
      - right. flds. rewrite Po. repeat split; discriminate. }
    inversion Fo as [Q Eq Eo Ee|ok' Q Eq Eo Ee|Q Eq Eo Ee|l Cl Eq Eo Ee|l Cl Eq Eo Ee|l ok' Cl Eq Eo Ee|l Cl Q Eq Eo Ee|Eq Eo Ee|ok' Eq Eo Ee|Q Eq Eo Ee]; try discriminate;
      subst f; flds; destruct (G eq_refl) as [_ G']; try exact G'; rewrite <- Eo, <- Ee.
    + apply (FRunning full false). exact Cl.
    + apply (FSending full false). exact Cl.
    + apply (FSent full false). exact Cl.
    + apply (FFreedSending full false).
    + apply (FFreedSent full false).
Qed.

(** ** Whole runs *)
Lemma shutdown_step full s : sinv full s -> (full = true -> v_handler s = true) ->
  match shutdown_server s with SNext s' => sinv full s' | SCrash _ => False | SStuck => True end.
Proof.
  intros I Al. unfold shutdown_server. pose proof I as [I1 I2 I3 I4 I5 I6 I7 I8 I9 I10 I11].
  assert (Cl : forall i f, forallb (fun f => implb (f_accepted f) (f_closed f)) (v_fsms s) = true ->
             nth_error (v_fsms s) i = Some f -> f_accepted f = true -> f_closed f = true).
  { intros i f F E A. rewrite forallb_forall in F. specialize (F f (nth_error_In _ _ E)). cbn beta in F. rewrite A in F. exact F. }
  destruct (v_shut s) eqn:Sh; [| | | | | |exact Logic.I].
  - constructor; unfold settled, queue_shut, here in *; flds; auto; try discriminate.
    intro P. destruct (I9 P) as (Q & _). rewrite Sh in Q. discriminate.
  - constructor; unfold settled, queue_shut, here in *; flds; rewrite ?Sh in *; auto; try discriminate.
    intros _. apply I8. discriminate.
  - destruct (forallb _ (v_fsms s)) eqn:Fa; [|exact Logic.I].
    constructor; unfold settled, queue_shut, here in *; flds; rewrite ?Sh in *; auto; try discriminate.
    + intros _ i f E A. exact (Cl i f eq_refl E A).
    + intros _. apply I8. discriminate.
  - destruct (v_detected s) eqn:De; [|exact Logic.I].
    constructor; unfold settled, queue_shut, here in *; flds; rewrite ?Sh in *; auto; try discriminate; try congruence.
    intros _. apply I8. discriminate.
  - constructor; unfold settled, queue_shut, here in *; flds; rewrite ?Sh in *; auto; try discriminate.
    + intros _. apply I8. discriminate.
    + intro P. destruct (I9 P) as (Q & _). discriminate.
  - destruct (v_poller s) eqn:Po; try exact Logic.I.
    constructor; unfold settled, queue_shut, here in *; flds; rewrite ?Sh, ?Po in *; auto; try discriminate.
    intros _. apply I8. discriminate.
Qed.
Lemma sstep_inv full prog a s : good_prog full prog -> sinv full s -> sallowed full a s ->
  match sstep prog a s with SNext s' => sinv full s' | SCrash _ => False | SStuck => True end.
Proof.
  intros Gp I Al. destruct a as [|n|n|n ok|n|i|]; cbn [sstep].
  - destruct I as [I1 I2 I3 I4 I5 I6 I7 I8 I9 I10 I11]. constructor; unfold settled, queue_shut, here in *; flds; auto.
  - destruct (shutting s) eqn:Sh; [exact Logic.I|]. apply complete_op_step; [exact I|].
    intros _ _. unfold shutting, settled in *. destruct (v_shut s); try reflexivity; discriminate.
  - destruct (shutting s); [|exact Logic.I]. apply complete_op_step; [exact I|discriminate].
  - apply complete_op_step; [exact I|discriminate].
  - apply poll_step; assumption.
  - apply handle_step; assumption.
  - apply shutdown_step; [exact I|exact Al].
Qed.
(** Every step of the run is allowed. *)
Fixpoint srun_allowed (full : bool) (prog : nat -> list hop) (l : list saction) (s : server) : Prop :=
  match l with
  | [] => True
  | a :: r => sallowed full a s /\
      match sstep prog a s with SNext s' => srun_allowed full prog r s' | SCrash _ => True | SStuck => srun_allowed full prog r s end
  end.
Lemma srun_inv full prog l : good_prog full prog -> forall s, sinv full s -> srun_allowed full prog l s ->
  match srun prog l s with SNext s' => sinv full s' | SCrash _ => False | SStuck => False end.
Proof.
  intro Gp. induction l as [|a r IH]; intros s I Al; cbn [srun]; [exact I|]. cbn [srun_allowed] in Al. destruct Al as [A1 A2].
  pose proof (sstep_inv full prog a s Gp I A1) as St. destruct (sstep prog a s) as [s'|c|]; [apply IH; assumption|destruct St|apply IH; assumption].
Qed.
Lemma srun_allowed_false prog l : forall s, srun_allowed false prog l s.
Proof.
  induction l as [|a r IH]; intro s; cbn [srun_allowed]; [exact Logic.I|]. split; [destruct a; cbn [sallowed]; auto; discriminate|].
  destruct (sstep prog a s); auto.
Qed.
(** What gRPC, the polling thread, the handlers and the shutting down thread
    do by themselves. *)
Definition sinternal (a : saction) : bool :=
  match a with SetHandler | Accept _ => false | _ => true end.
Lemma sfinal full prog s : full = true -> good_prog full prog -> sinv full s -> v_shut s <> SsNot ->
  (forall a, sinternal a = true -> sstep prog a s = SStuck) ->
  v_shut s = SsJoined /\ v_poller s = SpExited /\ v_ops s = [] /\ v_events s = [] /\
  forall i f, nth_error (v_fsms s) i = Some f ->
    f_deleted f = 1 /\ f_ref f = 0%Z /\ (f_accepted f = true -> f_finish f = 1 /\ f_closed f = true) /\ (f_accepted f = false -> f_finish f = 0 /\ f_ops f = None).
Proof.
  intros -> Gp I Ns St. pose proof I as [I1 I2 I3 I4 I5 I6 I7 I8 I9 I10 I11].
  pose proof (St ShutdownServer eq_refl) as Ss. cbn [sstep] in Ss.
  assert (Sh : shutting s = true).
  { unfold shutdown_server, shutting in *. destruct (v_shut s); try reflexivity; [congruence|discriminate]. }
  assert (Ops : v_ops s = []).
  { destruct (v_ops s) as [|[i o] r] eqn:E; [reflexivity|]. exfalso.
    assert (En : nth_error (v_ops s) 0 = Some (i, o)) by (rewrite E; reflexivity).
    destruct (op_of true s 0 i o I En) as (f & Ef & _).
    destruct o; [pose proof (St (Reject 0) eq_refl) as X; cbn [sstep] in X; rewrite Sh in X|pose proof (St (Sent 0 true) eq_refl) as X; cbn [sstep] in X];
      unfold complete_op in X; rewrite En, Ef in X; discriminate. }
  assert (Hs : v_handler_set s = true) by (apply I8; exact Ns).
  pose proof (St (PollServer 0) eq_refl) as Pl. cbn [sstep] in Pl.
  assert (Po : v_poller s = SpNext /\ queue_shut s = false \/ v_poller s = SpExited).
  { unfold poll_server in Pl. destruct (v_poller s) as [| |i|] eqn:P; [| | |auto].
    - rewrite Hs in Pl. discriminate.
    - left. split; [reflexivity|]. destruct (queue_shut s) eqn:Q; [|reflexivity]. exfalso.
      destruct (nth_error (v_events s) 0) as [[i ok]|] eqn:E.
      + destruct (event_of true s 0 i ok I E) as (f & Ef & _). unfold access in Pl. flds. rewrite Ef in Pl.
        destruct (f_deleted f); [|discriminate]. destruct ok; [|discriminate]. destruct (f_state f); [try rewrite Q in Pl; discriminate| |discriminate].
        destruct (v_post_new s); [|discriminate]. unfold new_fsm in Pl. destruct (queue_shut _); discriminate.
      + destruct (v_events s); [|discriminate]. rewrite Ops in Pl. discriminate.
    - unfold access in Pl. destruct (nth_error (v_fsms s) i) eqn:E; [destruct (f_deleted f); discriminate|].
      apply nth_error_None in E. destruct (I2 i E) as (_ & _ & H). rewrite (here_eq s i P) in H. discriminate. }
  assert (Ev : v_events s = []).
  { destruct Po as [[P Q]|P]; [|destruct (I9 P) as (_ & _ & H); exact H].
    destruct (v_events s) as [|[i ok] r] eqn:E; [reflexivity|]. exfalso.
    assert (En : nth_error (v_events s) 0 = Some (i, ok)) by (rewrite E; reflexivity).
    destruct (event_of true s 0 i ok I En) as (f & Ef & _). unfold poll_server in Pl. rewrite P, En in Pl. unfold access in Pl. flds. rewrite Ef in Pl.
    destruct (f_deleted f); [|discriminate]. destruct ok; [|discriminate]. destruct (f_state f); [try rewrite Q in Pl; discriminate| |discriminate].
    destruct (v_post_new s); [|discriminate]. unfold new_fsm in Pl. destruct (queue_shut _); discriminate. }
  assert (He : forall i, here s i = false) by (intro i; unfold here; destruct Po as [[-> _]| ->]; reflexivity).
  assert (Al : forall i f, nth_error (v_fsms s) i = Some f ->
     f_deleted f = 1 /\ f_ref f = 0%Z /\ (f_accepted f = true -> f_finish f = 1 /\ f_closed f = true) /\ (f_accepted f = false -> f_finish f = 0 /\ f_ops f = None) /\ waiting f = false).
  { intros i f E. pose proof (I1 i f E) as Fo. rewrite Ops, Ev, (He i) in Fo. cbn in Fo.
    pose proof (St (Handle i) eq_refl) as Hi. cbn [sstep] in Hi. unfold handle_op in Hi. rewrite E in Hi.
    assert (Nh : f_ops f = None \/ f_ops f = Some [] \/ f_deleted f <> 0).
    { destruct (f_ops f) as [[|o r]|] eqn:O; auto. right. right. unfold access in Hi. rewrite E in Hi. destruct (f_deleted f); [|discriminate].
      destruct o; try discriminate. destruct (queue_shut s); discriminate. }
    inversion Fo as [| |Q Eq|l Cl Eq| | |l Cl Q Eq| | |Q Eq]; subst f; flds.
    - repeat split; congruence || auto.
    - exfalso. destruct Nh as [N|[N|N]]; try congruence. injection N as ->. cbn [contract negb] in Cl. discriminate.
    - exfalso. destruct Nh as [N|[N|N]]; try congruence. injection N as ->. cbn [after_send negb] in Cl. discriminate.
    - repeat split; congruence || auto. }
  assert (W : cnt waiting (v_fsms s) = 0).
  { clear -Al. revert Al. generalize (v_fsms s). intro l. induction l as [|f r IH]; intro Al; [reflexivity|]. unfold cnt in *. cbn [filter].
    destruct (Al 0 f eq_refl) as (_ & _ & _ & _ & ->). apply IH. intros i g E. exact (Al (S i) g E). }
  assert (De : v_detected s = true) by (destruct (v_detected s) eqn:D; [reflexivity|destruct I4 as [_ I4]; specialize (I4 eq_refl); lia]).
  assert (J : v_shut s = SsJoined /\ v_poller s = SpExited).
  { unfold shutdown_server in Ss. destruct (v_shut s) eqn:S; try discriminate.
    - exfalso. destruct (forallb _ (v_fsms s)) eqn:Fa; [discriminate|]. assert (X : forallb (fun f => implb (f_accepted f) (f_closed f)) (v_fsms s) = true); [|congruence].
      apply forallb_forall. intros f Hf. apply In_nth_error in Hf. destruct Hf as [i E]. destruct (Al i f E) as (_ & _ & A & _).
      destruct (f_accepted f); [destruct (A eq_refl) as [_ ->]|]; reflexivity.
    - rewrite De in Ss. discriminate.
    - destruct Po as [[P Q]|P]; [unfold queue_shut in Q; rewrite S in Q; discriminate|rewrite P in Ss; discriminate].
    - split; [reflexivity|]. destruct Po as [[P Q]|P]; [unfold queue_shut in Q; rewrite S in Q; discriminate|exact P]. }
  destruct J as [J1 J2]. repeat split; auto; destruct (Al i f H) as (A1 & A2 & A3 & A4 & _); auto; first [apply A3|apply A4]; assumption.
Qed.

(** ** Termination *)
Definition whop (o : hop) : nat := match o with HSend => 4 | _ => 1 end.
Definition wops (l : list hop) : nat := total whop l.
Definition wfsm (f : fsm) : nat := match f_ops f with Some l => wops l | None => 0 end.
Definition wev (prog : nat -> list hop) (fs : list fsm) (e : nat * bool) : nat :=
  match snd e, nth_error fs (fst e) with
  | true, Some f => match f_ops f with None => 8 + wops (prog (fst e)) | Some _ => 1 end
  | _, _ => 1
  end.
Definition wpoller (s : server) : nat := match v_poller s with SpWait | SpIn _ => 2 | SpNext => 1 | SpExited => 0 end.
Definition wshut (s : server) : nat :=
  match v_shut s with SsNot => 6 | SsNotified => 5 | SsShutting => 4 | SsReturned => 3 | SsDetected => 2 | SsQueue => 1 | SsJoined => 0 end.
Definition swork (prog : nat -> list hop) (s : server) : nat :=
  2 * length (v_ops s) + total (wev prog (v_fsms s)) (v_events s) + total wfsm (v_fsms s) + wpoller s + wshut s.
Lemma total_app {A} (w : A -> nat) a b : total w (a ++ b) = total w a + total w b.
Proof. unfold total. induction a as [|x r IH]; cbn [app fold_right]; [reflexivity|]. rewrite IH. lia. Qed.
Lemma total_ldel {A} (w : A -> nat) l : forall n x, nth_error l n = Some x -> total w (ldel n l) + w x = total w l.
Proof.
  unfold total. induction l as [|y r IH]; intros [|n] x E; cbn [nth_error ldel fold_right] in *; try discriminate.
  - injection E as ->. lia.
  - specialize (IH n x E). lia.
Qed.
Lemma total_mono {A} (w w' : A -> nat) l : (forall x, In x l -> w' x <= w x) -> total w' l <= total w l.
Proof.
  unfold total. induction l as [|y r IH]; intro H; cbn [fold_right]; [lia|].
  pose proof (H y (or_introl eq_refl)). assert (forall x, In x r -> w' x <= w x) by (intros x Hx; apply H; right; exact Hx). specialize (IH H1). lia.
Qed.
Lemma ldel_length {A} (l : list A) : forall n x, nth_error l n = Some x -> length l = S (length (ldel n l)).
Proof.
  induction l as [|y r IH]; intros [|n] x E; cbn [nth_error ldel length] in *; try discriminate; [reflexivity|]. f_equal. exact (IH n x E).
Qed.
Lemma wev_lset prog fs i f f' e : nth_error fs i = Some f -> (f_ops f' = f_ops f \/ f_ops f' <> None) -> wev prog (lset i f' fs) e <= wev prog fs e.
Proof.
  intros E H. unfold wev. destruct (snd e); [|lia]. destruct (Nat.eq_dec (fst e) i) as [->|N].
  - rewrite (lset_eq _ _ _ _ E), E. destruct H as [->|H]; [lia|]. destruct (f_ops f'); [|congruence]. destruct (f_ops f); lia.
  - rewrite lset_neq by congruence. lia.
Qed.
Lemma total_wev_lset prog fs i f f' l : nth_error fs i = Some f -> (f_ops f' = f_ops f \/ f_ops f' <> None) ->
  total (wev prog (lset i f' fs)) l <= total (wev prog fs) l.
Proof. intros E H. apply total_mono. intros e _. exact (wev_lset prog fs i f f' e E H). Qed.

Lemma wev_domain prog fs x e : fst e < length fs -> wev prog (fs ++ [x]) e = wev prog fs e.
Proof. intro L. unfold wev. rewrite nth_error_app1 by exact L. reflexivity. Qed.
Lemma swork_decreases full prog a s s' : good_prog full prog -> sinv full s -> sinternal a = true -> sstep prog a s = SNext s' -> swork prog s' < swork prog s.
Proof.
  intros Gp I Ia St. pose proof I as [I1 I2 I3 I4 I5 I6 I7 I8 I9 I10 I11].
  assert (Cm : forall want n ok, (want = OpRequest -> ok = false) -> complete_op want n ok s = SNext s' -> swork prog s' < swork prog s).
  { intros want n ok Wo. unfold complete_op. destruct (nth_error (v_ops s) n) as [[i o]|] eqn:E; [|discriminate].
    destruct (op_of full s n i o I E) as (f & Ef & Fo & In_). rewrite Ef.
    set (f1 := mkFsm _ _ _ _ _ _ _).
    assert (Key : SNext (set_fsm i f1 (set_queue (ldel n (v_ops s)) (v_events s ++ [(i, ok)]) s)) = SNext s' -> o = want -> swork prog s' < swork prog s).
    { intros X Ow. injection X as <-. unfold swork, wpoller, wshut. flds. rewrite total_app.
      pose proof (ldel_length _ _ _ E). pose proof (total_wev_lset prog (v_fsms s) i f f1 (v_events s) Ef (or_introl eq_refl)).
      pose proof (total_lset wfsm (v_fsms s) i f f1 Ef) as T. unfold wfsm at 2 4 in T. cbn [f_ops f1] in T.
      assert (total (wev prog (lset i f1 (v_fsms s))) [(i, ok)] = 1).
      { unfold total, wev. cbn [fold_right fst snd]. rewrite (lset_eq _ _ _ _ Ef). destruct ok; [|reflexivity].
        assert (Oo : o = OpFinish) by (destruct o; [specialize (Wo (eq_sym Ow)); discriminate|reflexivity]). rewrite Oo in In_. change (f_ops f1) with (f_ops f).
        inversion Fo as [Q Eq Eo Ee|ok' Q Eq Eo Ee|Q Eq Eo Ee|l Cl Eq Eo Ee|l Cl Eq Eo Ee|l ok' Cl Eq Eo Ee|l Cl Q Eq Eo Ee|Eq Eo Ee|ok' Eq Eo Ee|Q Eq Eo Ee];
          rewrite <- Eo in In_; try (destruct In_; fail); destruct In_ as [X|[]]; try discriminate; reflexivity. }
      lia. }
    destruct o, want; try discriminate; intro X; apply Key; auto. }
  destruct a as [|n|n|n ok|n|i|]; try discriminate; cbn [sstep] in St.
  - destruct (shutting s); [|discriminate]. exact (Cm OpRequest n false (fun _ => eq_refl) St).
  - apply (Cm OpFinish n ok); [discriminate|exact St].
  - unfold poll_server in St. destruct (v_poller s) as [| |i|] eqn:Po; [| | |discriminate].
    + destruct (v_handler_set s); [|discriminate]. injection St as <-. unfold swork, wpoller, wshut. flds. rewrite Po. lia.
    + destruct (nth_error (v_events s) n) as [[i ok]|] eqn:E.
      2:{ destruct (v_events s) eqn:Ev; [|discriminate]. destruct (v_ops s) eqn:Op; [|discriminate]. destruct (queue_shut s); [|discriminate].
          injection St as <-. unfold swork, wpoller, wshut. flds. rewrite Po, Ev, Op. lia. }
      destruct (event_of full s n i ok I E) as (f & Ef & Fo & In_). unfold access in St. flds. rewrite Ef in St.
      destruct (f_deleted f) eqn:Df; [|discriminate].
      assert (Dm : forall e, In e (ldel n (v_events s)) -> fst e < length (v_fsms s)).
      { intros [j b] He. cbn [fst]. destruct (Nat.lt_ge_cases j (length (v_fsms s))) as [L|L]; [exact L|]. exfalso. destruct (I2 j L) as (_ & X & _).
        assert (Ie : In (j, b) (v_events s)).
        { clear -He. revert n He. generalize (v_events s). intro l. induction l as [|y r IH]; intros [|n] He; cbn [ldel] in He; try (destruct He; fail).
          - right. exact He.
          - destruct He as [->|He]; [left; reflexivity|right; exact (IH n He)]. }
        apply sel_In in Ie. rewrite X in Ie. destruct Ie. }
      pose proof (total_ldel (wev prog (v_fsms s)) _ _ _ E) as Tl.
      assert (Dr : forall s2, v_fsms s2 = v_fsms s -> v_ops s2 = v_ops s -> v_events s2 = ldel n (v_events s) -> v_poller s2 = v_poller s -> v_shut s2 = v_shut s ->
                 swork prog (set_fsm i (dec_ref f) s2) < swork prog s).
      { intros s2 H1 H2 H3 H4 H5. unfold swork, wpoller, wshut. flds. rewrite H1, H2, H3, H4, H5.
        pose proof (total_wev_lset prog (v_fsms s) i f (dec_ref f) (ldel n (v_events s)) Ef (or_introl eq_refl)).
        pose proof (total_lset wfsm (v_fsms s) i f (dec_ref f) Ef) as T. unfold wfsm at 2 4 in T. cbn [f_ops dec_ref] in T.
        assert (1 <= wev prog (v_fsms s) (i, ok)) by (unfold wev; cbn [fst snd]; rewrite Ef; destruct ok, (f_ops f); lia).
        lia. }
      destruct ok.
      * destruct (f_state f) eqn:Fs.
        -- exfalso. inversion Fo; subst f; discriminate || (destruct (here s i); discriminate).
        -- assert (Fi : f_ops f = None).
           { inversion Fo as [Q Eq Eo Ee|ok' Q Eq Eo Ee|Q Eq Eo Ee|l Cl Eq Eo Ee|l Cl Eq Eo Ee|l ok' Cl Eq Eo Ee|l Cl Q Eq Eo Ee|Eq Eo Ee|ok' Eq Eo Ee|Q Eq Eo Ee];
               rewrite <- Ee in In_; try (destruct In_; fail); subst f; try reflexivity; unfold here in Fs; rewrite Po in Fs; discriminate. }
           assert (We : wev prog (v_fsms s) (i, true) = 8 + wops (prog i)) by (unfold wev; cbn [fst snd]; rewrite Ef, Fi; reflexivity).
           assert (Ch : forall s2, nth_error (v_fsms s2) i = Some f -> total wfsm (v_fsms s2) = total wfsm (v_fsms s) ->
                      total (wev prog (v_fsms s2)) (ldel n (v_events s)) <= total (wev prog (v_fsms s)) (ldel n (v_events s)) ->
                      length (v_ops s2) <= S (length (v_ops s)) -> v_events s2 = ldel n (v_events s) -> v_shut s2 = v_shut s ->
                      swork prog (call_handler prog i f s2) < swork prog s).
           { intros s2 H1 H2 H3 H4 H5 H6. unfold call_handler. set (f' := mkFsm _ _ _ _ _ _ _). unfold swork, wpoller, wshut. flds. rewrite H5, H6, Po.
             pose proof (total_wev_lset prog (v_fsms s2) i f f' (ldel n (v_events s)) H1) as T1. specialize (T1 ltac:(right; discriminate)).
             pose proof (total_lset wfsm (v_fsms s2) i f f' H1) as T. unfold wfsm at 2 4 in T. cbn [f_ops f'] in T. rewrite Fi in T.
             assert (wops (if v_handler s2 then prog i else []) <= wops (prog i)) by (destruct (v_handler s2); [lia|unfold wops, total; cbn; lia]).
             lia. }
           destruct (v_post_new s).
           ++ destruct (new_fsm _) as [s2|c|] eqn:Nf; try discriminate. destruct (new_fsm_eq _ _ Nf) as [_ ->]. flds. injection St as <-.
              apply Ch; flds; try reflexivity.
              ** rewrite nth_error_app1; [exact Ef|apply nth_error_Some; congruence].
              ** rewrite total_app. unfold total at 2, wfsm. cbn. lia.
              ** apply total_mono. intros e He. rewrite (wev_domain _ _ _ _ (Dm e He)). lia.
              ** rewrite app_length. cbn [length]. lia.
           ++ injection St as <-. apply Ch; flds; try reflexivity; auto.
        -- injection St as <-. apply Dr; reflexivity.
      * injection St as <-. apply Dr; reflexivity.
    + unfold access in St. destruct (nth_error (v_fsms s) i) as [f|] eqn:Ef; [|discriminate]. destruct (f_deleted f); [|discriminate]. injection St as <-.
      set (f' := mkFsm _ _ _ _ _ _ _). unfold swork, wpoller, wshut. flds. rewrite Po.
      pose proof (total_wev_lset prog (v_fsms s) i f f' (v_events s) Ef (or_introl eq_refl)).
      pose proof (total_lset wfsm (v_fsms s) i f f' Ef) as T. unfold wfsm at 2 4 in T. cbn [f_ops f'] in T. lia.
  - unfold handle_op, access in St. destruct (nth_error (v_fsms s) i) as [f|] eqn:Ef; [|discriminate].
    destruct (f_ops f) as [[|o rest]|] eqn:Fo; try discriminate. destruct (f_deleted f); [|discriminate].
    assert (Hd : forall f' s2, f_ops f' = Some rest -> v_fsms s2 = v_fsms s -> v_events s2 = v_events s -> v_poller s2 = v_poller s -> v_shut s2 = v_shut s ->
               2 * length (v_ops s2) + 1 <= 2 * length (v_ops s) + whop o -> swork prog (set_fsm i f' s2) < swork prog s).
    { intros f' s2 H0 H1 H2 H3 H4 H5. unfold swork, wpoller, wshut. flds. rewrite H1, H2, H3, H4.
      pose proof (total_wev_lset prog (v_fsms s) i f f' (v_events s) Ef) as T1. rewrite H0 in T1. specialize (T1 ltac:(right; discriminate)).
      pose proof (total_lset wfsm (v_fsms s) i f f' Ef) as T. unfold wfsm at 2 4 in T. rewrite H0, Fo in T. unfold wops at 1 in T. cbn [total fold_right] in T.
      fold (total whop rest) in T. fold (wops rest) in T. lia. }
    destruct o.
    + injection St as <-. apply Hd; try reflexivity; cbn [whop]; lia.
    + destruct (queue_shut s); [discriminate|]. injection St as <-. apply Hd; try reflexivity. flds. rewrite app_length. cbn [length whop]. lia.
    + injection St as <-. apply Hd; try reflexivity; cbn [whop]; lia.
  - unfold shutdown_server in St. destruct (v_shut s) eqn:Sh; try discriminate.
    + injection St as <-. unfold swork, wpoller, wshut. flds. rewrite Sh. lia.
    + injection St as <-. unfold swork, wpoller, wshut. flds. rewrite Sh. lia.
    + destruct (forallb _ _); [|discriminate]. injection St as <-. unfold swork, wpoller, wshut. flds. rewrite Sh. lia.
    + destruct (v_detected s); [|discriminate]. injection St as <-. unfold swork, wpoller, wshut. flds. rewrite Sh. lia.
    + injection St as <-. unfold swork, wpoller, wshut. flds. rewrite Sh. lia.
    + destruct (v_poller s) eqn:Po; try discriminate. injection St as <-. unfold swork, wpoller, wshut. flds. rewrite Sh, Po. lia.
Qed.
