(** Property C90, continued: RPCs get done. *)
From Coq Require Import Ascii String List NArith ZArith Bool Arith Lia Permutation.
From Verif Require Import Base_Model Grpc_Model Grpc_Proofs Grpc_Proofs2 Grpc_Props Gsrv_Model Gsrv_Proofs Gsrv_Props Gnet_Model Gnet_Proofs Gnet_Proofs2 Gnet_Props.
Import ListNotations.
Open Scope nat_scope.

(** A schedule in which no server shuts down and gRPC puts every response of a
    polling server on the wire. *)
Definition calm (a : xaction) : Prop :=
  match a with XDirect _ GShutdown | XPolled _ ShutdownServer | XPolled _ (Sent _ false) => False | _ => True end.
Definition vcalm (v : gserver) : Prop :=
  match v with
  | GDirect _ s => g_shut s = GsNot
  | GPolled s _ => v_shut s = SsNot /\ v_detected s = false /\ v_handler_set s = true /\ forall i ok, In (i, ok) (v_events s) -> ok = true
  end.
Lemma gcalm_step k h a s s' : g_shut s = GsNot -> a <> GShutdown -> gstep k h a s = GNext s' -> g_shut s' = GsNot.
Proof.
  intros Z Na E. destruct a as [|q|i|i|i|i|]; cbn [gstep] in E; [| | | | | |congruence].
  - rewrite Z in E. injection E as <-. reflexivity.
  - rewrite Z in E. injection E as <-. exact Z.
  - destruct (nth_error (g_calls s) i) as [c|]; [|discriminate]. destruct (k_ops c); [discriminate|]. destruct (negb _); [discriminate|]. destruct (g_handler s); injection E as <-; exact Z.
  - destruct (nth_error (g_calls s) i) as [c|]; [|discriminate]. destruct (k_ops c) as [[|o rest]|]; try discriminate. destruct (gmove _ _ _ _ _); [|discriminate]. injection E as <-. exact Z.
  - destruct (nth_error (g_calls s) i) as [c|]; [|discriminate]. destruct (negb _); [discriminate|].
    destruct k; [destruct (k_ops c) as [[|]|]; try discriminate|destruct (k_ops c); [|discriminate]]; injection E as <-; exact Z.
  - destruct (nth_error (g_calls s) i) as [c|]; [|discriminate]. destruct (k_inside c); [discriminate|]. destruct (k_reply c); [|discriminate]. destruct (k_closed c); [discriminate|]. injection E as <-. exact Z.
Qed.
Lemma In_ldel {A} (l : list A) : forall n x, In x (ldel n l) -> In x l.
Proof. induction l as [|y l IH]; intros [|n] x H; cbn [ldel In] in *; auto. destruct H; eauto. Qed.
Lemma scalm_step prog a s s' : vcalm (GPolled s []) -> (match a with ShutdownServer | Sent _ false => False | _ => True end) -> sstep prog a s = SNext s' -> vcalm (GPolled s' []).
Proof.
  intros (Z1 & Z2 & Z3 & Z4) Na E. cbn [vcalm].
  assert (Co : forall want n, complete_op want n true s = SNext s' -> v_shut s' = SsNot /\ v_detected s' = false /\ v_handler_set s' = true /\ forall i ok, In (i, ok) (v_events s') -> ok = true).
  { intros want n K. unfold complete_op in K. destruct (nth_error (v_ops s) n) as [[i o]|]; [|discriminate].
    destruct o, want; try discriminate; (destruct (nth_error (v_fsms s) i); [|discriminate]); injection K as <-; cbn [set_fsm set_queue v_shut v_detected v_handler_set v_events];
      (split; [exact Z1|]; split; [exact Z2|]; split; [exact Z3|]; intros j ok H; apply in_app_or in H; destruct H as [H|[H|[]]]; [exact (Z4 _ _ H)|congruence]). }
  destruct a as [|n|n|n ok|n|i|]; cbn [sstep] in E; try contradiction.
  - injection E as <-. auto.
  - destruct (shutting s); [discriminate|]. eauto.
  - assert (Sh : shutting s = false) by (unfold shutting; rewrite Z1; reflexivity). rewrite Sh in E. discriminate.
  - destruct ok; [eauto|contradiction].
  - assert (Ld : forall m i ok, In (i, ok) (ldel m (v_events s)) -> ok = true) by (intros m i ok H; apply In_ldel in H; eauto).
    unfold poll_server in E. destruct (v_poller s) as [| |i|]; [| | |discriminate].
    + destruct (v_handler_set s) eqn:Hs; [|discriminate]. injection E as <-. cbn [set_spoller v_shut v_detected v_handler_set v_events]. auto.
    + destruct (nth_error (v_events s) n) as [[i ok]|] eqn:Ne.
      * apply nth_error_In in Ne. rewrite (Z4 _ _ Ne) in E. unfold access in E. destruct (nth_error _ i) as [f|]; [|discriminate]. destruct (f_deleted f); [|discriminate].
        destruct (f_state f).
        -- destruct (queue_shut s); [discriminate|]. injection E as <-. cbn [set_fsm set_queue v_shut v_detected v_handler_set v_events]. eauto.
        -- destruct (v_post_new s).
           ++ unfold new_fsm in E. destruct (queue_shut _); [discriminate|]. injection E as <-. cbn. eauto.
           ++ injection E as <-. cbn. eauto.
        -- injection E as <-. cbn. eauto.
      * assert (Qs : queue_shut s = false) by (unfold queue_shut; rewrite Z1; reflexivity). rewrite Qs in E. destruct (v_events s), (v_ops s); discriminate.
    + unfold access in E. destruct (nth_error _ i) as [f|]; [|discriminate]. destruct (f_deleted f); [|discriminate]. injection E as <-. cbn. auto.
  - unfold handle_op in E. destruct (nth_error (v_fsms s) i) as [f|] eqn:N; [|discriminate]. destruct (f_ops f) as [[|o rest]|]; try discriminate.
    unfold access in E. rewrite N in E. destruct (f_deleted f); [|discriminate].
    destruct o; [|destruct (queue_shut s); [discriminate|]|]; injection E as <-; cbn; auto.
Qed.
Definition all_calm (x : gnet) : Prop := forall j v, nth_error (x_servers x) j = Some v -> vcalm v.
Lemma calm_step w clients kinds failed a x x' : handlers_ok w kinds -> xinv w clients kinds failed x -> all_calm x -> calm a -> xstep w a x = XNext x' -> all_calm x'.
Proof.
  intros H V D A S. destruct (xstep_moved _ _ _ H _ _ _ _ V S) as [|j v v' f o Ev Ef _ _ _ Q]; [exact D|].
  intros j2 v2 E2. cbn [x_servers] in E2. destruct (lset_inv _ _ _ _ _ E2) as [[-> ->]|[N K]]; [|exact (D _ _ K)]. pose proof (D _ _ Ev) as C.
  destruct a as [c' ca'|j' sa|j' sa|c i n|c' i ?|c' i m]; try contradiction.
  - destruct Q as (_ & _ & _ & k & s & s' & -> & -> & G). cbn [vcalm] in *. eapply gcalm_step; [exact C| |exact G]. intros ->. exact A.
  - destruct Q as (_ & _ & _ & s & s' & reqs & -> & -> & G). exact (scalm_step _ _ _ _ C (match sa as a return calm (XPolled j' a) -> match a with ShutdownServer | Sent _ false => False | _ => True end with Sent _ true => fun z => z | Sent _ false => fun z => z | ShutdownServer => fun z => z | _ => fun _ => Logic.I end A) G).
  - destruct Q as (r & k & q & _ & _ & _ & Q). destruct v as [kd s|s reqs].
    + destruct Q as (s' & -> & G). cbn [vcalm] in *. eapply (gcalm_step kd (gw_h w j) (GArrive q)); [exact C|discriminate|exact G].
    + destruct Q as (s' & -> & G). exact (scalm_step _ (Accept n) _ _ C Logic.I G).
Qed.
Lemma calm_run w clients kinds l : handlers_ok w kinds -> forall failed x x', xinv w clients kinds failed x -> all_calm x -> Forall calm l -> xrun w l x = XNext x' -> all_calm x'.
Proof.
  intros H. induction l as [|a l IH]; intros failed x x' V D A R; cbn [xrun] in R; [injection R as <-; exact D|]. inversion A as [|? ? A1 A2]; subst.
  destruct (xstep w a x) as [x1| |] eqn:S; [|discriminate|eauto].
  eapply (IH (fun c i m => failed c i m \/ a = XFail c i m)); [|eapply calm_step; eassumption|exact A2|exact R].
  eapply xinv_step; [exact H|exact V| |exact S]. auto.
Qed.
Lemma calm_start clients kinds : all_calm (xstart clients kinds).
Proof.
  intros j v E. cbn [xstart x_servers] in E. rewrite nth_error_map in E. destruct (nth_error kinds j) as [kd|]; [|discriminate]. cbn in E. injection E as <-.
  destruct kd; cbn; [reflexivity|]. split; [reflexivity|]. split; [reflexivity|]. split; [reflexivity|]. intros i ok [].
Qed.

(** Servers at rest. *)
Lemma direct_rest k h l s : keeps k h -> grun k h l gstart = GNext s -> g_handler s = true ->
  (forall i, gstep k h (GCall i) s = GStuck /\ gstep k h (GOp i) s = GStuck /\ gstep k h (GReturn i) s = GStuck) ->
  forall i c, nth_error (g_calls s) i = Some c -> k_reply c <> None.
Proof.
  intros H R Gh St i c E Kr. pose proof (ginv_run k h l s (keeps_proper k h H) R) as V. pose proof (gi_call _ _ _ V _ _ E) as O. pose proof (gi_both _ _ _ V Gh) as Gs.
  destruct (St i) as (S1 & S2 & S3). cbn [gstep] in S1, S2, S3. rewrite E in S1, S2, S3. rewrite Gs, Gh in S1. cbn [negb] in S1.
  destruct (k_ops c) as [[|o rest]|] eqn:Ko; [|destruct (gmove_ok _ _ _ _ _ _ O Ko) as (c' & Gm & _); rewrite Gm in S2; discriminate|discriminate].
  destruct (k_inside c) eqn:Ki; cbn [negb] in S3; [destruct k; discriminate|]. exact (call_over _ _ _ _ O Ko Ki Kr).
Qed.
Lemma polled_rest prog s : sinv true s -> vcalm (GPolled s []) ->
  (forall i, sstep prog (Handle i) s = SStuck /\ sstep prog (PollServer i) s = SStuck /\ sstep prog (Sent i true) s = SStuck) ->
  (forall i f, nth_error (v_fsms s) i = Some f -> f_accepted f = true -> f_finish f = 1) /\ exists n i, nth_error (v_ops s) n = Some (i, OpRequest).
Proof.
  intros V (Z1 & Z2 & Z3 & Z4) St.
  assert (Ev : v_events s = []).
  { destruct (St 0) as (_ & S & _). cbn [sstep] in S. unfold poll_server in S. destruct (v_poller s) as [| |i|] eqn:P.
    - rewrite Z3 in S. discriminate.
    - destruct (v_events s) as [|[i ok] r] eqn:Es; [reflexivity|exfalso]. cbn [nth_error] in S. unfold access in S. cbn [set_queue v_fsms] in S.
      assert (N : nth_error (v_events s) 0 = Some (i, ok)) by (rewrite Es; reflexivity). apply nth_sel in N.
      destruct (nth_error (v_fsms s) i) as [f|] eqn:Nf.
      + destruct (f_deleted f); [|discriminate]. destruct ok; [|discriminate]. destruct (f_state f); [destruct (queue_shut s); discriminate| |discriminate].
        destruct (v_post_new s); [|discriminate]. unfold new_fsm in S. destruct (queue_shut _); discriminate.
      + apply nth_error_None in Nf. destruct (i_dom _ _ V _ Nf) as (_ & A & _). rewrite A in N. destruct N.
    - exfalso. unfold access in S. destruct (nth_error (v_fsms s) i) as [f|] eqn:Nf; [destruct (f_deleted f); discriminate|].
      apply nth_error_None in Nf. destruct (i_dom _ _ V _ Nf) as (_ & _ & A). rewrite (here_eq _ _ P) in A. discriminate.
    - destruct (i_exited _ _ V P) as (_ & _ & A). exact A. }
  assert (Nev : forall i, sel i (v_events s) = []) by (intros i; rewrite Ev; reflexivity).
  assert (Nop : forall i f o rest, nth_error (v_fsms s) i = Some f -> f_ops f <> Some (o :: rest)).
  { intros i f o rest N Q. destruct (St i) as (S & _). cbn [sstep] in S. unfold handle_op in S. rewrite N, Q in S. unfold access in S. rewrite N in S.
    destruct (f_deleted f); [|discriminate]. destruct o; try discriminate. destruct (queue_shut s); discriminate. }
  assert (Nfin : forall i, ~ In OpFinish (sel i (v_ops s))).
  { intros i I. apply sel_In in I. apply In_nth_error in I. destruct I as [n N]. destruct (St n) as (_ & _ & S). cbn [sstep] in S. unfold complete_op in S. rewrite N in S.
    destruct (nth_error (v_fsms s) i) as [f|] eqn:Nf; [discriminate|]. apply nth_error_None in Nf. destruct (i_dom _ _ V _ Nf) as (A & _).
    apply nth_sel in N. rewrite A in N. destruct N. }
  split.
  - intros i f N A. pose proof (i_fsm _ _ V _ _ N) as O. pose proof (Nop i f) as No. rewrite Nev in O.
    remember (sel i (v_ops s)) as so eqn:Eo. remember (@nil bool) as se eqn:Ee. destruct O; cbn [f_accepted f_finish f_ops] in *; try discriminate; try reflexivity.
    destruct l as [|o rest]; [discriminate|]. destruct (No o rest N eq_refl).
  - destruct (i_waiting _ _ V) as [_ W]. specialize (W Z2).
    assert (X : exists i f, nth_error (v_fsms s) i = Some f /\ waiting f = true).
    { clear - W. unfold cnt in W. destruct (filter waiting (v_fsms s)) as [|f r] eqn:F; [discriminate|]. assert (I : In f (filter waiting (v_fsms s))) by (rewrite F; left; reflexivity).
      apply filter_In in I. destruct I as [I Wf]. apply In_nth_error in I. destruct I as [i E]. eauto. }
    destruct X as (i & f & N & Wf). pose proof (i_fsm _ _ V _ _ N) as O. rewrite Nev in O.
    remember (sel i (v_ops s)) as so eqn:Eo. remember (@nil bool) as se eqn:Ee. destruct O; unfold waiting in Wf; cbn [f_ops f_deleted] in Wf; try discriminate.
    assert (I : In OpRequest (sel i (v_ops s))) by (rewrite <- Eo; left; reflexivity). apply sel_In in I. apply In_nth_error in I. destruct I as [n E]. eauto.
Qed.

(** What threads and gRPC do by themselves, without new RPCs, errors or the
    shutdown of a server. *)
Definition gentle (a : xaction) (x : gnet) : Prop :=
  match a with
  | XClient c ca => forall k s, nth_error (x_clients x) c = Some (k, s) -> internal ca s
  | XDirect _ (GCall _ | GOp _ | GReturn _ | GClose _) => True
  | XPolled _ (Sent _ true | PollServer _ | Handle _) => True
  | XDeliver _ _ _ | XReply _ _ _ => True
  | _ => False
  end.
(** While no server shut down and no response was lost, things come to rest only
    when every RPC has been called back, and ShutdownClient, where it was
    called, has returned. *)
Theorem C90_completes : forall w clients kinds l x, handlers_ok w kinds -> clients_ok w clients l (xstart clients kinds) ->
  (forall c k stubs p, nth_error clients c = Some (k, stubs) -> nth_error stubs p = Some true -> gw_route w c p < length kinds) ->
  Forall calm l -> xrun w l (xstart clients kinds) = XNext x -> (forall a, gentle a x -> xstep w a x = XStuck) ->
  forall c kc s, nth_error (x_clients x) c = Some (kc, s) ->
    (forall i r, nth_error (c_rpcs s) i = Some r -> r_phase r = Released /\ length (r_calls r) = 1) /\ (c_shut s = ShNot \/ c_shut s = ShDone).
Proof.
  intros w clients kinds l x H A Ro Cl R St c kc s Ec. pose proof (run_inv _ _ _ _ _ H R) as V.
  pose proof (calm_run w clients kinds l H _ _ _ (xinv_start w clients kinds) (calm_start clients kinds) Cl R) as Cx.
  destruct (run_ok w clients kinds l H _ _ (xinv_start w clients kinds) (cdisc_start clients kinds) A) as (x' & R' & D). assert (x' = x) by congruence. subst x'. clear R'.
  destruct (D _ _ _ Ec) as (st & lc & P & Dl & Rc). destruct (disc_run st kc lc _ (inv_start kc st) (disc_start st) Dl) as (s1 & R1 & I1 & D1). assert (s1 = s) by congruence. subst s1.
  assert (Nf : forall i r, nth_error (c_rpcs s) i = Some r -> r_phase r <> InFlight).
  { intros i r Er Ph.
    assert (Fl : flying c i x = Some r) by (unfold flying; rewrite Ec, Er, Ph; reflexivity).
    assert (Ba : r_request r = Some (r_given r)).
    { pose proof (b_rpc _ _ (proj1 I1) _ _ Er) as O. unfold rpc_ok in O. rewrite Ph in O. apply O. }
    pose proof (Ro c kc st (r_peer r) P (d_peer _ _ D1 _ _ Er)) as Lt.
    destruct (nth_error (x_servers x) (gw_route w c (r_peer r))) as [v|] eqn:Ev.
    2: { apply nth_error_None in Ev. rewrite (xv_sl _ _ _ _ _ V) in Ev. lia. }
    destruct (nth_error (x_from x) (gw_route w c (r_peer r))) as [f|] eqn:Ef.
    2: { apply nth_error_None in Ef. rewrite (xv_fl _ _ _ _ _ V) in Ef. lia. }
    destruct (xv_s _ _ _ _ _ V _ _ Ev) as (kd & Ek & Ok). pose proof (H _ _ Ek) as Hkd. pose proof (Cx _ _ Ev) as Cv.
    destruct (xv_f _ _ _ _ _ V _ _ _ Ev Ef) as (ND & Tk & Kf). set (j := gw_route w c (r_peer r)) in *.
    assert (Rest : (forall k, taken v k -> reply_of (gw_h w j) v k <> None) /\ match v with GDirect _ _ => True | GPolled s0 _ => exists n i, nth_error (v_ops s0) n = Some (i, OpRequest) end).
    { destruct v as [kd' s0|s0 reqs].
      - destruct kd as [kd|]; [|destruct Ok]. destruct Ok as (-> & (l0 & R0) & Gh). split; [|exact Logic.I]. intros k T. cbn [taken reply_of] in *.
        destruct (nth_error (g_calls s0) k) as [c0|] eqn:N; [|apply nth_error_None in N; lia].
        apply (direct_rest kd (gw_h w j) l0 s0 Hkd R0 Gh) with k; [|exact N].
        assert (Go : forall a, (forall q, a <> GArrive q) -> xstep w (XDirect j a) x = XStuck -> gstep kd (gw_h w j) a s0 = GStuck).
        { intros a Na S. assert (S' : on_direct w j a [] x = XStuck) by (destruct a; try exact S; destruct (Na _ eq_refl)). unfold on_direct in S'. rewrite Ev, Ef in S'. destruct (gstep _ _ a s0); congruence. }
        intros n. split; [|split]; (apply Go; [discriminate|apply St; exact Logic.I]).
      - destruct kd as [kd|]; [destruct Ok|]. destruct Ok as (Sv & Gh & Rq).
        assert (Go : forall a, (forall q, a <> Accept q) -> xstep w (XPolled j a) x = XStuck -> sstep (polled_prog (gw_h w j) reqs) a s0 = SStuck).
        { intros a Na S. assert (S' : on_polled w j a [] x = XStuck) by (destruct a; try exact S; destruct (Na _ eq_refl)). unfold on_polled in S'. rewrite Ev, Ef in S'. destruct (sstep _ a s0); congruence. }
        destruct (polled_rest (polled_prog (gw_h w j) reqs) s0 Sv Cv) as [Fin Wt].
        { intros n. split; [|split]; (apply Go; [discriminate|apply St; exact Logic.I]). }
        split; [|exact Wt]. intros k T. pose proof T as (f0 & N & Ac). apply Rq in T. cbn [reply_of]. rewrite N, (Fin _ _ N Ac). destruct (lookup k reqs); [discriminate|congruence]. }
    destruct Rest as [Rep Wt].
    destruct (existsb (fun p => is_rpc (c, i) (snd p)) (concat (x_from x))) eqn:Ex.
    - apply existsb_exists in Ex. destruct Ex as ([k p] & I & Q). cbn in Q. apply is_rpc_true in Q. subst p. apply in_concat in I. destruct I as (f' & I1' & I2).
      apply In_nth_error in I1'. destruct I1' as [j' Ej'].
      assert (Ev' : exists v', nth_error (x_servers x) j' = Some v').
      { destruct (nth_error (x_servers x) j') eqn:Z; [eauto|]. exfalso. apply nth_error_None in Z. rewrite (xv_sl _ _ _ _ _ V), <- (xv_fl _ _ _ _ _ V) in Z. apply nth_error_None in Z. congruence. }
      destruct Ev' as [v' Ev']. destruct (xv_f _ _ _ _ _ V _ _ _ Ev' Ej') as (ND' & Tk' & Kf'). destruct (Kf' _ _ _ I2) as (q & Cr & kc' & s' & r' & G1 & G2 & _ & G3 & G4).
      rewrite Ec in G1. injection G1 as <- <-. rewrite Er in G2. injection G2 as <-. fold j in G3. subst j'. assert (v' = v) by congruence. assert (f' = f) by congruence. subst v' f'.
      assert (T : taken v k) by (apply Tk; apply in_map_iff; exists (k, (c, i)); auto).
      pose proof (St (XReply c i k) Logic.I) as S. cbn [xstep] in S. rewrite Fl in S. fold j in S. rewrite Ev, Ef in S. rewrite (In_lookup _ _ _ ND I2), is_rpc_refl in S.
      destruct (reply_of (gw_h w j) v k) as [[st0 resp]|] eqn:Rp; [|destruct (Rep _ T Rp)]. unfold on_client in S. rewrite Ec in S. cbn [cstep] in S. unfold wire in S. rewrite Er, Ph in S. discriminate.
    - destruct v as [kd' s0|s0 reqs].
      + pose proof (St (XDeliver c i 0) Logic.I) as S. cbn [xstep] in S. rewrite Fl, Ex, Ba in S. fold j in S. rewrite Ev in S. unfold on_direct in S. rewrite Ev, Ef in S. cbn [gstep] in S.
        cbn [vcalm] in Cv. rewrite Cv in S. discriminate.
      + destruct Wt as (n & fi & No). pose proof (St (XDeliver c i n) Logic.I) as S. cbn [xstep] in S. rewrite Fl, Ex, Ba in S. fold j in S. rewrite Ev, No in S. unfold on_polled in S. rewrite Ev, Ef in S. cbn [sstep] in S.
        destruct Cv as (Z1 & _). unfold shutting in S. rewrite Z1 in S. unfold complete_op in S. rewrite No in S. destruct kd as [kd|]; [destruct Ok|]. destruct Ok as (Sv & _).
        rewrite (request_op _ _ _ _ Sv No) in S. discriminate. }
  destruct (final_state st kc s I1 D1) as [F1 F2].
  { intros a Ia. destruct a as [p q o|i|i st0 resp|t|].
    - destruct Ia.
    - pose proof (St (XClient c (Advance i)) ltac:(intros k' s' E'; exact Logic.I)) as S. cbn [xstep] in S. unfold on_client in S. rewrite Ec in S. destruct (cstep kc (Advance i) s); congruence.
    - cbn [cstep]. unfold wire. destruct (nth_error (c_rpcs s) i) as [r|] eqn:Er; [|reflexivity]. pose proof (Nf _ _ Er). destruct (r_phase r); try reflexivity. congruence.
    - pose proof (St (XClient c (Poll t)) ltac:(intros k' s' E'; exact Logic.I)) as S. cbn [xstep] in S. unfold on_client in S. rewrite Ec in S. destruct (cstep kc (Poll t) s); congruence.
    - pose proof (St (XClient c Shutdown) ltac:(intros k' s' E'; rewrite Ec in E'; injection E' as <- <-; exact Ia)) as S. cbn [xstep] in S. unfold on_client in S. rewrite Ec in S. destruct (cstep kc Shutdown s); congruence. }
  split; [|exact F2]. intros i r Er. pose proof (F1 _ _ Er) as Ph. split; [exact Ph|]. apply (C47_once _ _ _ _ _ _ Rc Er). auto.
Qed.

(** That rest is reached: without new RPCs only finitely many steps can follow
    each other, errors and shutdowns included. *)
Definition ongoing (a : xaction) (x : gnet) : Prop :=
  match a with
  | XClient c ca => forall k s, nth_error (x_clients x) c = Some (k, s) -> internal ca s
  | XDirect _ ga => ginternal ga = true
  | XPolled _ sa => sinternal sa = true
  | _ => True
  end.
Definition vwork (w : gworld) (j : nat) (v : gserver) : nat :=
  match v with GDirect _ s => gsteps (gw_h w j) s | GPolled s reqs => swork (polled_prog (gw_h w j) reqs) s end.
Fixpoint vworks (w : gworld) (j : nat) (l : list gserver) : nat := match l with [] => 0 | v :: r => vwork w j v + vworks w (S j) r end.
Lemma vworks_lset w l : forall j n v v', nth_error l j = Some v -> vwork w (n + j) v' < vwork w (n + j) v -> vworks w n (lset j v' l) < vworks w n l.
Proof.
  induction l as [|d l IH]; intros [|j] n v v' E L; try discriminate; cbn [nth_error lset vworks] in *.
  - injection E as ->. rewrite Nat.add_0_r in L. lia.
  - assert (vworks w (S n) (lset j v' l) < vworks w (S n) l); [|lia]. apply (IH j (S n) v v' E). rewrite Nat.add_succ_comm. exact L.
Qed.
Definition cworks (x : gnet) : nat := total (fun p : kind * client => work (snd p)) (x_clients x).
Definition all_rpcs (x : gnet) : list (nat * nat) :=
  flat_map (fun c => map (pair c) (seq 0 (match nth_error (x_clients x) c with Some (_, s) => length (c_rpcs s) | None => 0 end))) (seq 0 (length (x_clients x))).
Lemma delivered_bound w clients kinds failed x : xinv w clients kinds failed x -> length (concat (x_from x)) <= length (all_rpcs x).
Proof.
  intros V. rewrite <- (map_length snd). apply NoDup_incl_length; [apply V|]. intros [c i] I. apply in_map_iff in I. destruct I as ([k p] & Q & I). cbn in Q. subst p.
  apply in_concat in I. destruct I as (f & I1 & I2). apply In_nth_error in I1. destruct I1 as [j Ej].
  assert (Ev' : exists v', nth_error (x_servers x) j = Some v').
  { destruct (nth_error (x_servers x) j) eqn:Z; [eauto|]. exfalso. apply nth_error_None in Z. rewrite (xv_sl _ _ _ _ _ V), <- (xv_fl _ _ _ _ _ V) in Z. apply nth_error_None in Z. congruence. }
  destruct Ev' as [v Ev]. destruct (xv_f _ _ _ _ _ V _ _ _ Ev Ej) as (_ & _ & K). destruct (K _ _ _ I2) as (q & _ & kc & s & r & G1 & G2 & _).
  apply in_flat_map. exists c. split; [apply in_seq; split; [lia|]; apply nth_error_Some; congruence|]. rewrite G1. apply in_map, in_seq. split; [lia|]. apply nth_error_Some. congruence.
Qed.
Definition before (w : gworld) (x2 x1 : gnet) : Prop := exists a, ongoing a x1 /\ xstep w a x1 = XNext x2.
Lemma before_acc w clients kinds : handlers_ok w kinds -> forall n1 n2 n3 failed x, xinv w clients kinds failed x ->
  cworks x = n1 -> length (all_rpcs x) - length (concat (x_from x)) = n2 -> vworks w 0 (x_servers x) = n3 -> Acc (before w) x.
Proof.
  intros H. induction n1 as [n1 IH1] using lt_wf_ind. induction n2 as [n2 IH2] using lt_wf_ind. induction n3 as [n3 IH3] using lt_wf_ind.
  intros failed x V M1 M2 M3. constructor. intros x' (a & On & S).
  pose proof (xinv_step w clients kinds H failed (fun c i m => failed c i m \/ a = XFail c i m) a x x' V ltac:(auto) S) as V'.
  destruct (xstep_moved _ _ _ H _ _ _ _ V S) as [c k ca s s' Ec M _ Q|j v v' f o Ev Ef Vs ND Cm Q].
  - eapply IH1; [|exact V'|reflexivity|reflexivity|reflexivity]. unfold cworks in *. cbn [x_clients]. pose proof (total_lset (fun p : kind * client => work (snd p)) _ _ _ (k, s') Ec) as T. cbn [snd] in T.
    assert (Ia : internal ca s).
    { destruct a as [c' ca'|?|?|?|c' i ?|c' i m]; try contradiction.
      - destruct Q as [-> ->]. exact (On _ _ Ec).
      - destruct Q as [-> (st0 & resp & ->)]. exact Logic.I.
      - destruct Q as [-> ->]. exact Logic.I. }
    pose proof (work_decreases k ca s s' (xv_inv _ _ _ _ _ _ _ _ V Ec) Ia M). lia.
  - destruct a as [c' ca'|j' sa|j' sa|c i n|c' i ?|c' i m]; try contradiction.
    + destruct Q as (_ & -> & _ & k & s & s' & -> & -> & G). cbn [map] in *. rewrite app_nil_r in *.
      assert (Sf : lset j f (x_from x) = x_from x).
      { clear - Ef. revert j f Ef. induction (x_from x) as [|g m IH]; intros [|j] f E; try discriminate; cbn [lset nth_error] in *; [congruence|f_equal; auto]. }
      rewrite Sf in *. eapply IH3; [|exact V'|exact M1|exact M2|reflexivity]. cbn [x_servers]. subst n3. apply (vworks_lset w _ _ _ _ _ Ev). cbn [vwork Nat.add]. eapply gsteps_less; eassumption.
    + destruct Q as (_ & -> & _ & s & s' & reqs & -> & -> & G). cbn [map] in *. rewrite app_nil_r in *.
      assert (Sf : lset j f (x_from x) = x_from x).
      { clear - Ef. revert j f Ef. induction (x_from x) as [|g m IH]; intros [|j] f E; try discriminate; cbn [lset nth_error] in *; [congruence|f_equal; auto]. }
      rewrite Sf in *. eapply IH3; [|exact V'|exact M1|exact M2|reflexivity]. cbn [x_servers]. subst n3. apply (vworks_lset w _ _ _ _ _ Ev). cbn [vwork Nat.add].
      destruct (xv_s _ _ _ _ _ V _ _ Ev) as (kd & Ek & Ok). destruct kd as [kd|]; [destruct Ok|]. destruct Ok as (Sv & _).
      eapply (swork_decreases true); [|exact Sv|exact On|exact G]. exact (polled_good w j reqs (H _ _ Ek)).
    + eapply IH2; [|exact V'|exact M1|reflexivity|reflexivity]. pose proof (delivered_bound _ _ _ _ _ V') as B. cbn [x_from x_clients] in *.
      assert (L : length (concat (lset j (f ++ map (fun p => (fst p, snd (snd p))) o) (x_from x))) = length (concat (x_from x)) + 1).
      { rewrite (Permutation_length (concat_lset _ _ _ _ Ef)), app_length, map_length. destruct Q as (r & k & q & _ & _ & -> & _). reflexivity. }
      change (length (all_rpcs _)) with (length (all_rpcs x)) in B |- * at 1. rewrite L in *. lia.
Qed.
Theorem C90_terminates : forall w clients kinds l x, handlers_ok w kinds -> xrun w l (xstart clients kinds) = XNext x -> Acc (before w) x.
Proof. intros w clients kinds l x H R. eapply before_acc; [exact H|exact (run_inv _ _ _ _ _ H R)|reflexivity|reflexivity|reflexivity]. Qed.

(** It is not so that an RPC to a server that runs gets called back: after one
    response of a polling server could not be sent, it takes one more call and
    then no other.  An RPC made later stays without a callback and
    ShutdownClient waits for it, unless gRPC reports an error. *)
Definition ex_h : nat -> nat -> str -> list hop * str := fun j k q => ([HRead; HSend; HFree], (s_ "re:" ++ q)%list).
Definition ex_w : gworld := mkGw (fun _ p => p) ex_h.
Definition ask (c i p : nat) (q : str) : list xaction := [XClient c (Initiate p q None); XClient c (Advance i); XClient c (Advance i)].
Definition polled_serve (j k n : nat) (ok : bool) : list xaction :=
  [XPolled j (PollServer 0); XPolled j (Handle k); XPolled j (Handle k); XPolled j (Handle k); XPolled j (PollServer 0); XPolled j (Sent n ok); XPolled j (PollServer 0)].
Definition poll_reply (c i : nat) : list xaction :=
  [XClient c (Poll None); XClient c (Poll (Some i)); XClient c (Poll None); XClient c (Poll None); XClient c (Poll None); XClient c (Poll None)].
Definition deaf_net : list xaction :=
  (XPolled 0 (PollServer 0) :: ask 0 0 0 (s_ "a") ++ [XDeliver 0 0 0] ++ polled_serve 0 0 1 false ++ [XFail 0 0 (s_ "lost")] ++ poll_reply 0 0
   ++ ask 0 1 0 (s_ "b") ++ [XDeliver 0 1 0] ++ polled_serve 0 1 0 true ++ [XReply 0 1 1] ++ poll_reply 0 1
   ++ ask 0 2 0 (s_ "c") ++ [XClient 0 Shutdown])%list.
Lemma inflight_kept k a s s' i r : cstep k a s = Next s' -> nth_error (c_rpcs s) i = Some r -> r_phase r = InFlight -> (forall st resp, a <> Wire i st resp) -> nth_error (c_rpcs s') i = Some r.
Proof.
  intros E N P Na.
  assert (Co : forall j rj s1, nth_error (c_rpcs s) j = Some rj -> complete j rj s = Some s1 -> nth_error (c_rpcs s1) i = Some r).
  { intros j rj s1 Nj C. assert (D : i <> j) by (intros ->; assert (rj = r) by congruence; subst rj; unfold complete in C; rewrite P in C; discriminate).
    unfold complete in C. destruct (r_phase rj); try discriminate; try (destruct (busy _ _); [discriminate|]); injection C as <-; cbn [set_rpc set_pending c_rpcs]; rewrite lset_neq by exact D; exact N. }
  destruct a as [p q o|j|j st resp|t|]; cbn [cstep] in E.
  - unfold initiate in E. match type of E with (if negb ?b then _ else _) = _ => destruct b end; cbn [negb] in E; [|discriminate].
    destruct (_ <? _); [|discriminate]. injection E as <-. cbn [c_rpcs]. apply snoc_old, N.
  - unfold advance in E. destruct (nth_error (c_rpcs s) j) as [rj|] eqn:Nj; [|discriminate].
    destruct (r_phase rj) eqn:Pj; try (destruct k; [discriminate|]; destruct (complete j rj s) as [s1|] eqn:C; [|discriminate]; injection E as <-; exact (Co _ _ _ Nj C)).
    + injection E as <-. assert (D : i <> j) by congruence. cbn [count set_rpc set_pending c_rpcs]. rewrite lset_neq by exact D. exact N.
    + unfold post in E. destruct (nth_error (c_stubs s) (r_peer rj)) as [[|]|]; try discriminate. assert (D : i <> j) by congruence.
      assert (E2 : Next (set_rpc j (with_phase InFlight rj) s) = Next s') by (destruct k; [destruct (c_cq_shut s); [discriminate|]|]; exact E).
      injection E2 as <-. cbn [set_rpc c_rpcs]. rewrite lset_neq by exact D. exact N.
  - unfold wire in E. destruct (nth_error (c_rpcs s) j) as [rj|] eqn:Nj; [|discriminate]. destruct (r_phase rj) eqn:Pj; try discriminate. injection E as <-.
    cbn [set_rpc c_rpcs]. rewrite lset_neq; [exact N|]. intros ->. exact (Na st resp eq_refl).
  - unfold poll in E. destruct k; [|discriminate]. destruct (c_poller s) as [| |j|].
    + injection E as <-. exact N.
    + destruct t as [j|].
      * destruct (nth_error (c_rpcs s) j) as [rj|]; [|discriminate]. destruct (r_phase rj); try discriminate. injection E as <-. exact N.
      * destruct (_ && _); [|discriminate]. injection E as <-. exact N.
    + destruct (nth_error (c_rpcs s) j) as [rj|] eqn:Nj; [|discriminate]. destruct (complete j rj s) as [s1|] eqn:C; [|discriminate].
      pose proof (Co _ _ _ Nj C) as M. destruct (r_phase rj); injection E as <-; exact M.
    + discriminate.
  - unfold shutdown in E. destruct (c_shut s); try (injection E as <-; exact N).
    + destruct (Z.eqb _ _); [|discriminate]. injection E as <-. exact N.
    + destruct (c_poller s); try discriminate. injection E as <-. exact N.
Qed.
Definition deaf (s : server) : Prop := v_ops s = [] /\ v_events s = [] /\ (forall i f, nth_error (v_fsms s) i = Some f -> f_ops f = Some []) /\ (v_poller s = SpNext \/ v_poller s = SpExited).
Lemma deaf_step prog a s s' : deaf s -> sstep prog a s = SNext s' -> deaf s'.
Proof.
  intros (O & Ev & F & P) E.
  assert (Co : forall want n ok, complete_op want n ok s = SStuck) by (intros want n ok; unfold complete_op; rewrite O; destruct n; reflexivity).
  destruct a as [|n|n|n ok|n|i|]; cbn [sstep] in E; rewrite ?Co in E.
  - injection E as <-. repeat split; assumption.
  - destruct (shutting s); discriminate.
  - destruct (shutting s); discriminate.
  - discriminate.
  - unfold poll_server in E. destruct P as [P|P]; rewrite P in E; [|discriminate]. rewrite Ev, O in E.
    destruct n; cbn [nth_error] in E; (destruct (queue_shut s); [|discriminate]); injection E as <-; unfold deaf; cbn [set_spoller v_ops v_events v_fsms v_poller]; auto.
  - unfold handle_op in E. destruct (nth_error (v_fsms s) i) as [f|] eqn:N; [|discriminate]. rewrite (F _ _ N) in E. discriminate.
  - unfold shutdown_server in E. destruct (v_shut s); try discriminate; try (injection E as <-; repeat split; assumption).
    + destruct (forallb _ _); [|discriminate]. injection E as <-. repeat split; assumption.
    + destruct (v_detected s); [|discriminate]. injection E as <-. repeat split; assumption.
    + destruct (v_poller s) eqn:Po; try discriminate. injection E as <-. unfold deaf. cbn [set_sshut v_ops v_events v_fsms v_poller]. rewrite Po. repeat split; auto.
Qed.
Definition cut_off (x : gnet) : Prop :=
  exists s r v reqs f, x_clients x = [(Polling, s)] /\ inv Polling s /\ c_shut s = ShSpin /\ nth_error (c_rpcs s) 2 = Some r /\ r_phase r = InFlight /\ r_calls r = [] /\
    x_servers x = [GPolled v reqs] /\ deaf v /\ x_from x = [f] /\ forall k, ~ In (k, (0, 2)) f.
Lemma cut_client c a x x' : cut_off x -> (forall st resp, c = 0 -> a <> Wire 2 st resp) -> on_client c a x = XNext x' -> cut_off x'.
Proof.
  intros (s & r & v & reqs & f & Ec & I & Sh & N & P & Cs & Es & Df & Ef & Nf) Na E. apply on_client_next in E. destruct E as (k & s0 & s' & E0 & M & ->).
  rewrite Ec in E0. destruct c as [|[|c]]; try discriminate. injection E0 as <- <-.
  exists s', r, v, reqs, f. cbn [x_clients x_servers x_from]. rewrite Ec. cbn [lset]. split; [reflexivity|]. split; [exact (inv_step _ _ _ _ I M)|].
  split.
  - assert (Pn : c_pending s <> 0%Z).
    { rewrite (b_pending _ _ (proj1 I)). assert (0 < cnt held (c_rpcs s)); [|lia]. apply (cnt_pos held _ 2 r N). unfold held. rewrite P. reflexivity. }
    destruct a as [p q o|j|j st resp|t|]; cbn [cstep] in M.
    + unfold initiate in M. match type of M with (if negb ?b then _ else _) = _ => destruct b end; cbn [negb] in M; [|discriminate]. destruct (_ <? _); [|discriminate]. injection M as <-. exact Sh.
    + unfold advance in M. destruct (nth_error (c_rpcs s) j) as [rj|]; [|discriminate]. destruct (r_phase rj); try discriminate.
      * injection M as <-. exact Sh.
      * unfold post in M. destruct (nth_error (c_stubs s) (r_peer rj)) as [[|]|]; try discriminate. destruct (c_cq_shut s); [discriminate|]. injection M as <-. exact Sh.
    + unfold wire in M. destruct (nth_error (c_rpcs s) j) as [rj|]; [|discriminate]. destruct (r_phase rj); try discriminate. injection M as <-. exact Sh.
    + assert (Co : forall j rj s1, complete j rj s = Some s1 -> c_shut s1 = c_shut s).
      { intros j rj s1 C. unfold complete in C. destruct (r_phase rj); try discriminate; try (destruct (busy _ _); [discriminate|]); injection C as <-; reflexivity. }
      unfold poll in M. destruct (c_poller s) as [| |j|]; [injection M as <-; exact Sh| | |discriminate].
      * destruct t as [j|]; [destruct (nth_error (c_rpcs s) j) as [rj|]; [|discriminate]; destruct (r_phase rj); try discriminate; injection M as <-; exact Sh|].
        destruct (_ && _); [|discriminate]. injection M as <-. exact Sh.
      * destruct (nth_error (c_rpcs s) j) as [rj|]; [|discriminate]. destruct (complete j rj s) as [s1|] eqn:C; [|discriminate]. pose proof (Co _ _ _ C) as Z.
        destruct (r_phase rj); injection M as <-; cbn [set_poller c_shut]; congruence.
    + unfold shutdown in M. rewrite Sh in M. destruct (Z.eqb_spec (c_pending s) 0); [congruence|discriminate].
  - split; [eapply inflight_kept; [exact M|exact N|exact P|]; intros st resp; apply Na; reflexivity|]. auto 10.
Qed.
Lemma cut_step w a x x' : cut_off x -> (forall m, a <> XFail 0 2 m) -> xstep w a x = XNext x' -> cut_off x'.
Proof.
  intros C Na E. destruct a as [c ca|j sa|j sa|c i n|c i k|c i m]; cbn [xstep] in E.
  - assert (K : on_client c ca x = XNext x' /\ forall st resp, ca <> Wire 2 st resp) by (destruct ca; try discriminate; split; try assumption; discriminate).
    destruct K as [K W]. eapply cut_client; [exact C| |exact K]. auto.
  - exfalso. assert (K : on_direct w j sa [] x = XNext x') by (destruct sa; try discriminate; exact E). apply on_direct_next in K. destruct K as (k & s & s' & f & Z & _).
    destruct C as (s1 & r & v & reqs & f1 & _ & _ & _ & _ & _ & _ & Es & _). rewrite Es in Z. destruct j as [|[|]]; discriminate.
  - assert (K : on_polled w j sa [] x = XNext x') by (destruct sa; try discriminate; exact E). apply on_polled_next in K. destruct K as (s & reqs0 & s' & f0 & Z & F0 & M & ->).
    destruct C as (s1 & r & v & reqs & f & Ec & I & Sh & N & P & Cs & Es & Df & Ef & Nf). rewrite Es in Z. rewrite Ef in F0. destruct j as [|[|]]; try discriminate.
    injection Z as <- <-. injection F0 as <-. exists s1, r, s', (reqs ++ []), (f ++ []). cbn [x_clients x_servers x_from]. rewrite Es, Ef. cbn [lset map].
    repeat (split; [assumption || reflexivity|]). split; [eapply deaf_step; eassumption|]. split; [reflexivity|]. rewrite app_nil_r. exact Nf.
  - exfalso. destruct C as (s1 & r1 & v & reqs & f & Ec & I & Sh & N & P & Cs & Es & Df & Ef & Nf). destruct (flying c i x) as [r|]; [|discriminate].
    destruct (existsb _ _); [discriminate|]. destruct (r_request r); [|discriminate]. rewrite Es in E. destruct (gw_route w c (r_peer r)) as [|[|g]]; cbn [nth_error] in E; try discriminate.
    destruct Df as (O & _). rewrite O in E. destruct n; discriminate.
  - pose proof C as (s1 & r1 & v & reqs & f & Ec & I & Sh & N & P & Cs & Es & Df & Ef & Nf). destruct (flying c i x) as [r|]; [|discriminate].
    destruct (nth_error (x_servers x) _) as [v1|]; [|discriminate]. destruct (nth_error (x_from x) _) as [f1|] eqn:F1; [|discriminate].
    rewrite Ef in F1. destruct (gw_route w c (r_peer r)) as [|[|g]]; cbn [nth_error] in F1; try discriminate. injection F1 as <-.
    destruct (lookup k f) as [o|] eqn:L; [|discriminate]. destruct (is_rpc (c, i) o) eqn:Q; [|discriminate]. apply is_rpc_true in Q. subst o. apply lookup_In in L.
    destruct (reply_of _ _ _) as [[st resp]|]; [|discriminate]. eapply cut_client; [exact C| |exact E]. intros st2 resp2 -> Z. injection Z as -> _ _. exact (Nf _ L).
  - eapply cut_client; [exact C| |exact E]. intros st resp -> Z. injection Z as -> _ _. exact (Na m eq_refl).
Qed.
Lemma cut_run w l : forall x x', cut_off x -> (forall m, ~ In (XFail 0 2 m) l) -> xrun w l x = XNext x' -> cut_off x'.
Proof.
  induction l as [|a l IH]; intros x x' C Na R; cbn [xrun] in R; [congruence|].
  assert (N1 : forall m, a <> XFail 0 2 m) by (intros m ->; exact (Na m (or_introl eq_refl))). assert (N2 : forall m, ~ In (XFail 0 2 m) l) by (intros m H; exact (Na m (or_intror H))).
  destruct (xstep w a x) as [x1| |] eqn:S; [|discriminate|eauto]. eapply IH; [|exact N2|exact R]. eapply cut_step; eassumption.
Qed.
Theorem C90_deaf_server_refuted : handlers_ok ex_w [None] /\ clients_ok ex_w [(Polling, [true])] deaf_net (xstart [(Polling, [true])] [None]) /\
  ~ In (XPolled 0 ShutdownServer) deaf_net /\
  exists x, xrun ex_w deaf_net (xstart [(Polling, [true])] [None]) = XNext x /\
    forall l x2, (forall m, ~ In (XFail 0 2 m) l) -> xrun ex_w l x = XNext x2 ->
      exists s r, nth_error (x_clients x2) 0 = Some (Polling, s) /\ nth_error (c_rpcs s) 2 = Some r /\ r_calls r = [] /\ c_shut s = ShSpin.
Proof.
  split; [intros [|[|j]] kd E; try discriminate; injection E as <-; reflexivity|]. split.
  - vm_compute. repeat match goal with |- _ /\ _ => split | |- True => exact Logic.I end; intros k s stubs E1 E2; injection E2 as <- <-; injection E1 as <-;
      try exact Logic.I; try (split; reflexivity). intros _ [|[|[|i]]] r E; try discriminate E; try (destruct i; discriminate E); injection E as <-; intros _ H; discriminate H.
  - split; [vm_compute; intuition discriminate|]. eexists. split; [vm_compute; reflexivity|].
    match goal with |- forall l x2, _ -> xrun _ l ?x = _ -> _ => assert (C : cut_off x) end.
    { eexists _, _, _, _, _. split; [reflexivity|]. split.
      - assert (R : exists l s, crun Polling l (start_client [true]) = Next s /\ s = mkClient [true] 1 [mkRpc 0 None (Some (s_ "a")) (mkCs None [] (Some (s_ "lost")) (Some false)) Released [mkCs None [] (Some (s_ "lost")) (Some false)] (s_ "a") (Some (Some (s_ "lost"), []));
            mkRpc 0 None None (mkCs (Some (s_ "b")) (s_ "re:b") None (Some true)) Released [mkCs (Some (s_ "b")) (s_ "re:b") None (Some true)] (s_ "b") (Some (None, s_ "re:b"));
            mkRpc 0 None (Some (s_ "c")) (mkCs None [] None None) InFlight [] (s_ "c") None] PoTest false false ShSpin).
        { exists [Initiate 0 (s_ "a") None; Advance 0; Advance 0; Wire 0 (Some (s_ "lost")) []; Poll None; Poll (Some 0); Poll None; Poll None; Poll None; Poll None;
            Initiate 0 (s_ "b") None; Advance 1; Advance 1; Wire 1 None (s_ "re:b"); Poll None; Poll (Some 1); Poll None; Poll None; Poll None; Poll None;
            Initiate 0 (s_ "c") None; Advance 2; Advance 2; Shutdown]. eexists. split; [vm_compute; reflexivity|]. vm_compute. reflexivity. }
        destruct R as (l & s & R & Q). pose proof (inv_run _ _ _ _ (inv_start Polling [true]) R) as V. subst s. exact V.
      - split; [reflexivity|]. split; [reflexivity|]. split; [reflexivity|]. split; [reflexivity|]. split; [reflexivity|]. split.
        + split; [reflexivity|]. split; [reflexivity|]. split; [|left; reflexivity]. intros [|[|i]] f E; try (injection E as <-; reflexivity). destruct i; discriminate E.
        + split; [reflexivity|]. intros k [H|[H|[]]]; discriminate H. }
    intros l x2 Na R. destruct (cut_run _ _ _ _ C Na R) as (s & r & v & reqs & f & Ec & _ & Sh & N & _ & Cs & _). exists s, r. rewrite Ec. auto.
Qed.

(** Two clients and the three kinds of servers; the last RPC gets an error of
    gRPC's instead of its response, and both clients shut down. *)
Definition direct_serve (j k : nat) : list xaction := [XDirect j (GCall k); XDirect j (GOp k); XDirect j (GOp k); XDirect j (GOp k); XDirect j (GReturn k); XDirect j (GClose k)].
Definition call_back (c i : nat) : list xaction := [XClient c (Advance i); XClient c (Advance i); XClient c (Advance i); XClient c (Advance i)].
Definition ex_clients : list (kind * list bool) := [(Polling, [true; true; true]); (Callback, [true; true; true])].
Definition ex_kinds : list (option skind) := [Some Inline; Some Handoff; None].
Definition ex_net : list xaction :=
  (ask 0 0 0 (s_ "a") ++ ask 0 1 1 (s_ "b") ++ ask 1 0 0 (s_ "c") ++ ask 1 1 2 (s_ "d") ++ ask 0 2 2 (s_ "e") ++ ask 1 2 1 (s_ "f")
   ++ [XDeliver 1 0 0; XDeliver 0 0 0; XDeliver 0 1 0; XDeliver 1 1 0; XDeliver 1 2 0; XPolled 2 (PollServer 0)]
   ++ direct_serve 0 1 ++ direct_serve 1 0 ++ polled_serve 2 0 1 true ++ direct_serve 0 0 ++ [XReply 0 0 1; XReply 1 1 0; XReply 1 0 0; XDeliver 0 2 0; XFail 1 2 (s_ "gone")]
   ++ poll_reply 0 0 ++ call_back 1 1 ++ call_back 1 0 ++ call_back 1 2 ++ [XReply 0 1 0; XClient 0 Shutdown] ++ poll_reply 0 1 ++ polled_serve 2 1 1 true ++ direct_serve 1 1
   ++ [XReply 0 2 1] ++ poll_reply 0 2
   ++ [XClient 0 Shutdown; XClient 0 Shutdown; XClient 0 Shutdown; XClient 0 (Poll None); XClient 0 Shutdown; XClient 0 Shutdown;
       XClient 1 Shutdown; XClient 1 Shutdown; XClient 1 Shutdown])%list.
Example C90_ex_handlers : handlers_ok ex_w ex_kinds.
Proof.
  intros [|[|[|j]]] kd E; try (destruct j; discriminate); injection E as <-; [intros i q; split; [reflexivity|discriminate]|intros i q; split; reflexivity|intros i q; reflexivity].
Qed.
Example C90_ex_clients : clients_ok ex_w ex_clients ex_net (xstart ex_clients ex_kinds).
Proof.
  vm_compute. repeat match goal with |- _ /\ _ => split | |- True => exact Logic.I end; intros k s stubs E1 E2; injection E2 as <- <-; injection E1 as <-;
    try exact Logic.I; try (split; reflexivity); try (intros H; discriminate H); intros _ [|[|[|i]]] r E; try discriminate E; try (destruct i; discriminate E); injection E as <-; intros _ H; discriminate H.
Qed.
Example C90_ex_calm : Forall calm ex_net /\
  forall c k stubs p, nth_error ex_clients c = Some (k, stubs) -> nth_error stubs p = Some true -> gw_route ex_w c p < length ex_kinds.
Proof.
  split; [repeat constructor|]. intros [|[|c]] k stubs p E F; try (destruct c; discriminate); injection E as <- <-; destruct p as [|[|[|p]]]; cbn in *; try lia; destruct p; discriminate.
Qed.
Example C90_ex : exists x, xrun ex_w ex_net (xstart ex_clients ex_kinds) = XNext x /\
  map (fun p => (c_shut (snd p), map r_calls (c_rpcs (snd p)))) (x_clients x) =
    [(ShDone, [[mkCs (Some (s_ "a")) (s_ "re:a") None (Some true)]; [mkCs (Some (s_ "b")) (s_ "re:b") None (Some true)]; [mkCs (Some (s_ "e")) (s_ "re:e") None (Some true)]]);
     (ShDone, [[mkCs (Some (s_ "c")) (s_ "re:c") None (Some true)]; [mkCs (Some (s_ "d")) (s_ "re:d") None (Some true)]; [mkCs None [] (Some (s_ "gone")) (Some false)]])] /\
  x_from x = [[(0, (1, 0)); (1, (0, 0))]; [(0, (0, 1)); (1, (1, 2))]; [(0, (1, 1)); (1, (0, 2))]] /\
  forall a, gentle a x -> xstep ex_w a x = XStuck.
Proof.
  eexists. split; [vm_compute; reflexivity|]. split; [reflexivity|]. split; [reflexivity|].
  intros [c ca|j sa|j sa|c i n|c i k|c i m] G.
  - destruct c as [|[|c]]; [| |destruct c, ca; reflexivity]; specialize (G _ _ eq_refl); (destruct ca as [p q o|i|i st resp|t|]; [destruct G| |reflexivity|try reflexivity|destruct G as [_ G]; destruct (G eq_refl)]);
      destruct i as [|[|[|i]]]; try reflexivity; destruct i; reflexivity.
  - destruct j as [|[|[|j]]]; destruct sa as [|q|i|i|i|i|]; try destruct G; try reflexivity; try (destruct j; reflexivity); destruct i as [|[|i]]; try reflexivity; destruct i; reflexivity.
  - destruct j as [|[|[|j]]]; destruct sa as [|n|n|n [|]|n|i|]; try destruct G; try reflexivity; try (destruct j; reflexivity);
      try (destruct n as [|[|n]]; try reflexivity; destruct n; reflexivity); destruct i as [|[|[|i]]]; try reflexivity; destruct i; reflexivity.
  - cbn [xstep]. unfold flying. destruct c as [|[|c]]; [| |destruct c; reflexivity]; destruct i as [|[|[|i]]]; try reflexivity; destruct i; reflexivity.
  - cbn [xstep]. unfold flying. destruct c as [|[|c]]; [| |destruct c; reflexivity]; destruct i as [|[|[|i]]]; try reflexivity; destruct i; reflexivity.
  - destruct G.
Qed.

Print Assumptions C90_completes.
Print Assumptions C90_terminates.
Print Assumptions C90_deaf_server_refuted.
