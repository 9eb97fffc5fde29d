(** Property C89: the inline and the handoff server of the gRPC driver. *)
From Coq Require Import Ascii String List NArith ZArith Bool Arith Lia.
From Verif Require Import Base_Model Grpc_Model Grpc_Proofs Grpc_Proofs2 Grpc_Props Gsrv_Model Gsrv_Proofs.
Import ListNotations.
Open Scope nat_scope.

(** Handlers that read, send once, free once and nothing more; for the handoff
    server they do not read after they sent. *)
Definition keeps (k : skind) (h : nat -> str -> list hop * str) : Prop := forall i q,
  contract true (fst (h i q)) = true /\ (k = Handoff -> no_late_read false (fst (h i q)) = true).
Lemma keeps_proper k h : keeps k h -> proper k h.
Proof. intros H i q. destruct (H i q) as [A B]. split; [exact A|]. destruct k; [exact Logic.I|exact (B eq_refl)]. Qed.

(** Whatever the interleaving, nothing that was freed is used and no response is
    sent twice. *)
Theorem C89_safe : forall k h l, keeps k h -> exists s, grun k h l gstart = GNext s.
Proof.
  intros k h l H. pose proof (grun_ok k h l (keeps_proper k h H) _ (ginv_start k h)) as V. destruct (grun k h l gstart); [eauto|destruct V..].
Qed.
(** A call is answered at most once; the answer is OK with the response of the
    handler to this call's request, never UNAVAILABLE; the state is deleted at
    most once and only after the response was sent. *)
Theorem C89_answer : forall k h l s i c, keeps k h -> grun k h l gstart = GNext s -> nth_error (g_calls s) i = Some c ->
  k_sent c <= 1 /\ k_freed c <= k_sent c /\ k_unset c = false /\
  forall a, k_reply c = Some a -> a = (None, snd (h i (k_request c))) /\ k_sent c = 1.
Proof.
  intros k h l s i c H R E. pose proof (gi_call _ _ _ (ginv_run k h l s (keeps_proper k h H) R) _ _ E) as O.
  remember (k_request c) as q eqn:Q. remember (snd (h i q)) as resp. clear Q E R. destruct O; cbn [k_sent k_freed k_unset k_reply].
  - repeat split; auto; discriminate.
  - repeat split; auto; discriminate.
  - split; [lia|]. split; [lia|]. split; [reflexivity|]. intros a A. destruct k; [discriminate|]. injection A as <-. auto.
  - split; [lia|]. split; [destruct k; lia|]. split; [reflexivity|]. intros a A. destruct k; [destruct b; [discriminate|]|]; injection A as <-; auto.
Qed.
(** ShutdownServer returns only when every call that arrived was answered; and
    when the driver is gone no handler has anything left to do and, in the
    handoff server, every state was deleted once. *)
Theorem C89_shutdown_waits : forall k h l s i c, keeps k h -> grun k h l gstart = GNext s -> nth_error (g_calls s) i = Some c ->
  (g_shut s = GsReturned \/ g_shut s = GsGone -> k_closed c = true /\ k_inside c = false /\ k_reply c = Some (None, snd (h i (k_request c)))) /\
  (g_shut s = GsGone -> k_ops c = Some [] /\ (k = Handoff -> k_freed c = 1)).
Proof.
  intros k h l s i c H R E. pose proof (ginv_run k h l s (keeps_proper k h H) R) as V. pose proof (gi_call _ _ _ V _ _ E) as O.
  split.
  - intros S. pose proof (gi_closed _ _ _ V S _ _ E) as C. split; [exact C|].
    remember (k_request c) as q eqn:Q. remember (snd (h i q)) as resp. clear Q E R. destruct O; cbn [k_closed k_inside k_reply] in *; try discriminate.
    + specialize (H3 C). subst b. split; [reflexivity|]. destruct k; [specialize (H2 eq_refl); discriminate|reflexivity].
    + specialize (H0 C). subst b. split; [reflexivity|]. destruct k; reflexivity.
  - intros S. pose proof (gi_over _ _ _ V S _ _ E) as C. split; [exact C|]. intros ->.
    remember (k_request c) as q eqn:Q. remember (snd (h i q)) as resp. clear Q E R. destruct O; cbn [k_ops k_freed] in *; try discriminate; try reflexivity.
    + injection C as ->. discriminate.
    + injection C as ->. discriminate.
Qed.
(** Once shutdown has begun and nothing can move any more, the driver is gone:
    if the handler was set. *)
Definition ginternal (a : gaction) : bool := match a with GSetHandler | GArrive _ => false | _ => true end.
Lemma call_over k q resp c : call_ok k q resp c -> k_ops c = Some [] -> k_inside c = false -> k_reply c = None -> False.
Proof.
  intros [] Ko Ki Kr; cbn [k_ops k_inside k_reply] in *; try discriminate; try (injection Ko as ->; discriminate).
  destruct k; [destruct b; discriminate|discriminate].
Qed.
Theorem C89_shutdown_completes : forall k h l s, keeps k h -> grun k h l gstart = GNext s -> g_handler s = true -> g_shut s <> GsNot ->
  (forall a, ginternal a = true -> gstep k h a s = GStuck) -> g_shut s = GsGone.
Proof.
  intros k h l s H R Gh Gn St. pose proof (ginv_run k h l s (keeps_proper k h H) R) as V.
  assert (All : forall i c, nth_error (g_calls s) i = Some c -> k_closed c = true /\ k_ops c = Some []).
  { intros i c E. pose proof (gi_call _ _ _ V _ _ E) as O. pose proof (gi_both _ _ _ V Gh) as Gs.
    pose proof (St (GCall i) eq_refl) as S1. pose proof (St (GOp i) eq_refl) as S2. pose proof (St (GReturn i) eq_refl) as S3. pose proof (St (GClose i) eq_refl) as S4.
    cbn [gstep] in S1, S2, S3, S4. rewrite E in S1, S2, S3, S4. rewrite Gs, Gh in S1. cbn [negb] in S1.
    destruct (k_ops c) as [[|o rest]|] eqn:Ko; [|destruct (gmove_ok _ _ _ _ _ _ O Ko) as (c' & Gm & _); rewrite Gm in S2; discriminate|discriminate].
    split; [|reflexivity]. destruct (k_inside c) eqn:Ki; cbn [negb] in S3; [destruct k; discriminate|].
    destruct (k_reply c) eqn:Kr.
    - destruct (k_closed c); [reflexivity|discriminate].
    - destruct (call_over _ _ _ _ O Ko Ki Kr). }
  pose proof (St GShutdown eq_refl) as S. cbn [gstep] in S. destruct (g_shut s); [congruence| | |reflexivity]; exfalso.
  - assert (F : forallb k_closed (g_calls s) = true); [|rewrite F in S; discriminate].
    apply forallb_forall. intros c I. apply In_nth_error in I. destruct I as [i E]. exact (proj1 (All i c E)).
  - assert (F : forallb (fun c => match k_ops c with Some [] => true | _ => false end) (g_calls s) = true); [|rewrite F in S; discriminate].
    apply forallb_forall. intros c I. apply In_nth_error in I. destruct I as [i E]. rewrite (proj2 (All i c E)). reflexivity.
Qed.
(** That point comes: without new calls only so many steps can be taken. *)
Definition gwork1 (h : nat -> str -> list hop * str) (i : nat) (c : gcall) : nat :=
  match k_ops c with None => S (length (fst (h i (k_request c)))) | Some l => length l end + b2n (k_inside c) + b2n (negb (k_closed c)).
Fixpoint gwork (h : nat -> str -> list hop * str) (i : nat) (l : list gcall) : nat :=
  match l with [] => 0 | c :: r => gwork1 h i c + gwork h (S i) r end.
Definition gsteps (h : nat -> str -> list hop * str) (s : gsrv) : nat :=
  gwork h 0 (g_calls s) + match g_shut s with GsNot => 3 | GsShutting => 2 | GsReturned => 1 | GsGone => 0 end.
Lemma gwork_lset h l : forall i n c c', nth_error l i = Some c -> gwork1 h (n + i) c' < gwork1 h (n + i) c -> gwork h n (lset i c' l) < gwork h n l.
Proof.
  induction l as [|d l IH]; intros [|i] n c c' E L; try discriminate; cbn [nth_error lset gwork] in *.
  - injection E as ->. rewrite Nat.add_0_r in L. lia.
  - assert (gwork h (S n) (lset i c' l) < gwork h (S n) l); [|lia]. apply (IH i (S n) c c' E). rewrite Nat.add_succ_comm. exact L.
Qed.
Lemma gsteps_less k h a s s' : ginternal a = true -> gstep k h a s = GNext s' -> gsteps h s' < gsteps h s.
Proof.
  assert (One : forall i c c', nth_error (g_calls s) i = Some c -> gwork1 h i c' < gwork1 h i c -> gsteps h (set_calls (lset i c' (g_calls s)) s) < gsteps h s).
  { intros i c c' E L. unfold gsteps. cbn [set_calls g_calls g_shut]. pose proof (gwork_lset h _ i 0 c c' E L). lia. }
  intros I E. destruct a as [|q|i|i|i|i|]; try discriminate; cbn [gstep] in E.
  - destruct (nth_error (g_calls s) i) as [c|] eqn:N; [|discriminate]. destruct (k_ops c) eqn:O; [discriminate|].
    destruct (g_set s); cbn [negb] in E; [|discriminate]. destruct (g_handler s); injection E as <-; apply (One i c _ N); unfold gwork1; rewrite O; cbn [k_ops k_inside k_closed length]; lia.
  - destruct (nth_error (g_calls s) i) as [c|] eqn:N; [|discriminate]. destruct (k_ops c) as [[|o rest]|] eqn:O; try discriminate.
    destruct (gmove _ _ _ _ _) as [c'|] eqn:M; [|discriminate]. injection E as <-. apply (One i c _ N).
    assert (M' : k_ops c' = Some rest /\ k_inside c' = k_inside c /\ k_closed c' = k_closed c).
    { unfold gmove in M. destruct k; [destruct o|destruct (0 <? k_freed c); [discriminate|]; destruct o]; try (destruct (0 <? k_sent c); [discriminate|]); injection M as <-; auto. }
    destruct M' as (A & B & C). unfold gwork1. rewrite A, B, C, O. cbn [length]. lia.
  - destruct (nth_error (g_calls s) i) as [c|] eqn:N; [|discriminate]. destruct (k_inside c) eqn:Ki; cbn [negb] in E; [|discriminate].
    destruct k; [destruct (k_ops c) as [[|]|] eqn:O; try discriminate|destruct (k_ops c) as [lo|] eqn:O; [|discriminate]];
      injection E as <-; apply (One i c _ N); unfold gwork1; rewrite Ki, O; cbn [k_ops k_inside k_closed length b2n]; lia.
  - destruct (nth_error (g_calls s) i) as [c|] eqn:N; [|discriminate]. destruct (k_inside c) eqn:Ki; [discriminate|].
    destruct (k_reply c); [|discriminate]. destruct (k_closed c) eqn:Kc; [discriminate|]. injection E as <-. apply (One i c _ N). unfold gwork1. rewrite Kc, Ki.
    cbn [k_ops k_inside k_closed b2n negb k_request]. lia.
  - unfold gsteps. destruct (g_shut s); [| | |discriminate]; try (destruct (forallb _ _); [|discriminate]); injection E as <-; cbn [g_calls g_shut]; lia.
Qed.
Fixpoint all_geffective (k : skind) (h : nat -> str -> list hop * str) (l : list gaction) (s : gsrv) : Prop :=
  match l with
  | [] => True
  | a :: r => ginternal a = true /\ exists s', gstep k h a s = GNext s' /\ all_geffective k h r s'
  end.
Theorem C89_terminates : forall k h s, exists bound, forall l, all_geffective k h l s -> length l <= bound.
Proof.
  intros k h s. exists (gsteps h s). intros l. revert s. induction l as [|a l IH]; intros s H; cbn [length]; [lia|].
  destruct H as (I & s' & E & H). pose proof (gsteps_less k h a s s' I E). specialize (IH s' H). lia.
Qed.

(** Without a handler: a call that arrived makes ShutdownServer wait for ever;
    handler_set_ would be notified by the destructor of the service, which comes
    after. *)
Theorem C89_no_handler_hangs_refuted : forall k h q l, ~ In GSetHandler l ->
  exists s, grun k h (GArrive q :: GShutdown :: l) gstart = GNext s /\ g_shut s = GsShutting.
Proof.
  intros k h q l N. set (s0 := mkGs [mkGc q None true 0 0 false None false] false false GsShutting).
  assert (G : forall l, ~ In GSetHandler l -> grun k h l s0 = GNext s0).
  { clear l N. induction l as [|a l IH]; intros N; [reflexivity|]. cbn [grun].
    assert (E : gstep k h a s0 = GStuck).
    { destruct a as [|q2|[|[|i]]|[|[|i]]|[|[|i]]|[|[|i]]|]; try reflexivity; [destruct N; left; reflexivity|destruct k; reflexivity]. }
    rewrite E. apply IH. intro I. apply N. right. exact I. }
  exists s0. split; [|reflexivity]. change (grun k h l s0 = GNext s0). apply G, N.
Qed.
(** A handler of the handoff server that never sends keeps ShutdownServer from
    returning; the inline server answers OK with an empty message for it. *)
Theorem C89_silent_handler_refuted : exists h,
  (forall i q, contract false (fst (h i q)) = true) /\
  (forall l, exists s, grun Handoff h (GSetHandler :: GArrive (s_ "q") :: GShutdown :: l) gstart = GNext s /\ g_shut s = GsShutting) /\
  (exists s c, grun Inline h [GSetHandler; GArrive (s_ "q"); GCall 0; GReturn 0] gstart = GNext s /\ g_calls s = [c] /\ k_reply c = Some (None, [])).
Proof.
  exists (fun _ _ => ([], s_ "r")). split; [reflexivity|]. split.
  - intros l.
    assert (G : forall l s, g_shut s = GsShutting -> (exists c, g_calls s = [c] /\ (k_ops c = None \/ k_ops c = Some []) /\ k_reply c = None /\ k_closed c = false) ->
      exists s', grun Handoff (fun _ _ => ([], s_ "r")) l s = GNext s' /\ g_shut s' = GsShutting).
    { clear l. induction l as [|a l IH]; intros s S (c & E & O & R & C); cbn [grun]; [eauto|].
      destruct s as [cs gs gh sh]. cbn [g_shut g_calls] in *. subst sh cs.
      assert (Same : forall gs gh, exists s', grun Handoff (fun _ _ => ([], s_ "r")) l (mkGs [c] gs gh GsShutting) = GNext s' /\ g_shut s' = GsShutting).
      { intros. apply IH; [reflexivity|]. exists c. auto. }
      destruct a as [|q2|[|[|i]]|[|[|i]]|[|[|i]]|[|[|i]]|]; cbn [gstep g_calls g_shut nth_error forallb]; try (apply Same; fail).
      - destruct O as [O|O]; rewrite O; [|apply Same]. destruct gs; cbn [negb g_set g_handler]; [|apply Same].
        destruct gh; apply IH; cbn [set_calls g_shut g_calls lset]; auto; (eexists; split; [reflexivity|]); cbn [k_ops k_reply k_closed fst]; auto.
      - destruct O as [O|O]; rewrite O; apply Same.
      - destruct (k_inside c); cbn [negb]; [|apply Same]. destruct O as [O|O]; rewrite O; [apply Same|].
        apply IH; cbn [set_calls g_shut g_calls lset]; auto. eexists. split; [reflexivity|]. cbn [k_ops k_reply k_closed]. auto.
      - destruct (k_inside c); [apply Same|]. rewrite R. apply Same.
      - rewrite C. cbn [andb]. apply Same. }
    cbn [grun gstep gstart g_shut g_calls g_set g_handler set_calls app]. apply G; [reflexivity|]. eexists. split; [reflexivity|]. auto.
  - eexists _, _. split; [vm_compute; reflexivity|]. split; reflexivity.
Qed.

(** What [keeps] forbids does harm: a second response, and in the handoff server
    any use of the state after it was deleted and of the request after the
    response was sent. *)
Theorem C89_contract_needed_refuted :
  (forall k, exists l, grun k (fun _ _ => ([HSend; HSend], s_ "r")) l gstart = GCrash) /\
  (forall o, exists l, grun Handoff (fun _ _ => ([HSend; HFree; o], s_ "r")) l gstart = GCrash) /\
  (exists l, grun Handoff (fun _ _ => ([HSend; HRead; HFree], s_ "r")) l gstart = GCrash) /\
  (forall l, exists s, grun Inline (fun _ _ => ([HSend; HRead; HFree; HFree], s_ "r")) l gstart = GNext s).
Proof.
  split; [|split; [|split]].
  - intros k. exists [GSetHandler; GArrive []; GCall 0; GOp 0; GOp 0]. destruct k; reflexivity.
  - intros o. exists [GSetHandler; GArrive []; GCall 0; GOp 0; GOp 0; GOp 0]. destruct o; reflexivity.
  - exists [GSetHandler; GArrive []; GCall 0; GOp 0; GOp 0]. reflexivity.
  - set (prog := [HSend; HRead; HFree; HFree]).
    set (fine := fun c => match k_ops c with None => k_sent c = 0 | Some ops => ops = prog /\ k_sent c = 0 \/ ~ In HSend ops end).
    assert (G : forall l s, (forall i c, nth_error (g_calls s) i = Some c -> fine c) ->
      exists s', grun Inline (fun _ _ => (prog, s_ "r")) l s = GNext s').
    { induction l as [|a l IH]; intros s H; cbn [grun]; [eauto|].
      assert (Set1 : forall i c, fine c -> exists s', grun Inline (fun _ _ => (prog, s_ "r")) l (set_calls (lset i c (g_calls s)) s) = GNext s').
      { intros i c F. apply IH. intros i2 c2 E. cbn [set_calls g_calls] in E. destruct (lset_inv _ _ _ _ _ E) as [[_ ->]|[_ K]]; [exact F|eauto]. }
      destruct a as [|q|i|i|i|i|]; cbn [gstep].
      - destruct (g_shut s); try (apply IH; exact H).
      - destruct (g_shut s); try (apply IH; exact H). apply IH. intros i c E. cbn [set_calls g_calls] in E.
        destruct (Nat.lt_ge_cases i (length (g_calls s))) as [L|L]; [rewrite nth_error_app1 in E by exact L; eauto|].
        rewrite nth_error_app2 in E by exact L. destruct (i - length (g_calls s)) as [|[|n]]; try discriminate. injection E as <-. reflexivity.
      - destruct (nth_error (g_calls s) i) as [c|] eqn:E; [|eauto]. pose proof (H _ _ E) as F. unfold fine in F. destruct (k_ops c) eqn:O; [eauto|].
        destruct (g_set s); cbn [negb]; [|eauto]. destruct (g_handler s); apply Set1; unfold fine; cbn [k_ops k_sent fst]; auto.
      - destruct (nth_error (g_calls s) i) as [c|] eqn:E; [|eauto]. pose proof (H _ _ E) as F. unfold fine in F. destruct (k_ops c) as [[|o rest]|] eqn:O; [eauto| |eauto].
        destruct F as [[F K]|F].
        + injection F as -> ->. cbn [gmove]. rewrite K. cbn [Nat.ltb Nat.leb]. apply Set1. unfold fine. cbn [k_ops k_sent In]. right. intuition discriminate.
        + cbn [In] in F. destruct o; cbn [gmove]; [|exfalso; tauto|]; apply Set1; unfold fine; cbn [k_ops k_sent]; tauto.
      - destruct (nth_error (g_calls s) i) as [c|] eqn:E; [|eauto]. pose proof (H _ _ E) as F. unfold fine in F. destruct (k_inside c); cbn [negb]; [|eauto].
        destruct (k_ops c) as [[|o rest]|] eqn:O; [|eauto|eauto]. apply Set1. unfold fine. cbn [k_ops k_sent In]. tauto.
      - destruct (nth_error (g_calls s) i) as [c|] eqn:E; [|eauto]. pose proof (H _ _ E) as F. destruct (k_inside c); [eauto|]. destruct (k_reply c); [|eauto]. destruct (k_closed c); [eauto|].
        apply Set1. unfold fine in *. cbn [k_ops k_sent]. exact F.
      - destruct (g_shut s); [apply IH; exact H|destruct (forallb k_closed (g_calls s)); apply IH; exact H| |eauto].
        match goal with |- context [if ?b then _ else _] => destruct b end; apply IH; exact H. }
    intros l. apply G. intros [|i] c E; discriminate.
Qed.

(** Two calls, one before the handler is set; shutdown begins while both run,
    one handler leaves its work to the pool. *)
Definition gsrv_h (i : nat) (q : str) : list hop * str := ([HRead; HSend; HFree], s_ "re:" ++ q).
Example C89_ex_keeps : forall k, keeps k gsrv_h.
Proof. intros k i q. split; reflexivity. Qed.
Definition gsrv_ex : list gaction :=
  [GArrive (s_ "a"); GCall 0; GSetHandler; GArrive (s_ "b"); GCall 0; GCall 1; GOp 1; GOp 0; GShutdown; GOp 1; GOp 0; GReturn 1; GShutdown;
   GOp 1; GOp 0; GReturn 0; GReturn 1; GClose 1; GShutdown; GClose 0; GShutdown; GShutdown].
Example C89_ex : forall k, exists s, grun k gsrv_h gsrv_ex gstart = GNext s /\ g_shut s = GsGone /\
  map (fun c => (k_request c, k_reply c)) (g_calls s) = [(s_ "a", Some (None, s_ "re:a")); (s_ "b", Some (None, s_ "re:b"))].
Proof. intros []; eexists; (split; [vm_compute; reflexivity|]); vm_compute; auto. Qed.

Print Assumptions C89_safe.
Print Assumptions C89_answer.
Print Assumptions C89_shutdown_waits.
Print Assumptions C89_shutdown_completes.
Print Assumptions C89_terminates.
Print Assumptions C89_no_handler_hangs_refuted.
Print Assumptions C89_silent_handler_refuted.
Print Assumptions C89_contract_needed_refuted.
