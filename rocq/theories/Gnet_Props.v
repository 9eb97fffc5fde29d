(** Property C90: gRPC clients and servers together. *)
From Coq Require Import Ascii String List NArith ZArith Bool Arith Lia Permutation.
From Verif Require Import Base_Model Grpc_Model Grpc_Proofs Grpc_Proofs2 Grpc_Props Gsrv_Model Gsrv_Proofs Gsrv_Props Gnet_Model Gnet_Proofs Gnet_Proofs2.
Import ListNotations.
Open Scope nat_scope.

Lemma run_inv w clients kinds l x : handlers_ok w kinds -> xrun w l (xstart clients kinds) = XNext x ->
  xinv w clients kinds (fun c i m => In (XFail c i m) l) x.
Proof.
  intros H R. eapply xinv_more; [|exact (xinv_run w clients kinds H l _ _ _ (xinv_start w clients kinds) R)]. intros c i m [[]|I]. exact I.
Qed.
Lemma nodup_split {A} (l m : list A) : NoDup (l ++ m) -> NoDup l /\ NoDup m.
Proof.
  induction l as [|a l IH]; cbn [app]; intros N; [split; [constructor|exact N]|]. inversion N as [|? ? N1 N2]; subst. destruct (IH N2) as [A1 A2].
  split; [|exact A2]. constructor; [|exact A1]. intros I. apply N1, in_or_app. auto.
Qed.
Lemma nodup_concat {A B} (l : list (list (A * B))) : NoDup (map snd (concat l)) -> forall j1 j2 f1 f2 k1 k2 p,
  nth_error l j1 = Some f1 -> nth_error l j2 = Some f2 -> In (k1, p) f1 -> In (k2, p) f2 -> j1 = j2 /\ k1 = k2.
Proof.
  assert (One : forall f : list (A * B), NoDup (map snd f) -> forall k1 k2 p, In (k1, p) f -> In (k2, p) f -> k1 = k2).
  { induction f as [|[k q] f IH]; cbn [map snd In]; intros N k1 k2 p H1 H2; [destruct H1|]. inversion N as [|? ? N1 N2]; subst.
    assert (Z : forall k', In (k', q) f -> False) by (intros k' Z; apply N1; apply in_map_iff; exists (k', q); auto).
    destruct H1 as [H1|H1], H2 as [H2|H2]; try congruence.
    - injection H1 as -> ->. destruct (Z _ H2).
    - injection H2 as -> ->. destruct (Z _ H1).
    - eauto. }
  assert (Far : forall (l : list (list (A * B))) j f k p, nth_error l j = Some f -> In (k, p) f -> In p (map snd (concat l))).
  { intros m j f k p E I. apply in_map_iff. exists (k, p). split; [reflexivity|]. apply in_concat. exists f. split; [eapply nth_error_In; exact E|exact I]. }
  induction l as [|f l IH]; intros N [|j1] [|j2] f1 f2 k1 k2 p E1 E2 I1 I2; try discriminate; cbn [nth_error concat] in *; rewrite map_app in N.
  - injection E1 as ->. injection E2 as ->. split; [reflexivity|]. apply (One f2) with p; auto. exact (proj1 (nodup_split _ _ N)).
  - exfalso. injection E1 as ->. assert (A1 : In p (map snd f1)) by (apply in_map_iff; exists (k1, p); auto). pose proof (Far _ _ _ _ _ E2 I2) as A2.
    clear - N A1 A2. induction (map snd f1) as [|z m IHm]; [destruct A1|]. cbn [app] in N. inversion N as [|? ? N1 N2]; subst. destruct A1 as [->|A1]; [|auto]. apply N1, in_or_app. auto.
  - exfalso. injection E2 as ->. assert (A1 : In p (map snd f2)) by (apply in_map_iff; exists (k2, p); auto). pose proof (Far _ _ _ _ _ E1 I1) as A2.
    clear - N A1 A2. induction (map snd f2) as [|z m IHm]; [destruct A1|]. cbn [app] in N. inversion N as [|? ? N1 N2]; subst. destruct A1 as [->|A1]; [|auto]. apply N1, in_or_app. auto.
  - destruct (IH (proj2 (nodup_split _ _ N)) j1 j2 f1 f2 k1 k2 p E1 E2 I1 I2). auto.
Qed.

(** Every callback of every RPC either reports success, gives the request back
    and carries what the handler of the server the RPC is for responded to this
    very request; or it reports an error of gRPC, with its message. *)
Theorem C90_exchange : forall w clients kinds l x c kc s i r cs,
  handlers_ok w kinds -> xrun w l (xstart clients kinds) = XNext x ->
  nth_error (x_clients x) c = Some (kc, s) -> nth_error (c_rpcs s) i = Some r -> In cs (r_calls r) ->
  (exists v f k, nth_error (x_servers x) (gw_route w c (r_peer r)) = Some v /\ nth_error (x_from x) (gw_route w c (r_peer r)) = Some f /\
     In (k, (c, i)) f /\ call_req v k = Some (r_given r) /\ answered v k /\
     cs = mkCs (Some (r_given r)) (snd (gw_h w (gw_route w c (r_peer r)) k (r_given r))) None (Some true)) \/
  (exists m, In (XFail c i m) l /\ cs = mkCs None [] (Some m) (Some false)).
Proof.
  intros w clients kinds l x c kc s i r cs H R Ec Er Ic. pose proof (run_inv _ _ _ _ _ H R) as V.
  destruct (xv_c _ _ _ _ _ V _ _ _ Ec) as (st & lc & _ & Rc). pose proof (C47_result _ _ _ _ _ _ _ Rc Er Ic) as Cs.
  destruct (r_wire r) as [[[m|] resp]|] eqn:W; [| |destruct Cs].
  - right. destruct (xv_reply _ _ _ _ _ V _ _ _ _ _ _ _ Ec Er W) as [_ F]. eauto.
  - left. destruct (xv_reply _ _ _ _ _ V _ _ _ _ _ _ _ Ec Er W) as (v & f & k & q & A & B & C & D & E & F). exists v, f, k.
    destruct (xv_f _ _ _ _ _ V _ _ _ A B) as (_ & _ & K). destruct (K _ _ _ C) as (q2 & E2 & k2 & s2 & r2 & G1 & G2 & _ & _ & G3).
    rewrite Ec in G1. injection G1 as <- <-. rewrite Er in G2. injection G2 as <-. assert (Qq : q2 = q) by congruence. subst q2. clear E2. subst resp cs. subst q. auto 10.
Qed.
(** Every handler call stems from one RPC that was addressed to this server, has
    its request, and no other handler call stems from the same RPC. *)
Theorem C90_handled_once : forall w clients kinds l x j v k,
  handlers_ok w kinds -> xrun w l (xstart clients kinds) = XNext x -> nth_error (x_servers x) j = Some v -> handled v k ->
  exists f c i kc s r, nth_error (x_from x) j = Some f /\ In (k, (c, i)) f /\ nth_error (x_clients x) c = Some (kc, s) /\ nth_error (c_rpcs s) i = Some r /\
    gw_route w c (r_peer r) = j /\ call_req v k = Some (r_given r) /\
    (forall k' p, In (k', p) f -> k' = k -> p = (c, i)) /\
    forall j' f' k', nth_error (x_from x) j' = Some f' -> In (k', (c, i)) f' -> j' = j /\ k' = k.
Proof.
  intros w clients kinds l x j v k H R Ev Hd. pose proof (run_inv _ _ _ _ _ H R) as V.
  destruct (nth_error (x_from x) j) as [f|] eqn:Ef.
  2: { exfalso. apply nth_error_None in Ef. rewrite (xv_fl _ _ _ _ _ V), <- (xv_sl _ _ _ _ _ V) in Ef. apply nth_error_None in Ef. congruence. }
  destruct (xv_f _ _ _ _ _ V _ _ _ Ev Ef) as (ND & Tk & K).
  assert (T : taken v k).
  { destruct (xv_s _ _ _ _ _ V _ _ Ev) as (kd & _ & Ok). destruct v as [kd' s|s reqs]; cbn [handled taken] in *.
    - destruct Hd as (c & N & _). apply nth_error_Some. congruence.
    - destruct kd; [destruct Ok|]. destruct Ok as (Ok & _). destruct Hd as (g & N & O). exists g. split; [exact N|]. pose proof (i_fsm _ _ Ok _ _ N) as Fo.
      destruct Fo; cbn [f_ops f_accepted] in *; try congruence. }
  apply Tk in T. apply in_map_iff in T. destruct T as ([k' [c i]] & Q & I). cbn in Q. subst k'.
  destruct (K _ _ _ I) as (q & Cr & kc & s & r & G1 & G2 & _ & G3 & G4). exists f, c, i, kc, s, r. subst q.
  split; [reflexivity|]. split; [exact I|]. split; [exact G1|]. split; [exact G2|]. split; [exact G3|]. split; [exact Cr|]. split.
  - intros k' p I' ->. pose proof (In_lookup _ _ _ ND I). pose proof (In_lookup _ _ _ ND I'). congruence.
  - intros j' f' k' E' I'. destruct (nodup_concat _ (xv_once _ _ _ _ _ V) _ _ _ _ _ _ _ E' Ef I' I). auto.
Qed.

(** Clients are used as documented: peers are connected, and once ShutdownClient
    was called RPCs are started from callbacks only. *)
Definition client_ok (clients : list (kind * list bool)) (a : xaction) (x : gnet) : Prop :=
  match a with
  | XClient c ca => forall k s stubs, nth_error (x_clients x) c = Some (k, s) -> nth_error clients c = Some (k, stubs) -> allowed stubs ca s
  | _ => True
  end.
Fixpoint clients_ok (w : gworld) (clients : list (kind * list bool)) (l : list xaction) (x : gnet) : Prop :=
  match l with
  | [] => True
  | a :: r => client_ok clients a x /\
      match xstep w a x with XNext x' => clients_ok w clients r x' | XCrash => True | XStuck => clients_ok w clients r x end
  end.
Definition cdisc (clients : list (kind * list bool)) (x : gnet) : Prop := forall c k s, nth_error (x_clients x) c = Some (k, s) ->
  exists stubs l, nth_error clients c = Some (k, stubs) /\ disciplined stubs k l (start_client stubs) /\ crun k l (start_client stubs) = Next s.
Lemma disciplined_snoc stubs k a l : forall s s1, disciplined stubs k l s -> crun k l s = Next s1 -> allowed stubs a s1 -> disciplined stubs k (l ++ [a]) s.
Proof.
  induction l as [|b l IH]; intros s s1 D R A; cbn [disciplined crun app] in *.
  - injection R as ->. split; [exact A|]. destruct (cstep k a s1); exact Logic.I.
  - destruct D as [D1 D2]. split; [exact D1|]. destruct (cstep k b s); eauto.
Qed.
Lemma cdisc_step w clients kinds failed a x x' : handlers_ok w kinds -> xinv w clients kinds failed x -> cdisc clients x -> client_ok clients a x ->
  xstep w a x = XNext x' -> cdisc clients x'.
Proof.
  intros H V D A S. destruct (xstep_moved _ _ _ H _ _ _ _ V S) as [c k ca s s' Ec M _ Q|]; [|exact D].
  intros c2 k2 s2 E2. cbn [x_clients] in E2. destruct (lset_inv _ _ _ _ _ E2) as [[-> K]|[N K]]; [|exact (D _ _ _ K)]. injection K as -> ->.
  destruct (D _ _ _ Ec) as (st & l & P & Dl & R). exists st, (l ++ [ca]). split; [exact P|].
  assert (Al : allowed st ca s).
  { destruct a as [c' ca'|?|?|?|c' i ?|c' i m]; try contradiction.
    - destruct Q as [-> ->]. exact (A _ _ _ Ec P).
    - destruct Q as [-> (st0 & resp & ->)]. exact Logic.I.
    - destruct Q as [-> ->]. exact Logic.I. }
  split; [eapply disciplined_snoc; eassumption|eapply crun_snoc; eassumption].
Qed.
Lemma cdisc_start clients kinds : cdisc clients (xstart clients kinds).
Proof.
  intros c k s E. cbn [xstart x_clients] in E. rewrite nth_error_map in E. destruct (nth_error clients c) as [[k' st]|]; [|discriminate]. cbn in E. injection E as <- <-.
  exists st, []. cbn. auto.
Qed.
Lemma no_crash w clients kinds failed a x : handlers_ok w kinds -> xinv w clients kinds failed x -> cdisc clients x -> client_ok clients a x -> xstep w a x <> XCrash.
Proof.
  intros H V D A.
  assert (Cl : forall c ca, (forall k s stubs, nth_error (x_clients x) c = Some (k, s) -> nth_error clients c = Some (k, stubs) -> allowed stubs ca s) -> on_client c ca x <> XCrash).
  { intros c ca Al. unfold on_client. destruct (nth_error (x_clients x) c) as [[k s]|] eqn:Ec; [|discriminate]. destruct (D _ _ _ Ec) as (st & l & P & Dl & R).
    destruct (disc_run st k l _ (inv_start k st) (disc_start st) Dl) as (s1 & R1 & I1 & D1). assert (s1 = s) by congruence. subst s1.
    pose proof (fun cr => disc_no_crash st k ca s cr I1 D1 (Al k s st eq_refl P)) as Nc. destruct (cstep k ca s); [discriminate| |discriminate]. destruct (Nc c0 eq_refl). }
  assert (Di : forall j ga o, on_direct w j ga o x <> XCrash).
  { intros j ga o. unfold on_direct. destruct (nth_error (x_servers x) j) as [[k s|]|] eqn:Es; try discriminate. destruct (nth_error (x_from x) j) as [fr|]; [|discriminate].
    destruct (xv_s _ _ _ _ _ V _ _ Es) as (kd & Ek & Ok). destruct kd as [kd|]; [|destruct Ok]. destruct Ok as (-> & (l & R) & _). pose proof (H _ _ Ek) as Kp. cbn in Kp.
    destruct (gstep kd (gw_h w j) ga s) as [s'| |] eqn:G; try discriminate. exfalso.
    destruct (C89_safe kd (gw_h w j) (l ++ [ga]) Kp) as (s2 & R2).
    assert (Z : forall l s0, grun kd (gw_h w j) l s0 = GNext s -> grun kd (gw_h w j) (l ++ [ga]) s0 = GCrash).
    { clear - G. induction l as [|b l IH]; intros s0 R; cbn [grun app] in *; [injection R as ->; rewrite G; reflexivity|]. destruct (gstep kd (gw_h w j) b s0); try discriminate; auto. }
    rewrite (Z _ _ R) in R2. discriminate. }
  assert (Po : forall j sa o, on_polled w j sa o x <> XCrash).
  { intros j sa o. unfold on_polled. destruct (nth_error (x_servers x) j) as [[|s reqs]|] eqn:Es; try discriminate. destruct (nth_error (x_from x) j) as [fr|]; [|discriminate].
    destruct (xv_s _ _ _ _ _ V _ _ Es) as (kd & Ek & Ok). destruct kd as [kd|]; [destruct Ok|]. destruct Ok as (Ok & Gh & _). pose proof (H _ _ Ek) as Kp. cbn in Kp.
    pose proof (sstep_inv true (polled_prog (gw_h w j) reqs) sa s (polled_good w j reqs Kp) Ok (sallowed_set sa s Gh)) as X.
    destruct (sstep _ sa s); [discriminate|destruct X|discriminate]. }
  assert (Al : forall c i st resp, forall k s stubs, nth_error (x_clients x) c = Some (k, s) -> nth_error clients c = Some (k, stubs) -> allowed stubs (Wire i st resp) s) by (intros; exact Logic.I).
  destruct a as [c ca|j sa|j sa|c i n|c i k|c i m]; cbn [xstep].
  - destruct ca; try discriminate; apply Cl; exact A.
  - destruct sa; try discriminate; apply Di.
  - destruct sa; try discriminate; apply Po.
  - destruct (flying c i x) as [r|]; [|discriminate]. destruct (existsb _ _); [discriminate|]. destruct (r_request r) as [q|]; [|discriminate].
    destruct (nth_error (x_servers x) _) as [[|s reqs]|]; [apply Di| |discriminate]. destruct (nth_error (v_ops s) n) as [[]|]; [apply Po|discriminate].
  - destruct (flying c i x) as [r|]; [|discriminate]. destruct (nth_error (x_servers x) _) as [v|]; [|discriminate]. destruct (nth_error (x_from x) _); [|discriminate].
    destruct (lookup _ _); [|discriminate]. destruct (is_rpc _ _); [|discriminate]. destruct (reply_of _ _ _) as [[]|]; [|discriminate]. apply Cl, Al.
  - apply Cl, Al.
Qed.
Lemma run_ok w clients kinds l : handlers_ok w kinds -> forall failed x, xinv w clients kinds failed x -> cdisc clients x -> clients_ok w clients l x ->
  exists x', xrun w l x = XNext x' /\ cdisc clients x'.
Proof.
  intros H. induction l as [|a l IH]; intros failed x V D A; cbn [xrun clients_ok] in *; [eauto|]. destruct A as [A1 A2].
  pose proof (no_crash w clients kinds failed a x H V D A1) as Nc. destruct (xstep w a x) as [x1| |] eqn:S; [|congruence|eauto].
  eapply (IH (fun c i m => failed c i m \/ a = XFail c i m)); [|eapply cdisc_step; eassumption|exact A2].
  eapply xinv_step; [exact H|exact V| |exact S]. auto.
Qed.
(** If clients are used as documented and handlers keep their contract, no
    process ends and nothing that was freed is used, whatever the servers, the
    network and shutdowns do. *)
Theorem C90_survives : forall w clients kinds l, handlers_ok w kinds -> clients_ok w clients l (xstart clients kinds) ->
  exists x, xrun w l (xstart clients kinds) = XNext x.
Proof.
  intros w clients kinds l H A. destruct (run_ok w clients kinds l H _ _ (xinv_start w clients kinds) (cdisc_start clients kinds) A) as (x & R & _). eauto.
Qed.
(** When ShutdownClient got past its wait, each RPC of the client has had
    exactly one callback; if gRPC reported no error for it, that is a success
    with the handler's response. *)
Theorem C90_all_answered : forall w clients kinds l x c kc s, handlers_ok w kinds -> clients_ok w clients l (xstart clients kinds) ->
  xrun w l (xstart clients kinds) = XNext x -> nth_error (x_clients x) c = Some (kc, s) -> c_shut s <> ShNot -> c_shut s <> ShSpin ->
  forall i r, nth_error (c_rpcs s) i = Some r -> exists cs, r_calls r = [cs] /\
    ((forall m, ~ In (XFail c i m) l) -> exists k f, nth_error (x_from x) (gw_route w c (r_peer r)) = Some f /\ In (k, (c, i)) f /\
       cs = mkCs (Some (r_given r)) (snd (gw_h w (gw_route w c (r_peer r)) k (r_given r))) None (Some true)).
Proof.
  intros w clients kinds l x c kc s H A R Ec N1 N2 i r Er.
  destruct (run_ok w clients kinds l H _ _ (xinv_start w clients kinds) (cdisc_start clients kinds) A) as (x' & R' & D). assert (x' = x) by congruence. subst x'.
  destruct (D _ _ _ Ec) as (st & lc & P & Dl & Rc). destruct (C47_shutdown_waits _ _ _ _ Dl Rc N1 N2 _ _ Er) as [_ L].
  destruct (r_calls r) as [|cs [|? ?]] eqn:Cs; try discriminate. exists cs. split; [reflexivity|]. intros Nf.
  destruct (C90_exchange w clients kinds l x c kc s i r cs H R Ec Er) as [(v & f & k & _ & F & I & _ & _ & Q)|(m & I & _)]; [rewrite Cs; left; reflexivity| |destruct (Nf _ I)].
  exists k, f. auto.
Qed.

Print Assumptions C90_exchange.
Print Assumptions C90_handled_once.
Print Assumptions C90_survives.
Print Assumptions C90_all_answered.
