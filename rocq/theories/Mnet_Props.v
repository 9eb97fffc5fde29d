(** Property C88: Mercury RPCs from end to end. *)
From Coq Require Import List NArith ZArith Bool Arith Lia.
From Verif Require Import Wire_Model Wire_Proofs2 Wire_Props Grpc_Model Grpc_Proofs Merc_Model Merc_Proofs Merc_Props
  Msrv_Model Msrv_Proofs Msrv_Proofs2 Msrv_Props Mnet_Model Mnet_Proofs.
Import ListNotations.
Open Scope nat_scope.

(** A message that the limits of the world let through. *)
Definition sized (w : mworld) (m : grr) : Prop :=
  grr_ok m /\ (Z.to_N (byte_size m) <= w_mem w)%N /\ (Z.to_N (byte_size m) + 16 <= w_room w)%N.
(** Handlers that keep their contract and whose responses are such messages. *)
Definition well (w : mworld) : Prop :=
  (w_mem w < 2 ^ 63)%N /\
  forall j, keeps_contract (w_h w j) /\
    forall q m o, In (OSend o) (hs_inline (w_h w j q m) ++ match hs_work (w_h w j q m) with Some k => k | None => [] end) -> sized w o.
Definition requests_sized (w : mworld) (l : list naction) : Prop :=
  forall c p q o, In (NClient c (MInitiate p q o)) l -> sized w q.

Lemma given_sized w peers l : requests_sized w l -> forall x x', ninv w peers x ->
  (forall c cl i r, nth_error (x_clients x) c = Some cl -> nth_error (m_rpcs cl) i = Some r -> sized w (m_given r)) ->
  nrun w l x = NNext x' ->
  forall c cl i r, nth_error (x_clients x') c = Some cl -> nth_error (m_rpcs cl) i = Some r -> sized w (m_given r).
Proof.
  induction l as [|a l IH]; intros Q x x' V G R; cbn [nrun] in R; [injection R as <-; exact G|].
  assert (Q' : requests_sized w l) by (intros c p q o H; apply (Q c p q o); right; exact H).
  destruct (nstep w a x) as [x1| |] eqn:E; [|discriminate|eapply IH; eassumption].
  eapply (IH Q' x1); [eapply ninv_step; eassumption| |exact R].
  destruct (nstep_moved _ _ _ _ _ V E) as [c ca s s' Ec M B A|]; cbn [x_clients]; [|exact G].
  intros c2 cl i r E2 Er. destruct (lset_inv _ _ _ _ _ E2) as [[-> ->]|[D K]]; [|eauto].
  pose proof (mstep_cstep _ _ _ (nv_minv _ _ _ _ _ V Ec) M) as T.
  destruct (t_new _ _ _ T _ _ Er) as [[r0 H0]|(p & q & o & -> & Eg)].
  - destruct (t_grow _ _ _ T _ _ H0) as (r1 & H1 & Gr). assert (r1 = r) by congruence. subst r1. rewrite (g_given _ _ Gr). eauto.
  - rewrite Eg. destruct a as [c' a'|j sa|c' i'|c' i' k|c' i' ret]; try contradiction.
    + destruct A as [-> ->]. apply (Q c p q o). left. reflexivity.
    + destruct A as (_ & out & A). discriminate.
    + destruct A as (_ & _ & A). discriminate.
Qed.
Lemma start_sized w peers n c cl i r : nth_error (x_clients (nstart peers n)) c = Some cl -> nth_error (m_rpcs cl) i = Some r -> sized w (m_given r).
Proof.
  cbn [nstart x_clients]. intros E. rewrite nth_error_map in E. destruct (nth_error peers c); [|discriminate]. cbn in E. injection E as <-.
  destruct i; discriminate.
Qed.
(** A response that came back is one that the handler sent, and decodes. *)
Lemma answer_decodes w peers x c i p out : well w -> ninv w peers x -> answer w x c i p 0%Z out ->
  exists s f q req m str, nth_error (x_servers x) (w_route w c p) = Some s /\ nth_error (x_from x) (w_route w c p) = Some f /\
    nth_error f q = Some (c, i) /\ nth_error (sv_reqs s) q = Some req /\
    In (OSend m) (hs_inline (w_h w (w_route w c p) q (rq_seen req)) ++ match hs_work (w_h w (w_route w c p) q (rq_seen req)) with Some k => k | None => [] end) /\
    out = Some str /\ parse str = Some m.
Proof.
  intros [P W] V [[N _]|(_ & s & f & k & q & m & wire & Es & Ef & Eq & Ek & Ew & ->)]; [congruence|].
  destruct (nv_s _ _ _ V _ _ Es) as [[l R] _]. destruct (W (w_route w c p)) as [Ct Sz].
  rewrite nth_error_map in Ek. destruct (nth_error (sv_resps s) k) as [rp|] eqn:Ep; [|discriminate]. cbn in Ek. injection Ek as E1 E2.
  destruct (nv_f _ _ _ V _ _ _ Es Ef) as [L K]. destruct (K _ _ _ Eq) as (w1 & s1 & N1 & _).
  rewrite nth_error_map in N1. destruct (nth_error (sv_reqs s) q) as [req|] eqn:Er; [|discriminate].
  destruct (C86_at_most_once _ _ _ _ _ q req Ct R Er) as (_ & _ & A & _).
  assert (I2 : In (OSend m) (hs_inline (w_h w (w_route w c p) q (rq_seen req)) ++ match hs_work (w_h w (w_route w c p) q (rq_seen req)) with Some k => k | None => [] end)).
  { apply in_or_app. destruct (A rp (nth_error_In _ _ Ep) E1) as [H|(k2 & Hk & H)]; rewrite E2 in H; [left; exact H|right; rewrite Hk; exact H]. }
  destruct (Sz _ _ _ I2) as (G & M & Ro). destruct (C48_message (w_mem w) (w_room w) m G M P Ro) as (w2 & E3 & _ & _ & str & E4 & E5).
  rewrite Ew in E3. injection E3 as <-. exists s, f, q, req, m, str. auto 10.
Qed.
Lemma request_decodes w peers x j s f q c i : well w -> ninv w peers x ->
  (forall c cl i r, nth_error (x_clients x) c = Some cl -> nth_error (m_rpcs cl) i = Some r -> sized w (m_given r)) ->
  nth_error (x_servers x) j = Some s -> nth_error (x_from x) j = Some f -> nth_error f q = Some (c, i) ->
  exists req cl r, nth_error (sv_reqs s) q = Some req /\ nth_error (x_clients x) c = Some cl /\ nth_error (m_rpcs cl) i = Some r /\
    launched r /\ w_route w c (m_peer r) = j /\ rq_seen req = Some (m_given r).
Proof.
  intros [P W] V G Es Ef Eq. destruct (nv_f _ _ _ V _ _ _ Es Ef) as [L K]. destruct (K _ _ _ Eq) as (wire & seen & N1 & cl & r & Ec & Er & La & Ro & Wi).
  rewrite nth_error_map in N1. destruct (nth_error (sv_reqs s) q) as [req|] eqn:Eq2; [|discriminate]. cbn in N1. injection N1 as E1 E2.
  exists req, cl, r. destruct (nv_s _ _ _ V _ _ Es) as [[l R] _]. destruct (G _ _ _ _ Ec Er) as (A & B & C).
  pose proof (C86_same_message _ _ _ _ _ _ _ _ _ _ R Eq2 A B P C Wi E1). auto 10.
Qed.

(** A callback reports success, gives the request back, and carries a response
    that the handler of the addressed server sent to this very request. *)
Theorem C88_exchange : forall w peers n l x c cl i r st, well w -> requests_sized w l ->
  nrun w l (nstart peers n) = NNext x -> nth_error (x_clients x) c = Some cl -> nth_error (m_rpcs cl) i = Some r -> In st (m_calls r) ->
  ms_success st = Some true /\ ms_request st = m_given r /\
  exists s f q, nth_error (x_servers x) (w_route w c (m_peer r)) = Some s /\ nth_error (x_from x) (w_route w c (m_peer r)) = Some f /\
    nth_error f q = Some (c, i) /\
    let hs := w_h w (w_route w c (m_peer r)) q (Some (m_given r)) in
    In (OSend (ms_response st)) (hs_inline hs ++ match hs_work hs with Some k => k | None => [] end).
Proof.
  intros w peers n l x c cl i r st W Q R Ec Er Hst. pose proof (ninv_run w peers l _ _ (ninv_start w peers n) R) as V.
  pose proof (given_sized w peers l Q _ _ (ninv_start w peers n) (start_sized w peers n) R) as G.
  destruct (nv_c _ _ _ V _ _ Ec) as (np & lc & _ & Rc). destruct (C64_result np lc cl i r st Rc Er Hst) as (ret & str & Wi & K).
  pose proof (nv_reply _ _ _ V _ _ _ _ _ _ Ec Er Wi) as A.
  assert (Z0 : ret = 0%Z) by (destruct A as [[_ A]|[A _]]; [discriminate|exact A]). subst ret.
  destruct (answer_decodes w peers x c i (m_peer r) _ W V A) as (s & f & q & req & m & str2 & Es & Ef & Eq & Eqr & Hs & E1 & E2).
  injection E1 as <-. rewrite E2 in K. subst st. cbn [ms_success ms_request ms_response]. split; [reflexivity|]. split; [reflexivity|].
  exists s, f, q. split; [exact Es|]. split; [exact Ef|]. split; [exact Eq|].
  destruct (request_decodes w peers x _ s f q c i W V G Es Ef Eq) as (req2 & cl2 & r2 & F1 & F2 & F3 & _ & _ & F4).
  assert (req2 = req) by congruence. assert (cl2 = cl) by congruence. subst req2 cl2. assert (r2 = r) by congruence. subst r2.
  rewrite F4 in Hs. exact Hs.
Qed.

(** Every RPC is given to at most one handler, once: that of the server it was
    addressed to, which sees the request as it was given; and every handler
    call is for such an RPC. *)
Theorem C88_handled_once : forall w peers n l x, well w -> requests_sized w l -> nrun w l (nstart peers n) = NNext x ->
  NoDup (concat (x_from x)) /\
  forall j s, nth_error (x_servers x) j = Some s -> exists f, nth_error (x_from x) j = Some f /\ length f = length (sv_reqs s) /\
    forall q c i, nth_error f q = Some (c, i) ->
      exists req cl r, nth_error (sv_reqs s) q = Some req /\ nth_error (x_clients x) c = Some cl /\ nth_error (m_rpcs cl) i = Some r /\
        w_route w c (m_peer r) = j /\ rq_seen req = Some (m_given r).
Proof.
  intros w peers n l x W Q R. pose proof (ninv_run w peers l _ _ (ninv_start w peers n) R) as V.
  pose proof (given_sized w peers l Q _ _ (ninv_start w peers n) (start_sized w peers n) R) as G.
  split; [apply V|]. intros j s Es. destruct (nth_error (x_from x) j) as [f|] eqn:Ef.
  - exists f. split; [reflexivity|]. split; [exact (proj1 (nv_f _ _ _ V _ _ _ Es Ef))|]. intros q c i Eq.
    destruct (request_decodes w peers x _ s f q c i W V G Es Ef Eq) as (req & cl & r & F1 & F2 & F3 & _ & F5 & F4). exists req, cl, r. auto 10.
  - exfalso. apply nth_error_None in Ef. rewrite (nv_len _ _ _ V) in Ef. assert (j < length (x_servers x)) by (apply nth_error_Some; congruence). lia.
Qed.

Lemma mrun_peers l : forall s s', minv s -> mrun l s = MNext s' -> m_peers s' = m_peers s.
Proof.
  induction l as [|a l IH]; intros s s' V R; cbn [mrun] in R; [congruence|].
  destruct (mstep a s) as [s1| |] eqn:E; [|discriminate|eauto]. rewrite (IH s1 s' (minv_step _ _ _ V E) R). exact (t_peers _ _ _ (mstep_cstep _ _ _ V E)).
Qed.
Lemma abort_range a s : mstep a s = MAbort -> exists p q o, a = MInitiate p q o /\ ~ (0 <= p < Z.of_nat (m_peers s))%Z.
Proof.
  destruct a as [p q o|i ok|i ok|c|]; cbn [mstep]; intros E.
  - exists p, q, o. split; [reflexivity|]. unfold minitiate in E. match type of E with (if negb ?b then _ else _) = _ => destruct b end; cbn [negb] in E; [|discriminate].
    destruct (Z.ltb_spec p 0); [lia|]. destruct (Z.leb_spec (Z.of_nat (m_peers s)) p); [lia|discriminate].
  - unfold mcreate in E. destruct (nth_error _ _) as [r|]; [|discriminate]. destruct (m_phase r); discriminate.
  - unfold mforward in E. destruct (nth_error _ _) as [r|]; [|discriminate]. destruct (m_phase r); discriminate.
  - unfold mpoll in E. destruct (m_poller s); try discriminate.
    + destruct c as [[[i ret] out]|]; [|discriminate]. destruct (nth_error _ _) as [r|]; [|discriminate]. destruct (m_phase r); discriminate.
    + destruct (nth_error _ _); [|discriminate]. destruct (mbusy _ _); discriminate.
  - unfold mshutdown in E. destruct (m_shut s); try discriminate; [destruct (Z.eqb _ _); discriminate|destruct (m_poller s); discriminate].
Qed.
Lemma server_lives w x peers j a o : well w -> ninv w peers x ->
  (forall wire, a = STrigger (TRequest wire) -> server_request (w_mem w) wire <> SrvThrow) -> on_server w j a o x <> NCrash.
Proof.
  intros [_ W] V H E. unfold on_server in E. destruct (nth_error (x_servers x) j) as [s|] eqn:Es; [|discriminate].
  destruct (nth_error (x_from x) j) as [fr|]; [|discriminate]. destruct (nv_s _ _ _ V _ _ Es) as [[l R] St]. pose proof (sinv_run _ _ _ _ _ R) as Vs.
  destruct (step_safe (w_mem w) (w_h w j) (w_build w) (proj1 (W j)) a s Vs) as [[s' K]|[K|[K [T|[K2 _]]]]]; [| | |congruence]; rewrite K in E; try discriminate.
  destruct a as [| |[|wire|]| | | |]; cbn [throws] in T; try contradiction. exact (H wire eq_refl T).
Qed.
(** No process ends, if the RPCs go to peers that exist. *)
Theorem C88_survives : forall w peers n l, well w -> requests_sized w l ->
  (forall c p q o, In (NClient c (MInitiate p q o)) l -> exists k, nth_error peers c = Some k /\ (0 <= p < Z.of_nat k)%Z) ->
  nrun w l (nstart peers n) <> NCrash.
Proof.
  intros w peers n l W Q P. revert Q P. generalize (ninv_start w peers n) (start_sized w peers n). generalize (nstart peers n).
  induction l as [|a l IH]; intros x V G Q P; cbn [nrun]; [discriminate|].
  assert (Q' : requests_sized w l) by (intros c p q o H; apply (Q c p q o); right; exact H).
  assert (P' : forall c p q o, In (NClient c (MInitiate p q o)) l -> exists k, nth_error peers c = Some k /\ (0 <= p < Z.of_nat k)%Z)
    by (intros c p q o H; apply (P c p q o); right; exact H).
  destruct (nstep w a x) as [x1| |] eqn:E.
  - apply IH; auto; [eapply ninv_step; eassumption|]. 
    apply (given_sized w peers [a]) with x; auto; [|cbn [nrun]; rewrite E; reflexivity].
    intros c p q o [H|[]]. apply (Q c p q o). left. exact H.
  - exfalso.
    assert (Cl : forall c ca, on_client c ca x = NCrash -> (forall p q o, ca = MInitiate p q o -> a = NClient c ca) -> False).
    { intros c ca E1 E2. unfold on_client in E1. destruct (nth_error (x_clients x) c) as [s|] eqn:Ec; [|discriminate].
      destruct (mstep ca s) eqn:M; try discriminate. apply abort_range in M. destruct M as (p & q & o & -> & Rg).
      specialize (E2 _ _ _ eq_refl). destruct (P c p q o) as (k & Ek & Rk); [left; exact E2|].
      destruct (nv_c _ _ _ V _ _ Ec) as (np & lc & En & Rc). rewrite (mrun_peers _ _ _ (minv_start np) Rc) in Rg. cbn [mstart m_peers] in Rg.
      assert (k = np) by congruence. subst k. contradiction. }
    destruct a as [c ca|j sa|c i|c i k|c i ret]; cbn [nstep] in E.
    + assert (E1 : on_client c ca x = NCrash) by (destruct ca as [| | |[|]|]; congruence). exact (Cl _ _ E1 (fun _ _ _ _ => eq_refl)).
    + assert (E1 : on_server w j sa [] x = NCrash /\ forall wire, sa <> STrigger (TRequest wire))
        by (destruct sa as [| |[| |]| | | |]; split; congruence).
      destruct E1 as [E1 E2]. revert E1. apply (server_lives w x peers); auto. intros wire ->. congruence.
    + destruct (flying c i x) as [r|] eqn:Fl; [|discriminate]. destruct (existsb _ _); [discriminate|].
      destruct (put_on_wire _ _ _) as [wire|] eqn:Wi; [|discriminate]. revert E. apply (server_lives w x peers); auto. intros w2 E2. injection E2 as <-.
      destruct (flying_some _ _ _ _ Fl) as (cl & Ec & Er & Ph). pose proof (mi_rpc _ (nv_minv _ _ _ _ _ V Ec) _ _ Er) as O. unfold mrpc_ok in O. rewrite Ph in O.
      destruct O as (O & _). rewrite O in Wi. destruct (G _ _ _ _ Ec Er) as (A & B & C). destruct W as [M _].
      destruct (C48_message (w_mem w) (w_room w) _ A B M C) as (w3 & E3 & _ & E4 & _). rewrite Wi in E3. injection E3 as <-. rewrite E4. discriminate.
    + destruct (flying c i x) as [r|]; [|discriminate]. destruct (nth_error (x_servers x) _) as [s|]; [|discriminate].
      destruct (nth_error (x_from x) _) as [f|]; [|discriminate]. destruct (nth_error (sv_resps s) k) as [p|]; [|discriminate].
      destruct (nth_error f (rp_req p)) as [o|]; [|discriminate]. destruct (negb _); [discriminate|]. destruct (negb _); [discriminate|].
      destruct (rp_phase p); try discriminate; (destruct (put_on_wire _ _ _); [|discriminate]); eapply Cl; try exact E; discriminate.
    + destruct (ret =? 0)%Z; [discriminate|]. destruct (negb _); [discriminate|]. eapply Cl; [exact E|]. discriminate.
  - apply IH; auto.
Qed.

(** A client whose calls of Mercury did not fail has, when ShutdownClient
    returns, had one callback for each RPC started before: with the response
    of the handler it addressed. *)
Definition unharmed (c : nat) (l : list naction) : Prop := forall a, In a l ->
  match a with
  | NClient c' (MCreate _ ok) | NClient c' (MForward _ ok) => c' = c -> ok = true
  | NFail c' _ _ => c' <> c
  | _ => True
  end.
Lemma never_lost w peers c l : well w -> unharmed c l -> forall x x', ninv w peers x ->
  (forall cl i r, nth_error (x_clients x) c = Some cl -> nth_error (m_rpcs cl) i = Some r -> m_phase r <> MLost) ->
  nrun w l x = NNext x' ->
  forall cl i r, nth_error (x_clients x') c = Some cl -> nth_error (m_rpcs cl) i = Some r -> m_phase r <> MLost.
Proof.
  intros W. induction l as [|a l IH]; intros U x x' V G R; cbn [nrun] in R; [injection R as <-; exact G|].
  assert (U' : unharmed c l) by (intros b H; apply U; right; exact H).
  destruct (nstep w a x) as [x1| |] eqn:E; [|discriminate|eapply IH; eassumption].
  eapply (IH U' x1); [eapply ninv_step; eassumption| |exact R].
  destruct (nstep_moved _ _ _ _ _ V E) as [c2 ca s s' Ec M B A|]; cbn [x_clients]; [|exact G].
  intros cl i r E2 Er L. destruct (lset_inv _ _ _ _ _ E2) as [[<- ->]|[D K]]; [|exact (G _ _ _ K Er L)].
  destruct (t_lost _ _ _ (mstep_cstep _ _ _ (nv_minv _ _ _ _ _ V Ec) M) _ _ Er L) as [(r0 & H0 & L0)|F]; [exact (G _ _ _ Ec H0 L0)|].
  specialize (U a (or_introl eq_refl)). destruct a as [c' a'|j sa|c' i'|c' i' k|c' i' ret]; try contradiction.
  - destruct A as [-> ->]. destruct ca as [| i2 [|] | i2 [|] |[[[? ?] [|]]|]|]; cbn [fails] in F; try contradiction; try (specialize (U eq_refl); discriminate).
    cbn [nstep] in E. discriminate.
  - destruct A as (-> & out & ->). cbn [fails] in F. destruct out as [str|]; [contradiction|].
    assert (exists r1, nth_error (m_rpcs s) i' = Some r1) as [r1 H1].
    { cbn [mstep] in M. unfold mpoll in M. destruct (m_poller s) eqn:Po; try discriminate.
      - cbn [nstep] in E. destruct (flying c i' x); [|discriminate]. destruct (nth_error (x_servers x) _) as [sv|]; [|discriminate].
        destruct (nth_error (x_from x) _) as [f|]; [|discriminate]. destruct (nth_error (sv_resps sv) k) as [p|]; [|discriminate].
        destruct (nth_error f (rp_req p)) as [o|]; [|discriminate]. destruct (negb _); [discriminate|].
        unfold triggers in E. rewrite Ec, Po in E. discriminate.
      - destruct (nth_error (m_rpcs s) i') as [r1|]; [eauto|discriminate].
      - cbn [nstep] in E. destruct (flying c i' x); [|discriminate]. destruct (nth_error (x_servers x) _) as [sv|]; [|discriminate].
        destruct (nth_error (x_from x) _) as [f|]; [|discriminate]. destruct (nth_error (sv_resps sv) k) as [p|]; [|discriminate].
        destruct (nth_error f (rp_req p)) as [o|]; [|discriminate]. destruct (negb _); [discriminate|].
        unfold triggers in E. rewrite Ec, Po in E. discriminate. }
    assert (An : answer w x c i' (m_peer r1) 0%Z None) by (apply (B i' r1); [exact H1|cbn [brings]; rewrite Nat.eqb_refl; reflexivity]).
    destruct (answer_decodes w peers x c i' (m_peer r1) None W V An) as (? & ? & ? & ? & ? & ? & _ & _ & _ & _ & _ & K & _). discriminate.
  - destruct A as (-> & _). congruence.
Qed.
Theorem C88_all_answered : forall w peers n l x c cl i r, well w -> requests_sized w l -> unharmed c l ->
  nrun w l (nstart peers n) = NNext x -> nth_error (x_clients x) c = Some cl -> m_shut cl = MsDone ->
  nth_error (m_rpcs cl) i = Some r -> m_late r = false ->
  exists m s f q, m_calls r = [mkMs (m_given r) m (Some true)] /\
    nth_error (x_servers x) (w_route w c (m_peer r)) = Some s /\ nth_error (x_from x) (w_route w c (m_peer r)) = Some f /\
    nth_error f q = Some (c, i) /\
    let hs := w_h w (w_route w c (m_peer r)) q (Some (m_given r)) in
    In (OSend m) (hs_inline hs ++ match hs_work hs with Some k => k | None => [] end).
Proof.
  intros w peers n l x c cl i r W Q U R Ec D Er L. pose proof (ninv_run w peers l _ _ (ninv_start w peers n) R) as V.
  destruct (nv_c _ _ _ V _ _ Ec) as (np & lc & _ & Rc). destruct (C64_shutdown_waits np lc cl Rc D) as [_ K].
  destruct (K i r Er L) as [Ph|Ph].
  - destruct (C64_once np lc cl i r Rc Er) as (_ & _ & One). specialize (One Ph). destruct (m_calls r) as [|st [|]] eqn:Cs; try discriminate.
    destruct (C88_exchange w peers n l x c cl i r st W Q R Ec Er) as (A & B & s & f & q & Es & Ef & Eq & H); [rewrite Cs; left; reflexivity|].
    exists (ms_response st), s, f, q. split; [|auto]. destruct st as [a b d]. cbn [ms_success ms_request ms_response] in *. subst. reflexivity.
  - exfalso. revert Ph. apply (never_lost w peers c l W U (nstart peers n) x) with cl i; auto; [apply ninv_start|].
    intros cl0 i0 r0 E0 F0. cbn [nstart x_clients] in E0. rewrite nth_error_map in E0. destruct (nth_error peers c); [|discriminate]. cbn in E0. injection E0 as <-.
    destruct i0; discriminate.
Qed.

Print Assumptions C88_exchange.
Print Assumptions C88_handled_once.
Print Assumptions C88_survives.
Print Assumptions C88_all_answered.
