(** C91: Homa clients and servers together. *)
From Coq Require Import List NArith ZArith Bool Arith Lia.
From Verif Require Import Wire_Model Wire_Proofs Wire_Proofs2 Wire_Proofs3 Wire_Proofs4 Grpc_Model Grpc_Proofs Homa_Model Homa_Proofs Homa_Proofs2 Homa_Props Hnet_Model Hnet_Proofs Hnet_Proofs2.
Import ListNotations.
Open Scope nat_scope.

(** A message that can be read where it lies (C65): well formed, at most 1 MiB,
    and received by copying, or in one piece and short, or with the payload
    last and everything before it in the first piece, or left to copying. *)
Definition readable (sender receiver : bool) (m : grr) (ct : nat -> nat) : Prop :=
  grr_ok m /\ (byte_size m <= 1048576)%Z /\
  (receiver = false \/
   ((byte_size m <= 4096)%Z /\ 0 < ct 0 /\ (byte_size m <= Z.of_nat (ct O))%Z) \/
   (exists meta hdr p, payload_last m meta hdr p /\ hdr <= ct 0 /\ delivered ct homa_max_bpages hdr (length (serialize m))) \/
   fast_parse (response_on_wire sender m) ct = FpSlow).
Lemma readable_parse sender receiver m ct : readable sender receiver m ct -> homa_parse receiver (response_on_wire sender m) ct = HpRet true m.
Proof.
  intros (G & L & [->|[(L4 & C0 & C)|[(meta & hdr & p & P & H & D)|F]]]).
  - apply C65_copied; assumption.
  - destruct receiver; [apply C65_one_piece|apply C65_copied]; assumption.
  - destruct receiver; [eapply C65_in_pieces; eassumption|apply C65_copied; assumption].
  - destruct receiver; [apply C65_fall_back|apply C65_copied]; assumption.
Qed.
Lemma wire_nonempty nc m : response_on_wire nc m <> [].
Proof. apply (C65_sent nc m). Qed.

(** Each callback carries the response of the peer's handler to this very RPC,
    to which the handler was given this RPC's request, or reports a failure and
    no response; the latter only when the kernel reported one or refused the
    message. *)
Theorem C91_exchange : forall w clients servers l y c e i r cs p m,
  laid_out w readable l (ystart clients servers) -> yrun w l (ystart clients servers) = YNext y ->
  nth_error (y_clients y) c = Some e -> nth_error (hc_rpcs (e_client e)) i = Some r -> nth_error (e_asked e) i = Some (p, m) -> In cs (h_calls r) ->
  (exists v k q, nth_error (y_servers y) (hw_route w c p) = Some v /\ nth_error (vs_reqs (v_server v)) k = Some q /\ origin v k = Some (c, i) /\
     q_parsed q = (true, m) /\ q_phase q = QAnswered /\ cs = mkHs (Some (true, hw_h w (hw_route w c p) k (true, m))) (Some true)) \/
  (cs = mkHs None (Some false) /\ ((exists o, In (YFail c i o) l) \/ In (YClient c (HSend i false)) l)).
Proof.
  intros w clients servers l y c e i r cs p m La R E N A I.
  destruct (run_inv _ _ _ _ _ _ La R) as (l' & V & Inc). destruct (yi_client _ _ _ _ V _ _ E) as [H _].
  pose proof (hi_rpc _ _ H _ _ N) as O. unfold hrpc_ok in O.
  assert (K : In cs (h_calls r) -> unsent r /\ cs = mkHs None (Some false) \/ exists o, h_wire r = Some o /\ hanswer (cn w c) o cs).
  { intros J. unfold unsent. destruct (h_phase r) eqn:P; try (destruct O as (_ & O & _); rewrite O in J; destruct J; fail).
    - destruct O as (o & O1 & O2 & O3). rewrite O2 in J. destruct J as [<-|[]]. right. eauto.
    - destruct O as [O1 O2]. rewrite O1 in J. destruct J as [<-|[]]. destruct O2 as [[O2 O3]|(o & O2 & O3)]; [left; auto|right; eauto].
    - destruct O as [O1 _]. rewrite O1 in J. destruct J. }
  destruct (K I) as [[U ->]|(o & W & An)].
  - right. split; [reflexivity|]. right. apply Inc. exact (yi_unsent _ _ _ _ V _ _ _ _ E N U).
  - destruct (yi_wire _ _ _ _ V _ _ _ _ _ E N W) as [[F J]|(p' & m' & v & k & q & ct & A' & Ev & Q & Og & P & -> & Rd)].
    + right. split; [|left; exists o; apply Inc; exact J]. destruct o as [msg ct er|]; [|destruct An]. cbn [failing] in F. cbn [hanswer] in An. rewrite F in An. exact An.
    + left. assert (p' = p /\ m' = m) as [-> ->] by (apply (asks_fun y c i); [exact A'|exists e; auto]).
      exists v, k, q. repeat split; auto.
      * destruct (yi_server _ _ _ _ V _ _ Ev) as [S1 S0 S2 S3 S4 S5 S6 S7]. unfold origin in Og. destruct (nth_error (v_from v) k) as [a|] eqn:F; [|discriminate].
        destruct (S6 _ _ _ F Q) as (t & c' & i' & p' & m' & ct' & A1 & A2 & A3 & A4). rewrite A1 in Og. injection Og as -> ->.
        destruct (asks_fun _ _ _ _ _ _ _ A' A2) as [<- <-]. destruct (vi_parsed _ _ S1 _ _ Q) as [Pa _]. rewrite A3 in Pa. cbn [fst snd] in Pa. rewrite (readable_parse _ _ _ _ A4) in Pa.
        injection Pa as P1 P2. destruct (q_parsed q). cbn in *. congruence.
      * assert (Pm : q_parsed q = (true, m)).
        { destruct (yi_server _ _ _ _ V _ _ Ev) as [S1 S0 S2 S3 S4 S5 S6 S7]. unfold origin in Og. destruct (nth_error (v_from v) k) as [a|] eqn:F; [|discriminate].
          destruct (S6 _ _ _ F Q) as (t & c' & i' & p' & m' & ct' & A1 & A2 & A3 & A4). rewrite A1 in Og. injection Og as -> ->.
          destruct (asks_fun _ _ _ _ _ _ _ A' A2) as [<- <-]. destruct (vi_parsed _ _ S1 _ _ Q) as [Pa _]. rewrite A3 in Pa. cbn [fst snd] in Pa. rewrite (readable_parse _ _ _ _ A4) in Pa.
          injection Pa as P1 P2. destruct (q_parsed q). cbn in *. congruence. }
        rewrite Pm in *. cbn [hanswer orb] in An. destruct (Nat.eqb_spec (length (response_on_wire (sn w (hw_route w c p)) (hw_h w (hw_route w c p) k (true, m)))) 0) as [Z|Z].
        { destruct (wire_nonempty _ _ (proj1 (length_zero_iff_nil _) Z)). }
        destruct An as (ok & g & Pa & ->). rewrite (readable_parse _ _ _ _ Rd) in Pa. injection Pa as <- <-. reflexivity.
Qed.

(** Wherever the messages lie: every request a handler is given came from
    exactly one RPC, whose message it was parsed from and which was initiated
    for this server; no RPC reaches a handler twice. *)
Theorem C91_handled_once : forall w clients servers l y j v k q,
  yrun w l (ystart clients servers) = YNext y -> nth_error (y_servers y) j = Some v -> nth_error (vs_reqs (v_server v)) k = Some q ->
  exists c i p m, origin v k = Some (c, i) /\ asks y c i p m /\ hw_route w c p = j /\ request_on_wire (hw_client_nocopy w c) m = Some (fst (q_msg q)) /\
    forall j' v' k', nth_error (y_servers y) j' = Some v' -> origin v' k' = Some (c, i) -> j' = j /\ k' = k.
Proof.
  intros w clients servers l y j v k q R V Q.
  assert (La : laid_out w (fun _ _ _ _ => True) l (ystart clients servers)).
  { clear. generalize (ystart clients servers). induction l as [|a l IH]; intros y; cbn [laid_out]; [exact Logic.I|]. split; [destruct a; cbn; auto|].
    destruct (ystep w a y); auto. }
  destruct (run_inv _ _ _ _ _ _ La R) as (l' & Y & _). destruct (yi_server _ _ _ _ Y _ _ V) as [S1 S0 S2 S3 S4 S5 S6 S7].
  destruct (nth_error (v_from v) k) as [a|] eqn:F.
  2: { apply nth_error_None in F. rewrite S4 in F. apply nth_error_None in F. congruence. }
  destruct (S6 _ _ _ F Q) as (t & c & i & p & m & ct & A1 & A2 & A3 & _). exists c, i, p, m.
  destruct (S2 t c i) as (p' & m' & A2' & Rt); [eapply nth_error_In; exact A1|]. destruct (asks_fun _ _ _ _ _ _ _ A2 A2') as [<- <-].
  split; [unfold origin; rewrite F, A1; reflexivity|]. split; [exact A2|]. split; [exact Rt|]. split; [rewrite request_wire, A3; reflexivity|].
  intros j' v' k' V' O'. unfold origin in O'. destruct (nth_error (v_from v') k') as [a'|] eqn:F'; [|discriminate].
  destruct (nth_error (v_arrivals v') a') as [[t' x]|] eqn:A'; [|discriminate]. cbn in O'. injection O' as ->.
  destruct (yi_server _ _ _ _ Y _ _ V') as [T1 T0 T2 T3 T4 T5 T6 T7]. destruct (T2 t' c i) as (p' & m' & A4 & Rt'); [eapply nth_error_In; exact A'|].
  destruct (asks_fun _ _ _ _ _ _ _ A2 A4) as [<- <-]. assert (j' = j) by congruence. clear Rt'. subst j'. split; [reflexivity|]. assert (v' = v) by congruence. subst v'.
  assert (a' = a). { eapply (nodup_nth _ S3); rewrite nth_error_map; [rewrite A'|rewrite A1]; reflexivity. } subst a'.
  exact (nodup_nth _ S5 _ _ _ F' F).
Qed.

(** Nothing crashes while the servers are not shut down. *)
Lemma server_mapped nc a s s' : vstep nc a s = VNext s' -> a <> VShutdown -> vs_mapped s' = vs_mapped s /\ vs_down s' = vs_down s.
Proof.
  destruct a as [|t m|i|]; cbn [vstep]; intros E N; [injection E as <-; auto| | |congruence].
  - unfold vthread_step in E. destruct (nth_error (vs_threads s) t) as [[[| |msg ct| |] n]|]; try discriminate.
    + destruct (vs_set s); [|discriminate]. injection E as <-. auto.
    + destruct (vs_down s) eqn:D; [injection E as <-; auto|]. destruct m as [[msg ct]|]; [destruct (Nat.eqb _ _)|]; injection E as <-; auto.
    + destruct (vs_mapped s) eqn:M; [|discriminate]. destruct (homa_parse nc msg ct); [discriminate|]. injection E as <-. auto.
    + destruct (Z.eqb n 0); [|discriminate]. injection E as <-. auto.
  - unfold vanswer in E. destruct (nth_error (vs_reqs s) i) as [q|]; [|discriminate]. destruct (q_phase q); [|discriminate].
    destruct (nth_error (vs_threads s) (q_thread q)) as [[[| | | |] n]|]; try discriminate; injection E as <-; auto.
Qed.
Definition serving (y : hnet) : Prop := forall j v, nth_error (y_servers y) j = Some v -> vs_mapped (v_server v) = true /\ vs_down (v_server v) = false.
Lemma serving_step w a y y' : serving y -> (forall j, a <> YServer j VShutdown) -> ystep w a y = YNext y' -> serving y'.
Proof.
  intros Sv Na E.
  assert (C : forall c b new, on_client w c b new y = YNext y' -> serving y').
  { intros c b new H. unfold on_client in H. destruct (nth_error (y_clients y) c) as [e|]; [|discriminate]. destruct (hstep _ b (e_client e)); try discriminate. injection H as <-. exact Sv. }
  assert (S : forall j b arr, b <> VShutdown -> on_server w j b arr y = YNext y' -> serving y').
  { intros j b arr Nb H. unfold on_server in H. destruct (nth_error (y_servers y) j) as [v|] eqn:V; [|discriminate]. destruct (vstep _ b (v_server v)) as [s| |] eqn:S; try discriminate.
    injection H as <-. intros j' v' V'. cbn [y_servers] in V'. apply lset_inv in V'. destruct V' as [[-> ->]|[_ V']]; [|exact (Sv _ _ V')].
    cbn [v_server]. destruct (server_mapped _ _ _ _ S Nb) as [-> ->]. exact (Sv _ _ V). }
  destruct a as [c p m|c b|j b|c i t ct|c i k ct|c i o]; cbn [ystep] in E.
  - destruct (request_on_wire _ m); [|discriminate]. eauto.
  - destruct b; try discriminate; eauto.
  - destruct b as [|t [m|]|n|]; try discriminate; try (eapply S; [|exact E]; discriminate). destruct (Na j eq_refl).
  - destruct (flying c i y) as [[p m]|]; [|discriminate]. destruct (nth_error (y_servers y) (hw_route w c p)) as [v|]; [|discriminate].
    destruct (request_on_wire _ m); [|discriminate]. destruct (existsb _ (v_arrivals v)); [discriminate|].
    destruct (nth_error (vs_threads (v_server v)) t) as [[[| | | |] n]|]; try discriminate. eapply S; [|exact E]. discriminate.
  - destruct (flying c i y) as [[p m]|]; [|discriminate]. destruct (nth_error (y_servers y) (hw_route w c p)) as [v|]; [|discriminate].
    destruct (nth_error (vs_reqs (v_server v)) k) as [q|]; [|discriminate]. destruct (origin v k) as [o|]; [|discriminate]. destruct (q_phase q); [discriminate|]. destruct (is_rpc (c, i) o); [|discriminate]. eauto.
  - destruct (failing o); [|discriminate]. eauto.
Qed.
Lemma ystep_alive w l a y : yinv w readable l y -> serving y -> ystep w a y <> YCrash.
Proof.
  intros V Sv E.
  assert (C : forall c b new, on_client w c b new y <> YCrash).
  { intros c b new H. unfold on_client in H. destruct (nth_error (y_clients y) c) as [e|] eqn:Ec; [|discriminate].
    destruct (hstep (hw_client_nocopy w c) b (e_client e)) as [s| |] eqn:S; try discriminate. destruct (yi_client _ _ _ _ V _ _ Ec) as [I _].
    destruct b as [|i ok|i|i o|t ch|]; cbn [hstep] in S.
    - discriminate.
    - unfold hsend in S. destruct (nth_error _ i) as [r|]; [|discriminate]. destruct (h_phase r); discriminate.
    - unfold hfail in S. destruct (nth_error _ i) as [r|]; [|discriminate]. destruct (h_phase r); discriminate.
    - unfold hkernel in S. destruct (nth_error _ i) as [r|]; [|discriminate]. destruct (h_phase r); discriminate.
    - unfold hthread_step in S. destruct (nth_error (hc_threads (e_client e)) t) as [[| |i|]|]; try discriminate.
      + destruct ch as [i|]; [|destruct (hc_wake _); discriminate]. destruct (nth_error (hc_rpcs (e_client e)) i) as [r|] eqn:N; [|discriminate].
        destruct (h_phase r) as [| |o| | | |] eqn:P; try discriminate. unfold hreceived in S. destruct o as [msg ct er|]; [|discriminate].
        destruct (er || Nat.eqb (length msg) 0) eqn:B; [discriminate|].
        pose proof (hi_rpc _ _ I _ _ N) as O. unfold hrpc_ok in O. rewrite P in O. destruct O as (_ & _ & W).
        destruct (yi_wire _ _ _ _ V _ _ _ _ _ Ec N W) as [[F _]|(p & m & v & k & q & ct' & _ & _ & _ & _ & _ & Eo & Rd)].
        * cbn [failing] in F. congruence.
        * injection Eo as -> -> ->. change (hw_client_nocopy w c) with (cn w c) in S. rewrite (readable_parse _ _ _ _ Rd) in S. discriminate.
      + destruct (nth_error (hc_rpcs (e_client e)) i); discriminate.
    - unfold hshutdown in S. destruct (hc_shut (e_client e)) as [|[|n]|k| |]; try discriminate.
      + destruct (nth_error (hc_threads (e_client e)) k) as [[| | |]|]; discriminate.
      + destruct (Z.eqb _ 0); discriminate. }
  assert (S : forall j b arr, on_server w j b arr y <> YCrash).
  { intros j b arr H. unfold on_server in H. destruct (nth_error (y_servers y) j) as [v|] eqn:Ev; [|discriminate].
    destruct (vstep (hw_server_nocopy w j) b (v_server v)) as [s|cr|] eqn:S; try discriminate. destruct (Sv _ _ Ev) as [Mp _].
    destruct (yi_server _ _ _ _ V _ _ Ev) as [S1 S0 S2 S3 S4 S5 S6 S7]. destruct b as [|t mm|n|].
    - discriminate.
    - cbn [vstep] in S. unfold vthread_step in S. destruct (nth_error (vs_threads (v_server v)) t) as [[[| |msg ct| |] n]|] eqn:T; try discriminate.
      + destruct (vs_set _); discriminate.
      + destruct (vs_down _); [discriminate|]. destruct mm as [[msg ct]|]; [destruct (Nat.eqb _ _)|]; discriminate.
      + rewrite Mp in S. destruct (S7 t msg ct) as (x & c & i & p & m & _ & _ & _ & _ & -> & Rd); [exists n; exact T|].
        change (hw_server_nocopy w j) with (sn w j) in S. rewrite (readable_parse _ _ _ _ Rd) in S. discriminate.
      + destruct (Z.eqb n 0); discriminate.
    - destruct cr; try (apply (v_not_dangling _ _ _ S1) in S; exact S);
        cbn [vstep] in S; unfold vanswer in S; destruct (nth_error _ n) as [q|]; try discriminate; destruct (q_phase q); try discriminate;
        destruct (nth_error (vs_threads (v_server v)) (q_thread q)) as [[[| | | |] z]|]; discriminate.
    - cbn [vstep] in S. unfold vshutdown in S. destruct (vs_join (v_server v)) as [k|]; [destruct (nth_error (vs_threads (v_server v)) k) as [[[| | | |] z]|]|destruct (vs_down (v_server v))]; discriminate. }
  destruct a as [c p m|c b|j b|c i t ct|c i k ct|c i o]; cbn [ystep] in E.
  - rewrite request_wire in E. exact (C _ _ _ E).
  - destruct b; try discriminate; exact (C _ _ _ E).
  - destruct b as [|t [m|]|n|]; try discriminate; exact (S _ _ _ E).
  - destruct (flying c i y) as [[p m]|]; [|discriminate]. destruct (nth_error (y_servers y) (hw_route w c p)) as [v|]; [|discriminate].
    rewrite request_wire in E. destruct (existsb _ (v_arrivals v)); [discriminate|].
    destruct (nth_error (vs_threads (v_server v)) t) as [[[| | | |] n]|]; try discriminate. exact (S _ _ _ E).
  - destruct (flying c i y) as [[p m]|]; [|discriminate]. destruct (nth_error (y_servers y) (hw_route w c p)) as [v|]; [|discriminate].
    destruct (nth_error (vs_reqs (v_server v)) k) as [q|]; [|discriminate]. destruct (origin v k) as [o|]; [|discriminate]. destruct (q_phase q); [discriminate|]. destruct (is_rpc (c, i) o); [|discriminate].
    exact (C _ _ _ E).
  - destruct (failing o); [|discriminate]. exact (C _ _ _ E).
Qed.
Lemma serving_start clients servers : serving (ystart clients servers).
Proof. intros j v V. cbn [ystart y_servers] in V. rewrite nth_error_map in V. destruct (nth_error servers j); [|discriminate]. injection V as <-. auto. Qed.
Theorem C91_survives : forall w clients servers l, laid_out w readable l (ystart clients servers) -> (forall j, ~ In (YServer j VShutdown) l) ->
  exists y, yrun w l (ystart clients servers) = YNext y.
Proof.
  intros w clients servers l. assert (G : forall done y, yinv w readable done y -> serving y -> laid_out w readable l y -> (forall j, ~ In (YServer j VShutdown) l) -> exists y', yrun w l y = YNext y').
  { induction l as [|a l IH]; intros done y V Sv La Ns; cbn [yrun laid_out] in *; [eauto|]. destruct La as [L1 L2].
    destruct (ystep w a y) as [y1| |] eqn:S.
    - eapply IH; [eapply yinv_step; eassumption|eapply serving_step; [exact Sv| |exact S]; intros j ->; apply (Ns j); left; reflexivity|exact L2|intros j I; apply (Ns j); right; exact I].
    - destruct (ystep_alive _ _ _ _ V Sv S).
    - eapply IH; eauto. intros j I. apply (Ns j). right. exact I. }
  intros La Ns. eapply G; [apply yinv_start|apply serving_start|exact La|exact Ns].
Qed.

(** When ShutdownClient has returned, every RPC initiated before had exactly one
    callback, apart from those whose message was refused and whose caller is
    still about to call it; without a failure it has the handler's response. *)
Theorem C91_all_answered : forall w clients servers l y c e i r p m,
  laid_out w readable l (ystart clients servers) -> yrun w l (ystart clients servers) = YNext y ->
  nth_error (y_clients y) c = Some e -> hc_shut (e_client e) = HsClosed -> nth_error (hc_rpcs (e_client e)) i = Some r -> nth_error (e_asked e) i = Some (p, m) -> h_late r = false ->
  h_phase r = HSendFailed \/ exists cs, h_calls r = [cs] /\
    ((forall o, ~ In (YFail c i o) l) -> ~ In (YClient c (HSend i false)) l ->
     exists k, cs = mkHs (Some (true, hw_h w (hw_route w c p) k (true, m))) (Some true)).
Proof.
  intros w clients servers l y c e i r p m La R E Cl N A Lt.
  destruct (run_inv _ _ _ _ _ _ La R) as (l' & V & _). destruct (yi_client _ _ _ _ V _ _ E) as [H _].
  pose proof (hi_quiet _ _ H Cl _ _ N Lt) as Q. unfold hheld in Q. destruct (h_phase r) eqn:P; try discriminate; [left; reflexivity|right].
  pose proof (hi_rpc _ _ H _ _ N) as O. unfold hrpc_ok in O. rewrite P in O. destruct O as [O _]. exists (h_state r). split; [exact O|]. intros Nf Nu.
  destruct (C91_exchange _ _ _ _ _ _ _ _ _ (h_state r) _ _ La R E N A) as [(v & k & q & _ & _ & _ & _ & _ & Cs)|[_ [(o & X)|X]]].
  - rewrite O. left. reflexivity.
  - eauto.
  - destruct (Nf _ X).
  - contradiction.
Qed.
Print Assumptions C91_exchange.
Print Assumptions C91_handled_once.
Print Assumptions C91_survives.
Print Assumptions C91_all_answered.
