(** Property C91, continued: RPCs get done. *)
From Coq Require Import List NArith ZArith Bool Arith Lia.
From Verif Require Import Wire_Model Wire_Proofs Wire_Proofs2 Wire_Proofs3 Wire_Proofs4 Wire_Props Grpc_Model Grpc_Proofs Homa_Model Homa_Proofs Homa_Proofs2 Homa_Props.
From Verif Require Import Hnet_Model Hnet_Proofs Hnet_Proofs2 Hnet_Props.
Import ListNotations.
Open Scope nat_scope.

Lemma lset_same {A} (l : list A) : forall j x, nth_error l j = Some x -> lset j x l = l.
Proof. induction l as [|y r IH]; intros [|j] x E; try discriminate; cbn [nth_error lset] in *; [congruence|f_equal; auto]. Qed.

(** ** What a step of the network is *)
Inductive ymoved (w : hworld) (a : yaction) (y y' : hnet) : Prop :=
  | MovedClient c b new e s : nth_error (y_clients y) c = Some e -> hstep (hw_client_nocopy w c) b (e_client e) = HNext s ->
      y' = mkHn (lset c (mkHend s (e_asked e ++ new)) (y_clients y)) (y_servers y) ->
      (match a with YInitiate _ p m => new = [(p, m)] | _ => b <> HInitiate /\ new = [] end) -> ymoved w a y y'
  | MovedServer j b v s : nth_error (y_servers y) j = Some v -> vstep (hw_server_nocopy w j) b (v_server v) = VNext s ->
      y' = mkHn (y_clients y) (lset j (mkHv s (v_arrivals v) (v_from v ++ parsing b v)) (y_servers y)) ->
      a = YServer j b -> (forall t m, b <> VThread t (Some m)) -> ymoved w a y y'
  | MovedDeliver c i t ct p m v s n : asks y c i p m -> nth_error (y_servers y) (hw_route w c p) = Some v ->
      nth_error (vs_threads (v_server v)) t = Some (VtReceive, n) -> a = YDeliver c i t ct ->
      vstep (hw_server_nocopy w (hw_route w c p)) (VThread t (Some (response_on_wire (hw_client_nocopy w c) m, ct))) (v_server v) = VNext s ->
      y' = mkHn (y_clients y) (lset (hw_route w c p) (mkHv s (v_arrivals v ++ [(t, (c, i))]) (v_from v)) (y_servers y)) -> ymoved w a y y'.
Lemma ystep_moved w a y y' : ystep w a y = YNext y' -> ymoved w a y y'.
Proof.
  intros E.
  assert (C : forall c b new, on_client w c b new y = YNext y' -> (match a with YInitiate _ p m => new = [(p, m)] | _ => b <> HInitiate /\ new = [] end) -> ymoved w a y y').
  { intros c b new H N. unfold on_client in H. destruct (nth_error (y_clients y) c) as [e|] eqn:Ec; [|discriminate]. destruct (hstep _ b (e_client e)) as [s| |] eqn:S; try discriminate.
    injection H as <-. eapply MovedClient; eauto. }
  destruct a as [c p m|c b|j b|c i t ct|c i k ct|c i o]; cbn [ystep] in E.
  - destruct (request_on_wire _ m); [|discriminate]. eapply C; [exact E|reflexivity].
  - destruct b; try discriminate; (eapply C; [exact E|split; [discriminate|reflexivity]]).
  - assert (K : on_server w j b [] y = YNext y' /\ forall t m, b <> VThread t (Some m)) by (destruct b as [|t [m|]|n|]; try discriminate; split; try exact E; discriminate). clear E.
    destruct K as [E K]. unfold on_server in E. destruct (nth_error (y_servers y) j) as [v|] eqn:V; [|discriminate]. destruct (vstep _ b (v_server v)) as [s| |] eqn:S; try discriminate.
    injection E as <-. rewrite app_nil_r. eapply MovedServer; eauto.
  - destruct (flying c i y) as [[p m]|] eqn:F; [|discriminate]. destruct (flying_some _ _ _ _ _ F) as [A _]. destruct (nth_error (y_servers y) (hw_route w c p)) as [v|] eqn:V; [|discriminate].
    rewrite request_wire in E. destruct (existsb _ (v_arrivals v)); [discriminate|].
    destruct (nth_error (vs_threads (v_server v)) t) as [[[| | | |] n]|] eqn:T; try discriminate. unfold on_server in E. rewrite V in E.
    destruct (vstep _ _ (v_server v)) as [s| |] eqn:S; try discriminate. injection E as <-. cbn [parsing]. rewrite T, app_nil_r. eapply MovedDeliver; eauto.
  - destruct (flying c i y) as [[p m]|]; [|discriminate]. destruct (nth_error (y_servers y) (hw_route w c p)) as [v|]; [|discriminate].
    destruct (nth_error (vs_reqs (v_server v)) k) as [q|]; [|discriminate]. destruct (origin v k) as [o|]; [|discriminate]. destruct (q_phase q); [discriminate|]. destruct (is_rpc (c, i) o); [|discriminate].
    eapply C; [exact E|split; [discriminate|reflexivity]].
  - destruct (failing o); [|discriminate]. eapply C; [exact E|split; [discriminate|reflexivity]].
Qed.

(** ** Nothing gets lost while the servers run *)
Definition placed (v : hserver) : Prop := forall a t x, nth_error (v_arrivals v) a = Some (t, x) ->
  In a (v_from v) \/ (last_of t 0 (v_arrivals v) = [a] /\ exists msg ct, got (v_server v) t msg ct).
Record calm (clients servers : list nat) (y : hnet) : Prop := {
  ca_serving : serving y;
  ca_placed : forall j v, nth_error (y_servers y) j = Some v -> placed v;
  ca_servers : map (fun v => length (vs_threads (v_server v))) (y_servers y) = servers;
  ca_clients : map (fun e => length (hc_threads (e_client e))) (y_clients y) = clients }.
Lemma map_lset {A B} (f : A -> B) l : forall j x z, nth_error l j = Some x -> f z = f x -> map f (lset j z l) = map f l.
Proof. induction l as [|y r IH]; intros [|j] x z E F; try discriminate; cbn [nth_error lset map] in *; [injection E as ->; congruence|f_equal; eauto]. Qed.
Lemma calm_start clients servers : calm clients servers (ystart clients servers).
Proof.
  constructor.
  - apply serving_start.
  - intros j v V. cbn [ystart y_servers] in V. rewrite nth_error_map in V. destruct (nth_error servers j); [|discriminate]. injection V as <-. intros [|a] t x H; discriminate.
  - cbn [ystart y_servers]. rewrite map_map. rewrite <- (map_id servers) at 2. apply map_ext. intro n. apply repeat_length.
  - cbn [ystart y_clients]. rewrite map_map. rewrite <- (map_id clients) at 2. apply map_ext. intro n. apply repeat_length.
Qed.
Lemma calm_step w clients servers Rd l a y y' : yinv w Rd l y -> calm clients servers y -> (forall j, a <> YServer j VShutdown) -> ystep w a y = YNext y' -> calm clients servers y'.
Proof.
  intros V [C1 C2 C3 C4] Na E. pose proof (serving_step w a y y' C1 Na E) as S1. destruct (ystep_moved _ _ _ _ E) as [c b new e s Ec S -> _|j b v s Ev S -> -> Nb|c i t ct p m v s n A Ev T -> S ->].
  - constructor; auto. cbn [y_clients]. rewrite (map_lset _ _ _ _ _ Ec); [exact C4|]. cbn [e_client].
    exact (hk_threads _ _ _ (hstep_kept _ _ _ _ (proj1 (yi_client _ _ _ _ V _ _ Ec)) S)).
  - pose proof (vstep_kept _ _ _ _ S) as M. constructor; auto; cbn [y_clients y_servers].
    + intros j' v' V'. apply lset_inv in V'. destruct V' as [[-> ->]|[_ V']]; [|exact (C2 _ _ V')]. intros a t x H. cbn [v_arrivals v_from v_server] in *.
      destruct (C2 _ _ Ev a t x H) as [I|[L (msg & ct & G)]]; [left; apply in_app_iff; left; exact I|].
      destruct (vk_keep _ _ _ M _ _ _ G) as [G'|(mm & ->)]; [right; split; [exact L|eauto]|]. left. apply in_app_iff. right. cbn [parsing]. destruct G as [n G]. rewrite G, L. left. reflexivity.
    + rewrite (map_lset _ _ _ _ _ Ev); [exact C3|]. exact (vk_threads _ _ _ M).
  - pose proof (vstep_kept _ _ _ _ S) as M. constructor; auto; cbn [y_clients y_servers].
    + intros j' v' V'. apply lset_inv in V'. destruct V' as [[-> ->]|[_ V']]; [|exact (C2 _ _ V')]. intros a u x H. cbn [v_arrivals v_from v_server] in *. rewrite last_of_app.
      destruct (lt_dec a (length (v_arrivals v))) as [La|La].
      * rewrite nth_error_app1 in H by exact La. destruct (C2 _ _ Ev a u x H) as [I|[L (msg & ct' & G)]]; [left; exact I|right].
        destruct (Nat.eqb_spec t u) as [->|Ne]; [destruct G as [z G]; congruence|]. split; [exact L|]. destruct (vk_keep _ _ _ M _ _ _ G) as [G'|(mm & X)]; [eauto|congruence].
      * rewrite nth_error_app2 in H by lia. destruct (a - length (v_arrivals v)) as [|d] eqn:D; [|destruct d; discriminate]. injection H as <- <-. right.
        rewrite Nat.eqb_refl. split; [f_equal; lia|]. destruct (C1 _ _ Ev) as [_ Dn]. cbn [vstep] in S. unfold vthread_step in S. rewrite T, Dn in S.
        destruct (Nat.eqb_spec (length (response_on_wire (hw_client_nocopy w c) m)) 0) as [Z|_]; [destruct (wire_nonempty _ _ (proj1 (length_zero_iff_nil _) Z))|].
        injection S as <-. exists (response_on_wire (hw_client_nocopy w c) m), ct, n. cbn [v_server vset_thread vs_threads]. eapply lset_eq. exact T.
    + rewrite (map_lset _ _ _ _ _ Ev); [exact C3|]. exact (vk_threads _ _ _ M).
Qed.
Lemma calm_run w clients servers Rd l : forall done y y', yinv w Rd done y -> calm clients servers y -> laid_out w Rd l y -> (forall j, ~ In (YServer j VShutdown) l) ->
  yrun w l y = YNext y' -> calm clients servers y'.
Proof.
  induction l as [|a l IH]; intros done y y' V C La Ns R; cbn [yrun laid_out] in *; [injection R as <-; exact C|]. destruct La as [L1 L2].
  destruct (ystep w a y) as [y1| |] eqn:S; [|discriminate|].
  - eapply IH; [eapply yinv_step; eassumption|eapply calm_step; try eassumption|exact L2|intros j I; apply (Ns j); right; exact I|exact R]. intros j ->. apply (Ns j). left. reflexivity.
  - eapply IH; eauto. intros j I. apply (Ns j). right. exact I.
Qed.

(** The threads, the handlers and the network: what happens without anyone
    making an RPC, a shutdown or a failure. *)
Definition gentle (a : yaction) : Prop :=
  match a with
  | YInitiate _ _ _ | YFail _ _ _ | YClient _ HShutdown | YServer _ VShutdown => False
  | YClient _ (HSend _ ok) => ok = true
  | _ => True
  end.
Definition at_rest (w : hworld) (y : hnet) : Prop := forall a y', gentle a -> ystep w a y = YNext y' -> y' = y.
Lemma rest_client w y c e b s : at_rest w y -> nth_error (y_clients y) c = Some e -> gentle (YClient c b) -> b <> HInitiate -> (forall i o, b <> HKernel i o) ->
  hstep (hw_client_nocopy w c) b (e_client e) = HNext s -> s = e_client e.
Proof.
  intros R E G N K S. assert (St : ystep w (YClient c b) y = YNext (mkHn (lset c (mkHend s (e_asked e ++ [])) (y_clients y)) (y_servers y))).
  { cbn [ystep]. destruct b; try congruence; try (destruct (K _ _ eq_refl)); unfold on_client; rewrite E, S; reflexivity. }
  pose proof (R _ _ G St) as Q. apply (f_equal y_clients) in Q. cbn [y_clients] in Q. assert (H : nth_error (y_clients y) c = Some (mkHend s (e_asked e ++ []))) by (rewrite <- Q; eapply lset_eq; exact E).
  rewrite E in H. injection H as H. rewrite H. reflexivity.
Qed.
Lemma rest_server w y j v b s : at_rest w y -> nth_error (y_servers y) j = Some v -> gentle (YServer j b) -> (forall t m, b <> VThread t (Some m)) ->
  vstep (hw_server_nocopy w j) b (v_server v) = VNext s -> s = v_server v.
Proof.
  intros R E G N S. assert (St : ystep w (YServer j b) y = YNext (mkHn (y_clients y) (lset j (mkHv s (v_arrivals v ++ []) (v_from v ++ parsing b v)) (y_servers y)))).
  { cbn [ystep]. destruct b as [|t [m|]|n|]; try (destruct (N _ _ eq_refl)); unfold on_server; rewrite E, S; reflexivity. }
  pose proof (R _ _ G St) as Q. apply (f_equal y_servers) in Q. cbn [y_servers] in Q. set (v' := mkHv _ _ _) in Q.
  assert (H : nth_error (y_servers y) j = Some v') by (rewrite <- Q; eapply lset_eq; exact E).
  rewrite E in H. injection H as H. rewrite H. reflexivity.
Qed.

(** Once nothing more happens, every RPC had its one callback, with the response
    of the handler to its request unless the send failed or the kernel reported a
    failure; if no server was shut down, every peer is a server, there is a
    thread everywhere and the kernel's failures come with a length. *)
Theorem C91_completes : forall w clients servers l y c e i r p m,
  laid_out w readable l (ystart clients servers) -> yrun w l (ystart clients servers) = YNext y ->
  (forall j, ~ In (YServer j VShutdown) l) -> (forall c i, ~ In (YFail c i OError) l) ->
  Forall (lt 0) clients -> Forall (lt 0) servers -> (forall c p, hw_route w c p < length servers) -> at_rest w y ->
  nth_error (y_clients y) c = Some e -> hc_shut (e_client e) = HsNot -> nth_error (hc_rpcs (e_client e)) i = Some r -> nth_error (e_asked e) i = Some (p, m) ->
  h_phase r = HOver /\ exists cs, h_calls r = [cs] /\
    ((forall o, ~ In (YFail c i o) l) -> ~ In (YClient c (HSend i false)) l ->
     exists k, cs = mkHs (Some (true, hw_h w (hw_route w c p) k (true, m))) (Some true)).
Proof.
  intros w clients servers l y c e i r p m La R Ns Nf Fc Fs Rt Q E Sh N A.
  destruct (run_inv _ _ _ _ _ _ La R) as (l' & V & Inc).
  pose proof (calm_run w clients servers readable l [] _ _ (yinv_start w readable clients servers) (calm_start clients servers) La Ns R) as [C1 C2 C3 C4].
  destruct (yi_client _ _ _ _ V _ _ E) as [H HL]. pose proof (hi_rpc _ _ H _ _ N) as O. unfold hrpc_ok in O.
  assert (P : h_phase r = HOver).
  2: { rewrite P in O. destruct O as [O _]. split; [exact P|]. exists (h_state r). split; [exact O|]. intros Nf' Nu.
    destruct (C91_exchange _ _ _ _ _ _ _ _ _ (h_state r) _ _ La R E N A) as [(v & k & q & _ & _ & _ & _ & _ & Cs)|[_ [(o & X)|X]]].
    - rewrite O. left. reflexivity.
    - eauto.
    - destruct (Nf' _ X).
    - contradiction. }
  assert (Rpc : forall b s, gentle (YClient c b) -> b <> HInitiate -> (forall i o, b <> HKernel i o) -> hstep (hw_client_nocopy w c) b (e_client e) = HNext s ->
    forall r', nth_error (hc_rpcs s) i = Some r' -> r' = r).
  { intros b s G Nb Nk S r' N'. rewrite (rest_client w y c e b s Q E G Nb Nk S) in N'. congruence. }
  destruct (h_phase r) as [| |o| | | |] eqn:P; [| | | | |reflexivity|]; exfalso.
  - (* HCounted *)
    assert (X : hset_phase HFlying r = r).
    { eapply (Rpc (HSend i true)); [reflexivity|discriminate|discriminate|cbn [hstep]; unfold hsend; rewrite N, P; reflexivity|cbn [hset_rpc hc_rpcs]; eapply lset_eq; exact N]. }
    rewrite <- X in P. discriminate.
  - (* HFlying *)
    assert (Fl : flying c i y = Some (p, m)) by (unfold flying; rewrite E, N, P; exact A).
    destruct (nth_error (y_servers y) (hw_route w c p)) as [v|] eqn:Ev.
    2: { apply nth_error_None in Ev. apply (f_equal (@length nat)) in C3. rewrite map_length in C3. specialize (Rt c p). lia. }
    destruct (C1 _ _ Ev) as [Mp Dn]. destruct (yi_server _ _ _ _ V _ _ Ev) as [S1 S0 S2 S3 S4 S5 S6 S7].
    assert (Th : forall t h z, nth_error (vs_threads (v_server v)) t = Some (h, z) -> h = VtReceive).
    { intros t h z T. destruct h as [| |msg ct| |].
      - assert (X : vset_thread t VtReceive z (v_server v) = v_server v).
        { eapply (rest_server w y _ v (VThread t None)); [exact Q|exact Ev|exact Logic.I|discriminate|]. cbn [vstep]. unfold vthread_step. rewrite T, S0. reflexivity. }
        rewrite <- X in T. cbn [vset_thread vs_threads] in T. apply lset_inv in T. destruct T as [[_ T]|[T _]]; [discriminate|congruence].
      - reflexivity.
      - destruct (S7 t msg ct) as (x & c' & i' & p' & m' & _ & _ & _ & _ & -> & Rd); [exists z; exact T|].
        assert (X : exists s, vstep (hw_server_nocopy w (hw_route w c p)) (VThread t None) (v_server v) = VNext s /\ length (vs_reqs s) = S (length (vs_reqs (v_server v)))).
        { cbn [vstep]. unfold vthread_step. rewrite T, Mp. change (hw_server_nocopy w (hw_route w c p)) with (sn w (hw_route w c p)). rewrite (readable_parse _ _ _ _ Rd).
          eexists. split; [reflexivity|]. cbn [vs_reqs]. rewrite app_length. cbn [length]. lia. }
        destruct X as (s & X & Ln). pose proof (rest_server w y _ v (VThread t None) s Q Ev Logic.I ltac:(discriminate) X) as Z. rewrite Z in Ln. lia.
      - pose proof (vi_drain _ _ S1 _ _ _ T ltac:(auto)). congruence.
      - pose proof (vi_drain _ _ S1 _ _ _ T ltac:(auto)). congruence. }
    destruct (existsb (fun x => is_rpc (c, i) (snd x)) (v_arrivals v)) eqn:X.
    + apply existsb_exists in X. destruct X as ([t [c' i']] & X & Y). cbn [snd] in Y. apply is_rpc_true in Y. injection Y as <- <-. apply In_nth_error in X. destruct X as [a X].
      destruct (C2 _ _ Ev _ _ _ X) as [I|[_ (msg & ct & z & G)]]; [|pose proof (Th _ _ _ G); discriminate].
      apply In_nth_error in I. destruct I as [k Fk]. destruct (nth_error (vs_reqs (v_server v)) k) as [q|] eqn:Kq.
      2: { apply nth_error_None in Kq. rewrite <- S4 in Kq. apply nth_error_None in Kq. congruence. }
      destruct (q_phase q) eqn:Pq.
      * pose proof (vi_thread _ _ S1 _ _ Kq) as Lt. apply nth_error_Some in Lt. destruct (nth_error (vs_threads (v_server v)) (q_thread q)) as [[h z]|] eqn:T; [|congruence].
        pose proof (Th _ _ _ T) as ->.
        assert (Z : exists s, vstep (hw_server_nocopy w (hw_route w c p)) (VAnswer k) (v_server v) = VNext s /\ nth_error (vs_reqs s) k = Some (mkHreq (q_thread q) (q_parsed q) QAnswered (q_msg q))).
        { cbn [vstep]. unfold vanswer. rewrite Kq, Pq, T. eexists. split; [reflexivity|]. cbn [vs_reqs]. eapply lset_eq. exact Kq. }
        destruct Z as (s & Z & Rq). rewrite (rest_server w y _ v (VAnswer k) s Q Ev Logic.I ltac:(discriminate) Z), Kq in Rq. injection Rq as Rq. rewrite Rq in Pq. discriminate.
      * assert (Og : origin v k = Some (c, i)) by (unfold origin; rewrite Fk, X; reflexivity).
        set (o := OReply (response_on_wire (hw_server_nocopy w (hw_route w c p)) (hw_h w (hw_route w c p) k (q_parsed q))) (fun _ => 0) false).
        assert (St : ystep w (YReply c i k (fun _ => 0)) y = on_client w c (HKernel i o) [] y).
        { cbn [ystep]. rewrite Fl, Ev, Kq, Og, Pq, is_rpc_refl. reflexivity. }
        unfold on_client in St. rewrite E in St. cbn [hstep] in St. unfold hkernel in St. rewrite N, P in St. pose proof (Q (YReply c i k (fun _ => 0)) _ Logic.I St) as Z.
        apply (f_equal y_clients) in Z. cbn [y_clients] in Z. set (e' := mkHend _ _) in Z. assert (Y : nth_error (y_clients y) c = Some e') by (rewrite <- Z; eapply lset_eq; exact E).
        rewrite E in Y. injection Y as Y. rewrite Y in N. cbn [e' e_client hset_rpc hc_rpcs] in N. apply lset_inv in N. destruct N as [[_ N]|[N _]]; [|congruence]. rewrite N in P. discriminate.
    + assert (T : exists z, nth_error (vs_threads (v_server v)) 0 = Some (VtReceive, z)).
      { assert (Lv : In (length (vs_threads (v_server v))) servers) by (rewrite <- C3; apply in_map_iff; exists v; split; [reflexivity|eapply nth_error_In; exact Ev]).
        rewrite Forall_forall in Fs. apply Fs in Lv. destruct (vs_threads (v_server v)) as [|[h z] rest] eqn:T; [cbn in Lv; lia|]. exists z. cbn. rewrite (Th 0 h z eq_refl). reflexivity. }
      destruct T as [z T].
      assert (St : exists s, ystep w (YDeliver c i 0 (fun _ => 0)) y = YNext (mkHn (y_clients y) (lset (hw_route w c p) (mkHv s (v_arrivals v ++ [(0, (c, i))]) (v_from v ++ [])) (y_servers y)))).
      { cbn [ystep]. rewrite Fl, Ev, request_wire, X, T. unfold on_server. rewrite Ev. cbn [vstep parsing]. unfold vthread_step. rewrite T, Dn.
        destruct (Nat.eqb _ 0); eexists; reflexivity. }
      destruct St as [s St]. pose proof (Q (YDeliver c i 0 (fun _ => 0)) _ Logic.I St) as Z. apply (f_equal y_servers) in Z. cbn [y_servers] in Z. set (v' := mkHv _ _ _) in Z.
      assert (Y : nth_error (y_servers y) (hw_route w c p) = Some v') by (rewrite <- Z; eapply lset_eq; exact Ev). rewrite Ev in Y. injection Y as Y.
      apply (f_equal (fun x => length (v_arrivals x))) in Y. cbn [v' v_arrivals] in Y. rewrite app_length in Y. cbn in Y. lia.
  - (* HArrived *)
    assert (Th : exists h, nth_error (hc_threads (e_client e)) 0 = Some h).
    { assert (Lv : In (length (hc_threads (e_client e))) clients) by (rewrite <- C4; apply in_map_iff; exists e; split; [reflexivity|eapply nth_error_In; exact E]).
      rewrite Forall_forall in Fc. apply Fc in Lv. destruct (hc_threads (e_client e)) as [|h rest]; [cbn in Lv; lia|]. exists h. reflexivity. }
    destruct Th as [h T]. assert (Nn : hc_notified (e_client e) = false).
    { destruct (hc_notified (e_client e)) eqn:Z; [|reflexivity]. destruct (proj1 (hi_notified _ _ H) Z). exact Sh. }
    assert (Step : forall s, hstep (hw_client_nocopy w c) (HThread 0 (Some i)) (e_client e) = HNext s -> s = e_client e).
    { intros s S. eapply (rest_client w y c e); try eassumption; try discriminate. exact Logic.I. }
    destruct h as [| |i'|].
    + assert (Z := Step (hset_thread 0 HtReceive (e_client e))). cbn [hstep] in Z. unfold hthread_step in Z. rewrite T, Nn in Z. specialize (Z eq_refl).
      rewrite <- Z in T. cbn [hset_thread hc_threads] in T. apply lset_inv in T. destruct T as [[_ T]|[T _]]; [discriminate|congruence].
    + cbn [hstep] in Step. unfold hthread_step in Step. rewrite T, N, P in Step. unfold hreceived in Step.
      assert (Oe : o <> OError).
      { intros ->. destruct O as (_ & _ & W). destruct (yi_wire _ _ _ _ V _ _ _ _ _ E N W) as [[_ J]|(p' & m' & v & k & q & ct' & _ & _ & _ & _ & _ & Eo & _)]; [|discriminate].
        exact (Nf _ _ (Inc _ J)). }
      destruct o as [msg ct er|]; [|congruence].
      assert (Fin : forall st, hset_thread 0 (HtServe i) (hset_rpc i (mkHrpc HServing st (st :: h_calls r) (h_wire r) (h_late r)) (e_client e)) <> e_client e).
      { intros st Z. rewrite <- Z in T. cbn [hset_thread hset_rpc hc_threads] in T. apply lset_inv in T. destruct T as [[_ T]|[T _]]; [discriminate|congruence]. }
      destruct (er || Nat.eqb (length msg) 0) eqn:B; [exact (Fin _ (Step _ eq_refl))|].
      destruct O as (_ & _ & W). destruct (yi_wire _ _ _ _ V _ _ _ _ _ E N W) as [[F _]|(p' & m' & v & k & q & ct' & _ & _ & _ & _ & _ & Eo & Rd)].
      * cbn [failing] in F. congruence.
      * injection Eo as -> -> ->. change (hw_client_nocopy w c) with (cn w c) in Step. rewrite (readable_parse _ _ _ _ Rd) in Step. exact (Fin _ (Step _ eq_refl)).
    + destruct (hi_serve _ _ H _ _ T) as (r' & N' & _).
      assert (Z := Step (hset_thread 0 HtTest (hset_pending (hc_pending (e_client e) - 1) (hset_rpc i' (hset_phase HOver r') (e_client e))))). cbn [hstep] in Z. unfold hthread_step in Z. rewrite T, N' in Z.
      specialize (Z eq_refl). rewrite <- Z in T. cbn [hset_thread hc_threads hset_pending hset_rpc] in T. apply lset_inv in T. destruct T as [[_ T]|[T _]]; [discriminate|congruence].
    + pose proof (hi_exit _ _ H _ T). congruence.
  - (* HServing *)
    destruct (hi_served _ _ H _ _ N P) as [t T].
    assert (X : hset_phase HOver r = r).
    { eapply (Rpc (HThread t None)); [exact Logic.I|discriminate|discriminate|cbn [hstep]; unfold hthread_step; rewrite T, N; reflexivity|cbn [hset_thread hset_pending hset_rpc hc_rpcs]; eapply lset_eq; exact N]. }
    rewrite <- X in P. discriminate.
  - (* HSendFailed *)
    assert (X : mkHrpc HOver (mkHs (hs_response (h_state r)) (Some false)) (mkHs (hs_response (h_state r)) (Some false) :: h_calls r) (h_wire r) (h_late r) = r).
    { eapply (Rpc (HFail i)); [exact Logic.I|discriminate|discriminate|cbn [hstep]; unfold hfail; rewrite N, P; reflexivity|cbn [hset_rpc hc_rpcs]; eapply lset_eq; exact N]. }
    rewrite <- X in P. discriminate.
  - (* HForgotten *)
    destruct O as [_ W]. destruct (yi_wire _ _ _ _ V _ _ _ _ _ E N W) as [[_ J]|(p' & m' & v & k & q & ct' & _ & _ & _ & _ & _ & Eo & _)]; [|discriminate].
    exact (Nf _ _ (Inc _ J)).
Qed.

(** ** Termination *)
Definition hthread_left (h : hthread) : nat := match h with HtTest => 1 | HtServe _ => 2 | _ => 0 end.
Definition hrpc_left (r : hrpc) : nat := match h_phase r with HCounted => 8 | HFlying => 7 | HArrived _ => 5 | HSendFailed => 1 | _ => 0 end.
Definition hshut_left (n : nat) (p : hshut) : nat :=
  match p with HsNot => 4 * n + 4 | HsWake k => n + 3 + 3 * k | HsJoin k => (n - k) + 2 | HsSpin => 1 | HsClosed => 0 end.
Definition client_left (s : hclient) : nat :=
  total hthread_left (hc_threads s) + total hrpc_left (hc_rpcs s) + 2 * hc_wake s + hshut_left (length (hc_threads s)) (hc_shut s).
Lemma client_less nc b s s' : b <> HInitiate -> hstep nc b s = HNext s' -> client_left s' < client_left s.
Proof.
  unfold client_left. intros Nb E. destruct b as [|i ok|i|i o|t ch|]; cbn [hstep] in E; [congruence| | | | |].
  - unfold hsend in E. destruct (nth_error (hc_rpcs s) i) as [r|] eqn:N; [|discriminate]. destruct (h_phase r) eqn:P; try discriminate. injection E as <-.
    destruct ok; cbn [hset_pending hset_rpc hc_threads hc_rpcs hc_wake hc_shut];
      match goal with |- context [lset i ?x _] => pose proof (total_lset hrpc_left _ _ _ x N) as T end; unfold hrpc_left at 2 4 in T; rewrite P in T; cbn in T; lia.
  - unfold hfail in E. destruct (nth_error (hc_rpcs s) i) as [r|] eqn:N; [|discriminate]. destruct (h_phase r) eqn:P; try discriminate. injection E as <-.
    cbn [hset_rpc hc_threads hc_rpcs hc_wake hc_shut]. match goal with |- context [lset i ?x _] => pose proof (total_lset hrpc_left _ _ _ x N) as T end. unfold hrpc_left at 2 4 in T. rewrite P in T. cbn in T. lia.
  - unfold hkernel in E. destruct (nth_error (hc_rpcs s) i) as [r|] eqn:N; [|discriminate]. destruct (h_phase r) eqn:P; try discriminate. injection E as <-.
    cbn [hset_rpc hc_threads hc_rpcs hc_wake hc_shut]. match goal with |- context [lset i ?x _] => pose proof (total_lset hrpc_left _ _ _ x N) as T end. unfold hrpc_left at 2 4 in T. rewrite P in T. cbn in T. lia.
  - unfold hthread_step in E. destruct (nth_error (hc_threads s) t) as [h|] eqn:T; [|discriminate]. pose proof (fun x => total_lset hthread_left _ _ _ x T) as W. destruct h as [| |i|]; try discriminate.
    + injection E as <-. cbn [hset_thread hc_threads hc_rpcs hc_wake hc_shut]. rewrite lset_length. match goal with |- context [lset t ?x _] => specialize (W x); assert (Z : hthread_left x = 0) by (destruct (_ || _); reflexivity) end.
      rewrite Z in W. cbn [hthread_left] in W. lia.
    + destruct ch as [i|].
      * destruct (nth_error (hc_rpcs s) i) as [r|] eqn:N; [|discriminate]. pose proof (fun x => total_lset hrpc_left _ _ _ x N) as X. destruct (h_phase r) as [| |o| | | |] eqn:P; try discriminate.
        assert (Ar : hrpc_left r = 5) by (unfold hrpc_left; rewrite P; reflexivity). unfold hreceived in E. destruct o as [msg ct er|].
        -- assert (K : exists st, s' = hset_thread t (HtServe i) (hset_rpc i (mkHrpc HServing st (st :: h_calls r) (h_wire r) (h_late r)) s)).
           { destruct (er || Nat.eqb (length msg) 0); [injection E as <-; eauto|]. destruct (homa_parse nc msg ct); [discriminate|]. injection E as <-. eauto. }
           destruct K as [st ->]. cbn [hset_thread hset_rpc hc_threads hc_rpcs hc_wake hc_shut]. rewrite lset_length. specialize (W (HtServe i)). specialize (X (mkHrpc HServing st (st :: h_calls r) (h_wire r) (h_late r))).
           rewrite Ar in X. cbn [hthread_left] in W. unfold hrpc_left at 3 in X. cbn [h_phase] in X. lia.
        -- injection E as <-. cbn [hset_thread hset_rpc hc_threads hc_rpcs hc_wake hc_shut]. rewrite lset_length. specialize (W HtTest). specialize (X (hset_phase HForgotten r)).
           rewrite Ar in X. cbn [hthread_left] in W. unfold hrpc_left at 3 in X. cbn [h_phase hset_phase] in X. lia.
      * destruct (hc_wake s) as [|n] eqn:Wk; [discriminate|]. injection E as <-. cbn [hset_thread hset_wake hc_threads hc_rpcs hc_wake hc_shut]. rewrite lset_length. specialize (W HtTest). cbn [hthread_left] in W. lia.
    + destruct (nth_error (hc_rpcs s) i) as [r|] eqn:N; [|discriminate]. pose proof (total_lset hrpc_left _ _ _ (hset_phase HOver r) N) as X. injection E as <-.
      cbn [hset_thread hset_pending hset_rpc hc_threads hc_rpcs hc_wake hc_shut]. rewrite lset_length. specialize (W HtTest). cbn [hthread_left] in W. unfold hrpc_left at 4 in X. cbn [h_phase hset_phase] in X. lia.
  - unfold hshutdown in E. destruct (hc_shut s) as [|[|n]|k| |] eqn:Sh; try discriminate.
    + injection E as <-. cbn [hc_threads hc_rpcs hc_wake hc_shut hshut_left]. lia.
    + injection E as <-. cbn [hset_shut hc_threads hc_rpcs hc_wake hc_shut hshut_left]. lia.
    + injection E as <-. cbn [hset_shut hset_wake hc_threads hc_rpcs hc_wake hc_shut hshut_left]. lia.
    + destruct (nth_error (hc_threads s) k) as [h|] eqn:T.
      * assert (k < length (hc_threads s)) by (apply nth_error_Some; congruence). destruct h; try discriminate. injection E as <-. cbn [hset_shut hc_threads hc_rpcs hc_wake hc_shut hshut_left]. lia.
      * injection E as <-. cbn [hset_shut hc_threads hc_rpcs hc_wake hc_shut hshut_left]. lia.
    + destruct (Z.eqb (hc_pending s) 0); [|discriminate]. injection E as <-. cbn [hset_shut hc_threads hc_rpcs hc_wake hc_shut hshut_left]. lia.
Qed.
Definition vthread_left (p : vthread * Z) : nat := match fst p with VtWait => 3 | VtReceive => 2 | VtGot _ _ => 5 | VtDrain => 1 | VtGone => 0 end.
Definition req_left (q : hreq) : nat := match q_phase q with QHandling => 1 | QAnswered => 0 end.
Definition vshut_left (s : vserver) : nat :=
  match vs_join s with Some k => (length (vs_threads s) - k) + 1 | None => if vs_down s then 0 else length (vs_threads s) + 2 end.
Definition server_left (s : vserver) : nat :=
  total vthread_left (vs_threads s) + total req_left (vs_reqs s) + vshut_left s + (if vs_set s then 0 else 1).
Lemma total_snoc {A} (f : A -> nat) l x : total f (l ++ [x]) = total f l + f x.
Proof. unfold total. induction l as [|z l IH]; cbn [app fold_right]; lia. Qed.
Lemma server_less nc b s s' : vinv nc s -> (forall t m, b <> VThread t (Some m)) -> vstep nc b s = VNext s' -> s' = s /\ (forall t m, b = VThread t m -> receives s t) \/ server_left s' < server_left s.
Proof.
  unfold server_left, vshut_left. intros I Nb E. destruct b as [|t m|i|]; cbn [vstep] in E.
  - injection E as <-. destruct s as [th rq st dn mp jn]. destruct st; [left; split; [reflexivity|discriminate]|right]. cbn [vs_threads vs_reqs vs_set vs_down vs_join]. lia.
  - unfold vthread_step in E. destruct (nth_error (vs_threads s) t) as [[h n]|] eqn:T; [|discriminate]. pose proof (fun x => total_lset vthread_left _ _ _ x T) as W. destruct h as [| |msg ct| |]; try discriminate.
    + right. destruct (vs_set s) eqn:Se; [|discriminate]. injection E as <-. cbn [vset_thread vs_threads vs_reqs vs_set vs_down vs_join]. rewrite lset_length, Se. specialize (W (VtReceive, n)). cbn [vthread_left fst] in W. lia.
    + destruct (vs_down s) eqn:D.
      * right. injection E as <-. cbn [vset_thread vs_threads vs_reqs vs_set vs_down vs_join]. rewrite lset_length, D. specialize (W (VtDrain, n)). cbn [vthread_left fst] in W. lia.
      * destruct m as [m|]; [destruct (Nb _ _ eq_refl)|]. injection E as <-. left. split; [reflexivity|]. intros t' m' Q. injection Q as <- _. exists n. exact T.
    + right. destruct (vs_mapped s); [|discriminate]. destruct (homa_parse nc msg ct); [discriminate|]. injection E as <-. cbn [vs_threads vs_reqs vs_set vs_down vs_join]. rewrite lset_length, total_snoc.
      specialize (W (VtReceive, (n + 1)%Z)). cbn [vthread_left fst] in W. unfold req_left at 2. cbn [q_phase]. lia.
    + right. destruct (Z.eqb n 0); [|discriminate]. injection E as <-. cbn [vset_thread vs_threads vs_reqs vs_set vs_down vs_join]. rewrite lset_length. specialize (W (VtGone, n)). cbn [vthread_left fst] in W. lia.
  - right. unfold vanswer in E. destruct (nth_error (vs_reqs s) i) as [q|] eqn:N; [|discriminate]. destruct (q_phase q) eqn:P; [|discriminate].
    pose proof (total_lset req_left _ _ _ (mkHreq (q_thread q) (q_parsed q) QAnswered (q_msg q)) N) as X. unfold req_left at 2 4 in X. rewrite P in X. cbn [q_phase] in X.
    destruct (nth_error (vs_threads s) (q_thread q)) as [[h n]|] eqn:T; [|discriminate]. pose proof (fun x => total_lset vthread_left _ _ _ x T) as W.
    destruct h; try discriminate; injection E as <-; cbn [vs_threads vs_reqs vs_set vs_down vs_join]; rewrite lset_length;
      match goal with |- context [lset (q_thread q) ?x _] => specialize (W x); cbn [vthread_left fst] in W end; lia.
  - right. unfold vshutdown in E. destruct (vs_join s) as [k|] eqn:J.
    + destruct (nth_error (vs_threads s) k) as [[h n]|] eqn:T.
      * assert (k < length (vs_threads s)) by (apply nth_error_Some; congruence). destruct h; try discriminate. injection E as <-. cbn [vs_threads vs_reqs vs_set vs_down vs_join]. lia.
      * injection E as <-. cbn [vs_threads vs_reqs vs_set vs_down vs_join]. rewrite (vi_down _ _ I ltac:(congruence)). lia.
    + destruct (vs_down s) eqn:D; [discriminate|]. injection E as <-. cbn [vs_threads vs_reqs vs_set vs_down vs_join]. destruct (vs_set s); lia.
Qed.
Definition all_rpcs (y : hnet) : list (nat * nat) :=
  flat_map (fun c => map (pair c) (seq 0 (match nth_error (y_clients y) c with Some e => length (e_asked e) | None => 0 end))) (seq 0 (length (y_clients y))).
Definition undelivered (y : hnet) : nat := total (fun v => length (all_rpcs y) - length (v_arrivals v)) (y_servers y).
Lemma arrivals_bound w Rd y j v : sok w Rd y j v -> length (v_arrivals v) <= length (all_rpcs y).
Proof.
  intros S. rewrite <- (map_length snd). apply NoDup_incl_length; [exact (so_once _ _ _ _ _ S)|]. intros [c i] I. apply in_map_iff in I. destruct I as ([t x] & Q & I). cbn in Q. subst x.
  destruct (so_asks _ _ _ _ _ S _ _ _ I) as (p & m & (e & E & A) & _). apply in_flat_map. exists c. split; [apply in_seq; split; [lia|]; apply nth_error_Some; congruence|].
  rewrite E. apply in_map, in_seq. split; [lia|]. apply nth_error_Some. congruence.
Qed.
(** A step that nobody asked for and that changes something. *)
Definition before (w : hworld) (y2 y1 : hnet) : Prop := exists a, (forall c p m, a <> YInitiate c p m) /\ ystep w a y1 = YNext y2 /\ y2 <> y1.
Definition anyhow (_ _ : bool) (_ : grr) (_ : nat -> nat) : Prop := True.
Lemma laid_anyhow w a y : laid w anyhow a y.
Proof. destruct a; cbn [laid]; unfold anyhow; auto. Qed.
Lemma laid_out_anyhow w l : forall y, laid_out w anyhow l y.
Proof. induction l as [|a l IH]; intros y; cbn [laid_out]; [exact Logic.I|]. split; [apply laid_anyhow|]. destruct (ystep w a y); auto. Qed.
Lemma before_acc w : forall n1 n2 n3 l y, yinv w anyhow l y -> total (fun e => client_left (e_client e)) (y_clients y) = n1 -> undelivered y = n2 ->
  total (fun v => server_left (v_server v)) (y_servers y) = n3 -> Acc (before w) y.
Proof.
  induction n1 as [n1 IH1] using lt_wf_ind. induction n2 as [n2 IH2] using lt_wf_ind. induction n3 as [n3 IH3] using lt_wf_ind.
  intros l y V M1 M2 M3. constructor. intros y' (a & On & S & Ne).
  pose proof (yinv_step w anyhow l a y y' V (laid_anyhow w a y) S) as V'. destruct (ystep_moved _ _ _ _ S) as [c b new e s Ec St -> Nb|j b v s Ev St -> -> Nb|c i t ct p m v s n A Ev T -> St ->].
  - eapply IH1; [|exact V'|reflexivity|reflexivity|reflexivity]. cbn [y_clients]. assert (b <> HInitiate) by (destruct a; [destruct (On _ _ _ eq_refl)|destruct Nb; auto..]).
    pose proof (client_less _ _ _ _ H St). pose proof (total_lset (fun e => client_left (e_client e)) _ _ _ (mkHend s (e_asked e ++ new)) Ec) as T. cbn [e_client] in T. lia.
  - assert (U : undelivered (mkHn (y_clients y) (lset j (mkHv s (v_arrivals v) (v_from v ++ parsing b v)) (y_servers y))) = undelivered y).
    { unfold undelivered. cbn [y_servers]. change (all_rpcs (mkHn (y_clients y) _)) with (all_rpcs y).
      pose proof (total_lset (fun v => length (all_rpcs y) - length (v_arrivals v)) _ _ _ (mkHv s (v_arrivals v) (v_from v ++ parsing b v)) Ev) as T. cbn [v_arrivals] in T. lia. }
    destruct (server_less _ _ _ _ (so_inv _ _ _ _ _ (yi_server _ _ _ _ V _ _ Ev)) Nb St) as [[-> Rc]|L].
    + exfalso. apply Ne. assert (P : parsing b v = []).
      { unfold parsing. destruct b as [|t m| |]; try reflexivity. destruct (Rc _ _ eq_refl) as [n T]. rewrite T. reflexivity. }
      rewrite P, app_nil_r. destruct v as [vs va vf]. cbn [v_server v_arrivals v_from]. rewrite lset_same by exact Ev. destruct y. reflexivity.
    + eapply IH3; [|exact V'|exact M1|rewrite U; exact M2|reflexivity]. cbn [y_servers].
      pose proof (total_lset (fun v => server_left (v_server v)) _ _ _ (mkHv s (v_arrivals v) (v_from v ++ parsing b v)) Ev) as T. cbn [v_server] in T. lia.
  - eapply IH2; [|exact V'|exact M1|reflexivity|reflexivity]. unfold undelivered in *. cbn [y_servers]. change (all_rpcs (mkHn (y_clients y) _)) with (all_rpcs y).
    set (v' := mkHv s (v_arrivals v ++ [(t, (c, i))]) (v_from v)) in *.
    pose proof (total_lset (fun v => length (all_rpcs y) - length (v_arrivals v)) _ _ _ v' Ev) as X.
    assert (B : length (v_arrivals v') <= length (all_rpcs y)).
    { eapply (arrivals_bound w anyhow (mkHn (y_clients y) (lset (hw_route w c p) v' (y_servers y))) (hw_route w c p)). apply (yi_server _ _ _ _ V'). cbn [y_servers]. eapply lset_eq. exact Ev. }
    cbn [v' v_arrivals] in X, B. rewrite app_length in X, B. cbn [length] in X, B. fold v' in X. lia.
Qed.
(** However the threads, the handlers, the kernel and shutdowns take turns: from
    any state only finitely many steps change anything until somebody makes
    another RPC. *)
Theorem C91_terminates : forall w clients servers l y, yrun w l (ystart clients servers) = YNext y -> Acc (before w) y.
Proof.
  intros w clients servers l y R. destruct (run_inv w anyhow clients servers l y (laid_out_anyhow w l _) R) as (l' & V & _). eapply before_acc; [exact V|reflexivity|reflexivity|reflexivity].
Qed.

(** It is not so that an RPC sent to a server is called back: one that a server
    thread receives while the server shuts down is dropped without a response.
    If the kernel reports that with a negative length, or not at all, the client
    never hears of it and its ShutdownClient waits for ever. *)
Definition ex_w : hworld :=
  mkHw (fun c => Nat.eqb c 0) (fun j => Nat.eqb j 0) (fun _ p => p) (fun j k q => if (byte_size (snd q) =? 57)%Z then empty_grr else sample).
Definition whole : nat -> nat := fun _ => 60.
(** Short messages, each in one piece. *)
Definition short (m : grr) : Prop := grr_ok m /\ (byte_size m <= 60)%Z.
Definition plain (a : yaction) : Prop :=
  match a with YInitiate _ _ m => short m | YDeliver _ _ _ ct | YReply _ _ _ ct => 60 <= ct 0 | _ => True end.
Lemma short_readable s r m ct : short m -> 60 <= ct 0 -> readable s r m ct.
Proof. intros [G L] C. split; [exact G|]. split; [lia|]. right. left. repeat split; lia. Qed.
Lemma laid_short w l : (forall j k q, short (hw_h w j k q)) -> Forall plain l -> forall y, (forall c i p m, asks y c i p m -> short m) -> laid_out w readable l y.
Proof.
  intros H F. induction F as [|a l P F IH]; intros y A; cbn [laid_out]; [exact Logic.I|]. split.
  - destruct a; cbn [laid plain] in *; auto.
    + intros p m X. apply short_readable; [eapply A; exact X|exact P].
    + intros p m v q X _ _. apply short_readable; [apply H|exact P].
  - destruct (ystep w a y) as [y'| |] eqn:S; auto. apply IH. intros c i p m (e' & E' & A').
    destruct (ystep_moved _ _ _ _ S) as [c0 b new e s Ec St -> Nb|j b v s Ev St -> -> Nb|c0 i0 t ct p0 m0 v s n X Ev T -> St ->]; try (apply (A c i p m); exists e'; auto; fail).
    cbn [y_clients] in E'. apply lset_inv in E'. destruct E' as [[-> ->]|[_ E']]; [|apply (A c i p m); exists e'; auto]. cbn [e_asked] in A'.
    destruct (lt_dec i (length (e_asked e))) as [Li|Li]; [rewrite nth_error_app1 in A' by exact Li; apply (A c0 i p m); exists e; auto|]. rewrite nth_error_app2 in A' by lia.
    destruct a; try (destruct Nb as [_ ->]; destruct (i - length (e_asked e)); discriminate). subst new. destruct (i - length (e_asked e)) as [|[|d]]; try discriminate. injection A' as <- <-. exact P.
Qed.
Lemma start_asks clients servers c i p m : asks (ystart clients servers) c i p m -> short m.
Proof. intros (e & E & A). cbn [ystart y_clients] in E. rewrite nth_error_map in E. destruct (nth_error clients c); [|discriminate]. injection E as <-. destruct i; discriminate. Qed.
Lemma short_sample : short sample.
Proof. split; [apply C03_example|vm_compute; discriminate]. Qed.
Lemma short_empty : short empty_grr.
Proof. split; [repeat split|vm_compute; discriminate]. Qed.
Lemma ex_short : forall j k q, short (hw_h ex_w j k q).
Proof. intros j k q. cbn [ex_w hw_h]. destruct (_ =? 57)%Z; [apply short_empty|apply short_sample]. Qed.
Definition lost_net : list yaction :=
  [YInitiate 0 0 sample; YClient 0 (HSend 0 true); YServer 0 (VThread 0 None); YServer 0 VShutdown; YDeliver 0 0 0 whole].
Definition lost (y : hnet) : Prop :=
  (exists e r, nth_error (y_clients y) 0 = Some e /\ nth_error (hc_rpcs (e_client e)) 0 = Some r /\ hinv true (e_client e) /\
     (h_phase r = HFlying \/ h_phase r = HArrived OError \/ h_phase r = HForgotten) /\ h_calls r = [] /\ h_late r = false) /\
  (exists e p, nth_error (y_clients y) 0 = Some e /\ nth_error (e_asked e) 0 = Some (0, p)) /\
  (exists v n, nth_error (y_servers y) 0 = Some v /\ (vs_threads (v_server v) = [(VtDrain, n)] \/ vs_threads (v_server v) = [(VtGone, n)]) /\ vs_reqs (v_server v) = []).
Lemma lost_client b s s' r : hinv true s -> nth_error (hc_rpcs s) 0 = Some r -> (h_phase r = HFlying \/ h_phase r = HArrived OError \/ h_phase r = HForgotten) -> h_calls r = [] -> h_late r = false ->
  (forall o, b = HKernel 0 o -> o = OError) -> hstep true b s = HNext s' ->
  exists r', nth_error (hc_rpcs s') 0 = Some r' /\ (h_phase r' = HFlying \/ h_phase r' = HArrived OError \/ h_phase r' = HForgotten) /\ h_calls r' = [] /\ h_late r' = false.
Proof.
  intros I N P C L K E.
  assert (Other : forall j x, j <> 0 -> exists r', nth_error (lset j x (hc_rpcs s)) 0 = Some r' /\ (h_phase r' = HFlying \/ h_phase r' = HArrived OError \/ h_phase r' = HForgotten) /\ h_calls r' = [] /\ h_late r' = false).
  { intros j x J. exists r. rewrite lset_neq by congruence. auto. }
  destruct b as [|i ok|i|i o|t ch|]; cbn [hstep] in E.
  - injection E as <-. cbn [hc_rpcs]. exists r. rewrite nth_error_app1 by (apply nth_error_Some; congruence). auto.
  - unfold hsend in E. destruct (nth_error (hc_rpcs s) i) as [x|] eqn:X; [|discriminate]. destruct (h_phase x) eqn:Px; try discriminate. assert (i <> 0) by (intros ->; assert (x = r) by congruence; subst x; destruct P as [P|[P|P]]; congruence).
    injection E as <-. destruct ok; cbn [hset_pending hset_rpc hc_rpcs]; apply Other; assumption.
  - unfold hfail in E. destruct (nth_error (hc_rpcs s) i) as [x|] eqn:X; [|discriminate]. destruct (h_phase x) eqn:Px; try discriminate. assert (i <> 0) by (intros ->; assert (x = r) by congruence; subst x; destruct P as [P|[P|P]]; congruence).
    injection E as <-. apply Other; assumption.
  - unfold hkernel in E. destruct (nth_error (hc_rpcs s) i) as [x|] eqn:X; [|discriminate]. destruct (h_phase x) eqn:Px; try discriminate. injection E as <-. cbn [hset_rpc hc_rpcs].
    destruct (Nat.eq_dec i 0) as [->|Ne]; [|apply Other; assumption]. rewrite (K o eq_refl). assert (x = r) by congruence. subst x. eexists. split; [eapply lset_eq; exact N|]. cbn. auto.
  - unfold hthread_step in E. destruct (nth_error (hc_threads s) t) as [[| |i|]|] eqn:T; try discriminate.
    + injection E as <-. exists r. auto.
    + destruct ch as [i|].
      * destruct (nth_error (hc_rpcs s) i) as [x|] eqn:X; [|discriminate]. destruct (h_phase x) as [| |o| | | |] eqn:Px; try discriminate.
        destruct (Nat.eq_dec i 0) as [->|Ne].
        -- assert (x = r) by congruence. subst x. assert (o = OError) by (destruct P as [P|[P|P]]; congruence). subst o. cbn [hreceived] in E. injection E as <-. cbn [hset_thread hset_rpc hc_rpcs].
           eexists. split; [eapply lset_eq; exact N|]. cbn. auto.
        -- unfold hreceived in E. destruct o as [msg ct er|]; [destruct (er || Nat.eqb (length msg) 0); [|destruct (homa_parse true msg ct); [discriminate|]]|]; injection E as <-; cbn [hset_thread hset_rpc hc_rpcs]; apply Other; assumption.
      * destruct (hc_wake s); [discriminate|]. injection E as <-. exists r. auto.
    + destruct (nth_error (hc_rpcs s) i) as [x|] eqn:X; [|discriminate]. injection E as <-. cbn [hset_thread hset_pending hset_rpc hc_rpcs]. apply Other. intros ->.
      destruct (hi_serve _ _ I _ _ T) as (r0 & N0 & P0). assert (r0 = r) by congruence. subst r0. destruct P as [P|[P|P]]; congruence.
  - exists r. unfold hshutdown in E. destruct (hc_shut s) as [|[|n]|k| |]; try discriminate; try (injection E as <-; auto).
    + destruct (nth_error (hc_threads s) k) as [[| | |]|]; try discriminate; injection E as <-; auto.
    + destruct (Z.eqb (hc_pending s) 0); [|discriminate]. injection E as <-. auto.
Qed.
Lemma lost_server b s s' n : (vs_threads s = [(VtDrain, n)] \/ vs_threads s = [(VtGone, n)]) -> vs_reqs s = [] -> vstep true b s = VNext s' ->
  (exists n', vs_threads s' = [(VtDrain, n')] \/ vs_threads s' = [(VtGone, n')]) /\ vs_reqs s' = [].
Proof.
  intros T R E. destruct b as [|t m|i|]; cbn [vstep] in E.
  - injection E as <-. split; [exists n; exact T|exact R].
  - unfold vthread_step in E. destruct T as [T|T]; rewrite T in E; (destruct t as [|[|t]]; cbn [nth_error] in E; try discriminate). destruct (Z.eqb n 0); [|discriminate]. injection E as <-.
    cbn [vset_thread vs_threads vs_reqs]. rewrite T. split; [exists n; right; reflexivity|exact R].
  - unfold vanswer in E. rewrite R in E. destruct i; discriminate.
  - unfold vshutdown in E. destruct (vs_join s) as [k|].
    + destruct (nth_error (vs_threads s) k) as [[[| | | |] z]|]; try discriminate; injection E as <-; (split; [exists n; exact T|exact R]).
    + destruct (vs_down s); [discriminate|]. injection E as <-. split; [exists n; exact T|exact R].
Qed.
Lemma lost_step a y y' : lost y -> (forall o, a = YFail 0 0 o -> o = OError) -> ystep ex_w a y = YNext y' -> lost y'.
Proof.
  intros ((e & r & Ee & N & H & P & C & L) & (e0 & p0 & Ee0 & As) & (v & n & Ev & T & Rq)) Na E. assert (e0 = e) by congruence. subst e0.
  assert (Cl : forall c b new, on_client ex_w c b new y = YNext y' -> (forall o, c = 0 -> b = HKernel 0 o -> o = OError) -> lost y').
  { intros c b new X K. unfold on_client in X. destruct (nth_error (y_clients y) c) as [ec|] eqn:Ec; [|discriminate]. destruct (hstep _ b (e_client ec)) as [s| |] eqn:S; try discriminate. injection X as <-.
    destruct (Nat.eq_dec c 0) as [->|Nc].
    - assert (ec = e) by congruence. subst ec. change (hw_client_nocopy ex_w 0) with true in S. destruct (lost_client b _ s r H N P C L (fun o B => K o eq_refl B) S) as (r' & N' & P' & C' & L').
      split; [|split; [|exists v, n; auto]]; cbn [y_clients].
      + eexists _, r'. split; [eapply lset_eq; exact Ee|]. cbn [e_client]. split; [exact N'|]. split; [exact (hinv_step _ _ _ _ H S)|auto].
      + eexists _, p0. split; [eapply lset_eq; exact Ee|]. cbn [e_asked]. apply nth_app_some. exact As.
    - split; [|split; [|exists v, n; auto]]; cbn [y_clients]; rewrite lset_neq by congruence; eauto 10. }
  assert (Sv : forall j b arr, on_server ex_w j b arr y = YNext y' -> lost y').
  { intros j b arr X. unfold on_server in X. destruct (nth_error (y_servers y) j) as [vj|] eqn:Ej; [|discriminate]. destruct (vstep _ b (v_server vj)) as [s| |] eqn:S; try discriminate. injection X as <-.
    split; [eauto 10|]. split; [eauto|]. cbn [y_servers]. destruct (Nat.eq_dec j 0) as [->|Nj].
    - assert (vj = v) by congruence. subst vj. change (hw_server_nocopy ex_w 0) with true in S. destruct (lost_server _ _ _ _ T Rq S) as [[n' T'] R']. eexists _, n'. split; [eapply lset_eq; exact Ev|]. auto.
    - exists v, n. rewrite lset_neq by congruence. auto. }
  destruct a as [c p m|c b|j b|c i t ct|c i k ct|c i o]; cbn [ystep] in E.
  - rewrite request_wire in E. eapply Cl; [exact E|discriminate].
  - destruct b; try discriminate; (eapply Cl; [exact E|discriminate]).
  - destruct b as [|t [m|]|z|]; try discriminate; eauto.
  - destruct (flying c i y) as [[p m]|]; [|discriminate]. destruct (nth_error (y_servers y) (hw_route ex_w c p)) as [v'|]; [|discriminate].
    rewrite request_wire in E. destruct (existsb _ (v_arrivals v')); [discriminate|].
    destruct (nth_error (vs_threads (v_server v')) t) as [[[| | | |] z]|]; try discriminate. eauto.
  - destruct (flying c i y) as [[p m]|] eqn:F; [|discriminate]. destruct (nth_error (y_servers y) (hw_route ex_w c p)) as [v'|] eqn:Ev'; [|discriminate].
    destruct (nth_error (vs_reqs (v_server v')) k) as [q|] eqn:Kq; [|discriminate]. destruct (origin v' k) as [o|]; [|discriminate]. destruct (q_phase q); [discriminate|]. destruct (is_rpc (c, i) o); [|discriminate].
    eapply Cl; [exact E|]. intros o' -> Q. exfalso. injection Q as ->. destruct (flying_some _ _ _ _ _ F) as [(e1 & E1 & A1) _]. assert (e1 = e) by congruence. subst e1. rewrite As in A1. injection A1 as <- <-.
    cbn [ex_w hw_route] in Ev'. assert (v' = v) by congruence. subst v'. rewrite Rq in Kq. destruct k; discriminate.
  - destruct (failing o); [|discriminate]. eapply Cl; [exact E|]. intros o' -> Q. injection Q as -> ->. exact (Na _ eq_refl).
Qed.
Lemma lost_run l : forall y y', lost y -> (forall o, In (YFail 0 0 o) l -> o = OError) -> yrun ex_w l y = YNext y' -> lost y'.
Proof.
  induction l as [|a l IH]; intros y y' H N R; cbn [yrun] in R; [injection R as <-; exact H|]. destruct (ystep ex_w a y) as [y1| |] eqn:S; [|discriminate|].
  - eapply IH; [eapply lost_step; [exact H| |exact S]|intros o I; apply N; right; exact I|exact R]. intros o ->. apply N. left. reflexivity.
  - eapply IH; [exact H|intros o I; apply N; right; exact I|exact R].
Qed.
Theorem C91_lost_refuted : laid_out ex_w readable lost_net (ystart [1] [1]) /\ exists y, yrun ex_w lost_net (ystart [1] [1]) = YNext y /\
  forall l2 y2, (forall o, In (YFail 0 0 o) l2 -> o = OError) -> yrun ex_w l2 y = YNext y2 ->
    exists e r, nth_error (y_clients y2) 0 = Some e /\ nth_error (hc_rpcs (e_client e)) 0 = Some r /\ h_calls r = [] /\ hc_shut (e_client e) <> HsClosed.
Proof.
  split.
  - apply laid_short; [exact ex_short| |apply start_asks]. repeat constructor; try exact short_sample; try apply short_sample. 
  - eexists. split; [vm_compute; reflexivity|]. intros l2 y2 Nf R.
    match type of R with yrun _ _ ?y = _ => assert (Lo : lost y) end.
    { split; [|split].
      - eexists _, _. split; [reflexivity|]. split; [reflexivity|]. split.
        + apply (hinv_run true [HInitiate; HSend 0 true] (hstart 1)); [apply hinv_start|vm_compute; reflexivity].
        + cbn. auto.
      - eexists _, _. split; reflexivity.
      - eexists _, _. split; [reflexivity|]. cbn. auto. }
    destruct (lost_run l2 _ _ Lo Nf R) as ((e & r & Ee & N & H & P & C & L) & _). exists e, r. repeat split; auto.
    intro Cl. pose proof (hi_quiet _ _ H Cl 0 r N L) as Q. unfold hheld in Q. destruct P as [P|[P|P]]; rewrite P in Q; discriminate.
Qed.

(** Two clients and two servers, one of each reading where the messages lie; one
    RPC is refused by the kernel, one fails on the way. *)
Definition serve (j t k : nat) : list yaction := [YServer j (VThread t None); YServer j (VAnswer k)].
Definition ex_net : list yaction :=
  [YClient 0 (HThread 0 None); YClient 1 (HThread 0 None); YServer 0 (VThread 0 None); YServer 0 (VThread 1 None); YServer 1 (VThread 0 None);
   YInitiate 0 0 sample; YInitiate 0 1 empty_grr; YInitiate 1 0 empty_grr; YInitiate 1 1 sample; YInitiate 1 1 sample;
   YClient 1 (HSend 2 false); YClient 0 (HSend 0 true); YClient 0 (HSend 1 true); YClient 1 (HSend 0 true); YClient 1 (HSend 1 true); YClient 1 (HFail 2);
   YDeliver 1 0 1 whole; YDeliver 0 0 0 whole; YDeliver 0 1 0 whole] ++ serve 0 0 0 ++ serve 0 1 1 ++ serve 1 0 0 ++
  [YReply 0 0 0 whole; YReply 1 0 1 whole; YReply 0 1 0 whole; YFail 1 1 (OReply [7%N] whole true);
   YClient 0 (HThread 0 (Some 0)); YClient 0 (HThread 0 None); YClient 0 (HThread 0 None); YClient 0 (HThread 0 (Some 1)); YClient 0 (HThread 0 None); YClient 0 (HThread 0 None);
   YClient 1 (HThread 0 (Some 1)); YClient 1 (HThread 0 None); YClient 1 (HThread 0 None); YClient 1 (HThread 0 (Some 0)); YClient 1 (HThread 0 None); YClient 1 (HThread 0 None)].
Definition ex_end : list yaction := ex_net ++ [YClient 0 HShutdown; YClient 0 HShutdown; YClient 0 HShutdown; YClient 0 (HThread 0 None); YClient 0 (HThread 0 None); YClient 0 HShutdown; YClient 0 HShutdown; YClient 0 HShutdown].
Example C91_ex_laid : laid_out ex_w readable ex_end (ystart [1; 1] [2; 1]).
Proof.
  apply laid_short; [exact ex_short| |apply start_asks]. unfold ex_end, ex_net, serve, whole. cbn [app].
  repeat match goal with |- Forall _ (_ :: _) => constructor; [cbn [plain]; try exact Logic.I; try apply short_sample; try apply short_empty; try apply Nat.le_refl|] | |- Forall _ [] => constructor end.
Qed.
Example C91_ex : exists y, yrun ex_w ex_end (ystart [1; 1] [2; 1]) = YNext y /\
  map (fun e => map h_calls (hc_rpcs (e_client e))) (y_clients y) =
    [[[mkHs (Some (true, empty_grr)) (Some true)]; [mkHs (Some (true, sample)) (Some true)]];
     [[mkHs (Some (true, sample)) (Some true)]; [mkHs None (Some false)]; [mkHs None (Some false)]]] /\
  map (fun e => hc_shut (e_client e)) (y_clients y) = [HsClosed; HsNot] /\
  map (fun v => map q_parsed (vs_reqs (v_server v))) (y_servers y) = [[(true, sample); (true, empty_grr)]; [(true, empty_grr)]] /\
  map (fun v => map (origin v) [0; 1]) (y_servers y) = [[Some (0, 0); Some (1, 0)]; [Some (0, 1); None]].
Proof. eexists. split; [vm_compute; reflexivity|]. vm_compute. repeat split. Qed.
(** Nothing more happens after [ex_net]. *)
Lemma settled_rest w y :
  (forall c e, nth_error (y_clients y) c = Some e -> hc_wake (e_client e) = 0 /\ Forall (fun r => h_phase r = HOver) (hc_rpcs (e_client e)) /\ Forall (fun h => h = HtReceive) (hc_threads (e_client e))) ->
  (forall j v, nth_error (y_servers y) j = Some v -> vs_set (v_server v) = true /\ vs_down (v_server v) = false /\
     Forall (fun p => fst p = VtReceive) (vs_threads (v_server v)) /\ Forall (fun q => q_phase q = QAnswered) (vs_reqs (v_server v))) -> at_rest w y.
Proof.
  intros Cl Sv a y' G E.
  assert (Fl : forall c i, flying c i y = None).
  { intros c i. unfold flying. destruct (nth_error (y_clients y) c) as [e|] eqn:Ec; [|reflexivity]. destruct (Cl _ _ Ec) as (_ & F & _). destruct (nth_error (hc_rpcs (e_client e)) i) as [r|] eqn:N; [|reflexivity].
    rewrite Forall_forall in F. rewrite (F r (nth_error_In _ _ N)). reflexivity. }
  destruct a as [c p m|c b|j b|c i t ct|c i k ct|c i o]; try contradiction; cbn [ystep] in E; try (rewrite Fl in E; discriminate).
  - assert (K : on_client w c b [] y = YNext y' /\ b <> HInitiate /\ b <> HShutdown /\ forall i o, b <> HKernel i o) by (destruct b; try discriminate; try contradiction; repeat split; try discriminate; exact E).
    destruct K as (K & K1 & K2 & K3). exfalso. unfold on_client in K. destruct (nth_error (y_clients y) c) as [e|] eqn:Ec; [|discriminate]. destruct (Cl _ _ Ec) as (W & F & T). rewrite Forall_forall in F, T.
    destruct (hstep _ b (e_client e)) as [s| |] eqn:S; try discriminate. destruct b as [|i ok|i|i o|t ch|]; cbn [hstep] in S; try congruence.
    + unfold hsend in S. destruct (nth_error (hc_rpcs (e_client e)) i) as [r|] eqn:N; [|discriminate]. rewrite (F r (nth_error_In _ _ N)) in S. discriminate.
    + unfold hfail in S. destruct (nth_error (hc_rpcs (e_client e)) i) as [r|] eqn:N; [|discriminate]. rewrite (F r (nth_error_In _ _ N)) in S. discriminate.
    + unfold hthread_step in S. destruct (nth_error (hc_threads (e_client e)) t) as [h|] eqn:N; [|discriminate]. rewrite (T h (nth_error_In _ _ N)), W in S. destruct ch as [i|]; [|discriminate].
      destruct (nth_error (hc_rpcs (e_client e)) i) as [r|] eqn:Nr; [|discriminate]. rewrite (F r (nth_error_In _ _ Nr)) in S. discriminate.
  - assert (K : on_server w j b [] y = YNext y' /\ forall t m, b <> VThread t (Some m)) by (destruct b as [|t [m|]|n|]; try discriminate; split; try exact E; discriminate). clear E. destruct K as [K Nb]. unfold on_server in K.
    destruct (nth_error (y_servers y) j) as [v|] eqn:Ev; [|discriminate]. destruct (Sv _ _ Ev) as (Se & D & T & Q). rewrite Forall_forall in T, Q. destruct (vstep _ b (v_server v)) as [s| |] eqn:S; try discriminate.
    injection K as <-. assert (X : s = v_server v /\ parsing b v = []).
    { destruct b as [|t m|k|]; cbn [vstep] in S; try contradiction.
      - injection S as <-. split; [|reflexivity]. destruct (v_server v). cbn in *. congruence.
      - unfold vthread_step in S. cbn [parsing]. destruct (nth_error (vs_threads (v_server v)) t) as [[h n]|] eqn:N; [|discriminate]. pose proof (T _ (nth_error_In _ _ N)) as Z. cbn [fst] in Z. subst h.
        rewrite D in S. split; [|reflexivity]. destruct m as [m|]; [destruct (Nb _ _ eq_refl)|injection S as <-; reflexivity].
      - unfold vanswer in S. destruct (nth_error (vs_reqs (v_server v)) k) as [q|] eqn:N; [|discriminate]. rewrite (Q q (nth_error_In _ _ N)) in S. discriminate. }
    destruct X as [-> ->]. rewrite !app_nil_r. destruct v as [vs va vf]. cbn [v_server v_arrivals v_from]. rewrite lset_same by exact Ev. destruct y. reflexivity.
Qed.
Example C91_ex_rest : exists y, yrun ex_w ex_net (ystart [1; 1] [2; 1]) = YNext y /\ at_rest ex_w y /\ map (fun e => hc_shut (e_client e)) (y_clients y) = [HsNot; HsNot] /\
  map (fun e => map h_phase (hc_rpcs (e_client e))) (y_clients y) = [[HOver; HOver]; [HOver; HOver; HOver]].
Proof.
  eexists. split; [vm_compute; reflexivity|]. split; [|vm_compute; auto]. apply settled_rest.
  - intros [|[|[|c]]] e E; try discriminate; injection E as <-; repeat split; repeat constructor.
  - intros [|[|[|j]]] v E; try discriminate; injection E as <-; repeat split; repeat constructor.
Qed.
Print Assumptions C91_completes.
Print Assumptions C91_terminates.
Print Assumptions C91_lost_refuted.
