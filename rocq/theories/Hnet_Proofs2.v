(** Lemmas for Hnet_Props.v: clients and servers together. *)
From Coq Require Import List NArith ZArith Bool Arith Lia.
From Verif Require Import Wire_Model Grpc_Model Grpc_Proofs Homa_Model Homa_Proofs Homa_Proofs2 Hnet_Model Hnet_Proofs.
Import ListNotations.
Open Scope nat_scope.

Lemma is_rpc_true a b : is_rpc a b = true -> a = b.
Proof.
  unfold is_rpc. intros E. apply andb_true_iff in E. destruct E as [A B]. apply Nat.eqb_eq in A, B. destruct a, b. cbn in *. congruence.
Qed.
Lemma is_rpc_refl a : is_rpc a a = true.
Proof. unfold is_rpc. rewrite !Nat.eqb_refl. reflexivity. Qed.
Lemma nth_app_some {A} (l m : list A) i x : nth_error l i = Some x -> nth_error (l ++ m) i = Some x.
Proof. intros H. rewrite nth_error_app1; [exact H|]. apply nth_error_Some. congruence. Qed.
Lemma NoDup_snoc {A} (l : list A) x : NoDup l -> ~ In x l -> NoDup (l ++ [x]).
Proof.
  induction l as [|y l IH]; cbn [app]; intros N H; [constructor; [exact H|constructor]|]. inversion N as [|? ? N1 N2]; subst. constructor.
  - rewrite in_app_iff. intros [I|[I|[]]]; [contradiction|]. subst. apply H. left. reflexivity.
  - apply IH; [exact N2|]. intro I. apply H. right. exact I.
Qed.

(** RPC [i] of client [c] was initiated for this peer with this request. *)
Definition asks (y : hnet) (c i p : nat) (m : grr) : Prop := exists e, nth_error (y_clients y) c = Some e /\ nth_error (e_asked e) i = Some (p, m).
Lemma asks_fun y c i p m p' m' : asks y c i p m -> asks y c i p' m' -> p = p' /\ m = m'.
Proof. intros (e & E & A) (e' & E' & A'). rewrite E in E'. injection E' as <-. rewrite A in A'. injection A' as <- <-. auto. Qed.
Lemma flying_some c i y p m : flying c i y = Some (p, m) -> asks y c i p m /\
  exists e r, nth_error (y_clients y) c = Some e /\ nth_error (hc_rpcs (e_client e)) i = Some r /\ h_phase r = HFlying.
Proof.
  unfold flying, asks. destruct (nth_error (y_clients y) c) as [e|]; [|discriminate]. destruct (nth_error (hc_rpcs (e_client e)) i) as [r|] eqn:N; [|discriminate].
  destruct (h_phase r) eqn:P; try discriminate. intros E. split; [eauto|]. exists e, r. auto.
Qed.

Section World.
Variable w : hworld.
(** How messages may lie in the receive buffers: sender, receiver, message. *)
Variable Rd : bool -> bool -> grr -> (nat -> nat) -> Prop.
Definition cn := hw_client_nocopy w.
Definition sn := hw_server_nocopy w.
Definition laid (a : yaction) (y : hnet) : Prop :=
  match a with
  | YDeliver c i _ ct => forall p m, asks y c i p m -> Rd (cn c) (sn (hw_route w c p)) m ct
  | YReply c i k ct => forall p m v q, asks y c i p m -> nth_error (y_servers y) (hw_route w c p) = Some v -> nth_error (vs_reqs (v_server v)) k = Some q ->
      Rd (sn (hw_route w c p)) (cn c) (hw_h w (hw_route w c p) k (q_parsed q)) ct
  | _ => True
  end.
Fixpoint laid_out (l : list yaction) (y : hnet) : Prop :=
  match l with
  | [] => True
  | a :: r => laid a y /\ match ystep w a y with YNext y' => laid_out r y' | YStuck => laid_out r y | YCrash => True end
  end.

Record sok (y : hnet) (j : nat) (v : hserver) : Prop := {
  so_inv : vinv (sn j) (v_server v);
  so_set : vs_set (v_server v) = true;
  so_asks : forall t c i, In (t, (c, i)) (v_arrivals v) -> exists p m, asks y c i p m /\ hw_route w c p = j;
  so_once : NoDup (map snd (v_arrivals v));
  so_len : length (v_from v) = length (vs_reqs (v_server v));
  so_from : NoDup (v_from v);
  so_reqs : forall k a q, nth_error (v_from v) k = Some a -> nth_error (vs_reqs (v_server v)) k = Some q ->
     exists t c i p m ct, nth_error (v_arrivals v) a = Some (t, (c, i)) /\ asks y c i p m /\ q_msg q = (response_on_wire (cn c) m, ct) /\ Rd (cn c) (sn j) m ct;
  so_got : forall t msg ct, got (v_server v) t msg ct -> exists a c i p m, last_of t 0 (v_arrivals v) = [a] /\ nth_error (v_arrivals v) a = Some (t, (c, i)) /\
     ~ In a (v_from v) /\ asks y c i p m /\ msg = response_on_wire (cn c) m /\ Rd (cn c) (sn j) m ct }.
(** Where what the kernel made of an RPC came from. *)
Definition answered (y : hnet) (c i : nat) (o : outcome) : Prop :=
  exists p m v k q ct, asks y c i p m /\ nth_error (y_servers y) (hw_route w c p) = Some v /\ nth_error (vs_reqs (v_server v)) k = Some q /\
    origin v k = Some (c, i) /\ q_phase q = QAnswered /\
    o = OReply (response_on_wire (sn (hw_route w c p)) (hw_h w (hw_route w c p) k (q_parsed q))) ct false /\
    Rd (sn (hw_route w c p)) (cn c) (hw_h w (hw_route w c p) k (q_parsed q)) ct.
Definition source (l : list yaction) (y : hnet) (c i : nat) (o : outcome) : Prop := (failing o = true /\ In (YFail c i o) l) \/ answered y c i o.
Record yinv (l : list yaction) (y : hnet) : Prop := {
  yi_client : forall c e, nth_error (y_clients y) c = Some e -> hinv (cn c) (e_client e) /\ length (e_asked e) = length (hc_rpcs (e_client e));
  yi_server : forall j v, nth_error (y_servers y) j = Some v -> sok y j v;
  yi_wire : forall c e i r o, nth_error (y_clients y) c = Some e -> nth_error (hc_rpcs (e_client e)) i = Some r -> h_wire r = Some o -> source l y c i o;
  yi_unsent : forall c e i r, nth_error (y_clients y) c = Some e -> nth_error (hc_rpcs (e_client e)) i = Some r -> unsent r -> In (YClient c (HSend i false)) l }.

Definition grows (y y' : hnet) : Prop := forall c i p m, asks y c i p m -> asks y' c i p m.
Lemma sok_grows y y' j v : grows y y' -> sok y j v -> sok y' j v.
Proof.
  intros G [S1 S0 S2 S3 S4 S5 S6 S7]. constructor; auto.
  - intros t c i H. destruct (S2 _ _ _ H) as (p & m & A & R). exists p, m. auto.
  - intros k a q F N. destruct (S6 _ _ _ F N) as (t & c & i & p & m & ct & A1 & A2 & A3). exists t, c, i, p, m, ct. auto.
  - intros t msg ct H. destruct (S7 _ _ _ H) as (a & c & i & p & m & A1 & A2 & A3 & A4 & A5). exists a, c, i, p, m. auto 10.
Qed.
Lemma client_grows c a s y y' e new : nth_error (y_clients y) c = Some e -> y_clients y' = lset c (mkHend s (e_asked e ++ new)) (y_clients y) ->
  hstep (cn c) a (e_client e) = HNext s -> grows y y'.
Proof.
  intros E Y _ c' i p m (e' & E' & A). unfold asks. rewrite Y. destruct (Nat.eq_dec c' c) as [->|Ne].
  - rewrite E in E'. injection E' as <-. eexists. split; [eapply lset_eq; exact E|]. cbn [e_asked]. apply nth_app_some, A.
  - exists e'. rewrite lset_neq by exact Ne. auto.
Qed.
Lemma yinv_client l act c a new y e s : yinv l y -> nth_error (y_clients y) c = Some e -> hstep (cn c) a (e_client e) = HNext s ->
  length new = (match a with HInitiate => 1 | _ => 0 end) ->
  (forall i o, a = HKernel i o -> source (l ++ [act]) y c i o) ->
  (forall i, a = HSend i false -> act = YClient c a) ->
  yinv (l ++ [act]) (mkHn (lset c (mkHend s (e_asked e ++ new)) (y_clients y)) (y_servers y)).
Proof.
  intros [I1 I2 I3 I4] E S Ln K U. set (y' := mkHn _ _). pose proof (client_grows c a s y y' e new E eq_refl S) as G.
  destruct (I1 _ _ E) as [H L]. pose proof (hstep_kept _ _ _ _ H S) as M.
  assert (Up : forall c i o, source (l ++ [act]) y c i o -> source (l ++ [act]) y' c i o).
  { intros c0 i o [X|(p & m & v & k & q & ct & A & X)]; [left; exact X|right]. exists p, m, v, k, q, ct. split; [exact (G _ _ _ _ A)|exact X]. }
  assert (Mo : forall c i o, source l y c i o -> source (l ++ [act]) y c i o).
  { intros c0 i o [[X1 X2]|X]; [left|right; exact X]. split; [exact X1|]. apply in_app_iff. auto. }
  constructor.
  - intros c' e' E'. cbn [y_clients y'] in E'. apply lset_inv in E'. destruct E' as [[-> ->]|[_ E']]; [|exact (I1 _ _ E')]. cbn [e_client e_asked].
    split; [exact (hinv_step _ _ _ _ H S)|]. rewrite app_length, (hk_len _ _ _ M), L, Ln. reflexivity.
  - intros j v V. exact (sok_grows _ _ _ _ G (I2 _ _ V)).
  - intros c' e' i r o E' N W. cbn [y_clients y'] in E'. apply lset_inv in E'. destruct E' as [[-> ->]|[_ E']]; [|exact (Up _ _ _ (Mo _ _ _ (I3 _ _ _ _ _ E' N W)))].
    cbn [e_client] in N. destruct (nth_error (hc_rpcs (e_client e)) i) as [r0|] eqn:N0.
    + destruct (hk_old _ _ _ M _ _ N0) as (r1 & N1 & W1 & _). assert (r1 = r) by congruence. subst r1. destruct W1 as [W1|(o' & -> & _ & W1)].
      * apply Up, Mo. eapply I3; [exact E|exact N0|congruence].
      * apply Up, K. congruence.
    + destruct (hk_new _ _ _ M _ _ N N0) as [W1 _]. congruence.
  - intros c' e' i r E' N X. cbn [y_clients y'] in E'. apply lset_inv in E'. destruct E' as [[-> ->]|[_ E']]; [|apply in_app_iff; left; exact (I4 _ _ _ _ E' N X)].
    cbn [e_client] in N. apply in_app_iff. destruct (nth_error (hc_rpcs (e_client e)) i) as [r0|] eqn:N0.
    + destruct (hk_old _ _ _ M _ _ N0) as (r1 & N1 & _ & W1). assert (r1 = r) by congruence. subst r1. destruct (W1 X) as [W|W]; [left; eapply I4; eauto|].
      right. left. rewrite (U _ W), W. reflexivity.
    + destruct (hk_new _ _ _ M _ _ N N0) as [_ W1]. contradiction.
Qed.
Lemma nodup_nth {A} (l : list A) : NoDup l -> forall i j x, nth_error l i = Some x -> nth_error l j = Some x -> i = j.
Proof.
  intros N i j x H1 H2. apply (proj1 (NoDup_nth_error l) N); [apply nth_error_Some; congruence|congruence].
Qed.
Lemma origin_grow v s arr from k o : origin v k = Some o -> origin (mkHv s (v_arrivals v ++ arr) (v_from v ++ from)) k = Some o.
Proof.
  unfold origin. cbn [v_from v_arrivals]. destruct (nth_error (v_from v) k) as [a|] eqn:F; [|discriminate]. rewrite (nth_app_some _ _ _ _ F).
  destruct (nth_error (v_arrivals v) a) as [p|] eqn:N; [|discriminate]. rewrite (nth_app_some _ _ _ _ N). auto.
Qed.
Lemma parsing_not_got a v t m : a = VThread t m -> ~ (exists msg ct, got (v_server v) t msg ct) -> parsing a v = [].
Proof.
  intros -> H. cbn [parsing]. destruct (nth_error (vs_threads (v_server v)) t) as [[[| |msg ct| |] n]|] eqn:T; try reflexivity.
  exfalso. apply H. exists msg, ct, n. exact T.
Qed.
Lemma yinv_server l act j a arr y v s : yinv l y -> nth_error (y_servers y) j = Some v -> vstep (sn j) a (v_server v) = VNext s ->
  (arr = [] /\ (forall t m, a <> VThread t (Some m)) \/
   exists t c i p m ct, arr = [(t, (c, i))] /\ a = VThread t (Some (response_on_wire (cn c) m, ct)) /\ receives (v_server v) t /\ asks y c i p m /\ hw_route w c p = j /\
     Rd (cn c) (sn j) m ct /\ ~ In (c, i) (map snd (v_arrivals v))) ->
  yinv (l ++ [act]) (mkHn (y_clients y) (lset j (mkHv s (v_arrivals v ++ arr) (v_from v ++ parsing a v)) (y_servers y))).
Proof.
  intros [I1 I2 I3 I4] V S Ar. set (y' := mkHn _ _). pose proof (vstep_kept _ _ _ _ S) as M. destruct (I2 _ _ V) as [S1 S0 S2 S3 S4 S5 S6 S7].
  assert (G : grows y y') by (intros c i p m A; exact A).
  constructor; [exact I1| | |].
  - intros j' v' V'. cbn [y_servers y'] in V'. apply lset_inv in V'. destruct V' as [[-> ->]|[_ V']]; [|exact (sok_grows _ _ _ _ G (I2 _ _ V'))].
    assert (Bound : forall a0, In a0 (v_from v) -> a0 < length (v_arrivals v)).
    { intros a0 H. apply In_nth_error in H. destruct H as (k & F). assert (k < length (vs_reqs (v_server v))) by (rewrite <- S4; apply nth_error_Some; congruence).
      destruct (nth_error (vs_reqs (v_server v)) k) as [q|] eqn:Q; [|apply nth_error_None in Q; lia].
      destruct (S6 _ _ _ F Q) as (t & c & i & p & m & ct & A & _). apply nth_error_Some. congruence. }
    constructor; cbn [v_server v_arrivals v_from].
    + exact (vinv_step _ _ _ _ S1 S).
    + exact (vk_set _ _ _ M S0).
    + intros t c i H. apply in_app_iff in H. destruct H as [H|H]; [exact (S2 _ _ _ H)|]. destruct Ar as [[-> _]|(t' & c' & i' & p & m & ct & -> & _ & _ & A & R & _)]; [destruct H|].
      destruct H as [H|[]]. injection H as <- <- <-. exists p, m. auto.
    + rewrite map_app. destruct Ar as [[-> _]|(t' & c' & i' & p & m & ct & -> & _ & _ & _ & _ & _ & F)]; [rewrite app_nil_r; exact S3|]. apply NoDup_snoc; assumption.
    + rewrite app_length. destruct (vk_reqs _ _ _ M) as [[R G0]|(t & m & msg & ct & q & -> & Gt & _ & R & _)].
      * rewrite R. assert (P : parsing a v = []) by (destruct a; try reflexivity; eapply parsing_not_got; [reflexivity|eapply G0; reflexivity]). rewrite P. cbn. lia.
      * rewrite R. destruct (S7 _ _ _ Gt) as (a0 & c & i & p & m0 & La & _). destruct Gt as (n & Gt). cbn [parsing]. rewrite Gt, La. cbn [length]. lia.
    + destruct (vk_reqs _ _ _ M) as [[R G0]|(t & m & msg & ct & q & -> & Gt & _ & R & _)].
      * assert (P : parsing a v = []) by (destruct a; try reflexivity; eapply parsing_not_got; [reflexivity|eapply G0; reflexivity]). rewrite P, app_nil_r. exact S5.
      * destruct (S7 _ _ _ Gt) as (a0 & c & i & p & m0 & La & _ & Fr & _). destruct Gt as (n & Gt). cbn [parsing]. rewrite Gt, La. apply NoDup_snoc; assumption.
    + intros k a0 q F N. destruct (nth_error (v_from v) k) as [a1|] eqn:F1.
      * rewrite (nth_app_some _ _ _ _ F1) in F. injection F as ->.
        assert (k < length (vs_reqs (v_server v))) by (rewrite <- S4; apply nth_error_Some; congruence).
        destruct (nth_error (vs_reqs (v_server v)) k) as [q0|] eqn:Q; [|apply nth_error_None in Q; lia].
        destruct (vk_old _ _ _ M _ _ Q) as (q' & Q' & _ & Qm & _). assert (q' = q) by congruence. subst q'.
        destruct (S6 _ _ _ F1 Q) as (t & c & i & p & m & ct & A1 & A2 & A3 & A4). exists t, c, i, p, m, ct. rewrite (nth_app_some _ _ _ _ A1). repeat split; auto. congruence.
      * apply nth_error_None in F1. rewrite nth_error_app2 in F by exact F1. destruct (vk_reqs _ _ _ M) as [[R G0]|(t & m & msg & ct & q0 & -> & Gt & _ & R & Q & Qm & _)].
        { exfalso. assert (k < length (vs_reqs s)) by (apply nth_error_Some; congruence). lia. }
        assert (k < length (vs_reqs s)) by (apply nth_error_Some; congruence). assert (k = length (vs_reqs (v_server v))) by lia. subst k. rewrite Q in N. injection N as <-.
        destruct (S7 _ _ _ Gt) as (a1 & c & i & p & m0 & La & A1 & _ & A2 & -> & A3). destruct Gt as (n & Gt). cbn [parsing] in F. rewrite Gt, La, S4, Nat.sub_diag in F. injection F as <-.
        exists t, c, i, p, m0, ct. rewrite (nth_app_some _ _ _ _ A1). auto.
    + intros t msg ct H. pose proof (vk_got _ _ _ M _ _ _ H) as Hg. destruct Hg as [Hg|[Ea Rc]].
      * destruct (S7 _ _ _ Hg) as (a0 & c & i & p & m & La & A1 & A2 & A3 & A4 & A5). exists a0, c, i, p, m. split; [|split; [apply nth_app_some, A1|split; [|auto]]].
        -- destruct Ar as [[-> _]|(t' & c' & i' & p' & m' & ct' & -> & Ea & Rc & _)]; [rewrite app_nil_r; exact La|]. rewrite last_of_app.
           destruct (Nat.eqb_spec t' t) as [->|]; [|exact La]. destruct Hg as (n & Hg). destruct Rc as (n' & Rc). congruence.
        -- intros X. apply in_app_iff in X. destruct X as [X|X]; [contradiction|]. destruct a as [|u mm| |]; try (destruct X; fail). cbn [parsing] in X.
           destruct (nth_error (vs_threads (v_server v)) u) as [[[| |m1 c1| |] n]|] eqn:T; try (destruct X; fail).
           assert (Gu : got (v_server v) u m1 c1) by (exists n; exact T).
           destruct (S7 _ _ _ Gu) as (a1 & c2 & i2 & p2 & m2 & La2 & B1 & _). rewrite La2 in X. destruct X as [X|[]]. subst a1.
           assert (u = t) by congruence. subst u.
           destruct (vk_reqs _ _ _ M) as [[_ G0]|(t3 & m3 & msg3 & ct3 & q3 & E3 & Gt & Ng & _)]; [apply (G0 _ _ eq_refl); eauto|].
           injection E3 as <- <-. apply Ng. eauto.
      * destruct Ar as [[_ Na]|(t' & c & i & p & m & ct' & -> & Ea' & _ & A & Ro & R & _)]; [exfalso; exact (Na _ _ Ea)|]. rewrite Ea' in Ea. injection Ea as -> <- <-.
        exists (length (v_arrivals v)), c, i, p, m. rewrite last_of_app, Nat.eqb_refl. split; [reflexivity|]. rewrite nth_error_app2, Nat.sub_diag by lia. split; [reflexivity|].
        split; [|auto]. destruct Rc as (n & Rc). subst a. cbn [parsing]. rewrite Rc, app_nil_r. intros X. apply Bound in X. lia.
  - intros c e i r o E N W. destruct (I3 _ _ _ _ _ E N W) as [[X1 X2]|(p & m & v0 & k & q & ct & A & V0 & Q & O & P & X1 & X2)].
    + left. split; [exact X1|]. apply in_app_iff. auto.
    + right. destruct (Nat.eq_dec (hw_route w c p) j) as [Ej|Ne].
      * rewrite Ej in V0. rewrite V in V0. injection V0 as <-. destruct (vk_old _ _ _ M _ _ Q) as (q' & Q' & Qp & _ & Qa).
        exists p, m, (mkHv s (v_arrivals v ++ arr) (v_from v ++ parsing a v)), k, q', ct. split; [exact A|]. rewrite Ej.
        split; [eapply lset_eq; exact V|]. split; [exact Q'|]. split; [apply origin_grow, O|]. split; [exact (Qa P)|]. rewrite Qp, <- Ej. auto.
      * exists p, m, v0, k, q, ct. cbn [y_servers y']. rewrite lset_neq by exact Ne. auto 10.
  - intros c e i r E N U. apply in_app_iff. left. exact (I4 _ _ _ _ E N U).
Qed.

Lemma yinv_step l a y y' : yinv l y -> laid a y -> ystep w a y = YNext y' -> yinv (l ++ [a]) y'.
Proof.
  intros I La E.
  assert (C : forall c b new act z, on_client w c b new y = YNext z -> length new = (match b with HInitiate => 1 | _ => 0 end) ->
    (forall i o, b = HKernel i o -> source (l ++ [act]) y c i o) -> (forall i, b = HSend i false -> act = YClient c b) -> yinv (l ++ [act]) z).
  { intros c b new act z H Ln K U. unfold on_client in H. destruct (nth_error (y_clients y) c) as [e|] eqn:Ec; [|discriminate].
    destruct (hstep (hw_client_nocopy w c) b (e_client e)) as [s| |] eqn:S; try discriminate. injection H as <-. eapply yinv_client; eauto. }
  destruct a as [c p m|c b|j b|c i t ct|c i k ct|c i o]; cbn [ystep] in E.
  - destruct (request_on_wire (hw_client_nocopy w c) m); [|discriminate]. eapply C; [exact E|reflexivity|discriminate|discriminate].
  - destruct b; try discriminate; (eapply C; [exact E|reflexivity|discriminate|try discriminate; auto]).
  - assert (Sv : on_server w j b [] y = YNext y' /\ forall t m, b <> VThread t (Some m)) by (destruct b as [|t [m|]| |]; try discriminate; split; auto; discriminate).
    clear E. destruct Sv as [E Nb]. unfold on_server in E. destruct (nth_error (y_servers y) j) as [v|] eqn:V; [|discriminate].
    destruct (vstep (hw_server_nocopy w j) b (v_server v)) as [s| |] eqn:S; try discriminate. injection E as <-. eapply yinv_server; eauto.
  - destruct (flying c i y) as [[p m]|] eqn:F; [|discriminate]. destruct (flying_some _ _ _ _ _ F) as [A _].
    destruct (nth_error (y_servers y) (hw_route w c p)) as [v|] eqn:V; [|discriminate]. rewrite request_wire in E.
    destruct (existsb (fun p => is_rpc (c, i) (snd p)) (v_arrivals v)) eqn:X; [discriminate|].
    destruct (nth_error (vs_threads (v_server v)) t) as [[[| | | |] n]|] eqn:T; try discriminate.
    unfold on_server in E. rewrite V in E. destruct (vstep (hw_server_nocopy w (hw_route w c p)) (VThread t (Some (response_on_wire (hw_client_nocopy w c) m, ct))) (v_server v)) as [s| |] eqn:S; try discriminate.
    injection E as <-. refine (yinv_server l (YDeliver c i t ct) (hw_route w c p) (VThread t (Some (response_on_wire (cn c) m, ct))) [(t, (c, i))] y v s I V S _).
    right. exists t, c, i, p, m, ct. repeat split; auto.
    + exists n. exact T.
    + intros H. apply in_map_iff in H. destruct H as ([u x] & H1 & H2). cbn in H1. subst x.
      assert (Y : existsb (fun p => is_rpc (c, i) (snd p)) (v_arrivals v) = true) by (apply existsb_exists; exists (u, (c, i)); split; [exact H2|apply is_rpc_refl]). congruence.
  - destruct (flying c i y) as [[p m]|] eqn:F; [|discriminate]. destruct (flying_some _ _ _ _ _ F) as [A _].
    destruct (nth_error (y_servers y) (hw_route w c p)) as [v|] eqn:V; [|discriminate].
    destruct (nth_error (vs_reqs (v_server v)) k) as [q|] eqn:Q; [|discriminate]. destruct (origin v k) as [o|] eqn:O; [|discriminate].
    destruct (q_phase q) eqn:P; [discriminate|]. destruct (is_rpc (c, i) o) eqn:R; [|discriminate]. apply is_rpc_true in R. subst o.
    eapply C; [exact E|reflexivity| |discriminate]. intros i0 o0 H. injection H as <- <-. right. exists p, m, v, k, q, ct. repeat split; auto. exact (La _ _ _ _ A V Q).
  - destruct (failing o) eqn:Fo; [|discriminate]. eapply C; [exact E|reflexivity| |discriminate]. intros i0 o0 H. injection H as <- <-. left. split; [exact Fo|]. apply in_app_iff. right. left. reflexivity.
Qed.
Lemma yinv_run l : forall done y y', yinv done y -> laid_out l y -> yrun w l y = YNext y' -> exists l', yinv (done ++ l') y' /\ incl l' l.
Proof.
  induction l as [|a l IH]; intros done y y' I L R; cbn [yrun laid_out] in *.
  - injection R as <-. exists []. rewrite app_nil_r. split; [exact I|intros x []].
  - destruct L as [La L]. destruct (ystep w a y) as [y1| |] eqn:S; [|discriminate|].
    + destruct (IH _ _ _ (yinv_step _ _ _ _ I La S) L R) as (l' & I' & In'). exists (a :: l'). rewrite <- app_assoc in I'. split; [exact I'|].
      intros x [<-|H]; [left; reflexivity|right; auto].
    + destruct (IH _ _ _ I L R) as (l' & I' & In'). exists l'. split; [exact I'|]. intros x H. right. auto.
Qed.
Lemma yinv_start clients servers : yinv [] (ystart clients servers).
Proof.
  constructor; cbn [ystart y_clients y_servers].
  - intros c e E. rewrite nth_error_map in E. destruct (nth_error clients c); [|discriminate]. injection E as <-. cbn. split; [apply hinv_start|reflexivity].
  - intros j v V. rewrite nth_error_map in V. destruct (nth_error servers j) as [n|]; [|discriminate]. injection V as <-.
    assert (T : forall t h z, nth_error (repeat (VtWait, 0%Z) n) t = Some (h, z) -> h = VtWait)
      by (intros t h z H; apply nth_error_In, repeat_spec in H; congruence).
    constructor; cbn [hserving v_server v_arrivals v_from vs_reqs vs_set map length]; try constructor; auto.
    + intros t h z H. pose proof (vi_count _ _ (vinv_start (sn j) n) t h z H) as X. exact X.
    + intros [|i]; discriminate.
    + intros t z H. apply T in H. discriminate.
    + intros [|i]; discriminate.
    + intros t z msg ct H. apply T in H. discriminate.
    + discriminate.
    + discriminate.
    + discriminate.
    + intros t h z H1 H2. apply T in H1. subst h. destruct H2; discriminate.
    + intros t c i [].
    + intros [|k]; discriminate.
    + intros t msg ct (z & H). apply T in H. discriminate.
  - intros c e i r o E N. rewrite nth_error_map in E. destruct (nth_error clients c); [|discriminate]. injection E as <-. destruct i; discriminate.
  - intros c e i r E N. rewrite nth_error_map in E. destruct (nth_error clients c); [|discriminate]. injection E as <-. destruct i; discriminate.
Qed.
Lemma run_inv clients servers l y : laid_out l (ystart clients servers) -> yrun w l (ystart clients servers) = YNext y -> exists l', yinv l' y /\ incl l' l.
Proof. intros L R. exact (yinv_run _ [] _ _ (yinv_start clients servers) L R). Qed.
End World.
