(** Lemmas for Mnet_Props.v. *)
From Coq Require Import List NArith ZArith Bool Arith Lia Permutation.
From Verif Require Import Wire_Model Wire_Proofs2 Grpc_Model Grpc_Proofs Merc_Model Merc_Proofs
  Msrv_Model Msrv_Proofs Mnet_Model.
Import ListNotations.
Open Scope nat_scope.

(** ** What a client keeps *)
Definition launched (r : mrpc) : Prop := match m_phase r with MStarted | MCreated => False | _ => True end.
Record rgrow (r r' : mrpc) : Prop := {
  g_peer : m_peer r' = m_peer r;
  g_given : m_given r' = m_given r;
  g_launched : launched r -> launched r';
  g_wire : m_wire r <> None -> m_wire r' = m_wire r }.
Lemma rgrow_refl r : rgrow r r.
Proof. constructor; auto. Qed.
Definition cgrow (s s' : mclient) : Prop := forall i r, nth_error (m_rpcs s) i = Some r ->
  exists r', nth_error (m_rpcs s') i = Some r' /\ rgrow r r'.
Lemma cgrow_refl s : cgrow s s.
Proof. intros i r E. eauto using rgrow_refl. Qed.
Lemma cgrow_same s s' : m_rpcs s' = m_rpcs s -> cgrow s s'.
Proof. intros E i r H. rewrite E. eauto using rgrow_refl. Qed.
Lemma cgrow_set s s' i r r' : nth_error (m_rpcs s) i = Some r -> m_rpcs s' = lset i r' (m_rpcs s) -> rgrow r r' -> cgrow s s'.
Proof.
  intros E S G j x H. rewrite S. destruct (Nat.eq_dec j i) as [->|D].
  - rewrite (lset_eq _ _ _ _ E). exists r'. split; [reflexivity|]. congruence.
  - rewrite lset_neq by exact D. eauto using rgrow_refl.
Qed.

(** Whose reply an action brings. *)
Definition brings (a : maction) (i : nat) : option (Z * option bytes) :=
  match a with MPoll (Some (j, ret, out)) => if Nat.eqb j i then Some (ret, out) else None | _ => None end.
Definition fails (a : maction) : Prop :=
  match a with MCreate _ false | MForward _ false | MPoll (Some (_, _, None)) => True | _ => False end.
(** One step of a client: every RPC grows, the others are new, and what an RPC
    received came with this action. *)
Record cstep (a : maction) (s s' : mclient) : Prop := {
  t_grow : cgrow s s';
  t_wire : forall i r', nth_error (m_rpcs s') i = Some r' -> m_wire r' <> None ->
    (exists r, nth_error (m_rpcs s) i = Some r /\ m_wire r' = m_wire r) \/ (m_wire r' = brings a i);
  t_lost : forall i r', nth_error (m_rpcs s') i = Some r' -> m_phase r' = MLost ->
    (exists r, nth_error (m_rpcs s) i = Some r /\ m_phase r = MLost) \/ fails a;
  t_new : forall i r', nth_error (m_rpcs s') i = Some r' ->
    (exists r, nth_error (m_rpcs s) i = Some r) \/ (exists p q o, a = MInitiate p q o /\ m_given r' = q);
  t_peers : m_peers s' = m_peers s }.
Lemma cstep_same a s s' : m_rpcs s' = m_rpcs s -> m_peers s' = m_peers s -> cstep a s s'.
Proof.
  intros E P. constructor; [apply cgrow_same, E| | | |exact P]; rewrite E.
  - intros i r H _. left. eauto.
  - intros i r H L. left. eauto.
  - intros i r H. left. eauto.
Qed.
Lemma cstep_set a s s' i r r' : nth_error (m_rpcs s) i = Some r -> m_rpcs s' = lset i r' (m_rpcs s) -> m_peers s' = m_peers s -> rgrow r r' ->
  (m_wire r' = m_wire r \/ m_wire r' = brings a i) -> (m_phase r' = MLost -> m_phase r = MLost \/ fails a) -> cstep a s s'.
Proof.
  intros E S P G W L. constructor; [eapply cgrow_set; eassumption| | | |exact P]; rewrite S.
  - intros j x H N. destruct (lset_inv _ _ _ _ _ H) as [[-> ->]|[D K]]; [|left; eauto]. destruct W as [W|W]; [left; eauto|right; exact W].
  - intros j x H N. destruct (lset_inv _ _ _ _ _ H) as [[-> ->]|[D K]]; [|left; eauto]. destruct (L N); [left; eauto|right; assumption].
  - intros j x H. left. destruct (lset_inv _ _ _ _ _ H) as [[-> ->]|[D K]]; eauto.
Qed.
Lemma mstep_cstep a s s' : minv s -> mstep a s = MNext s' -> cstep a s s'.
Proof.
  intros V E. destruct a as [p q o|i ok|i ok|c|]; cbn [mstep] in E.
  - unfold minitiate in E. match type of E with (if negb ?b then _ else _) = _ => destruct b end; cbn [negb] in E; [|discriminate].
    destruct (p <? 0)%Z; [discriminate|]. destruct (_ <=? p)%Z; [discriminate|]. injection E as <-.
    constructor; [| | | |reflexivity]; cbn [m_rpcs].
    + intros i r H. exists r. cbn [m_rpcs]. rewrite nth_error_app1 by (apply nth_error_Some; congruence). split; [exact H|apply rgrow_refl].
    + intros i r H N. destruct (nth_snoc _ _ _ _ H) as [H1|[-> ->]]; [left; eauto|]. cbn [m_wire] in N. congruence.
    + intros i r H N. destruct (nth_snoc _ _ _ _ H) as [H1|[-> ->]]; [left; eauto|]. cbn [m_phase] in N. discriminate.
    + intros i r H. destruct (nth_snoc _ _ _ _ H) as [H1|[-> ->]]; [left; eauto|]. right. exists p, q, o. auto.
  - unfold mcreate in E. destruct (nth_error (m_rpcs s) i) as [r|] eqn:N; [|discriminate]. destruct (m_phase r) eqn:P; try discriminate.
    injection E as <-. destruct ok.
    + eapply cstep_set; [exact N|reflexivity|reflexivity| |left; reflexivity|discriminate].
      constructor; cbn; auto. unfold launched. rewrite P. contradiction.
    + eapply cstep_set; [exact N|reflexivity|reflexivity| |left; reflexivity|right; exact Logic.I].
      constructor; cbn; auto.
  - unfold mforward in E. destruct (nth_error (m_rpcs s) i) as [r|] eqn:N; [|discriminate]. destruct (m_phase r) eqn:P; try discriminate.
    injection E as <-. destruct ok.
    + eapply cstep_set; [exact N|reflexivity|reflexivity| |left; reflexivity|discriminate]. constructor; cbn; auto.
    + eapply cstep_set; [exact N|reflexivity|reflexivity| |left; reflexivity|right; exact Logic.I]. constructor; cbn; auto.
  - unfold mpoll in E. destruct (m_poller s) as [| |i|] eqn:Po.
    + injection E as <-. apply cstep_same; reflexivity.
    + destruct c as [[[i ret] out]|]; [|injection E as <-; apply cstep_same; reflexivity].
      destruct (nth_error (m_rpcs s) i) as [r|] eqn:N; [|discriminate]. destruct (m_phase r) eqn:P; try discriminate.
      injection E as <-. pose proof (mi_rpc _ V _ _ N) as O. unfold mrpc_ok in O. rewrite P in O. destruct O as (_ & _ & _ & W).
      unfold mcallback. destruct out as [str|].
      * eapply cstep_set; [exact N|reflexivity|reflexivity| |right|discriminate]; [constructor; cbn; auto; congruence|].
        cbn [brings m_wire]. rewrite Nat.eqb_refl. reflexivity.
      * eapply cstep_set; [exact N|reflexivity|reflexivity| |right|right; exact Logic.I]; [constructor; cbn; auto; congruence|].
        cbn [brings m_wire]. rewrite Nat.eqb_refl. reflexivity.
    + destruct (nth_error (m_rpcs s) i) as [r|] eqn:N; [|discriminate]. destruct (mbusy i (m_rpcs s)); [discriminate|]. injection E as <-.
      eapply cstep_set; [exact N|reflexivity|reflexivity| |left; reflexivity|discriminate]. constructor; cbn; auto.
    + discriminate.
  - unfold mshutdown in E. destruct (m_shut s); try (destruct (Z.eqb _ _); [|discriminate]); try (destruct (m_poller s); try discriminate);
      injection E as <-; apply cstep_same; reflexivity.
Qed.

(** ** What a server keeps *)
Definition rq_pair (r : mreq) := (rq_wire r, rq_seen r).
Definition rp_pair (p : mresp) := (rp_req p, rp_msg p).
Record sgrow (s s' : msrv) (more : list (bytes * option grr)) : Prop := {
  g_reqs : map rq_pair (sv_reqs s') = map rq_pair (sv_reqs s) ++ more;
  g_resps : exists l, map rp_pair (sv_resps s') = map rp_pair (sv_resps s) ++ l;
  g_set : sv_set s = true -> sv_set s' = true }.
Definition news (mem : N) (a : saction) : list (bytes * option grr) :=
  match a with STrigger (TRequest w) => match server_request mem w with SrvRequest m => [(w, m)] | SrvThrow => [] end | _ => [] end.
Lemma use_sgrow b i o ok s s' : use_state b i o ok s = SvNext s' -> sgrow s s' [].
Proof.
  intros E. unfold use_state in E. destruct (nth_error (sv_reqs s) i) as [r|] eqn:N; [|discriminate].
  destruct (negb _); [discriminate|]. destruct o as [m|].
  - destruct (_ && _); [discriminate|]. injection E as <-. constructor; cbn [sv_reqs sv_resps sv_set]; auto.
    + rewrite app_nil_r. apply (lset_map rq_pair) with r; [exact N|reflexivity].
    + rewrite map_app. eauto.
  - injection E as <-. constructor; cbn [sv_reqs sv_resps sv_set]; auto.
    + rewrite app_nil_r. apply (lset_map rq_pair) with r; [exact N|reflexivity].
    + exists []. rewrite app_nil_r. reflexivity.
Qed.
Lemma sstep_sgrow b mem h a s s' : sstep b mem h a s = SvNext s' -> sgrow s s' (news mem a).
Proof.
  assert (Same : forall t, sv_reqs t = sv_reqs s -> map rp_pair (sv_resps t) = map rp_pair (sv_resps s) -> (sv_set s = true -> sv_set t = true) -> sgrow s t []).
  { intros t A B C. constructor; [rewrite A, app_nil_r; reflexivity|exists []; rewrite B, app_nil_r; reflexivity|exact C]. }
  intros E. destruct a as [| |t|ok|sent|n ok|]; cbn [sstep news] in *.
  - destruct (sv_shut s); try discriminate. injection E as <-. apply Same; auto.
  - destruct (sv_poller s); try discriminate. injection E as <-. apply Same; auto.
  - destruct (sv_poller s); try discriminate. destruct t as [|wire|k]; cbn [do_trigger] in E.
    + injection E as <-. apply Same; auto.
    + unfold request_callback in E. destruct (server_request mem wire) as [|m]; [discriminate|]. destruct (negb (sv_set s)); [discriminate|].
      injection E as <-. constructor; cbn [sv_reqs sv_resps sv_set]; auto.
      * rewrite map_app. reflexivity.
      * exists []. rewrite app_nil_r. reflexivity.
    + destruct (nth_error (sv_resps s) k) as [r|] eqn:N; [|discriminate]. destruct (rp_phase r); try discriminate.
      injection E as <-. apply Same; auto. cbn [sset_poller sset_resps sv_resps]. apply (lset_map rp_pair) with r; [exact N|reflexivity].
  - destruct (sv_poller s) as [| |i [|o ops] [w|]| |]; try discriminate.
    1,2: injection E as <-; apply Same; auto.
    all: apply use_sgrow in E; destruct E as [A B C]; constructor; assumption.
  - destruct (sv_poller s); try discriminate. injection E as <-. apply Same; auto. apply send_some_req.
  - destruct (nth_error (sv_tasks s) n) as [[i [|o ops]]|]; [| |discriminate].
    + injection E as <-. apply Same; auto.
    + apply use_sgrow in E. destruct E as [A B C]. constructor; assumption.
  - destruct (sv_shut s); [| | |].
    + injection E as <-. apply Same; auto.
    + destruct (sv_poller s); try discriminate. injection E as <-. apply Same; auto.
    + destruct (sv_tasks s); [|discriminate]. injection E as <-. apply Same; auto.
    + injection E as <-. apply Same; auto.
Qed.

Lemma NoDup_app_one {A} (l : list A) x : NoDup l -> ~ In x l -> NoDup (l ++ [x]).
Proof.
  intros N H. eapply Permutation_NoDup; [apply Permutation_app_comm|]. constructor; assumption.
Qed.

(** ** The whole *)
Section World.
Variable w : mworld.
Variable peers : list nat.

(** Request [q] of server [j] came from RPC [i] of client [c]. *)
Definition came (x : mnet) (j : nat) (c i : nat) (wire : bytes) : Prop :=
  exists cl r, nth_error (x_clients x) c = Some cl /\ nth_error (m_rpcs cl) i = Some r /\ launched r /\
    w_route w c (m_peer r) = j /\ put_on_wire (w_mem w) (w_room w) (m_given r) = Some wire.
(** What an RPC received is an error or what its server responded. *)
Definition answer (x : mnet) (c i peer : nat) (ret : Z) (out : option bytes) : Prop :=
  (ret <> 0%Z /\ out = None) \/
  (ret = 0%Z /\ exists s f k q m wire, nth_error (x_servers x) (w_route w c peer) = Some s /\
     nth_error (x_from x) (w_route w c peer) = Some f /\ nth_error f q = Some (c, i) /\
     nth_error (map rp_pair (sv_resps s)) k = Some (q, m) /\ put_on_wire (w_mem w) (w_room w) m = Some wire /\
     out = get_output (w_mem w) wire).
Record ninv (x : mnet) : Prop := {
  nv_c : forall c s, nth_error (x_clients x) c = Some s -> exists n l, nth_error peers c = Some n /\ mrun l (mstart n) = MNext s;
  nv_s : forall j s, nth_error (x_servers x) j = Some s ->
    (exists l, srun (w_build w) (w_mem w) (w_h w j) l sstart = SvNext s) /\ sv_set s = true;
  nv_len : length (x_from x) = length (x_servers x);
  nv_f : forall j s f, nth_error (x_servers x) j = Some s -> nth_error (x_from x) j = Some f ->
    length f = length (sv_reqs s) /\
    forall q c i, nth_error f q = Some (c, i) ->
      exists wire seen, nth_error (map rq_pair (sv_reqs s)) q = Some (wire, seen) /\ came x j c i wire;
  nv_once : NoDup (concat (x_from x));
  nv_reply : forall c cl i r ret out, nth_error (x_clients x) c = Some cl -> nth_error (m_rpcs cl) i = Some r ->
    m_wire r = Some (ret, out) -> answer x c i (m_peer r) ret out }.

Lemma nth_repeat {A} (a : A) n : forall i x, nth_error (repeat a n) i = Some x -> x = a.
Proof. induction n as [|n IH]; intros [|i] x E; cbn in E; try discriminate; [congruence|eauto]. Qed.
Lemma concat_nils {A} n : concat (repeat (@nil A) n) = [].
Proof. induction n; cbn; auto. Qed.
Lemma ninv_start n : ninv (nstart peers n).
Proof.
  constructor; cbn [nstart x_clients x_servers x_from].
  - intros c s E. rewrite nth_error_map in E. destruct (nth_error peers c) as [k|]; [|discriminate]. cbn in E. injection E as <-.
    exists k, []. auto.
  - intros j s E. apply nth_repeat in E. subst s. split; [|reflexivity]. exists [SSet]. reflexivity.
  - rewrite !repeat_length. reflexivity.
  - intros j s f E F. apply nth_repeat in E, F. subst. split; [reflexivity|]. intros [|q] c i H; discriminate.
  - rewrite concat_nils. constructor.
  - intros c cl i r ret out E F. rewrite nth_error_map in E. destruct (nth_error peers c) as [k|]; [|discriminate]. cbn in E. injection E as <-.
    destruct i; discriminate.
Qed.
Lemma nv_minv x c s : ninv x -> nth_error (x_clients x) c = Some s -> minv s.
Proof. intros V E. destruct (nv_c _ V _ _ E) as (n & l & _ & R). exact (minv_run l _ _ (minv_start n) R). Qed.

(** A step of one client. *)
Lemma ninv_client x c a s s' : ninv x -> nth_error (x_clients x) c = Some s -> mstep a s = MNext s' ->
  (forall i r ret out, nth_error (m_rpcs s) i = Some r -> brings a i = Some (ret, out) -> answer x c i (m_peer r) ret out) ->
  ninv (mkNet (lset c s' (x_clients x)) (x_servers x) (x_from x)).
Proof.
  intros V E M B. pose proof (mstep_cstep _ _ _ (nv_minv _ _ _ V E) M) as T.
  assert (A : forall c2 i p ret out, answer x c2 i p ret out -> answer (mkNet (lset c s' (x_clients x)) (x_servers x) (x_from x)) c2 i p ret out)
    by (intros; assumption).
  constructor; cbn [x_clients x_servers x_from]; try apply V.
  - intros c2 s2 E2. destruct (lset_inv _ _ _ _ _ E2) as [[-> ->]|[D K]]; [|exact (nv_c _ V _ _ K)].
    destruct (nv_c _ V _ _ E) as (n & l & P & R). exists n, (l ++ [a]). split; [exact P|]. rewrite (mrun_app _ _ _ _ R). cbn [mrun]. rewrite M. reflexivity.
  - intros j sv f Es Ef. destruct (nv_f _ V _ _ _ Es Ef) as [L K]. split; [exact L|]. intros q c2 i H.
    destruct (K _ _ _ H) as (wire & seen & N & cl & r & Ec & Er & La & Ro & W). exists wire, seen. split; [exact N|].
    destruct (Nat.eq_dec c2 c) as [->|D].
    + assert (cl = s) by congruence. subst cl. destruct (t_grow _ _ _ T _ _ Er) as (r' & Er' & G). exists s', r'.
      cbn [x_clients]. rewrite (lset_eq _ _ _ _ E). split; [reflexivity|]. split; [exact Er'|]. split; [exact (g_launched _ _ G La)|].
      rewrite (g_peer _ _ G), (g_given _ _ G). auto.
    + exists cl, r. cbn [x_clients]. rewrite lset_neq by exact D. auto.
  - intros c2 cl i r ret out Ec Er W. apply A. destruct (lset_inv _ _ _ _ _ Ec) as [[-> ->]|[D K]]; [|exact (nv_reply _ V _ _ _ _ _ _ K Er W)].
    assert (N : m_wire r <> None) by congruence.
    assert (Old : exists r0, nth_error (m_rpcs s) i = Some r0 /\ m_peer r = m_peer r0).
    { destruct (t_new _ _ _ T _ _ Er) as [[r0 H0]|(p & q & o & -> & _)].
      - destruct (t_grow _ _ _ T _ _ H0) as (r1 & H1 & G). exists r0. split; [exact H0|]. rewrite <- (g_peer _ _ G). congruence.
      - destruct (t_wire _ _ _ T _ _ Er N) as [(r0 & H0 & _)|H0]; [|cbn [brings] in H0; congruence].
        destruct (t_grow _ _ _ T _ _ H0) as (r1 & H1 & G). exists r0. split; [exact H0|]. rewrite <- (g_peer _ _ G). congruence. }
    destruct Old as (r0 & H0 & P). rewrite P. destruct (t_wire _ _ _ T _ _ Er N) as [(r1 & H1 & W1)|W1].
    + assert (r1 = r0) by congruence. subst r1. apply (nv_reply _ V _ _ _ _ _ _ E H0). congruence.
    + apply (B i r0); [exact H0|congruence].
Qed.

Lemma concat_lset {A} (l : list (list A)) : forall j f o, nth_error l j = Some f -> Permutation (concat (lset j (f ++ o) l)) (concat l ++ o).
Proof.
  induction l as [|g l IH]; intros [|j] f o E; try discriminate; cbn [nth_error lset concat] in *.
  - injection E as ->. rewrite <- !app_assoc. apply Permutation_app_head, Permutation_app_comm.
  - rewrite <- app_assoc. apply Permutation_app_head, IH, E.
Qed.
Lemma srun_snoc b mem h a : forall l s s1 s2, srun b mem h l s = SvNext s1 -> sstep b mem h a s1 = SvNext s2 -> srun b mem h (l ++ [a]) s = SvNext s2.
Proof.
  induction l as [|x l IH]; intros s s1 s2 R S; cbn [srun app] in *.
  - injection R as ->. rewrite S. reflexivity.
  - destruct (sstep b mem h x s); try discriminate; eauto.
Qed.
Lemma nth_map_grow {A} (l l' more : list A) q p : l' = l ++ more -> nth_error l q = Some p -> nth_error l' q = Some p.
Proof. intros -> E. rewrite nth_error_app1; [exact E|]. apply nth_error_Some. congruence. Qed.

(** A step of one server. *)
Lemma ninv_server x j a s s' f o : ninv x -> nth_error (x_servers x) j = Some s -> nth_error (x_from x) j = Some f ->
  sstep (w_build w) (w_mem w) (w_h w j) a s = SvNext s' ->
  length o = length (news (w_mem w) a) -> NoDup (concat (x_from x) ++ o) ->
  (forall n c i, nth_error o n = Some (c, i) -> exists wire seen, nth_error (news (w_mem w) a) n = Some (wire, seen) /\ came x j c i wire) ->
  ninv (mkNet (x_clients x) (lset j s' (x_servers x)) (lset j (f ++ o) (x_from x))).
Proof.
  intros V E F M L ND C. pose proof (sstep_sgrow _ _ _ _ _ _ M) as G. destruct (g_resps _ _ _ G) as [l Gl].
  constructor; cbn [x_clients x_servers x_from]; try apply V.
  - intros j2 s2 E2. destruct (lset_inv _ _ _ _ _ E2) as [[-> ->]|[D K]]; [|exact (nv_s _ V _ _ K)].
    destruct (nv_s _ V _ _ E) as [[h R] St]. split; [|exact (g_set _ _ _ G St)]. exists (h ++ [a]). eapply srun_snoc; eassumption.
  - rewrite !lset_length. apply V.
  - intros j2 s2 f2 E2 F2. destruct (lset_inv _ _ _ _ _ E2) as [[-> ->]|[D K]].
    + rewrite (lset_eq _ _ _ _ F) in F2. injection F2 as <-. destruct (nv_f _ V _ _ _ E F) as [L1 K1]. split.
      * rewrite app_length, L, L1. rewrite <- (map_length rq_pair (sv_reqs s')), (g_reqs _ _ _ G), app_length, map_length. reflexivity.
      * intros q c i H. destruct (Nat.lt_ge_cases q (length f)) as [Lt|Ge].
        -- rewrite nth_error_app1 in H by exact Lt. destruct (K1 _ _ _ H) as (wire & seen & N & K2). exists wire, seen.
           split; [|exact K2]. exact (nth_map_grow _ _ _ _ _ (g_reqs _ _ _ G) N).
        -- rewrite nth_error_app2 in H by exact Ge. destruct (C _ _ _ H) as (wire & seen & N & K2). exists wire, seen.
           split; [|exact K2]. rewrite (g_reqs _ _ _ G), nth_error_app2; rewrite map_length, <- L1; [exact N|exact Ge].
    + rewrite lset_neq in F2 by exact D. exact (nv_f _ V _ _ _ K F2).
  - eapply Permutation_NoDup; [symmetry; apply concat_lset, F|exact ND].
  - intros c cl i r ret out Ec Er W. destruct (nv_reply _ V _ _ _ _ _ _ Ec Er W) as [A|(A & s2 & f2 & k & q & m & wire & E2 & F2 & H1 & H2 & H3 & H4)];
      [left; exact A|]. right. split; [exact A|]. destruct (Nat.eq_dec (w_route w c (m_peer r)) j) as [Q|D].
    + rewrite Q in E2, F2. assert (s2 = s) by congruence. assert (f2 = f) by congruence. subst s2 f2.
      exists s', (f ++ o), k, q, m, wire. cbn [x_servers x_from]. rewrite Q, (lset_eq _ _ _ _ E), (lset_eq _ _ _ _ F).
      repeat split; auto.
      * rewrite nth_error_app1; [exact H1|]. apply nth_error_Some. congruence.
      * exact (nth_map_grow _ _ _ _ _ Gl H2).
    + exists s2, f2, k, q, m, wire. cbn [x_servers x_from]. rewrite !lset_neq by exact D. auto 10.
Qed.

Lemma is_rpc_true a b : is_rpc a b = true -> a = b.
Proof.
  unfold is_rpc. intros E. apply andb_true_iff in E. destruct E as [A B]. apply Nat.eqb_eq in A, B. destruct a, b. cbn in *. congruence.
Qed.
Lemma is_rpc_refl a : is_rpc a a = true.
Proof. unfold is_rpc. rewrite !Nat.eqb_refl. reflexivity. Qed.
Lemma flying_some c i x r : flying c i x = Some r -> exists s, nth_error (x_clients x) c = Some s /\ nth_error (m_rpcs s) i = Some r /\ m_phase r = MFlying.
Proof.
  unfold flying. destruct (nth_error (x_clients x) c) as [s|]; [|discriminate]. destruct (nth_error (m_rpcs s) i) as [r0|] eqn:N; [|discriminate].
  destruct (m_phase r0) eqn:P; try discriminate. intros E. injection E as <-. eauto.
Qed.
Lemma on_client_next c a x x' : on_client c a x = NNext x' ->
  exists s s', nth_error (x_clients x) c = Some s /\ mstep a s = MNext s' /\ x' = mkNet (lset c s' (x_clients x)) (x_servers x) (x_from x).
Proof.
  unfold on_client. destruct (nth_error (x_clients x) c) as [s|]; [|discriminate]. destruct (mstep a s) as [s'| |] eqn:M; try discriminate.
  intros E. injection E as <-. eauto.
Qed.
Lemma on_server_next j a o x x' : on_server w j a o x = NNext x' ->
  exists s s' f, nth_error (x_servers x) j = Some s /\ nth_error (x_from x) j = Some f /\
    sstep (w_build w) (w_mem w) (w_h w j) a s = SvNext s' /\ x' = mkNet (x_clients x) (lset j s' (x_servers x)) (lset j (f ++ o) (x_from x)).
Proof.
  unfold on_server. destruct (nth_error (x_servers x) j) as [s|]; [|discriminate]. destruct (nth_error (x_from x) j) as [f|]; [|discriminate].
  destruct (sstep _ _ _ a s) as [s'| | | |] eqn:M; try discriminate. intros E. injection E as <-. eauto 10.
Qed.

(** Inversion of a step: one client moves, or one server. *)
Inductive moved (a : naction) (x : mnet) : mnet -> Prop :=
  | moved_client : forall c ca s s', nth_error (x_clients x) c = Some s -> mstep ca s = MNext s' ->
      (forall i r ret out, nth_error (m_rpcs s) i = Some r -> brings ca i = Some (ret, out) -> answer x c i (m_peer r) ret out) ->
      (match a with
       | NClient c' a' => c' = c /\ a' = ca
       | NReply c' i _ => c' = c /\ exists out, ca = MPoll (Some (i, 0%Z, out))
       | NFail c' i ret => c' = c /\ ret <> 0%Z /\ ca = MPoll (Some (i, ret, None))
       | _ => False end) ->
      moved a x (mkNet (lset c s' (x_clients x)) (x_servers x) (x_from x))
  | moved_server : forall j sa s s' f o, nth_error (x_servers x) j = Some s -> nth_error (x_from x) j = Some f ->
      sstep (w_build w) (w_mem w) (w_h w j) sa s = SvNext s' ->
      length o = length (news (w_mem w) sa) -> NoDup (concat (x_from x) ++ o) ->
      (forall n c i, nth_error o n = Some (c, i) -> exists wire seen, nth_error (news (w_mem w) sa) n = Some (wire, seen) /\ came x j c i wire) ->
      moved a x (mkNet (x_clients x) (lset j s' (x_servers x)) (lset j (f ++ o) (x_from x))).
Lemma nstep_moved a x x' : ninv x -> nstep w a x = NNext x' -> moved a x x'.
Proof.
  intros V E. destruct a as [c ca|j sa|c i|c i k|c i ret]; cbn [nstep] in E.
  - assert (K : on_client c ca x = NNext x' /\ forall i, brings ca i = None).
    { destruct ca as [| | |[p|]|]; try discriminate; auto. }
    destruct K as [K B]. apply on_client_next in K. destruct K as (s & s' & A & M & ->). eapply moved_client; eauto.
    intros i r ret out _ H. rewrite B in H. discriminate.
  - assert (K : on_server w j sa [] x = NNext x' /\ news (w_mem w) sa = []).
    { destruct sa as [| |[| |]| | | |]; try discriminate; auto. }
    destruct K as [K B]. apply on_server_next in K. destruct K as (s & s' & f & A & F & M & ->). eapply moved_server; eauto.
    + rewrite B. reflexivity.
    + rewrite app_nil_r. apply V.
    + intros [|n] c i H; discriminate.
  - destruct (flying c i x) as [r|] eqn:Fl; [|discriminate]. destruct (existsb _ _) eqn:Ex; [discriminate|].
    destruct (put_on_wire _ _ _) as [wire|] eqn:W; [|discriminate]. apply on_server_next in E. destruct E as (s & s' & f & A & F & M & ->).
    destruct (flying_some _ _ _ _ Fl) as (cl & Ec & Er & Ph).
    assert (Nw : exists m, news (w_mem w) (STrigger (TRequest wire)) = [(wire, m)]).
    { cbn [sstep] in M. destruct (sv_poller s); try discriminate. cbn [do_trigger] in M. unfold request_callback in M. cbn [news].
      destruct (server_request (w_mem w) wire) as [|m]; [discriminate|]. eauto. }
    destruct Nw as [m Nw]. eapply moved_server; eauto.
    + rewrite Nw. reflexivity.
    + apply NoDup_app_one; [apply V|]. intros H. assert (existsb (is_rpc (c, i)) (concat (x_from x)) = true); [|congruence].
      apply existsb_exists. exists (c, i). split; [exact H|apply is_rpc_refl].
    + intros [|[|n]] c2 i2 H; cbn in H; try discriminate. injection H as <- <-. rewrite Nw. exists wire, m. split; [reflexivity|].
      exists cl, r. pose proof (mi_rpc _ (nv_minv _ _ _ V Ec) _ _ Er) as O. unfold mrpc_ok in O. rewrite Ph in O. destruct O as (O & _).
      repeat split; auto; [unfold launched; rewrite Ph; exact Logic.I|congruence].
  - destruct (flying c i x) as [r|] eqn:Fl; [|discriminate]. destruct (nth_error (x_servers x) _) as [s|] eqn:Es; [|discriminate].
    destruct (nth_error (x_from x) _) as [f|] eqn:Ef; [|discriminate]. destruct (nth_error (sv_resps s) k) as [p|] eqn:Ek; [|discriminate].
    destruct (nth_error f (rp_req p)) as [o|] eqn:Eo; [|discriminate]. destruct (is_rpc (c, i) o) eqn:Ei; cbn [negb] in E; [|discriminate].
    destruct (triggers c x); cbn [negb] in E; [|discriminate]. apply is_rpc_true in Ei. subst o.
    assert (E2 : exists wire, put_on_wire (w_mem w) (w_room w) (rp_msg p) = Some wire /\
       on_client c (MPoll (Some (i, 0%Z, get_output (w_mem w) wire))) x = NNext x').
    { destruct (rp_phase p); try discriminate; (destruct (put_on_wire _ _ _) as [wire|]; [|discriminate]); eauto. }
    destruct E2 as (wire & W & E2). apply on_client_next in E2. destruct E2 as (cl & cl' & A & M & ->).
    destruct (flying_some _ _ _ _ Fl) as (cl2 & Ec & Er & Ph). assert (cl2 = cl) by congruence. subst cl2.
    eapply moved_client; eauto.
    intros i2 r2 ret out H B. cbn [brings] in B. destruct (Nat.eqb_spec i i2) as [<-|]; [|discriminate]. injection B as <- <-.
    assert (r2 = r) by congruence. subst r2. right. split; [reflexivity|]. exists s, f, k, (rp_req p), (rp_msg p), wire.
    rewrite nth_error_map, Ek. auto 10.
  - destruct (Z.eqb_spec ret 0) as [|Nz]; [discriminate|]. destruct (triggers c x); cbn [negb] in E; [|discriminate].
    apply on_client_next in E. destruct E as (s & s' & A & M & ->). eapply moved_client; eauto.
    intros i2 r2 ret2 out H B. cbn [brings] in B. destruct (Nat.eqb i i2); [|discriminate]. injection B as <- <-. left. auto.
Qed.
Lemma ninv_step a x x' : ninv x -> nstep w a x = NNext x' -> ninv x'.
Proof.
  intros V E. destruct (nstep_moved _ _ _ V E); [eapply ninv_client|eapply ninv_server]; eassumption.
Qed.
Lemma ninv_run l : forall x x', ninv x -> nrun w l x = NNext x' -> ninv x'.
Proof.
  induction l as [|a l IH]; intros x x' V E; cbn [nrun] in E; [congruence|].
  destruct (nstep w a x) as [x1| |] eqn:S; [|discriminate|eauto]. eapply IH; [|exact E]. eapply ninv_step; eassumption.
Qed.
End World.
