(** Lemmas for Gnet_Props.v: clients and servers together. *)
From Coq Require Import Ascii String List NArith ZArith Bool Arith Lia Permutation.
From Verif Require Import Base_Model Grpc_Model Grpc_Proofs Grpc_Proofs2 Grpc_Props Gsrv_Model Gsrv_Proofs Gsrv_Props Gnet_Model Gnet_Proofs.
Import ListNotations.
Open Scope nat_scope.

Lemma lookup_app {A} k (l m : list (nat * A)) : lookup k (l ++ m) = match lookup k l with Some a => Some a | None => lookup k m end.
Proof. induction l as [|[i a] l IH]; cbn [lookup app]; [reflexivity|]. destruct (Nat.eqb i k); [reflexivity|exact IH]. Qed.
Lemma lookup_In {A} k (l : list (nat * A)) a : lookup k l = Some a -> In (k, a) l.
Proof.
  induction l as [|[i b] l IH]; cbn [lookup In]; [discriminate|]. destruct (Nat.eqb_spec i k) as [->|]; [|auto]. intros E. injection E as ->. auto.
Qed.
Lemma In_lookup {A} k (l : list (nat * A)) a : NoDup (map fst l) -> In (k, a) l -> lookup k l = Some a.
Proof.
  induction l as [|[i b] l IH]; cbn [lookup In map fst]; intros N I; [destruct I|]. inversion N as [|? ? N1 N2]; subst.
  destruct I as [I|I]; [injection I as -> ->; rewrite Nat.eqb_refl; reflexivity|].
  destruct (Nat.eqb_spec i k) as [->|]; [|auto]. exfalso. apply N1. apply in_map_iff. exists (k, a). auto.
Qed.
Lemma grun_snoc k h a : forall l s s1 s2, grun k h l s = GNext s1 -> gstep k h a s1 = GNext s2 -> grun k h (l ++ [a]) s = GNext s2.
Proof.
  induction l as [|x l IH]; intros s s1 s2 R S; cbn [grun app] in *.
  - injection R as ->. rewrite S. reflexivity.
  - destruct (gstep k h x s); try discriminate; eauto.
Qed.
Lemma crun_snoc k a : forall l s s1 s2, crun k l s = Next s1 -> cstep k a s1 = Next s2 -> crun k (l ++ [a]) s = Next s2.
Proof.
  induction l as [|x l IH]; intros s s1 s2 R S; cbn [crun app] in *.
  - injection R as ->. rewrite S. reflexivity.
  - destruct (cstep k x s); try discriminate; eauto.
Qed.

(** Handlers that keep the contract of ServerRpcState, per kind of server. *)
Definition handlers_ok (w : gworld) (kinds : list (option skind)) : Prop := forall j kd, nth_error kinds j = Some kd ->
  match kd with
  | Some k => keeps k (gw_h w j)
  | None => forall i q, contract true (fst (gw_h w j i q)) = true
  end.
Definition vok (w : gworld) (j : nat) (kd : option skind) (v : gserver) : Prop :=
  match kd, v with
  | Some k, GDirect k' s => k' = k /\ (exists l, grun k (gw_h w j) l gstart = GNext s) /\ g_handler s = true
  | None, GPolled s reqs => sinv true s /\ v_handler s = true /\ forall k, lookup k reqs <> None <-> taken (GPolled s reqs) k
  | _, _ => False
  end.
Inductive vstep (w : gworld) (j : nat) : gserver -> list (nat * str) -> gserver -> Prop :=
  | VDirect k a s s' o : gstep k (gw_h w j) a s = GNext s' ->
      o = match a with GArrive q => [(length (g_calls s), q)] | _ => [] end -> vstep w j (GDirect k s) o (GDirect k s')
  | VPolled a s s' reqs o : sstep (polled_prog (gw_h w j) reqs) a s = SNext s' ->
      match a with Accept n => exists i op q, nth_error (v_ops s) n = Some (i, op) /\ o = [(i, q)] | _ => o = [] end ->
      vstep w j (GPolled s reqs) o (GPolled s' (reqs ++ o)).
Record vgrow (v v' : gserver) (o : list (nat * str)) : Prop := {
  vg_one : length o <= 1;
  vg_req : forall k q, call_req v k = Some q -> call_req v' k = Some q;
  vg_taken : forall k, taken v' k <-> taken v k \/ In k (map fst o);
  vg_new : forall k q, In (k, q) o -> ~ taken v k /\ call_req v' k = Some q;
  vg_answered : forall k, answered v k -> answered v' k }.
Lemma polled_good w j reqs : (forall i q, contract true (fst (gw_h w j i q)) = true) -> good_prog true (polled_prog (gw_h w j) reqs).
Proof. intros H i. apply H. Qed.
Lemma sallowed_set a s : v_handler s = true -> sallowed true a s.
Proof. intros H. destruct a; cbn; auto. Qed.
Lemma vstep_ok w j kd v o v' : (match kd with Some k => keeps k (gw_h w j) | None => forall i q, contract true (fst (gw_h w j i q)) = true end) ->
  vok w j kd v -> vstep w j v o v' -> vok w j kd v' /\ vgrow v v' o.
Proof.
  intros K V S. destruct S as [k a s s' o E O|a s s' reqs o E O]; destruct kd as [k'|]; cbn [vok] in V; try contradiction.
  - destruct V as (<- & (l & R) & Gh). pose proof (gstep_kept _ _ _ _ _ E) as M. split.
    + split; [reflexivity|]. split; [|exact (gk_handler _ _ _ M Gh)]. exists (l ++ [a]). eapply grun_snoc; eassumption.
    + constructor.
      * subst o. destruct a; cbn; lia.
      * intros i q H. cbn [call_req] in *. destruct (nth_error (g_calls s) i) as [c|] eqn:N; [|discriminate]. cbn in H. injection H as <-.
        destruct (gk_old _ _ _ M _ _ N) as (c' & N' & Q & _). rewrite N'. cbn. congruence.
      * intros i. cbn [taken]. rewrite (gk_len _ _ _ M). subst o. destruct a; cbn [map fst In]; lia.
      * intros i q H. subst o. destruct a as [|q'|n|n|n|n|]; try (destruct H; fail). destruct H as [H|[]]. injection H as <- <-. cbn [taken call_req].
        split; [lia|]. destruct (gk_new _ _ _ M _ eq_refl) as (c & N & Q). rewrite N. cbn. congruence.
      * intros i (c & N & H). destruct (gk_old _ _ _ M _ _ N) as (c' & N' & _ & Q). exists c'. auto.
  - destruct V as (V & Gh & Rq). pose proof (sstep_kept _ _ _ _ _ V E) as M.
    assert (V' : sinv true s') by (pose proof (sstep_inv true (polled_prog (gw_h w j) reqs) a s (polled_good w j reqs K) V (sallowed_set a s Gh)) as X; rewrite E in X; exact X).
    assert (Ar : forall i, arrives a s i <-> In i (map fst o)).
    { intros i. split.
      - intros (n & -> & op & N). destruct O as (i' & op' & q & N' & ->). rewrite N in N'. injection N' as <- <-. left. reflexivity.
      - intros H. destruct a; try (subst o; destruct H; fail). destruct O as (i' & op' & q & N' & ->). destruct H as [<-|[]]. exists n. cbn [fst]. eauto. }
    assert (Tk : forall i, taken (GPolled s' (reqs ++ o)) i <-> taken (GPolled s reqs) i \/ In i (map fst o)).
    { intros i. cbn [taken]. rewrite <- Ar. split.
      - intros (f' & N & A). destruct (nth_error (v_fsms s) i) as [f|] eqn:N0.
        + destruct (pk_old _ _ _ M _ _ N0) as (f1 & N1 & _ & X). assert (f1 = f') by congruence. subst f1. apply X in A. destruct A; [left; eauto|auto].
        + rewrite (pk_new _ _ _ M _ _ N N0) in A. discriminate.
      - intros [(f & N & A)|A].
        + destruct (pk_old _ _ _ M _ _ N) as (f1 & N1 & _ & X). exists f1. split; [exact N1|]. apply X. auto.
        + destruct (pk_arrive _ _ _ M _ A) as (f & N & _). destruct (pk_old _ _ _ M _ _ N) as (f1 & N1 & _ & X). exists f1. split; [exact N1|]. apply X. auto. }
    assert (Fresh : forall i, In i (map fst o) -> ~ taken (GPolled s reqs) i).
    { intros i H (f & N & A). apply Ar in H. destruct (pk_arrive _ _ _ M _ H) as (f1 & N1 & B). congruence. }
    split; [split; [exact V'|split; [exact (pk_handler _ _ _ M Gh)|]]|constructor].
    + intros i. rewrite Tk, <- Rq, lookup_app. destruct (lookup i reqs) as [q|]; [split; [intros _; left; discriminate|discriminate]|]. split.
      * intros H. right. destruct (lookup i o) as [q|] eqn:L; [|congruence]. apply lookup_In in L. apply in_map_iff. exists (i, q). auto.
      * intros [H|H]; [congruence|]. destruct a; try (subst o; destruct H; fail). destruct O as (i' & op' & q & N' & ->). destruct H as [<-|[]]. cbn [lookup fst]. rewrite Nat.eqb_refl. discriminate.
    + destruct a; try (subst o; cbn; lia). destruct O as (i' & op' & q & N' & ->). cbn. lia.
    + intros i q H. cbn [call_req] in *. rewrite lookup_app, H. reflexivity.
    + exact Tk.
    + intros i q H. assert (Hi : In i (map fst o)) by (apply in_map_iff; exists (i, q); auto). split; [exact (Fresh i Hi)|].
      cbn [call_req]. rewrite lookup_app. destruct (lookup i reqs) eqn:L.
      * exfalso. apply (Fresh i Hi), Rq. congruence.
      * destruct a; try (subst o; destruct H; fail). destruct O as (i' & op' & q' & N' & ->). destruct H as [H|[]]. injection H as -> ->. cbn [lookup]. rewrite Nat.eqb_refl. reflexivity.
    + intros i (f & N & H). destruct (pk_old _ _ _ M _ _ N) as (f1 & N1 & L & _). exists f1. split; [exact N1|lia].
Qed.
(** What a reply is: the handler's response to the request of that call. *)
Lemma reply_ok w j kd v k a : (match kd with Some k => keeps k (gw_h w j) | None => forall i q, contract true (fst (gw_h w j i q)) = true end) ->
  vok w j kd v -> reply_of (gw_h w j) v k = Some a ->
  answered v k /\ exists q, call_req v k = Some q /\ a = (None, snd (gw_h w j k q)).
Proof.
  intros K V E. destruct v as [k' s|s reqs]; destruct kd as [kd|]; cbn [vok] in V; try contradiction.
  - destruct V as (-> & (l & R) & Gh). cbn [reply_of answered call_req] in *. destruct (nth_error (g_calls s) k) as [c|] eqn:N; [|discriminate].
    destruct (C89_answer _ _ _ _ _ _ K R N) as (_ & _ & _ & X). destruct (X _ E) as [-> Y]. split; [eauto|]. exists (k_request c). auto.
  - cbn [reply_of answered call_req] in *. destruct (nth_error (v_fsms s) k) as [f|]; [|discriminate]. destruct (lookup k reqs) as [q|]; [|discriminate].
    destruct (Nat.ltb_spec 0 (f_finish f)); [|discriminate]. injection E as <-. split; eauto.
Qed.

Lemma concat_lset {A} (l : list (list A)) : forall j f o, nth_error l j = Some f -> Permutation (concat (lset j (f ++ o) l)) (concat l ++ o).
Proof.
  induction l as [|g l IH]; intros [|j] f o E; try discriminate; cbn [nth_error lset concat] in *.
  - injection E as ->. rewrite <- !app_assoc. apply Permutation_app_head, Permutation_app_comm.
  - rewrite <- app_assoc. apply Permutation_app_head, IH, E.
Qed.
Lemma NoDup_app_one {A} (l : list A) x : NoDup l -> ~ In x l -> NoDup (l ++ [x]).
Proof.
  intros N H. eapply Permutation_NoDup; [apply Permutation_app_comm|]. constructor; assumption.
Qed.
Lemma is_rpc_true a b : is_rpc a b = true -> a = b.
Proof.
  unfold is_rpc. intros E. apply andb_true_iff in E. destruct E as [A B]. apply Nat.eqb_eq in A, B. destruct a, b. cbn in *. congruence.
Qed.
Lemma is_rpc_refl a : is_rpc a a = true.
Proof. unfold is_rpc. rewrite !Nat.eqb_refl. reflexivity. Qed.
Lemma flying_some c i x r : flying c i x = Some r -> exists k s, nth_error (x_clients x) c = Some (k, s) /\ nth_error (c_rpcs s) i = Some r /\ r_phase r = InFlight.
Proof.
  unfold flying. destruct (nth_error (x_clients x) c) as [[k s]|]; [|discriminate]. destruct (nth_error (c_rpcs s) i) as [r0|] eqn:N; [|discriminate].
  destruct (r_phase r0) eqn:P; try discriminate. intros E. injection E as <-. eauto.
Qed.

Section World.
Variable w : gworld.
Variable clients : list (kind * list bool).
Variable kinds : list (option skind).
Hypothesis Hk : handlers_ok w kinds.

(** Call with request [q] of server [j] came from RPC [i] of client [c]. *)
Definition came (x : gnet) (j c i : nat) (q : str) : Prop :=
  exists k s r, nth_error (x_clients x) c = Some (k, s) /\ nth_error (c_rpcs s) i = Some r /\ launched r /\
    gw_route w c (r_peer r) = j /\ r_given r = q.
(** What an RPC received is an error that gRPC reported or what its server's
    handler responded. *)
Definition answer (failed : nat -> nat -> str -> Prop) (x : gnet) (c i peer : nat) (st : option str) (resp : str) : Prop :=
  match st with
  | Some m => resp = [] /\ failed c i m
  | None => exists v f k q, nth_error (x_servers x) (gw_route w c peer) = Some v /\ nth_error (x_from x) (gw_route w c peer) = Some f /\
      In (k, (c, i)) f /\ answered v k /\ call_req v k = Some q /\ resp = snd (gw_h w (gw_route w c peer) k q)
  end.
Record xinv (failed : nat -> nat -> str -> Prop) (x : gnet) : Prop := {
  xv_c : forall c k s, nth_error (x_clients x) c = Some (k, s) -> exists stubs l, nth_error clients c = Some (k, stubs) /\ crun k l (start_client stubs) = Next s;
  xv_s : forall j v, nth_error (x_servers x) j = Some v -> exists kd, nth_error kinds j = Some kd /\ vok w j kd v;
  xv_cl : length (x_clients x) = length clients;
  xv_sl : length (x_servers x) = length kinds;
  xv_fl : length (x_from x) = length kinds;
  xv_f : forall j v f, nth_error (x_servers x) j = Some v -> nth_error (x_from x) j = Some f ->
    NoDup (map fst f) /\ (forall k, taken v k <-> In k (map fst f)) /\
    forall k c i, In (k, (c, i)) f -> exists q, call_req v k = Some q /\ came x j c i q;
  xv_once : NoDup (map snd (concat (x_from x)));
  xv_reply : forall c kc s i r st resp, nth_error (x_clients x) c = Some (kc, s) -> nth_error (c_rpcs s) i = Some r ->
    r_wire r = Some (st, resp) -> answer failed x c i (r_peer r) st resp }.

Lemma nth_const {A B} (b : B) (l : list A) i x : nth_error (map (fun _ => b) l) i = Some x -> x = b /\ i < length l.
Proof.
  intros E. assert (i < length (map (fun _ => b) l)) by (apply nth_error_Some; congruence). rewrite map_length in *.
  rewrite nth_error_map in E. destruct (nth_error l i); [|discriminate]. cbn in E. split; [congruence|assumption].
Qed.
Lemma serving_ok j kd : vok w j kd (gserving kd) /\ forall k, ~ taken (gserving kd) k.
Proof.
  destruct kd as [k|]; cbn [gserving vok].
  - split; [split; [reflexivity|split; [|reflexivity]]|].
    + exists [GSetHandler]. reflexivity.
    + intros n H. cbn in H. lia.
  - assert (N : forall n, ~ taken (GPolled (mkServer [mkFsm ProcessingRequest 1 0 None 0 false false] [(0, OpRequest)] [] SpWait true false true true SsNot) []) n).
    { intros [|[|n]] (f & E & A); cbn in E; try discriminate; injection E as <-; discriminate. }
    split; [|exact N]. split; [|split; [reflexivity|]].
    + pose proof (sstep_inv true (fun _ => [HSend; HFree]) SetHandler start_server ltac:(intros ?; reflexivity) (sinv_start true) Logic.I) as X. exact X.
    + intros k. split; [intros H; exfalso; apply H; reflexivity|intros H; destruct (N _ H)].
Qed.
Lemma xinv_start : xinv (fun _ _ _ => False) (xstart clients kinds).
Proof.
  constructor; cbn [xstart x_clients x_servers x_from]; try (rewrite map_length; reflexivity).
  - intros c k s E. rewrite nth_error_map in E. destruct (nth_error clients c) as [[k' st]|]; [|discriminate]. cbn in E. injection E as <- <-. exists st, []. auto.
  - intros j v E. rewrite nth_error_map in E. destruct (nth_error kinds j) as [kd|]; [|discriminate]. cbn in E. injection E as <-. exists kd. split; [reflexivity|]. apply serving_ok.
  - intros j v f E F. apply nth_const in F. destruct F as [-> _]. rewrite nth_error_map in E. destruct (nth_error kinds j) as [kd|]; [|discriminate]. cbn in E. injection E as <-.
    split; [constructor|]. split; [|intros k c i []]. intros k. split; [intros H; destruct (proj2 (serving_ok j kd) _ H)|intros []].
  - replace (concat (map (fun _ : option skind => @nil (nat * (nat * nat))) kinds)) with (@nil (nat * (nat * nat))); [constructor|]. clear. induction kinds; cbn; auto.
  - intros c kc s i r st resp E F. rewrite nth_error_map in E. destruct (nth_error clients c) as [[k' stb]|]; [|discriminate]. cbn in E. injection E as <- <-. destruct i; discriminate.
Qed.
Lemma xv_inv failed x c k s : xinv failed x -> nth_error (x_clients x) c = Some (k, s) -> inv k s.
Proof. intros V E. destruct (xv_c _ _ V _ _ _ E) as (st & l & _ & R). exact (inv_run k l _ _ (inv_start k st) R). Qed.

Lemma answer_more (failed failed' : nat -> nat -> str -> Prop) x c i p st resp : (forall c i m, failed c i m -> failed' c i m) ->
  answer failed x c i p st resp -> answer failed' x c i p st resp.
Proof. intros H. destruct st; cbn [answer]; [intros [A B]; auto|auto]. Qed.
Lemma xinv_more (failed failed' : nat -> nat -> str -> Prop) x : (forall c i m, failed c i m -> failed' c i m) -> xinv failed x -> xinv failed' x.
Proof. intros H V. constructor; try apply V. intros. eapply answer_more; [exact H|]. eapply (xv_reply _ _ V); eassumption. Qed.

Lemma xinv_client failed x c k a s s' : xinv failed x -> nth_error (x_clients x) c = Some (k, s) -> cstep k a s = Next s' ->
  (forall i r st resp, nth_error (c_rpcs s) i = Some r -> brings a i = Some (st, resp) -> answer failed x c i (r_peer r) st resp) ->
  xinv failed (mkGn (lset c (k, s') (x_clients x)) (x_servers x) (x_from x)).
Proof.
  intros V E M B. pose proof (cstep_move _ _ _ _ (xv_inv _ _ _ _ _ V E) M) as T.
  constructor; cbn [x_clients x_servers x_from]; try apply V.
  - intros c2 k2 s2 E2. destruct (lset_inv _ _ _ _ _ E2) as [[-> Q]|[D K]]; [|exact (xv_c _ _ V _ _ _ K)]. injection Q as -> ->.
    destruct (xv_c _ _ V _ _ _ E) as (st & l & P & R). exists st, (l ++ [a]). split; [exact P|]. eapply crun_snoc; eassumption.
  - rewrite lset_length. apply V.
  - intros j v f Es Ef. destruct (xv_f _ _ V _ _ _ Es Ef) as (N & Tk & K). split; [exact N|]. split; [exact Tk|]. intros n c2 i H.
    destruct (K _ _ _ H) as (q & Cr & k2 & s2 & r & Ec & Er & La & Ro & W). exists q. split; [exact Cr|].
    destruct (Nat.eq_dec c2 c) as [->|D].
    + rewrite E in Ec. injection Ec as <- <-. destruct (t_grow _ _ _ T _ _ Er) as (r' & Er' & G). exists k, s', r'.
      cbn [x_clients]. rewrite (lset_eq _ _ _ _ E). split; [reflexivity|]. split; [exact Er'|]. split; [exact (g_launched _ _ G La)|].
      rewrite (g_peer _ _ G), (g_given _ _ G). auto.
    + exists k2, s2, r. cbn [x_clients]. rewrite lset_neq by exact D. auto.
  - intros c2 kc s2 i r st resp Ec Er W. destruct (lset_inv _ _ _ _ _ Ec) as [[-> Q]|[D K]]; [|exact (xv_reply _ _ V _ _ _ _ _ _ _ K Er W)].
    injection Q as -> ->. destruct (t_old _ _ _ T _ _ Er) as [(r0 & H0 & G & X)|X]; [|congruence]. rewrite (g_peer _ _ G). destruct X as [X|X].
    + apply (xv_reply _ _ V _ _ _ _ _ _ _ E H0). congruence.
    + apply (B i r0 st resp H0). congruence.
Qed.

Lemma xinv_server failed x j v v' f (o : list (nat * (str * (nat * nat)))) : xinv failed x -> nth_error (x_servers x) j = Some v -> nth_error (x_from x) j = Some f ->
  vstep w j v (map (fun p => (fst p, fst (snd p))) o) v' ->
  NoDup (map snd (concat (x_from x)) ++ map (fun p => snd (snd p)) o) ->
  (forall k q c i, In (k, (q, (c, i))) o -> came x j c i q) ->
  xinv failed (mkGn (x_clients x) (lset j v' (x_servers x)) (lset j (f ++ map (fun p => (fst p, snd (snd p))) o) (x_from x))).
Proof.
  intros V E F M ND C. destruct (xv_s _ _ V _ _ E) as (kd & Ek & Ok). pose proof (Hk _ _ Ek) as Hkd.
  destruct (vstep_ok _ _ _ _ _ _ Hkd Ok M) as [Ok' G].
  assert (Keys : map fst (map (fun p : nat * (str * (nat * nat)) => (fst p, snd (snd p))) o) = map fst (map (fun p : nat * (str * (nat * nat)) => (fst p, fst (snd p))) o))
    by (rewrite !map_map; reflexivity).
  constructor; cbn [x_clients x_servers x_from]; try apply V.
  - intros j2 v2 E2. destruct (lset_inv _ _ _ _ _ E2) as [[-> ->]|[D K]]; [|exact (xv_s _ _ V _ _ K)]. eauto.
  - rewrite lset_length. apply V.
  - rewrite lset_length. apply V.
  - intros j2 v2 f2 E2 F2. destruct (lset_inv _ _ _ _ _ E2) as [[-> ->]|[D K]].
    + rewrite (lset_eq _ _ _ _ F) in F2. injection F2 as <-. destruct (xv_f _ _ V _ _ _ E F) as (N & Tk & K1). split; [|split].
      * rewrite map_app, Keys. pose proof (vg_one _ _ _ G) as L1. pose proof (vg_new _ _ _ G) as Nw. destruct o as [|[k0 [q0 p0]] [|? ?]]; cbn [map length fst snd] in *; [rewrite app_nil_r; exact N| |lia].
        apply NoDup_app_one; [exact N|]. intros I. apply Tk in I. destruct (Nw k0 q0 (or_introl eq_refl)) as [X _]. exact (X I).
      * intros k. rewrite map_app, in_app_iff, Keys, (vg_taken _ _ _ G), Tk. reflexivity.
      * intros k c i H. apply in_app_or in H. destruct H as [H|H].
        -- destruct (K1 _ _ _ H) as (q & Cr & K2). exists q. split; [exact (vg_req _ _ _ G _ _ Cr)|exact K2].
        -- apply in_map_iff in H. destruct H as ([k0 [q0 [c0 i0]]] & Q & H). cbn in Q. injection Q as -> -> ->. exists q0. split; [|exact (C _ _ _ _ H)].
           apply (vg_new _ _ _ G). apply in_map_iff. exists (k, (q0, (c, i))). auto.
    + rewrite lset_neq in F2 by exact D. exact (xv_f _ _ V _ _ _ K F2).
  - eapply Permutation_NoDup; [apply Permutation_map; symmetry; apply concat_lset, F|]. rewrite map_app, map_map. exact ND.
  - intros c kc s i r st resp Ec Er W. pose proof (xv_reply _ _ V _ _ _ _ _ _ _ Ec Er W) as A. destruct st as [m|]; [exact A|].
    destruct A as (v2 & f2 & k & q & E2 & F2 & H1 & H2 & H3 & H4). cbn [answer x_servers x_from]. destruct (Nat.eq_dec (gw_route w c (r_peer r)) j) as [Q|D].
    + rewrite Q in E2, F2. assert (v2 = v) by congruence. assert (f2 = f) by congruence. subst v2 f2. rewrite Q, (lset_eq _ _ _ _ E), (lset_eq _ _ _ _ F).
      eexists v', _, k, q. split; [reflexivity|]. split; [reflexivity|]. split; [apply in_or_app; left; exact H1|]. split; [exact (vg_answered _ _ _ G _ H2)|].
      split; [exact (vg_req _ _ _ G _ _ H3)|]. rewrite <- Q. exact H4.
    + rewrite !lset_neq by exact D. exists v2, f2, k, q. auto 10.
Qed.

(** Inversion of a step: one client moves, or one server. *)
Inductive moved (a : xaction) (x : gnet) : gnet -> Prop :=
  | moved_client : forall c k ca s s', nth_error (x_clients x) c = Some (k, s) -> cstep k ca s = Next s' ->
      (forall i r st resp, nth_error (c_rpcs s) i = Some r -> brings ca i = Some (st, resp) -> answer (fun c i m => a = XFail c i m) x c i (r_peer r) st resp) ->
      match a with
      | XClient c' a' => c' = c /\ a' = ca
      | XReply c' i _ => c' = c /\ exists st resp, ca = Wire i st resp
      | XFail c' i m => c' = c /\ ca = Wire i (Some m) []
      | _ => False end ->
      moved a x (mkGn (lset c (k, s') (x_clients x)) (x_servers x) (x_from x))
  | moved_server : forall j v v' f o, nth_error (x_servers x) j = Some v -> nth_error (x_from x) j = Some f ->
      vstep w j v (map (fun p => (fst p, fst (snd p))) o) v' ->
      NoDup (map snd (concat (x_from x)) ++ map (fun p => snd (snd p)) o) ->
      (forall k q c i, In (k, (q, (c, i))) o -> came x j c i q) ->
      match a with
      | XDirect j' sa => j' = j /\ o = [] /\ (forall q, sa <> GArrive q) /\ exists k s s', v = GDirect k s /\ v' = GDirect k s' /\ gstep k (gw_h w j) sa s = GNext s'
      | XPolled j' sa => j' = j /\ o = [] /\ (forall n, sa <> Accept n) /\
          exists s s' reqs, v = GPolled s reqs /\ v' = GPolled s' reqs /\ sstep (polled_prog (gw_h w j) reqs) sa s = SNext s'
      | XDeliver c i n => exists r k q, flying c i x = Some r /\ gw_route w c (r_peer r) = j /\ o = [(k, (q, (c, i)))] /\
          match v with
          | GDirect kd s => exists s', v' = GDirect kd s' /\ gstep kd (gw_h w j) (GArrive q) s = GNext s'
          | GPolled s reqs => exists s', v' = GPolled s' (reqs ++ [(k, q)]) /\ sstep (polled_prog (gw_h w j) reqs) (Accept n) s = SNext s'
          end
      | _ => False end ->
      moved a x (mkGn (x_clients x) (lset j v' (x_servers x)) (lset j (f ++ map (fun p => (fst p, snd (snd p))) o) (x_from x))).
Lemma on_client_next c a x x' : on_client c a x = XNext x' ->
  exists k s s', nth_error (x_clients x) c = Some (k, s) /\ cstep k a s = Next s' /\ x' = mkGn (lset c (k, s') (x_clients x)) (x_servers x) (x_from x).
Proof.
  unfold on_client. destruct (nth_error (x_clients x) c) as [[k s]|]; [|discriminate]. destruct (cstep k a s) as [s'| |] eqn:M; try discriminate.
  intros E. injection E as <-. eauto 10.
Qed.
Lemma on_direct_next j a o x x' : on_direct w j a o x = XNext x' ->
  exists k s s' f, nth_error (x_servers x) j = Some (GDirect k s) /\ nth_error (x_from x) j = Some f /\ gstep k (gw_h w j) a s = GNext s' /\
    x' = mkGn (x_clients x) (lset j (GDirect k s') (x_servers x)) (lset j (f ++ map (pair (length (g_calls s))) o) (x_from x)).
Proof.
  unfold on_direct. destruct (nth_error (x_servers x) j) as [[k s|]|]; [|discriminate..]. destruct (nth_error (x_from x) j) as [f|]; [|discriminate].
  destruct (gstep _ _ a s) as [s'| |] eqn:M; try discriminate. intros E. injection E as <-. eauto 10.
Qed.
Lemma on_polled_next j a o x x' : on_polled w j a o x = XNext x' ->
  exists s reqs s' f, nth_error (x_servers x) j = Some (GPolled s reqs) /\ nth_error (x_from x) j = Some f /\ sstep (polled_prog (gw_h w j) reqs) a s = SNext s' /\
    x' = mkGn (x_clients x) (lset j (GPolled s' (reqs ++ map (fun p => (fst p, fst (snd p))) o)) (x_servers x))
              (lset j (f ++ map (fun p => (fst p, snd (snd p))) o) (x_from x)).
Proof.
  unfold on_polled. destruct (nth_error (x_servers x) j) as [[|s reqs]|]; [discriminate| |discriminate]. destruct (nth_error (x_from x) j) as [f|]; [|discriminate].
  destruct (sstep _ a s) as [s'| |] eqn:M; try discriminate. intros E. injection E as <-. eauto 10.
Qed.
Lemma xstep_moved failed a x x' : xinv failed x -> xstep w a x = XNext x' -> moved a x x'.
Proof.
  intros V E. destruct a as [c ca|j sa|j sa|c i n|c i k|c i m]; cbn [xstep] in E.
  - assert (K : on_client c ca x = XNext x' /\ forall i, brings ca i = None) by (destruct ca; try discriminate; auto).
    destruct K as [K B]. apply on_client_next in K. destruct K as (k & s & s' & A & M & ->). eapply moved_client; eauto.
    intros i r st resp _ H. rewrite B in H. discriminate.
  - assert (K : on_direct w j sa [] x = XNext x' /\ forall q, sa <> GArrive q) by (destruct sa; try discriminate; split; try assumption; discriminate).
    destruct K as [K B]. apply on_direct_next in K. destruct K as (k & s & s' & f & A & F & M & ->).
    apply (moved_server (XDirect j sa) x j (GDirect k s) (GDirect k s') f []); auto.
    + apply (VDirect w j k sa); [exact M|]. destruct sa; try reflexivity. destruct (B _ eq_refl).
    + cbn [map]. rewrite app_nil_r. apply V.
    + intros ? ? ? ? [].
    + split; [reflexivity|]. split; [reflexivity|]. split; [exact B|]. eauto 10.
  - assert (K : on_polled w j sa [] x = XNext x' /\ forall n, sa <> Accept n) by (destruct sa; try discriminate; split; try assumption; discriminate).
    destruct K as [K B]. apply on_polled_next in K. destruct K as (s & reqs & s' & f & A & F & M & ->).
    apply (moved_server (XPolled j sa) x j (GPolled s reqs) (GPolled s' (reqs ++ [])) f []); auto.
    + apply (VPolled w j sa); [exact M|]. destruct sa; try reflexivity. destruct (B _ eq_refl).
    + cbn [map]. rewrite app_nil_r. apply V.
    + intros ? ? ? ? [].
    + split; [reflexivity|]. split; [reflexivity|]. split; [exact B|]. exists s, s', reqs. rewrite app_nil_r. auto.
  - destruct (flying c i x) as [r|] eqn:Fl; [|discriminate]. destruct (existsb _ _) eqn:Ex; [discriminate|]. destruct (r_request r) as [q|] eqn:Rq; [|discriminate].
    destruct (flying_some _ _ _ _ Fl) as (kc & cl & Ec & Er & Ph).
    assert (Cm : came x (gw_route w c (r_peer r)) c i q).
    { exists kc, cl, r. pose proof (b_rpc _ _ (proj1 (xv_inv _ _ _ _ _ V Ec)) _ _ Er) as O. unfold rpc_ok in O. rewrite Ph in O. destruct O as (_ & _ & O & _).
      repeat split; auto; [unfold launched, starting; rewrite Ph; reflexivity|congruence]. }
    assert (ND : NoDup (map snd (concat (x_from x)) ++ [(c, i)])).
    { apply NoDup_app_one; [apply V|]. intros H. apply in_map_iff in H. destruct H as ([k0 p0] & Q & H). cbn in Q. subst p0.
      assert (existsb (fun p => is_rpc (c, i) (snd p)) (concat (x_from x)) = true); [|congruence].
      apply existsb_exists. exists (k0, (c, i)). split; [exact H|apply is_rpc_refl]. }
    destruct (nth_error (x_servers x) _) as [[kd s|s reqs]|] eqn:Es; [| |discriminate].
    + apply on_direct_next in E. destruct E as (kd' & s0 & s' & f & A & F & M & ->). assert (Q : GDirect kd' s0 = GDirect kd s) by congruence. injection Q as -> ->.
      apply (moved_server (XDeliver c i n) x (gw_route w c (r_peer r)) (GDirect kd s) (GDirect kd s') f [(length (g_calls s), (q, (c, i)))]); auto.
      * eapply VDirect; [exact M|reflexivity].
      * intros k0 q0 c0 i0 [H|[]]. injection H as <- <- <- <-. exact Cm.
      * exists r, (length (g_calls s)), q. eauto 10.
    + destruct (nth_error (v_ops s) n) as [[fi op]|] eqn:No; [|discriminate].
      apply on_polled_next in E. destruct E as (s0 & reqs0 & s' & f & A & F & M & ->). assert (Q : GPolled s0 reqs0 = GPolled s reqs) by congruence. injection Q as -> ->.
      apply (moved_server (XDeliver c i n) x (gw_route w c (r_peer r)) (GPolled s reqs) (GPolled s' (reqs ++ [(fi, q)])) f [(fi, (q, (c, i)))]); auto.
      * eapply VPolled; [exact M|]. cbn. eauto 10.
      * intros k0 q0 c0 i0 [H|[]]. injection H as <- <- <- <-. exact Cm.
      * exists r, fi, q. eauto 10.
  - destruct (flying c i x) as [r|] eqn:Fl; [|discriminate]. destruct (nth_error (x_servers x) _) as [v|] eqn:Es; [|discriminate].
    destruct (nth_error (x_from x) _) as [f|] eqn:Ef; [|discriminate]. destruct (lookup k f) as [o|] eqn:L; [|discriminate].
    destruct (is_rpc (c, i) o) eqn:Ei; [|discriminate]. apply is_rpc_true in Ei. subst o.
    destruct (reply_of _ v k) as [[st resp]|] eqn:Rp; [|discriminate]. apply on_client_next in E. destruct E as (kc & s & s' & A & M & ->).
    destruct (flying_some _ _ _ _ Fl) as (kc2 & cl2 & Ec & Er & Ph). assert (Q : (kc2, cl2) = (kc, s)) by congruence. injection Q as -> ->.
    eapply moved_client; eauto.
    intros i2 r2 st2 resp2 H B. cbn [brings] in B. destruct (Nat.eqb_spec i i2) as [<-|]; [|discriminate]. injection B as <- <-.
    assert (r2 = r) by congruence. subst r2. destruct (xv_s _ _ V _ _ Es) as (kd & Ek & Ok).
    destruct (reply_ok _ _ _ _ _ _ (Hk _ _ Ek) Ok Rp) as (An & q & Cr & Q). injection Q as -> ->. exists v, f, k, q. apply lookup_In in L. auto 10.
  - apply on_client_next in E. destruct E as (k & s & s' & A & M & ->). eapply moved_client; eauto.
    intros i2 r2 st resp H B. cbn [brings] in B. destruct (Nat.eqb_spec i i2) as [<-|]; [|discriminate]. injection B as <- <-. split; reflexivity.
Qed.
Lemma xinv_step failed (failed' : nat -> nat -> str -> Prop) a x x' : xinv failed x -> (forall c i m, failed c i m \/ a = XFail c i m -> failed' c i m) -> xstep w a x = XNext x' -> xinv failed' x'.
Proof.
  intros V H E. pose proof (xstep_moved _ _ _ _ V E) as M. assert (V' : xinv failed' x) by (eapply xinv_more; [|exact V]; auto). destruct M as [c k ca s s' A B C D|j v v' f o A B C D F G].
  - eapply xinv_client; eauto. intros i r st resp X Y. eapply answer_more; [|exact (C _ _ _ _ X Y)]. cbn beta. auto.
  - eapply xinv_server; eauto.
Qed.
Lemma xinv_run l : forall failed x x', xinv failed x -> xrun w l x = XNext x' -> xinv (fun c i m => failed c i m \/ In (XFail c i m) l) x'.
Proof.
  induction l as [|a l IH]; intros failed x x' V E; cbn [xrun] in E.
  - injection E as <-. eapply xinv_more; [|exact V]. auto.
  - destruct (xstep w a x) as [x1| |] eqn:S; [|discriminate|].
    + pose proof (xinv_step failed (fun c i m => failed c i m \/ a = XFail c i m) a x x1 V ltac:(auto) S) as V1. pose proof (IH _ _ _ V1 E) as V2.
      eapply xinv_more; [|exact V2]. intros c i m [[H|H]|H]; cbn [In]; auto.
    + eapply xinv_more; [|exact (IH _ _ _ V E)]. intros c i m [H|H]; cbn [In]; auto.
Qed.
End World.
