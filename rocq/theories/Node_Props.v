(** C56: configuration of a node and the life of its engines. *)
From Coq Require Import Ascii String List NArith ZArith Bool Arith Lia Sorted.
From Verif Require Import Base_Model Base_Proofs Grid_Model Grid_Proofs Util_Model Net_Model Driver_Model Driver_Proofs Node_Model Node_Proofs.
Import ListNotations.
Open Scope nat_scope.

(** A node as it can be after any history of requests. *)
Definition reachable (ne : node_env) (s : node) : Prop := exists h os, history ne h start_node = Some (s, os).
Lemma reachable_good ne s : reachable ne s -> good_node s.
Proof. intros (h & os & H). eapply good_history; [exact good_start_node|exact H]. Qed.

Lemma split_slash_nonempty k : split_slash k <> [].
Proof. destruct k as [|c k]; cbn [split_slash]; [discriminate|]. destruct (Ascii.eqb c slash); [discriminate|]. destruct (split_slash k); discriminate. Qed.

(** An accepted configuration: exactly one new engine and one endpoint for each
    requested instance and none else; the engine has the type and index of the
    name, the endpoint the address of the engine's port, the host name and the
    node's and grid attributes. *)
Theorem C56_configured ne ex t names s s' eps : reachable ne s -> configure ne ex t names s = Replied s' ROk eps ->
  NoDup (map fst (nd_engines s')) /\ NoDup (map fst eps)
  /\ (forall k, In k (map fst (nd_engines s')) <-> In k names) /\ (forall k, In k (map fst eps) <-> In k names)
  /\ (forall k e, In (k, e) (nd_engines s') ->
        nd_next s <= en_id e /\ (exists rest, k = en_type e ++ slash :: rest) /\ ~ In slash (en_type e) /\ grid_index_from_name k = Some (en_index e)
        /\ en_peers e = None /\ en_main e = false /\ en_cancel e = None
        /\ exists a, socket_for_device (ne_ifs ne) (ne_flag ne) (ne_control ne) (en_port e) = Some a
           /\ map_find k eps = Some (mkEp a (ne_hostname ne) (ne_attributes ne ++ grid_attributes k (en_index e))))
  /\ nd_traffic s' = t /\ nd_threshold s' = tc_max_threads t /\ (0 < tc_max_threads t)%Z.
Proof.
  intros R E. pose proof (reachable_good _ _ R) as G. destruct (configure_ok _ _ _ _ _ _ _ G E) as (C & K & T1 & T2 & _ & T3).
  pose proof (good_configure ne ex t names s G) as G'. rewrite E in G'.
  split; [apply key_sorted_NoDup, G'|]. split; [apply C|]. split; [exact K|]. split; [intro k; rewrite <- (co_keys _ _ _ _ C); apply K|].
  split; [|auto]. intros k e I. destruct (co_engine _ _ _ _ C k e I) as (A1 & A2 & A3 & A).
  split; [exact A1|]. split; [|split; [|exact A]].
  2: { rewrite A3. clear. induction k as [|c k IH]; [intros []|]. cbn [split_slash]. destruct (Ascii.eqb_spec c slash) as [->|Nc]; [intros []|].
    destruct (split_slash k) as [|x l]; cbn [nth] in *; [intros [K|[]]; congruence|]. intros [K|K]; [congruence|exact (IH K)]. }
  rewrite A3. clear -A2. induction k as [|c k IH]; [destruct A2|]. cbn [split_slash].
  destruct (Ascii.eqb_spec c slash) as [->|]; [exists k; reflexivity|]. destruct A2 as [->|A2]; [congruence|].
  destruct (IH A2) as (rest & Er). exists rest. destruct (split_slash k) as [|x l] eqn:Sk; cbn [nth] in *.
  - exfalso. exact (split_slash_nonempty k Sk).
  - cbn [app]. congruence.
Qed.
(** For an instance of a service (with a name without '/'), the attributes give
    its coordinates. *)
Theorem C56_coordinates ne ex t names s s' eps sp i n g : reachable ne s -> configure ne ex t names s = Replied s' ROk eps ->
  no_slash (sp_name sp) -> dims_positive sp -> instance_name sp i = Some n -> service_index sp i = Some g -> In n names ->
  exists a, map_find n eps = Some (mkEp a (ne_hostname ne) (ne_attributes ne ++
    match sp_x sp, sp_y sp, sp_z sp with
    | Some _, _, Some _ => [(s_ "x_index", dec_of_Z (gx g)); (s_ "y_index", dec_of_Z (gy g)); (s_ "z_index", dec_of_Z (gz g))]
    | Some _, Some _, None => [(s_ "x_index", dec_of_Z (gx g)); (s_ "y_index", dec_of_Z (gy g))]
    | _, _, _ => [(s_ "index", dec_of_Z (gx g))]
    end)).
Proof.
  intros R E Ns D In_ Sx I. destruct (C56_configured _ _ _ _ _ _ _ R E) as (_ & _ & K & _ & A & _).
  apply K in I. apply in_map_iff in I. destruct I as ([k e] & Ek & I). cbn [fst] in Ek. subst k.
  destruct (A n e I) as (_ & _ & _ & Gi & _ & _ & _ & a & _ & F). exists a. rewrite F.
  destruct (name_parses sp i D Ns) as (n' & g' & E1 & E2 & E3). rewrite In_ in E1. injection E1 as <-. rewrite Sx in E2. injection E2 as <-.
  rewrite Gi in E3. injection E3 as ->. rewrite (instance_attributes sp i n g Ns In_ Sx). reflexivity.
Qed.
(** Life of engines, for every history of requests: each engine is created once
    and destroyed at most once, is addressed only in between, never destroyed
    or restarted with a main thread that was not joined; and the engines the
    node holds are exactly those not destroyed. *)
Theorem C56_lifecycle ne h s os : history ne h start_node = Some (s, os) ->
  exists st, play (nd_log s) play_start = Some st
    /\ (forall i, p_live st i = true <-> exists k e, In (k, e) (nd_engines s) /\ en_id e = i)
    /\ NoDup (map (fun ke => en_id (snd ke)) (nd_engines s))
    /\ (forall k e, In (k, e) (nd_engines s) -> p_run st (en_id e) = en_main e)
    /\ StronglySorted str_lt (map fst (nd_engines s)).
Proof.
  intro H. pose proof (good_history _ _ _ _ _ good_start_node H) as [(st & P & A & _) So]. exists st. split; [exact P|].
  split; [|split; [apply A|split; [|exact So]]].
  - intro i. rewrite (ag_live _ _ A). unfold ids. rewrite in_map_iff. split.
    + intros ([k e] & E & I). exists k, e. auto.
    + intros (k & e & I & E). exists (k, e). auto.
  - intros k e I. exact (agree_run _ _ (k, e) A I).
Qed.
(** A configuration discards the previous engines. *)
Theorem C56_previous_discarded ne ex t names s s' eps k e : reachable ne s -> configure ne ex t names s = Replied s' ROk eps ->
  In (k, e) (nd_engines s) -> exists st, play (nd_log s') play_start = Some st /\ p_live st (en_id e) = false.
Proof.
  intros R E I. pose proof (reachable_good _ _ R) as G. pose proof (good_configure ne ex t names s G) as G'. rewrite E in G'.
  destruct G' as [(st & P & A & _) _]. exists st. split; [exact P|]. destruct (p_live st (en_id e)) eqn:L; [|reflexivity].
  apply (ag_live _ _ A) in L. apply in_map_iff in L. destruct L as ([k2 e2] & E2 & I2).
  destruct (C56_configured _ _ _ _ _ _ _ R E) as (_ & _ & _ & _ & F & _). destruct (F _ _ I2) as (Lo & _).
  destruct G as [(st0 & _ & A0 & N0) _]. pose proof (ag_next _ _ A0 _ (in_map id_of _ _ I)) as Hi.
  unfold id_of in *. cbn [snd] in *. lia.
Qed.
(** Requests that are refused or fatal. *)
Theorem C56_max_threads ne ex t names s : (tc_max_threads t <= 0)%Z ->
  exists s', configure ne ex t names s = Replied s' RInvalid [] /\ nd_engines s' = nd_engines s /\ nd_threshold s' = nd_threshold s
    /\ nd_log s' = nd_log s.
Proof.
  intro H. unfold configure. destruct (Z.leb_spec (tc_max_threads t) 0); [|lia]. eexists. split; [reflexivity|]. auto.
Qed.
Theorem C56_name_without_index ne ex t name r s : ~ In slash name -> (0 < tc_max_threads t)%Z ->
  configure ne ex t (name :: r) s = Crashed.
Proof.
  intros N H. unfold configure. destruct (Z.leb_spec (tc_max_threads t) 0); [lia|]. cbn [configure_loop].
  rewrite (split_slash_none _ N). reflexivity.
Qed.
(** Running: a successful RunTraffic calls every engine once, in name order,
    starts a main thread for each engine whose type has an action list of that
    name, and joins all of them; afterwards no main thread is left. *)
Lemma run_all_ok lists : forall l l' evs, run_all lists l = RAOk l' evs ->
  filter (fun ev => match ev with EvRun _ => true | _ => false end) evs = rev (map (fun ke => EvRun (en_id (snd ke))) l)
  /\ filter (fun ev => match ev with EvMain _ => true | _ => false end) evs
     = rev (map (fun ke => EvMain (en_id (snd ke))) (filter (fun ke => existsb (str_eqb (en_type (snd ke))) lists) l))
  /\ Forall (fun ke => en_peers (snd ke) <> None) l.
Proof.
  induction l as [|[k e] r IH]; intros l' evs E; cbn [run_all] in E.
  - injection E as <- <-. repeat split. constructor.
  - destruct (engine_run lists e) as [e' ev1| |] eqn:R; [|discriminate|discriminate].
    destruct (run_all lists r) as [r' evs'| |]; [|discriminate|discriminate]. injection E as <- <-.
    destruct (IH _ _ eq_refl) as (I1 & I2 & I3). unfold engine_run in R. cbn [map filter rev snd].
    destruct (en_peers e) eqn:Pe; [|discriminate].
    rewrite !filter_app, I1, I2.
    destruct (existsb (str_eqb (en_type e)) lists).
    + destruct (en_main e); [discriminate|]. injection R as <- <-. cbn [filter map rev app snd]. split; [reflexivity|]. split; [reflexivity|].
      constructor; [cbn [snd]; congruence|exact I3].
    + injection R as <- <-. cbn [filter map rev app snd]. rewrite app_nil_r. split; [reflexivity|]. split; [reflexivity|].
      constructor; [cbn [snd]; congruence|exact I3].
Qed.
Theorem C56_run s s' a : run_traffic s = Replied s' ROk a ->
  exists evs, nd_log s' = evs ++ nd_log s
    /\ filter (fun ev => match ev with EvRun _ => true | _ => false end) evs = rev (map (fun ke => EvRun (en_id (snd ke))) (nd_engines s))
    /\ filter (fun ev => match ev with EvMain _ => true | _ => false end) evs
       = rev (map (fun ke => EvMain (en_id (snd ke))) (filter (fun ke => existsb (str_eqb (en_type (snd ke))) (tc_lists (nd_traffic s))) (nd_engines s)))
    /\ map fst (nd_engines s') = map fst (nd_engines s) /\ Forall (fun ke => en_main (snd ke) = false) (nd_engines s')
    /\ Forall (fun ke => en_peers (snd ke) <> None) (nd_engines s).
Proof.
  unfold run_traffic. destruct (run_all _ _) as [l evs|l evs|] eqn:R; try discriminate.
  destruct (run_all_ok _ _ _ _ R) as (A & B & C).
  assert (K : map fst l = map fst (nd_engines s)).
  { clear -R. revert l evs R. generalize (nd_engines s). induction l as [|[k e] r IH]; intros l' evs E; cbn [run_all] in E; [injection E as <- <-; reflexivity|].
    destruct (engine_run _ e); [|discriminate|discriminate]. destruct (run_all _ r) eqn:F; try discriminate. injection E as <- <-.
    cbn [map fst]. f_equal. eapply IH. reflexivity. }
  intro E. unfold finish_all in E. injection E as <- _. cbn [nd_log logs set_engines nd_engines].
  eexists. split; [reflexivity|]. rewrite !filter_app, A, B.
  assert (F : forall f, (forall i, f (EvJoin i) = false) -> filter f (rev (flat_map (fun ke : str * engine => snd (engine_finish (snd ke))) l)) = []).
  { intros f H. assert (G : Forall (fun ev => f ev = false) (rev (flat_map (fun ke : str * engine => snd (engine_finish (snd ke))) l))).
    { apply Forall_rev. apply Forall_flat_map. apply Forall_forall. intros [k e] _. unfold engine_finish. cbn [snd].
      destruct (en_main e); cbn [snd]; [constructor; [apply H|constructor]|constructor]. }
    induction G as [|x y Hx _ IH]; [reflexivity|]. cbn [filter]. rewrite Hx. exact IH. }
  rewrite !F by reflexivity. split; [reflexivity|]. split; [reflexivity|]. split; [rewrite map_map; exact K|]. split; [|exact C].
  apply Forall_map. apply Forall_forall. intros [k e] _. unfold engine_finish. cbn [snd]. destruct (en_main e) eqn:M; cbn [fst snd en_main]; auto.
Qed.
(** If no RunTraffic failed, the process is never terminated by one. *)
Definition run_failed (q : request) (r : reply) : bool := match q, r with QRun, ROk => false | QRun, _ => true | _, _ => false end.
Lemma no_main_handle ne ex q s s' r : good_node s -> handle ne ex q s = Some (s', r) -> run_failed q r = false ->
  Forall (fun ke => en_main (snd ke) = false) (nd_engines s) -> Forall (fun ke => en_main (snd ke) = false) (nd_engines s').
Proof.
  intros G E Rf F. destruct q as [t names|p| | |clear]; cbn [handle] in E.
  - destruct (configure ne ex t names s) as [s1 r1 a|] eqn:C; [|discriminate]. injection E as <- <-. unfold configure in C.
    destruct (_ <=? _)%Z; [injection C as <- <- _; exact F|].
    set (s2 := mkNode _ _ _ _ _ _) in C.
    assert (G2 : good_node (clear_services s2)) by (apply good_clear; exact (good_retag s _ _ _ G)).
    assert (F2 : Forall (fun ke => en_main (snd ke) = false) (nd_engines (clear_services s2))) by constructor.
    revert C G2 F2. generalize (clear_services s2). generalize (@nil (str * endpoint)). clear. induction names as [|name l IH]; intros eps s C G F; cbn [configure_loop] in C.
    + injection C as <- _ _. exact F.
    + destruct (_ <? _); [discriminate|]. destruct (grid_index_from_name name); [|discriminate].
      pose proof (good_alloc ne ex name (nth 0 (split_slash name) []) g s G) as K.
      destruct (alloc_service _ _ _ _ _ _) as [s2 port|s2 m|]; [|injection C as <- _ _; destruct K as (_ & -> & _); exact F|discriminate].
      destruct K as (G2 & e & Eg & _ & _ & _ & _ & _ & Em & _).
      assert (F2 : Forall (fun ke => en_main (snd ke) = false) (nd_engines s2)).
      { rewrite Eg. apply Forall_forall. intros ke I. apply omap_set_In in I; [|apply G]. rewrite Forall_forall in F. destruct I as [->|[I _]]; auto. }
      destruct (socket_for_device _ _ _ _); [|injection C as <- _ _; exact F2]. exact (IH _ _ C G2 F2).
  - injection E as E. unfold introduce_peers in E. pose proof (peers_loop_spec ex p (nd_engines s)) as K.
    destruct (peers_loop ex p (nd_engines s)) as [[l r1] evs]. injection E as <- <-. cbn [nd_engines]. destruct K as (_ & K & _).
    pose proof (f_equal (map snd) K) as K2. rewrite !map_map in K2. cbn [snd] in K2.
    apply Forall_forall. intros ke I. apply (in_map (fun x => en_main (snd x))) in I. rewrite K2 in I. apply in_map_iff in I.
    destruct I as (ke2 & <- & I2). rewrite Forall_forall in F. apply F, I2.
  - destruct (run_traffic s) as [s1 r1 a|] eqn:R; [|discriminate]. injection E as <- <-. destruct r1; try discriminate.
    destruct (C56_run _ _ _ R) as (evs & _ & _ & _ & _ & H & _). exact H.
  - injection E as <- <-. cbn [cancel_traffic nd_engines logs set_engines]. apply Forall_map. eapply Forall_impl; [|exact F].
    intros [k e] H. cbn [snd fst] in *. unfold engine_cancel. destruct (en_cancel e); exact H.
  - pose proof (f_equal fst (f_equal (fun x => match x with Some y => y | None => (s, ROk) end) E)) as E1. cbn [fst] in E1. rewrite <- E1.
    unfold traffic_result. destruct clear; cbn [fst clear_services set_engines nd_engines logs]; [constructor|exact F].
Qed.
Theorem C56_never_terminates ne h s os : history ne h start_node = Some (s, os) ->
  (forall i ex q r, nth_error h i = Some (ex, q) -> nth_error os i = Some r -> run_failed q r = false) ->
  run_traffic s <> Crashed.
Proof.
  intros H A.
  assert (F : Forall (fun ke => en_main (snd ke) = false) (nd_engines s)).
  { revert A. assert (F0 : Forall (fun ke => en_main (snd ke) = false) (nd_engines start_node)) by constructor.
    pose proof good_start_node as G0. revert H G0 F0. generalize start_node. revert s os.
    induction h as [|[ex q] r IH]; intros s os s0 H G F A; cbn [history] in H; [injection H as <- <-; exact F|].
    destruct (handle ne ex q s0) as [[s1 o]|] eqn:E; [|discriminate]. destruct (history ne r s1) as [[s2 os2]|] eqn:E2; [|discriminate].
    injection H as <- <-. eapply IH; [exact E2|eapply good_handle; eassumption| |].
    - eapply no_main_handle; [exact G|exact E| |exact F]. exact (A 0 ex q o eq_refl eq_refl).
    - intros i ex' q' r' H1 H2. exact (A (S i) ex' q' r' H1 H2). }
  unfold run_traffic. intro C.
  enough (K : run_all (tc_lists (nd_traffic s)) (nd_engines s) <> RATerminate).
  { destruct (run_all _ _); [|discriminate|exact (K eq_refl)]. unfold finish_all in C. discriminate. }
  clear C. induction F as [|[k e] l Hx _ IH]; cbn [run_all]; [discriminate|]. unfold engine_run. cbn [snd] in Hx. rewrite Hx.
  destruct (en_peers e); [|discriminate].
  destruct (existsb _ _); destruct (run_all _ l); try discriminate; exact IH.
Qed.
(** Results: exactly the engines with logs appear, and clearing cancels and
    discards all engines. *)
Theorem C56_results ex clear s k v : In (k, v) (snd (traffic_result ex clear s)) <->
  exists e, In (k, e) (nd_engines s) /\ ex_logs ex (en_id e) = Some v.
Proof.
  unfold traffic_result. cbn [snd]. rewrite in_flat_map. split.
  - intros ([k2 e] & I & L). cbn [fst snd] in L. destruct (ex_logs ex (en_id e)) eqn:E; [|destruct L]. destruct L as [L|[]].
    injection L as <- <-. eauto.
  - intros (e & I & E). exists (k, e). split; [exact I|]. cbn [fst snd]. rewrite E. left. reflexivity.
Qed.
Theorem C56_clear ex s : nd_engines (fst (traffic_result ex true s)) = [] /\
  forall k e, In (k, e) (nd_engines s) -> In (EvCancel (en_id e)) (nd_log (fst (traffic_result ex true s)))
    /\ In (EvDestroy (en_id e)) (nd_log (fst (traffic_result ex true s))).
Proof.
  split; [reflexivity|]. intros k e I. unfold traffic_result. cbn [fst clear_services set_engines nd_log logs nd_engines cancel_traffic]. split.
  - apply in_or_app. right. apply in_or_app. left. rewrite <- in_rev. apply in_map_iff. exists (k, e). auto.
  - apply in_or_app. left. rewrite <- in_rev. apply in_flat_map. exists (k, engine_cancel (s_ "OK") e). split.
    + apply in_map_iff. exists (k, e). auto.
    + cbn [snd]. rewrite <- in_rev. unfold destroy_events. left. unfold engine_cancel. destruct (en_cancel e); reflexivity.
Qed.
(** Cancelling reaches every engine; an earlier reason is kept. *)
Theorem C56_cancel why s k e : In (k, e) (nd_engines (cancel_traffic why s)) <->
  exists e0, In (k, e0) (nd_engines s) /\ en_id e = en_id e0 /\ en_main e = en_main e0 /\ en_peers e = en_peers e0
    /\ en_type e = en_type e0 /\ en_index e = en_index e0 /\ en_port e = en_port e0
    /\ en_cancel e = Some (match en_cancel e0 with Some w => w | None => why end).
Proof.
  cbn [cancel_traffic nd_engines logs set_engines]. rewrite in_map_iff. split.
  - intros ([k0 e0] & E & I). cbn [fst snd] in E. injection E as -> <-. exists e0. split; [exact I|]. unfold engine_cancel.
    destruct (en_cancel e0) eqn:C; [|cbn; auto 10]. rewrite C. auto 10.
  - intros (e0 & I & E1 & E2 & E3 & E4 & E5 & E6 & E7). exists (k, e0). split; [|exact I]. cbn [fst snd]. f_equal.
    unfold engine_cancel. destruct e, e0; cbn in *. subst. destruct en_cancel0; reflexivity.
Qed.
(** Introducing peers: on success every engine has been given them. *)
Theorem C56_peers ex p s s' : introduce_peers ex p s = (s', ROk) ->
  map fst (nd_engines s') = map fst (nd_engines s) /\ nd_peers s' = p
  /\ (forall k e, In (k, e) (nd_engines s') -> en_peers e = Some p /\ ex_connect ex (en_id e) = None).
Proof.
  unfold introduce_peers. pose proof (peers_loop_spec ex p (nd_engines s)) as K.
  destruct (peers_loop ex p (nd_engines s)) as [[l r] evs] eqn:E. destruct K as (K & _ & _). intro H. injection H as <- ->. cbn [nd_engines nd_peers].
  split; [exact K|]. split; [reflexivity|]. clear K. revert l evs E. generalize (nd_engines s). intro l0. induction l0 as [|[k e] r IH]; intros l' evs E; cbn [peers_loop] in E.
  - injection E as <- <-. intros k e [].
  - unfold engine_peers in E. destruct p as [|p0 p1]; [discriminate|]. destruct (ex_connect ex (en_id e)) eqn:C; [discriminate|].
    destruct (peers_loop ex (p0 :: p1) r) as [[r' o] evs'] eqn:F. injection E as <- -> <-. intros k2 e2 [H|H]; [|exact (IH _ _ eq_refl _ _ H)].
    injection H as <- <-. cbn [en_peers en_id]. auto.
Qed.


(** ** Examples and refutations *)
Definition ex_ne : node_env := mkNE [mkIf AfInet (Some (s_ "10.0.0.1")) (s_ "eth0")] true (s_ "eth0") (s_ "eth0") (s_ "host")
  [(s_ "rack", s_ "r1")] false false.
Definition ex_good : externals := mkExt (fun _ _ _ => None) (fun i => inl (Z.of_nat (5000 + i))) (fun _ => None) (fun i => Some (Z.of_nat i)).
Definition ex_unconnected : externals := mkExt (fun _ _ _ => None) (fun i => inl (Z.of_nat (5000 + i))) (fun i => Some (s_ "unreachable")) (fun _ => None).
Definition ex_second_fails : externals := mkExt (fun _ _ _ => None) (fun i => if i =? 1 then inr (s_ "port in use") else inl 5000%Z) (fun _ => None) (fun _ => None).
Definition ex_traffic : traffic := mkTraffic 16 [] [] (s_ "grpc") [s_ "a"].
Definition ex_both : traffic := mkTraffic 16 [] [] (s_ "grpc") [s_ "a"; s_ "b"].
Definition ex_names : list str := [s_ "b/0"; s_ "a/3/1"; s_ "a/4/1"].
Definition ex_peers : list (str * endpoint) := [(s_ "a/3/1", mkEp [] [] [])].
(** A refused configuration is stored nevertheless. *)
Theorem C56_refused_unchanged_refuted : exists ne ex t names s s', reachable ne s /\
  configure ne ex t names s = Replied s' RInvalid [] /\ nd_engines s' <> [] /\ nd_traffic s' <> nd_traffic s.
Proof.
  exists ex_ne, ex_good, (mkTraffic 0 [] [] (s_ "grpc") []), ex_names. eexists. eexists.
  split; [exists [(ex_good, QConfigure ex_traffic ex_names)]; eexists; vm_compute; reflexivity|].
  split; [reflexivity|]. split; [discriminate|]. intro E. apply (f_equal tc_max_threads) in E. discriminate.
Qed.
(** A failed configuration leaves the engines allocated before the failure. *)
Theorem C56_all_or_nothing_refuted : exists ne ex t names s s' m, reachable ne s /\
  configure ne ex t names s = Replied s' (RUnknown m) [] /\ map fst (nd_engines s') = [s_ "b/0"] /\ names = [s_ "b/0"; s_ "a/3/1"; s_ "a/4/1"].
Proof.
  exists ex_ne, ex_second_fails, ex_traffic, ex_names, start_node. eexists. eexists.
  split; [exists [], []; reflexivity|]. split; [vm_compute; reflexivity|]. split; reflexivity.
Qed.
(** A failed RunTraffic leaves engines running, and the next RunTraffic of the
    same engines terminates the process. *)
Theorem C56_run_failure_refuted : exists ne h s os, history ne h start_node = Some (s, os)
  /\ (exists k e, In (k, e) (nd_engines s) /\ en_main e = true) /\ history ne (h ++ [(ex_good, QRun)]) start_node = None.
Proof.
  exists ex_ne, [(ex_good, QConfigure ex_both [s_ "a/0"; s_ "b/0"]); (ex_unconnected, QPeers ex_peers); (ex_good, QRun)].
  eexists. eexists. split; [vm_compute; reflexivity|]. split; [|vm_compute; reflexivity].
  do 2 eexists. split; [left; reflexivity|reflexivity].
Qed.

Definition ex_history : list (externals * request) :=
  [(ex_good, QConfigure ex_traffic ex_names); (ex_good, QPeers ex_peers); (ex_good, QRun); (ex_good, QCancel); (ex_good, QResult false);
   (ex_good, QConfigure ex_both ex_names); (ex_good, QPeers ex_peers); (ex_good, QRun)].
Example C56_ex_configured : exists s' eps, configure ex_ne ex_good ex_traffic ex_names start_node = Replied s' ROk eps
  /\ map (fun ke => (fst ke, (en_id (snd ke), en_port (snd ke)))) (nd_engines s')
     = [(s_ "a/3/1", (1, 5001%Z)); (s_ "a/4/1", (2, 5002%Z)); (s_ "b/0", (0, 5000%Z))]
  /\ map_find (s_ "a/4/1") eps = Some (mkEp (s_ "10.0.0.1:5002") (s_ "host")
       [(s_ "rack", s_ "r1"); (s_ "x_index", s_ "4"); (s_ "y_index", s_ "1")])
  /\ map_find (s_ "b/0") eps = Some (mkEp (s_ "10.0.0.1:5000") (s_ "host") [(s_ "rack", s_ "r1"); (s_ "index", s_ "0")]).
Proof. do 2 eexists. split; [vm_compute; reflexivity|]. repeat split; vm_compute; reflexivity. Qed.
Example C56_ex_history : exists s os, history ex_ne ex_history start_node = Some (s, os) /\ os = repeat ROk 8
  /\ map (fun ke => en_id (snd ke)) (nd_engines s) = [4; 5; 3] /\ length (nd_log s) = 37
  /\ firstn 9 (nd_log s) = [EvJoin 3; EvJoin 5; EvJoin 4; EvMain 3; EvRun 3; EvMain 5; EvRun 5; EvMain 4; EvRun 4].
Proof. do 2 eexists. split; [vm_compute; reflexivity|]. repeat split; vm_compute; reflexivity. Qed.
Example C56_ex_results : snd (traffic_result ex_good true (mkNode ex_traffic 1 [] [(s_ "a/0", mkEngine 7 (s_ "a") (mkGI 0 0 0) 1 None false None)] 8 []))
  = [(s_ "a/0", 7%Z)].
Proof. reflexivity. Qed.
Example C56_ex_no_index : configure ex_ne ex_good ex_traffic [s_ "a"] start_node = Crashed. Proof. reflexivity. Qed.
Example C56_ex_play_rejects : play [EvDestroy 0; EvMain 0; EvCreate 0] play_start = None
  /\ play [EvRun 0; EvDestroy 0; EvCreate 0] play_start = None /\ play [EvCreate 0; EvDestroy 0; EvCreate 0] play_start = None
  /\ play [EvDestroy 0; EvJoin 0; EvMain 0; EvCreate 0] play_start <> None.
Proof. repeat split; try reflexivity. discriminate. Qed.

Print Assumptions C56_configured.
Print Assumptions C56_coordinates.
Print Assumptions C56_lifecycle.
Print Assumptions C56_previous_discarded.
Print Assumptions C56_max_threads.
Print Assumptions C56_name_without_index.
Print Assumptions C56_run.
Print Assumptions C56_never_terminates.
Print Assumptions C56_results.
Print Assumptions C56_clear.
Print Assumptions C56_cancel.
Print Assumptions C56_peers.
Print Assumptions C56_refused_unchanged_refuted.
Print Assumptions C56_all_or_nothing_refuted.
Print Assumptions C56_run_failure_refuted.
