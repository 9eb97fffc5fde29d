(** The drivers of the engines of a node and of a test. *)
From Coq Require Import Ascii String List NArith ZArith Bool Arith Lia.
From Verif Require Import Base_Model Base_Proofs Grid_Model Place_Model Util_Model Net_Model Driver_Model Conn_Model Conn_Proofs.
From Verif Require Seq_Model.
From Verif Require Import Seq_Proofs Node_Model Node_Proofs Node_Props Cluster_Model Cluster_Proofs Cluster_Props.
Import ListNotations.
Open Scope nat_scope.

(** The drivers are initialised as in Conn_Model.v: [les k] are the
    surroundings of the drivers of the engine [k]. *)
Definition inits (ex : externals) (les : nat -> list nat -> leaf_env) : Prop :=
  forall k path o, ex_driver ex k path o = leaf_failure (les k path) o.
Lemma alloc_driver ne ex les name ty g s s' port : inits ex les -> alloc_service ne ex name ty g s = AllocDone s' port ->
  exists l, engine_driver ne (nd_traffic s) (les (nd_next s)) ty = Some l.
Proof.
  intros H. unfold alloc_service, engine_driver. destruct (options_for _ _ _ _ _) as [o|]; [|discriminate]. cbv zeta. unfold alloc_env_of.
  rewrite (allocate_ext _ _ _ _ (fun path o => leaf_failure (les (nd_next s) path) o) (H (nd_next s))).
  destruct (allocate 5 _ o 0 []) as [d|e|] eqn:E; try discriminate. intros _. exact (allocate_boots _ _ _ _ _ _ _ _ _ E).
Qed.
Lemma configure_loop_drivers ne ex les : inits ex les -> forall names s eps s' eps', good_node s ->
  (forall k e, In (k, e) (nd_engines s) -> exists l, engine_driver ne (nd_traffic s) (les (en_id e)) (en_type e) = Some l) ->
  configure_loop ne ex names s eps = Replied s' ROk eps' ->
  forall k e, In (k, e) (nd_engines s') -> exists l, engine_driver ne (nd_traffic s) (les (en_id e)) (en_type e) = Some l.
Proof.
  intro H. induction names as [|name r IH]; intros s eps s' eps' G A E; cbn [configure_loop] in E.
  - injection E as <- <-. exact A.
  - destruct (length (split_slash name) <? 2); [discriminate|]. destruct (grid_index_from_name name) as [g|]; [|discriminate].
    pose proof (good_alloc ne ex name (nth 0 (split_slash name) []) g s G) as K.
    pose proof (alloc_driver ne ex les name (nth 0 (split_slash name) []) g s) as D.
    destruct (alloc_service _ _ _ _ _ _) as [s1 port|s1 m|]; [|discriminate|discriminate]. specialize (D _ _ H eq_refl).
    destruct (socket_for_device _ _ _ port) as [a|]; [|discriminate].
    destruct K as (G1 & e & Eg & Ei & Et & _ & _ & _ & _ & _ & Tr & _). rewrite <- Tr. refine (IH s1 _ s' eps' G1 _ E).
    intros k e2 I. rewrite Tr. rewrite Eg in I. apply (omap_set_In name e _ (k, e2) (gn_sorted _ G)) in I. destruct I as [I|[I _]]; [|exact (A k e2 I)].
    injection I as -> ->. rewrite Ei, Et. exact D.
Qed.
Lemma configure_drivers ne ex les t names s s' eps : inits ex les -> reachable ne s -> configure ne ex t names s = Replied s' ROk eps ->
  forall k e, In (k, e) (nd_engines s') -> exists l, engine_driver ne t (les (en_id e)) (en_type e) = Some l.
Proof.
  intros H R E. pose proof (reachable_good _ _ R) as G. unfold configure in E. destruct (tc_max_threads t <=? 0)%Z; [discriminate|].
  set (s2 := mkNode _ _ _ _ _ _) in E. assert (G2 : good_node (clear_services s2)) by (apply good_clear; exact (good_retag s _ _ _ G)).
  apply (configure_loop_drivers ne ex les H names (clear_services s2) [] s' eps G2); [|exact E]. intros k e [].
Qed.
(** In a test that ran, every engine has a driver. *)
Lemma test_drivers fnm r nes ev t w active res ws w' active' les id n e : setting r nes ev t w ->
  do_run_test fnm r nes ev t w active = (TestOk res ws, w', active') -> inits (ph_ext (ev_configure ev) id) les -> occupied r id -> engine_at (wo_introduced ws) id n e ->
  exists l, engine_driver (nes id) (traffic_of t) (les (en_id e)) (en_type e) = Some l.
Proof.
  intros St E H O A. destruct (node_story _ _ _ _ _ _ _ _ _ _ _ St E) as (m & eps & rep & _ & _ & _ & _ & _ & Hs & _).
  destruct (Hs id O) as (s0 & s1 & s2 & s3 & Sd & _ & _ & _ & _ & _ & _ & F & Q1 & _). apply (at_introduced _ _ _ _ _ _ _ _ _ _ _ _ _ n Sd Q1) in A as (e0 & -> & I).
  cbn [given_peers en_id en_type]. apply (configure_drivers _ _ _ _ _ _ _ _ H (se_nodes _ _ _ _ _ St _ _ (sd_start _ _ _ _ _ _ _ _ _ _ _ _ _ Sd)) (sd_configure _ _ _ _ _ _ _ _ _ _ _ _ _ Sd) n e0 I).
Qed.
Lemma driver_made ne t les ty l : engine_driver ne t les ty = Some l -> exists o d,
  options_for (tc_services t) (tc_options t) ty (tc_protocol t) (ne_data ne) = Some o /\ allocate 5 (alloc_env_of ne t les) o 0 [] = DrvOk d /\ made les [] d l.
Proof.
  unfold engine_driver. destruct (options_for _ _ _ _ _) as [o|]; [|discriminate]. destruct (allocate 5 _ o 0 []) as [d|e|] eqn:E; try discriminate.
  intro B. exists o, d. split; [reflexivity|]. split; [exact E|]. apply boot_made, B.
Qed.
Lemma driver_grpc ne t les ty l : ne_homa ne = false -> ne_mercury ne = false -> engine_driver ne t les ty = Some l -> Forall is_grpc (leaves l).
Proof.
  intros Nh Nm. unfold engine_driver. destruct (options_for _ _ _ _ _) as [o|]; [|discriminate]. unfold alloc_env_of. rewrite Nh, Nm.
  destruct (allocate 5 _ o 0 []) as [d|e|] eqn:E; try discriminate. exact (allocate_grpc _ _ _ _ _ _ _ _ _ E).
Qed.
(** The leaves of a tree and the surroundings they were initialised in. *)
Lemma made_leaf les path d l x : made les path d l -> In x (leaves l) -> exists p o,
  (exists g, x = LGrpc g /\ grpc_ready (les p) o 0 g) \/ (exists h, x = LHoma h /\ homa_ready (les p) o 0 h) \/ (exists m, x = LMercury m /\ mercury_ready (les p) o 0 m).
Proof.
  induction 1 as [path o g R|path o h R|path o m R|path d1 d2 l1 l2 _ IH1 _ IH2|path d l _ IH]; cbn [leaves In].
  - intros [<-|[]]. exists path, o. left. eauto.
  - intros [<-|[]]. exists path, o. right. left. eauto.
  - intros [<-|[]]. exists path, o. right. right. eauto.
  - rewrite in_app_iff. tauto.
  - exact IH.
Qed.
