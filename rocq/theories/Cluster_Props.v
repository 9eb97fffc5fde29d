(** C74: a whole test, from the registered nodes to the result. *)
From Coq Require Import Ascii String List NArith ZArith Bool Arith Lia Permutation.
From Verif Require Import Base_Model Base_Proofs Grid_Model Grid_Proofs Place_Model Place_Proofs Util_Model Net_Model Driver_Model Table_Model Peer_Proofs Cli_Model.
From Verif Require Seq_Model Table_Props Peer_Props.
From Verif Require Import Seq_Proofs Node_Model Node_Proofs Node_Props Cluster_Model Cluster_Proofs.
Import ListNotations.
Open Scope Z_scope.

(** The setting of a test: nodes registered themselves and got stubs, the test
    is well formed, every request of a phase completes, and the node managers
    have served any earlier requests. *)
Record setting (r : Seq_Model.registry) (nes : Z -> node_env) (ev : environment) (t : whole) (w : world) : Prop := mkSetting {
  se_registry : exists l out, all_stubs l /\ Seq_Model.register_all l Seq_Model.empty_registry = (out, r);
  se_test : placeable t;
  se_events : completed_by (node_numbers r) ev;
  se_nodes : forall id s, w id = Some s -> reachable (nes id) s }.
Definition engine_at (w : world) (id : Z) (n : str) (e : engine) : Prop := exists s, w id = Some s /\ In (n, e) (nd_engines s).
(** An instance that is both in a node bundle and under a constraint. *)
Definition bundled_and_constrained (fnm : str -> str -> bool) (t : whole) (n : str) : Prop :=
  in_bundle (desc_of t) n /\ exists c, governed_by fnm (pd_constraints (desc_of t)) n c.

Lemma se_sound r nes ev t w : setting r nes ev t w -> sound_registry r.
Proof. intros [(l & out & A & E) _ _ _]. exact (sound_history l out r A E). Qed.
Lemma find_list {V} k (m : list (str * list V)) l : map_find k m = Some l -> map_list k m = l.
Proof. unfold map_list. intros ->. reflexivity. Qed.
Lemma located_of c n : sane c -> In n (names c) -> exists k i, located c n k i.
Proof. intros S I. exact (proj1 (In_names c n S) I). Qed.

(** What one node does during a successful test. *)
Lemma node_story fnm r nes ev t w active res ws w' active' : setting r nes ev t w ->
  do_run_test fnm r nes ev t w active = (TestOk res ws, w', active') ->
  exists m eps rep, place_services fnm (desc_of t) (Seq_Model.node_attributes r) = PlaceOk m /\ tr_test res = t /\ w' = wo_final ws /\
    (forall j, In j active' <-> In j active /\ ~ occupied r j) /\
    (forall id, ~ occupied r id -> wo_configured ws id = w id /\ wo_introduced ws id = w id /\ wo_ran ws id = w id /\ wo_final ws id = w id) /\
    (forall id, occupied r id -> exists s0 s1 s2 s3, served nes ev t w (tr_placement res) ws id (map_list (Seq_Model.node_alias id) m) s0 s1 s2 s3 (eps id) /\
       rep id = snd (Node_Model.traffic_result (ph_ext (ev_get ev) id) true s3) /\
       NoDup (map fst (nd_engines s1)) /\ NoDup (map fst (eps id)) /\ NoDup (map fst (rep id)) /\
       (forall k, In k (map fst (nd_engines s1)) <-> hosts m (Seq_Model.node_alias id) k) /\
       (forall k, In k (map fst (eps id)) <-> hosts m (Seq_Model.node_alias id) k) /\
       (forall k e, In (k, e) (nd_engines s1) -> (exists rest, k = en_type e ++ slash :: rest) /\ ~ In slash (en_type e) /\ grid_index_from_name k = Some (en_index e) /\ en_main e = false
          /\ exists a, socket_for_device (ne_ifs (nes id)) (ne_flag (nes id)) (ne_control (nes id)) (en_port e) = Some a
             /\ map_find k (eps id) = Some (mkEp a (ne_hostname (nes id)) (ne_attributes (nes id) ++ grid_attributes k (en_index e)))) /\
       nd_engines s2 = map (fun ke => (fst ke, given_peers (tr_placement res) (snd ke))) (nd_engines s1) /\ nd_engines s3 = nd_engines s2 /\
       tc_lists (nd_traffic s2) = map li_name (cf_lists (config_of t))) /\
    (exists ids, Permutation ids (node_numbers r) /\ tr_placement res = fold_left (fun m i => Seq_Model.merge m (eps i)) ids []) /\
    (exists ids, Permutation ids (node_numbers r) /\ tr_logs res = fold_left (fun m i => Seq_Model.merge m (rep i)) ids []).
Proof.
  intros St E. pose proof (se_sound _ _ _ _ _ St) as Sr. destruct St as [_ Pl C Rn].
  destruct (test_ok _ _ _ _ _ _ _ _ _ _ _ Sr Pl C E) as (m & l & Pm & _ & _ & Perm & Hl & Et & Ew & Ha & Ho & eps & rep & Hs & (i1 & P1 & M1) & i2 & P2 & M2).
  assert (Oc : forall id, In id (map fst l) <-> occupied r id).
  { intro id. rewrite <- node_numbers_In. split; apply Permutation_in; [exact Perm|symmetry; exact Perm]. }
  exists m, eps, rep. split; [exact Pm|]. split; [exact Et|]. split; [exact Ew|]. split; [intro j; rewrite Ha, Oc; reflexivity|].
  split; [intros id N; apply Ho; rewrite Oc; exact N|]. split; [|split; [exists i1; split; [exact (Permutation_trans P1 Perm)|exact M1]|exists i2; split; [exact (Permutation_trans P2 Perm)|exact M2]]].
  intros id O. apply Oc in O. apply in_map_iff in O as ([id' nm] & <- & I). cbn [fst] in *. pose proof (proj1 (Hl _ _) I) as (O & M).
  rewrite (find_list _ _ _ M). destruct (Hs _ _ I) as (s0 & s1 & s2 & s3 & [D1 D2 D3 D4 D5 D6 D7 D8] & R). exists s0, s1, s2, s3.
  destruct (C56_configured _ _ _ _ _ _ _ (Rn _ _ D1) D2) as (N1 & N2 & K1 & K2 & F & T & _).
  destruct (introduce_engines _ _ _ _ D4) as (Q1 & Q2 & Q3).
  assert (Mf : Forall (fun ke => en_main (snd ke) = false) (nd_engines s2)).
  { rewrite Q1. apply Forall_forall. intros x J. apply in_map_iff in J as ([k e] & <- & J). cbn [snd]. unfold given_peers. cbn [en_main]. apply (F _ _ J). }
  destruct (run_node_engines _ _ Mf D6) as (Q4 & _).
  assert (N3 : NoDup (map fst (nd_engines s3))).
  { rewrite Q4, Q1, map_map. cbn [fst]. exact N1. }
  split; [constructor; assumption|]. split; [exact R|]. split; [exact N1|]. split; [exact N2|]. split.
  { rewrite R. unfold Node_Model.traffic_result. cbn [snd]. clear -N3. induction (nd_engines s3) as [|[k e] l IH]; [constructor|]. cbn [map fst flat_map snd] in *.
    apply NoDup_cons_iff in N3 as [N D]. destruct (ex_logs _ _); cbn [app map fst]; [|auto]. constructor; [|auto]. intro J. apply N. apply in_map_iff in J as ([k' v] & <- & J).
    apply in_flat_map in J as ([k2 e2] & J & J2). cbn [fst snd] in J2. destruct (ex_logs _ (en_id e2)); [|destruct J2]. destruct J2 as [J2|[]]. injection J2 as <- _. exact (in_map fst _ _ J). }
  unfold hosts. rewrite (find_list _ _ _ M). split; [intro k; rewrite K1; apply in_order_In|]. split; [intro k; rewrite K2; apply in_order_In|].
  split. { intros k e J. destruct (F k e J) as (_ & F1 & F0 & F2 & _ & F3 & _ & F4). auto. }
  split; [exact Q1|]. split; [exact Q4|]. rewrite Q2, T. reflexivity.
Qed.

(** After a successful introduction, the engines on a registered node are those
    of the instances placed on it, of the right type and index, and they all
    know the whole placement. *)
Theorem C74_engines fnm r nes ev t w active res ws w' active' : setting r nes ev t w ->
  do_run_test fnm r nes ev t w active = (TestOk res ws, w', active') ->
  exists m, place_services fnm (desc_of t) (Seq_Model.node_attributes r) = PlaceOk m /\ tr_test res = t /\
  forall id n, occupied r id ->
    ((exists e, engine_at (wo_introduced ws) id n e) <-> hosts m (Seq_Model.node_alias id) n) /\
    (forall e e', engine_at (wo_introduced ws) id n e -> engine_at (wo_introduced ws) id n e' -> e = e') /\
    forall e, engine_at (wo_introduced ws) id n e ->
      exists k i s, nth_error (cf_services (config_of t)) k = Some s /\ (i < Z.to_nat (svc_count s))%nat /\
        instance_name (sv_spec s) (Z.of_nat i) = Some n /\ en_type e = svc_name s /\ instance_from_grid (sv_spec s) (en_index e) = Z.of_nat i /\
        en_peers e = Some (tr_placement res).
Proof.
  intros St E. pose proof (pl_sane t (se_test _ _ _ _ _ St)) as Sa. pose proof (se_sound _ _ _ _ _ St) as Sr.
  destruct (node_story _ _ _ _ _ _ _ _ _ _ _ St E) as (m & eps & rep & Pm & Et & _ & _ & _ & H & _). exists m. split; [exact Pm|]. split; [exact Et|]. intros id n O.
  destruct (H id O) as (s0 & s1 & s2 & s3 & Sd & _ & N1 & _ & _ & K1 & _ & F & Q1 & _). pose proof (sd_introduced _ _ _ _ _ _ _ _ _ _ _ _ _ Sd) as D5.
  assert (A : forall e, engine_at (wo_introduced ws) id n e <-> exists e0, e = given_peers (tr_placement res) e0 /\ In (n, e0) (nd_engines s1)).
  { intro e. unfold engine_at. split.
    - intros (s & Es & I). assert (s = s2) as -> by congruence. rewrite Q1 in I. apply in_map_iff in I as ([k e0] & Q & I). cbn [fst snd] in Q. injection Q as -> <-. eauto.
    - intros (e0 & -> & I). exists s2. split; [exact D5|]. rewrite Q1. apply in_map_iff. exists (n, e0). auto. }
  split; [|split].
  - rewrite <- K1. split.
    + intros (e & I). apply A in I as (e0 & _ & I). exact (in_map fst _ _ I).
    + intro I. apply in_map_iff in I as ([k e0] & <- & I). exists (given_peers (tr_placement res) e0). apply A. eauto.
  - intros e e' I I'. apply A in I as (x & -> & I). apply A in I' as (x' & -> & I'). f_equal. clear -N1 I I'. induction (nd_engines s1) as [|[k e] l IH]; [destruct I|].
    cbn [map fst] in N1. apply NoDup_cons_iff in N1 as [N D]. destruct I as [I|I], I' as [I'|I'].
    + congruence.
    + exfalso. apply N. assert (k = n) as -> by congruence. exact (in_map fst _ _ I').
    + exfalso. apply N. assert (k = n) as -> by congruence. exact (in_map fst _ _ I).
    + auto.
  - intros e I. apply A in I as (e0 & -> & I). destruct (F _ _ I) as ((rest & En) & Ns' & G & _).
    assert (Nm : In n (names (config_of t))).
    { pose proof (proj1 (K1 n) (in_map fst _ _ I)) as Hn.
      exact (proj2 (proj1 (placement_spec _ _ _ _ _ (desc_names t (se_test _ _ _ _ _ St)) (names_NoDup _ Sa) (NoDup_aliases r (sr_inv r Sr)) (pl_bundles t (se_test _ _ _ _ _ St)) (pl_constraints t (se_test _ _ _ _ _ St)) Pm) _ _ Hn)). }
    destruct (located_of _ _ Sa Nm) as (k & i & L). destruct (located_facts _ _ _ _ Sa L) as (s & g & L1 & L2 & _ & L4 & L5 & L6 & L7). exists k, i, s.
    split; [exact L1|]. split; [exact L6|]. split; [exact L7|]. cbn [given_peers en_type en_index en_peers]. split; [|split; [congruence|reflexivity]].
    destruct (instance_name_prefix _ _ _ L7) as (rest' & En'). pose proof (proj2 (sane_nth _ _ _ Sa L1)) as Ns.
    rewrite En in En'. assert (X : forall a b x y, ~ In slash a -> ~ In slash b -> a ++ slash :: x = b ++ slash :: y -> a = b).
    { clear. induction a as [|c a IH]; intros [|d b] x y Na Nb Q; cbn [app] in Q; [reflexivity|injection Q as <- _; exfalso; apply Nb; left; reflexivity|injection Q as -> _; exfalso; apply Na; left; reflexivity|].
      injection Q as -> Q. f_equal. apply (IH b x y); [intro; apply Na; right; assumption|intro; apply Nb; right; assumption|exact Q]. }
    exact (X _ _ _ _ Ns' Ns En').
Qed.
Print Assumptions C74_engines.

Lemma hosted_named fnm r nes ev t w m a n : setting r nes ev t w -> place_services fnm (desc_of t) (Seq_Model.node_attributes r) = PlaceOk m ->
  hosts m a n -> In n (names (config_of t)) /\ exists id, occupied r id /\ a = Seq_Model.node_alias id.
Proof.
  intros St P H. pose proof (se_sound _ _ _ _ _ St) as Sr. destruct St as [_ Pl _ _]. pose proof (pl_sane t Pl) as Sa.
  pose proof (placement_spec _ _ _ _ _ (desc_names t Pl) (names_NoDup _ Sa) (NoDup_aliases r (sr_inv r Sr)) (pl_bundles t Pl) (pl_constraints t Pl) P) as (A & _).
  destruct (A _ _ H) as (A1 & A2). split; [exact A2|]. apply (attributes_alias r a Sr), A1.
Qed.
Lemma named_hosted fnm r nes ev t w m n : setting r nes ev t w -> place_services fnm (desc_of t) (Seq_Model.node_attributes r) = PlaceOk m ->
  In n (names (config_of t)) -> exists id, occupied r id /\ hosts m (Seq_Model.node_alias id) n.
Proof.
  intros St P H. pose proof (se_sound _ _ _ _ _ St) as Sr. pose proof (se_test _ _ _ _ _ St) as Pl. pose proof (pl_sane t Pl) as Sa.
  pose proof (placement_spec _ _ _ _ _ (desc_names t Pl) (names_NoDup _ Sa) (NoDup_aliases r (sr_inv r Sr)) (pl_bundles t Pl) (pl_constraints t Pl) P) as (_ & A & _).
  destruct (A _ H) as (a & K). destruct (hosted_named _ _ _ _ _ _ _ _ _ St P K) as (_ & id & O & ->). eauto.
Qed.
Lemma hosted_once fnm r nes ev t w m n id id' : setting r nes ev t w -> place_services fnm (desc_of t) (Seq_Model.node_attributes r) = PlaceOk m ->
  hosts m (Seq_Model.node_alias id) n -> hosts m (Seq_Model.node_alias id') n -> ~ bundled_and_constrained fnm t n -> id = id'.
Proof.
  intros St P H H' N. pose proof (se_sound _ _ _ _ _ St) as Sr. pose proof (se_test _ _ _ _ _ St) as Pl. pose proof (pl_sane t Pl) as Sa.
  pose proof (placement_spec _ _ _ _ _ (desc_names t Pl) (names_NoDup _ Sa) (NoDup_aliases r (sr_inv r Sr)) (pl_bundles t Pl) (pl_constraints t Pl) P) as (_ & _ & A & _).
  apply node_alias_inj. exact (A _ _ _ H H' N).
Qed.
(** The engine of an instance on a registered node, before and after the peers. *)
Lemma at_introduced nes ev t w sm ws id nm s0 s1 s2 s3 eps n : served nes ev t w sm ws id nm s0 s1 s2 s3 eps ->
  nd_engines s2 = map (fun ke => (fst ke, given_peers sm (snd ke))) (nd_engines s1) ->
  forall e, engine_at (wo_introduced ws) id n e <-> exists e0, e = given_peers sm e0 /\ In (n, e0) (nd_engines s1).
Proof.
  intros Sd Q1 e. pose proof (sd_introduced _ _ _ _ _ _ _ _ _ _ _ _ _ Sd) as D5. unfold engine_at. split.
  - intros (s & Es & I). assert (s = s2) as -> by congruence. rewrite Q1 in I. apply in_map_iff in I as ([k e0] & Q & I). cbn [fst snd] in Q. injection Q as -> <-. eauto.
  - intros (e0 & -> & I). exists s2. split; [exact D5|]. rewrite Q1. apply in_map_iff. exists (n, e0). auto.
Qed.

(** The placement of the result has exactly one entry for every instance of the
    test: the address, host name and attributes of a node with an engine for it. *)
Theorem C74_placement fnm r nes ev t w active res ws w' active' : setting r nes ev t w ->
  do_run_test fnm r nes ev t w active = (TestOk res ws, w', active') ->
  NoDup (map fst (tr_placement res)) /\ (forall n, In n (map fst (tr_placement res)) <-> In n (names (config_of t))) /\
  forall n ep, map_find n (tr_placement res) = Some ep ->
    exists id e a, occupied r id /\ engine_at (wo_introduced ws) id n e /\
      socket_for_device (ne_ifs (nes id)) (ne_flag (nes id)) (ne_control (nes id)) (en_port e) = Some a /\
      ep = mkEp a (ne_hostname (nes id)) (ne_attributes (nes id) ++ grid_attributes n (en_index e)).
Proof.
  intros St E. destruct (node_story _ _ _ _ _ _ _ _ _ _ _ St E) as (m & eps & rep & Pm & Et & _ & _ & _ & H & (ids & P & M) & _).
  assert (Oc : forall id, In id ids <-> occupied r id).
  { intro id. rewrite <- node_numbers_In. split; apply Permutation_in; [exact P|symmetry; exact P]. }
  split; [rewrite M; apply merges_NoDup; constructor|]. split.
  - intro n. rewrite M, merges_keys. cbn [map In]. split.
    + intros [[]|(id & I & K)]. apply Oc in I. destruct (H id I) as (s0 & s1 & s2 & s3 & _ & _ & _ & _ & _ & _ & K2 & _). apply K2 in K.
      exact (proj1 (hosted_named _ _ _ _ _ _ _ _ _ St Pm K)).
    + intro K. right. destruct (named_hosted _ _ _ _ _ _ _ _ St Pm K) as (id & O & Hn). exists id. split; [apply Oc, O|].
      destruct (H id O) as (s0 & s1 & s2 & s3 & _ & _ & _ & _ & _ & _ & K2 & _). apply K2, Hn.
  - intros n ep F. rewrite M in F. apply merges_some in F as [F|(id & I & J)]; [discriminate| |].
    + apply Oc in I. destruct (H id I) as (s0 & s1 & s2 & s3 & Sd & _ & _ & N2 & _ & K1 & K2 & Fe & Q1 & _).
      pose proof (proj2 (K1 n) (proj1 (K2 n) (in_map fst _ _ J))) as In1. apply in_map_iff in In1 as ([k e] & <- & Ie). cbn [fst] in *.
      destruct (Fe _ _ Ie) as (_ & _ & _ & _ & a & A1 & A2). exists id, (given_peers (tr_placement res) e), a. split; [exact I|].
      split; [apply (at_introduced _ _ _ _ _ _ _ _ _ _ _ _ _ k Sd Q1); eauto|]. split; [exact A1|]. cbn [given_peers en_index].
      apply (Place_Proofs.map_find_iff _ _ _ N2) in J. congruence.
    + intros id I. apply Oc in I. destruct (H id I) as (s0 & s1 & s2 & s3 & _ & _ & _ & N2 & _). exact N2.
Qed.
Print Assumptions C74_placement.

(** One engine for every instance, unless it is both bundled and constrained. *)
Theorem C74_once fnm r nes ev t w active res ws w' active' n : setting r nes ev t w ->
  do_run_test fnm r nes ev t w active = (TestOk res ws, w', active') ->
  In n (names (config_of t)) -> ~ bundled_and_constrained fnm t n ->
  exists id e, occupied r id /\ engine_at (wo_introduced ws) id n e /\
    forall id' e', occupied r id' -> engine_at (wo_introduced ws) id' n e' -> id' = id /\ e' = e.
Proof.
  intros St E I N. destruct (C74_engines _ _ _ _ _ _ _ _ _ _ _ St E) as (m & Pm & _ & H). destruct (named_hosted _ _ _ _ _ _ _ _ St Pm I) as (id & O & Hn).
  destruct (H id n O) as (H1 & H2 & _). destruct (proj2 H1 Hn) as (e & He). exists id, e. split; [exact O|]. split; [exact He|]. intros id' e' O' He'.
  destruct (H id' n O') as (H1' & _). pose proof (proj1 H1' (ex_intro _ e' He')) as Hn'. pose proof (hosted_once _ _ _ _ _ _ _ _ _ _ St Pm Hn Hn' N) as <-. split; [reflexivity|].
  exact (H2 _ _ He' He).
Qed.
Print Assumptions C74_once.

(** During the traffic phase every engine of a registered node is started once,
    its main thread runs iff there is an action list named after its service,
    and all main threads have ended when the phase is over. *)
Definition is_run (ev : event) : bool := match ev with EvRun _ => true | _ => false end.
Definition is_main (ev : event) : bool := match ev with EvMain _ => true | _ => false end.
Theorem C74_traffic fnm r nes ev t w active res ws w' active' id : setting r nes ev t w ->
  do_run_test fnm r nes ev t w active = (TestOk res ws, w', active') -> occupied r id ->
  exists s2 s3 evs, wo_introduced ws id = Some s2 /\ wo_ran ws id = Some s3 /\ nd_engines s3 = nd_engines s2 /\ nd_log s3 = evs ++ nd_log s2 /\
    filter is_run evs = rev (map (fun ke => EvRun (en_id (snd ke))) (nd_engines s2)) /\
    (forall i, In (EvMain i) evs <-> exists n e, In (n, e) (nd_engines s2) /\ en_id e = i /\ In (en_type e) (map li_name (cf_lists (config_of t)))) /\
    (forall n e, In (n, e) (nd_engines s3) -> en_main e = false).
Proof.
  intros St E O. destruct (node_story _ _ _ _ _ _ _ _ _ _ _ St E) as (m & eps & rep & _ & _ & _ & _ & _ & H & _).
  destruct (H id O) as (s0 & s1 & s2 & s3 & Sd & _ & _ & _ & _ & _ & _ & _ & _ & Q4 & T). destruct (C56_run _ _ _ (sd_run _ _ _ _ _ _ _ _ _ _ _ _ _ Sd)) as (evs & L & F1 & F2 & _ & F3 & _).
  exists s2, s3, evs. split; [apply (sd_introduced _ _ _ _ _ _ _ _ _ _ _ _ _ Sd)|]. split; [apply (sd_ran _ _ _ _ _ _ _ _ _ _ _ _ _ Sd)|]. split; [exact Q4|].
  split; [exact L|]. split; [exact F1|]. split.
  - intro i. transitivity (In (EvMain i) (filter is_main evs)); [rewrite filter_In; cbn [is_main]; tauto|]. unfold is_main. rewrite F2, <- in_rev, in_map_iff, T. split.
    + intros ([n e] & Q & J). apply filter_In in J as (J & K). cbn [snd] in *. injection Q as <-. exists n, e. split; [exact J|]. split; [reflexivity|].
      apply existsb_exists in K as (x & K & Q). destruct (str_eqb_spec (en_type e) x); [subst; exact K|discriminate].
    + intros (n & e & J & <- & K). exists (n, e). split; [reflexivity|]. apply filter_In. split; [exact J|]. cbn [snd]. apply existsb_exists. exists (en_type e). split; [exact K|apply str_eqb_refl].
  - intros n e I. rewrite Forall_forall in F3. exact (F3 _ I).
Qed.
Print Assumptions C74_traffic.

(** The logs of the result are those of the engines; all of them, if no instance
    has two engines. *)
Theorem C74_logs fnm r nes ev t w active res ws w' active' : setting r nes ev t w ->
  do_run_test fnm r nes ev t w active = (TestOk res ws, w', active') ->
  NoDup (map fst (tr_logs res)) /\
  (forall n v, map_find n (tr_logs res) = Some v ->
     exists id e, occupied r id /\ engine_at (wo_ran ws) id n e /\ ex_logs (ph_ext (ev_get ev) id) (en_id e) = Some v) /\
  ((forall n, ~ bundled_and_constrained fnm t n) -> forall id n e v, occupied r id -> engine_at (wo_ran ws) id n e ->
     ex_logs (ph_ext (ev_get ev) id) (en_id e) = Some v -> map_find n (tr_logs res) = Some v).
Proof.
  intros St E. destruct (node_story _ _ _ _ _ _ _ _ _ _ _ St E) as (m & eps & rep & Pm & _ & _ & _ & _ & H & _ & ids & P & M).
  assert (Oc : forall id, In id ids <-> occupied r id).
  { intro id. rewrite <- node_numbers_In. split; apply Permutation_in; [exact P|symmetry; exact P]. }
  assert (R : forall id n v, occupied r id -> (In (n, v) (rep id) <-> exists e, engine_at (wo_ran ws) id n e /\ ex_logs (ph_ext (ev_get ev) id) (en_id e) = Some v)).
  { intros id n v O. destruct (H id O) as (s0 & s1 & s2 & s3 & Sd & -> & _). rewrite C56_results. pose proof (sd_ran _ _ _ _ _ _ _ _ _ _ _ _ _ Sd) as D7. unfold engine_at. split.
    - intros (e & I & K). exists e. split; [eauto|exact K].
    - intros (e & (s & Es & I) & K). assert (s = s3) as -> by congruence. eauto. }
  split; [rewrite M; apply merges_NoDup; constructor|]. split.
  - intros n v F. rewrite M in F. apply merges_some in F as [F|(id & I & J)]; [discriminate| |].
    + apply Oc in I. apply (R _ _ _ I) in J as (e & J). exists id, e. auto.
    + intros id I. apply Oc in I. destruct (H id I) as (s0 & s1 & s2 & s3 & _ & _ & _ & _ & N3 & _). exact N3.
  - intros N id n e v O A L. rewrite M. apply merge_all_find.
    + apply (Permutation_NoDup (Permutation_sym P)), node_numbers_NoDup.
    + intros i I. apply Oc in I. destruct (H i I) as (s0 & s1 & s2 & s3 & _ & _ & _ & _ & N3 & _). exact N3.
    + intros i j x I J Xi Xj. apply Oc in I, J.
      assert (G : forall i, occupied r i -> In x (map fst (rep i)) -> hosts m (Seq_Model.node_alias i) x).
      { clear i j I J Xi Xj. intros i I X. apply in_map_iff in X as ([x' v'] & <- & X). apply (R _ _ _ I) in X as (e' & (s & Es & X) & _). cbn [fst].
        destruct (H i I) as (s0 & s1 & s2 & s3 & Sd & _ & _ & _ & _ & K1 & _ & _ & Q1 & Q4 & _). pose proof (sd_ran _ _ _ _ _ _ _ _ _ _ _ _ _ Sd) as D7. assert (s = s3) as -> by congruence.
        rewrite Q4, Q1 in X. apply K1. apply in_map_iff in X as ([k e0] & Q & X). cbn [fst snd] in Q. injection Q as -> _. exact (in_map fst _ _ X). }
      exact (hosted_once _ _ _ _ _ _ _ _ _ _ St Pm (G i I Xi) (G j J Xj) (N x)).
    + reflexivity.
    + right. exists id. split; [apply Oc, O|]. apply (R _ _ _ O). eauto.
Qed.
Print Assumptions C74_logs.

(** Afterwards the registered nodes have no engine and are not active; other
    nodes were not touched. *)
Theorem C74_cleared fnm r nes ev t w active res ws w' active' : setting r nes ev t w ->
  do_run_test fnm r nes ev t w active = (TestOk res ws, w', active') ->
  (forall id, occupied r id -> exists s, w' id = Some s /\ nd_engines s = []) /\
  (forall id, ~ occupied r id -> w' id = w id) /\ (forall j, In j active' <-> In j active /\ ~ occupied r j).
Proof.
  intros St E. destruct (node_story _ _ _ _ _ _ _ _ _ _ _ St E) as (m & eps & rep & _ & _ & -> & Ha & Ho & H & _).
  split; [|split; [intros id N; apply (Ho id N)|exact Ha]]. intros id O. destruct (H id O) as (s0 & s1 & s2 & s3 & Sd & _). eexists. split; [apply (sd_final _ _ _ _ _ _ _ _ _ _ _ _ _ Sd)|].
  apply C56_clear.
Qed.
Print Assumptions C74_cleared.

(** Whatever the outcome, the node managers have only served requests: the
    theorems apply to the next test as well. *)
Lemma reachable_step ne ex q s s' o : reachable ne s -> handle ne ex q s = Some (s', o) -> reachable ne s'.
Proof.
  intros (h & os & H) E. exists (h ++ [(ex, q)]), (os ++ [o]). revert os H. generalize start_node. induction h as [|[ex0 q0] h IH]; intros s0 os H; cbn [history app] in *.
  - injection H as <- <-. rewrite E. reflexivity.
  - destruct (handle ne ex0 q0 s0) as [[s1 o1]|]; [|discriminate]. destruct (history ne h s1) as [[s2 os2]|] eqn:F; [|discriminate]. injection H as <- <-.
    rewrite (IH _ _ F). reflexivity.
Qed.
Definition keeps {A} (ne : node_env) (h : node -> outcome A) : Prop := forall s s' o a, reachable ne s -> h s = Replied s' o a -> reachable ne s'.
Lemma call_all_keeps {A} f nes : forall (l : list (Z * (node -> outcome A))) w w' rs, (forall id h, In (id, h) l -> keeps (nes id) h) ->
  (forall id s, w id = Some s -> reachable (nes id) s) -> call_all f l w = (w', rs) -> forall id s, w' id = Some s -> reachable (nes id) s.
Proof.
  induction l as [|[i h] l IH]; intros w w' rs K R E; cbn [call_all] in E; [injection E as <- _; exact R|].
  destruct (call (f i) h (w i)) as [n a] eqn:C. destruct (call_all f l (set_node w i n)) as [w2 rs2] eqn:F. injection E as <- _.
  apply (IH _ _ _ (fun id0 h0 J => K id0 h0 (or_intror J))) with (2 := F). intros id s. unfold set_node. destruct (Z.eqb_spec id i) as [->|]; [|apply R].
  intros ->. unfold call in C. destruct (w i) as [s0|] eqn:W; [|discriminate].
  assert (Hr : forall o, match h s0 with Replied s1 r a0 => (Some s1, o r a0) | Crashed => (None, None) end = (Some s, a) -> reachable (nes i) s).
  { intros o Q. destruct (h s0) as [s1 r a0|] eqn:Hh; [|discriminate]. injection Q as <- _. exact (K i h (or_introl eq_refl) _ _ _ _ (R _ _ W) Hh). }
  destruct (f i).
  - exact (Hr (fun r a0 => match r with ROk => Some a0 | _ => None end) C).
  - injection C as <- _. exact (R _ _ W).
  - refine (Hr (fun r a0 => None) _). destruct (h s0); [|discriminate]. exact C.
Qed.
Lemma keeps_configure (nes : Z -> node_env) ex t nm id : keeps (nes id) (configure (nes id) ex t nm).
Proof. intros s s' o a R E. apply (reachable_step (nes id) ex (QConfigure t nm) s s' o R). cbn [handle]. rewrite E. reflexivity. Qed.
Lemma keeps_introduce ne ex p : keeps ne (fun s => let (s', r) := introduce_peers ex p s in Replied s' r tt).
Proof. intros s s' o a R E. apply (reachable_step ne ex (QPeers p) s s' o R). cbn [handle]. destruct (introduce_peers ex p s). injection E as -> -> _. reflexivity. Qed.
Lemma keeps_run ne : keeps ne Node_Model.run_traffic.
Proof. intros s s' o a R E. apply (reachable_step ne ex_good QRun s s' o R). cbn [handle]. rewrite E. reflexivity. Qed.
Lemma keeps_get ne ex : keeps ne (fun s => let (s', logs) := Node_Model.traffic_result ex true s in Replied s' ROk logs).
Proof. intros s s' o a R E. apply (reachable_step ne ex (QResult true) s s' o R). cbn [handle]. destruct (Node_Model.traffic_result ex true s). injection E as <- <- _. reflexivity. Qed.
Theorem C74_any_outcome fnm r nes ev t w active out w' active' : (forall id s, w id = Some s -> reachable (nes id) s) ->
  do_run_test fnm r nes ev t w active = (out, w', active') -> forall id s, w' id = Some s -> reachable (nes id) s.
Proof.
  intros R E. unfold do_run_test in E. destruct (cf_services (config_of t)) as [|sv0 svs]; [injection E as _ <- _; exact R|].
  destruct (place_services _ _ _) as [| | |m]; [injection E as _ <- _; exact R|injection E as _ <- _; exact R|injection E as _ <- _; exact R|].
  destruct (node_ids r m) as [l|]; [|injection E as _ <- _; exact R].
  destruct (configure_nodes _ _ _ _ _) as [w1 r1] eqn:E1. assert (R1 : forall id s, w1 id = Some s -> reachable (nes id) s).
  { unfold configure_nodes in E1. destruct (call_all _ _ _) as [w1' rs] eqn:C. injection E1 as -> _. refine (call_all_keeps _ _ _ _ _ _ _ R C).
    intros id h I. apply in_map_iff in I as (x & Q & _). injection Q as <- <-. apply keeps_configure. }
  destruct r1 as [| |who|sm]; [injection E as _ <- _; exact R1|injection E as _ <- _; exact R1|injection E as _ <- _; exact R1|].
  destruct (introduce _ _ _ _) as [w2 r2] eqn:E2. assert (R2 : forall id s, w2 id = Some s -> reachable (nes id) s).
  { unfold introduce in E2. destruct (call_all _ _ _) as [w2' rs] eqn:C. injection E2 as -> _. refine (call_all_keeps _ _ _ _ _ _ _ R1 C).
    intros id h I. apply in_map_iff in I as (x & Q & _). injection Q as <- <-. apply keeps_introduce. }
  destruct r2 as [| |who|u]; [injection E as _ <- _; exact R2|injection E as _ <- _; exact R2|injection E as _ <- _; exact R2|].
  destruct (attribute_int _ _ _); [|injection E as _ <- _; exact R2].
  destruct (traffic _ _ _ _ _) as [[[w3 w4] tr] act] eqn:E3. assert (R4 : forall id s, w4 id = Some s -> reachable (nes id) s).
  { unfold traffic in E3. destruct (call_all (ph_fate (ev_run ev)) _ _) as [w3' rs] eqn:C.
    assert (R3 : forall id s, w3' id = Some s -> reachable (nes id) s).
    { refine (call_all_keeps _ _ _ _ _ _ _ R2 C). intros id h I. apply in_map_iff in I as (x & Q & _). injection Q as _ <-. apply keeps_run. }
    destruct (Seq_Model.await_run _ _ _ _) as [[who|]|].
    - destruct (Seq_Model.run_traffic _ _ _ _ _ _). injection E3 as _ <- _ _. exact R3.
    - destruct (call_all (ph_fate (ev_get ev)) _ _) as [w4' rs'] eqn:C'. destruct (Seq_Model.run_traffic _ _ _ _ _ _). injection E3 as _ <- _ _.
      refine (call_all_keeps _ _ _ _ _ _ _ R3 C'). intros id h I. apply in_map_iff in I as (x & Q & _). injection Q as _ <-. apply keeps_get.
    - destruct (Seq_Model.run_traffic _ _ _ _ _ _). injection E3 as _ <- _ _. exact R3. }
  destruct tr; injection E as _ <- _; exact R4.
Qed.
Print Assumptions C74_any_outcome.

Lemma placed_ids fnm r nes ev t w m : setting r nes ev t w -> place_services fnm (desc_of t) (Seq_Model.node_attributes r) = PlaceOk m ->
  exists l, node_ids r m = Some l /\ NoDup (map fst l) /\ Permutation (map fst l) (node_numbers r) /\
    forall id nm, In (id, nm) l -> occupied r id /\ nm = map_list (Seq_Model.node_alias id) m.
Proof.
  intros St P. pose proof (se_sound _ _ _ _ _ St) as Sr. pose proof (se_test _ _ _ _ _ St) as Pl.
  pose proof (placement_NoDup _ _ _ _ P) as Dm.
  destruct (placement_nodes _ _ _ _ _ (desc_names t Pl) (names_NoDup _ (pl_sane t Pl)) (NoDup_aliases r (sr_inv r Sr)) (pl_bundles t Pl) P) as (Km & _).
  destruct (node_ids_spec r m Sr Dm (fun a I => proj1 (Km a) I)) as (l & El & Dl & F). exists l. split; [exact El|]. split; [exact Dl|].
  assert (Hl : forall id nm, In (id, nm) l -> occupied r id /\ nm = map_list (Seq_Model.node_alias id) m).
  { intros id nm I. apply In_nth_error in I as (j & J). destruct (Forall2_right _ _ _ F j _ J) as ([a n] & Ex & Lx & En). cbn [fst snd] in *. subst n.
    apply (lookup_alias r _ _ Sr) in Lx as (O & ->). split; [exact O|]. apply nth_error_In in Ex. symmetry. apply find_list. exact (proj2 (Place_Proofs.map_find_iff _ _ _ Dm) Ex). }
  split; [|exact Hl]. apply NoDup_Permutation; [exact Dl|apply node_numbers_NoDup|]. intro id. rewrite node_numbers_In. split.
  - intro I. apply in_map_iff in I as ([i n] & <- & I). apply Hl in I as (O & _). exact O.
  - intro O. assert (I : In (Seq_Model.node_alias id) (map fst m)) by (apply Km, (attributes_alias r _ Sr); eauto).
    apply in_map_iff in I as ([a nm] & Ea & I). cbn [fst] in Ea. subst a. apply In_nth_error in I as (j & J). destruct (Forall2_left _ _ _ F j _ J) as ([i n] & Ex & Lx & En). cbn [fst snd] in *.
    apply (lookup_alias r _ _ Sr) in Lx as (_ & Q). apply node_alias_inj in Q as ->. exact (in_map fst _ _ (nth_error_In _ _ Ex)).
Qed.

(** Once the solver has returned, the sequencer neither crashes nor waits for
    ever: the test succeeds or fails. *)
Theorem C74_ends fnm r nes ev t w active : setting r nes ev t w ->
  (forall x, place_services fnm (desc_of t) (Seq_Model.node_attributes r) = x -> x <> PlaceUB /\ x <> PlaceThrow) ->
  exists out w' active', do_run_test fnm r nes ev t w active = (out, w', active') /\
    ((exists ph, out = TestFailed ph) \/ exists res ws, out = TestOk res ws).
Proof.
  intros St H. unfold do_run_test. destruct (cf_services (config_of t)) as [|sv0 svs]; [do 3 eexists; split; [reflexivity|eauto]|].
  destruct (place_services _ _ _) as [| | |m] eqn:P; [destruct (H _ eq_refl); congruence|destruct (H _ eq_refl); congruence|do 3 eexists; split; [reflexivity|eauto]|]. clear H.
  destruct (placed_ids _ _ _ _ _ _ _ St P) as (l & -> & D & Pm & _). destruct St as [_ _ [C1 C2 C3 C4] _]. apply (completes_perm _ _ _ (Permutation_sym Pm)) in C1, C2, C3, C4.
  unfold configure_nodes. destruct (call_all _ _ _) as [w1 rs1]. rewrite await_endpoints_spec by (rewrite <- (map_length fst l); apply Permutation_length, C1).
  destruct (last_such _ _ _) as [who|]; [do 3 eexists; split; [reflexivity|eauto]|].
  unfold introduce. destruct (call_all _ _ _) as [w2 rs2]. rewrite await_run_spec by (rewrite <- (map_length fst l); apply Permutation_length, C2).
  destruct (last_such _ _ _) as [who|]; [do 3 eexists; split; [reflexivity|eauto]|].
  destruct (attribute_int _ _ _); [|do 3 eexists; split; [reflexivity|eauto]].
  unfold traffic. destruct (call_all _ _ _) as [w3 rs3]. unfold Seq_Model.run_traffic. rewrite await_run_spec by apply (Permutation_length C3).
  destruct (last_such _ _ _) as [who|]; [do 3 eexists; split; [reflexivity|eauto]|]. destruct (call_all _ _ _) as [w4 rs4]. rewrite await_results_spec by apply (Permutation_length C4).
  destruct (last_such _ _ _) as [who|]; do 3 eexists; (split; [reflexivity|eauto]).
Qed.
Print Assumptions C74_ends.

(** All goes well if the outside world does: every node is up and answers, can
    create the engines, and these can connect. *)
Lemma call_all_served {A} f (l : list (Z * (node -> outcome A))) w w' rs id h s s' a : NoDup (map fst l) -> call_all f l w = (w', rs) ->
  In (id, h) l -> f id = Served -> w id = Some s -> h s = Replied s' ROk a -> w' id = Some s' /\ answer_of rs id = Some a.
Proof.
  intros D E I F W H. destruct (call_all_spec _ _ _ _ _ D E) as (_ & Q & _). destruct (Q _ _ I) as (Q1 & Q2). rewrite F, W in Q1, Q2. rewrite (call_served _ _ _ _ H) in Q1, Q2. auto.
Qed.
Theorem C74_succeeds fnm r nes ev t w active m : setting r nes ev t w -> cf_services (config_of t) <> [] ->
  place_services fnm (desc_of t) (Seq_Model.node_attributes r) = PlaceOk m -> 0 < wt_threads t ->
  attribute_int (te_attributes (wt_test t)) timeout_name 3600 <> None ->
  (forall id, occupied r id -> w id <> None /\
     (forall ph, In ph [ev_configure ev; ev_introduce ev; ev_run ev; ev_get ev] -> ph_fate ph id = Served) /\
     (forall n, hosts m (Seq_Model.node_alias id) n -> can_host (nes id) (ph_ext (ev_configure ev) id) (traffic_of t) n) /\
     (forall j, ex_connect (ph_ext (ev_introduce ev) id) j = None)) ->
  exists res ws w' active', do_run_test fnm r nes ev t w active = (TestOk res ws, w', active').
Proof.
  intros St Ns P Th At H. destruct (placed_ids _ _ _ _ _ _ _ St P) as (l & El & D & Pm & Hl). pose proof (pl_sane t (se_test _ _ _ _ _ St)) as Sa.
  pose proof (se_nodes _ _ _ _ _ St) as Rn. pose proof (fun a n => hosted_named fnm r nes ev t w m a n St P) as Hn. destruct St as [_ _ [C1 C2 C3 C4] _].
  apply (completes_perm _ _ _ (Permutation_sym Pm)) in C1, C2, C3, C4. unfold do_run_test. destruct (cf_services (config_of t)) as [|sv0 svs]; [congruence|]. rewrite P, El.
  assert (G1 : exists w1 sm, configure_nodes nes (ev_configure ev) t l w = (w1, PhOk sm)).
  { unfold configure_nodes. set (hs := map _ l). destruct (call_all (ph_fate (ev_configure ev)) hs w) as [w1 rs] eqn:R.
    rewrite await_endpoints_spec by (rewrite <- (map_length fst l); apply Permutation_length, C1).
    assert (Dh : NoDup (map fst hs)) by (unfold hs; rewrite handlers_fst; exact D).
    destruct (last_such _ _ _) as [who|] eqn:L; [exfalso|eauto].
    assert (Ls : last_such (fun i => negb (is_some (answer_of rs i))) (map fst (filter snd (ph_events (ev_configure ev)))) None = None).
    { apply last_such_None. split; [reflexivity|]. intros i I. apply (completes_In _ _ _ C1) in I. apply in_map_iff in I as ([i' nm] & <- & I). cbn [fst].
      destruct (Hl _ _ I) as (O & ->). destruct (H _ O) as (W & Fa & Ho & _). destruct (w i') as [s|] eqn:Ws; [|congruence].
      destruct (configure_total (nes i') (ph_ext (ev_configure ev) i') (traffic_of t) (in_order (map_list (Seq_Model.node_alias i') m)) s Th) as (s' & eps & Ec).
      { intros n J. pose proof (proj1 (in_order_In _ _) J) as J0. clear J. rename J0 into J. split; [exact (Ho n J)|]. destruct (located_of _ _ Sa (proj1 (Hn _ _ J))) as (k & i & Lo).
        destruct (located_parts _ _ _ _ Sa Lo) as (X1 & X2 & _). auto. }
      destruct (call_all_served _ hs w w1 rs i' (configure (nes i') (ph_ext (ev_configure ev) i') (traffic_of t) (in_order (map_list (Seq_Model.node_alias i') m))) s s' eps Dh R) as (_ & ->); [unfold hs; apply in_map_iff; exists (i', map_list (Seq_Model.node_alias i') m); split; [reflexivity|exact I]|apply Fa; left; reflexivity|exact Ws|exact Ec|reflexivity]. }
    congruence. }
  destruct G1 as (w1 & sm & E1). rewrite E1. destruct (configure_nodes_ok _ _ _ _ _ _ _ D C1 E1) as (_ & eps & H1 & Hs).
  assert (G2 : exists w2, introduce (ev_introduce ev) sm l w1 = (w2, PhOk tt)).
  { unfold introduce. set (hs := map _ l). destruct (call_all (ph_fate (ev_introduce ev)) hs w1) as [w2 rs] eqn:R. rewrite <- (map_length fst l).
    assert (Dh : NoDup (map fst hs)) by (unfold hs; rewrite handlers_fst; exact D).
    rewrite (await_total _ _ _ C2); [eauto|]. intros i I. apply in_map_iff in I as ([i' nm] & <- & I). cbn [fst]. destruct (H1 _ _ I) as (s0 & s1 & W0 & W1 & Ec).
    destruct (Hl _ _ I) as (O & _). destruct (H _ O) as (_ & Fa & _ & Co).
    destruct (introduce_total (ph_ext (ev_introduce ev) i') sm s1) as (s2 & E2).
    { destruct (nd_engines s1) as [|[k e] es] eqn:Ne; [auto|left]. destruct (C56_configured _ _ _ _ _ _ _ (Rn _ _ W0) Ec) as (_ & _ & K1 & K2 & _).
      assert (X : In k (map fst (eps i'))) by (apply K2, K1; rewrite Ne; left; reflexivity). intro Q.
      assert (Y : In k (map fst sm)) by (rewrite Hs; apply merges_keys; right; exists i'; split; [apply (completes_In _ _ _ C1); exact (in_map fst _ _ I)|exact X]). rewrite Q in Y. destruct Y. }
    { intros k e _. apply Co. }
    destruct (call_all_served _ hs w1 w2 rs i' (fun s => let (s', r0) := introduce_peers (ph_ext (ev_introduce ev) i') sm s in Replied s' r0 tt) s1 s2 tt Dh R) as (_ & ->);
      [unfold hs; apply in_map_iff; exists (i', nm); split; [reflexivity|exact I]|apply Fa; right; left; reflexivity|exact W1|rewrite E2; reflexivity|reflexivity]. }
  destruct G2 as (w2 & E2). rewrite E2. destruct (introduce_ok _ _ _ _ _ D C2 E2) as (_ & H2). destruct (attribute_int _ _ _); [|congruence].
  assert (G3 : exists w3 w4 logs act, traffic (ev_run ev) (ev_get ev) l active w2 = (w3, w4, Seq_Model.TOk logs, act)).
  { unfold traffic. set (h1 := map _ (map fst l)). destruct (call_all (ph_fate (ev_run ev)) h1 w2) as [w3 ran] eqn:R1.
    assert (D1 : map fst h1 = map fst l) by (unfold h1; rewrite map_map; cbn [fst]; apply map_id).
    assert (K : forall i, In i (map fst l) -> exists s3, w3 i = Some s3 /\ answer_of ran i = Some tt).
    { intros i I. apply in_map_iff in I as ([i' nm] & <- & I). cbn [fst]. destruct (H1 _ _ I) as (s0 & s1 & W0 & W1 & Ec). destruct (H2 _ _ I) as (s1' & s2 & W1' & W2 & Ei).
      assert (s1' = s1) as -> by congruence. destruct (Hl _ _ I) as (O & _). destruct (H _ O) as (_ & Fa & _). destruct (introduce_engines _ _ _ _ Ei) as (Q1 & _ & _).
      destruct (C56_configured _ _ _ _ _ _ _ (Rn _ _ W0) Ec) as (_ & _ & _ & _ & F & _).
      destruct (run_node_total s2) as (s3 & Er).
      { rewrite Q1. apply Forall_forall. intros x J. apply in_map_iff in J as ([k e] & <- & J). cbn [snd given_peers en_main en_peers]. split; [apply (F _ _ J)|discriminate]. }
      exists s3. refine (call_all_served _ h1 w2 w3 ran i' Node_Model.run_traffic s2 s3 tt _ R1 _ _ W2 Er); [rewrite D1; exact D|unfold h1; apply in_map_iff; exists i'; split; [reflexivity|exact (in_map fst _ _ I)]|].
      apply Fa. do 2 right. left. reflexivity. }
    rewrite (await_total _ _ _ C3). 2: { intros i I. destruct (K i I) as (s3 & _ & ->). reflexivity. }
    set (h2 := map _ (map fst l)). destruct (call_all (ph_fate (ev_get ev)) h2 w3) as [w4 got] eqn:R2.
    assert (D2 : map fst h2 = map fst l) by (unfold h2; rewrite map_map; cbn [fst]; apply map_id).
    unfold Seq_Model.run_traffic. rewrite (await_total _ _ _ C3). 2: { intros i I. destruct (K i I) as (s3 & _ & ->). reflexivity. }
    rewrite await_results_spec by apply (Permutation_length C4).
    match goal with |- context [last_such ?p ?q ?z] => assert (L : last_such p q z = None) end.
    { apply last_such_None. split; [reflexivity|]. intros i I. apply (completes_In _ _ _ C4) in I. destruct (K i I) as (s3 & W3 & _).
      apply in_map_iff in I as ([i' nm] & <- & I). cbn [fst] in *. destruct (Hl _ _ I) as (O & _). destruct (H _ O) as (_ & Fa & _).
      destruct (call_all_served (ph_fate (ev_get ev)) h2 w3 w4 got i' (fun s => let (s', logs) := Node_Model.traffic_result (ph_ext (ev_get ev) i') true s in Replied s' ROk logs) s3
                  (fst (Node_Model.traffic_result (ph_ext (ev_get ev) i') true s3)) (snd (Node_Model.traffic_result (ph_ext (ev_get ev) i') true s3))) as (_ & ->);
        [rewrite D2; exact D|exact R2|unfold h2; apply in_map_iff; exists i'; split; [reflexivity|exact (in_map fst _ _ I)]|apply Fa; do 3 right; left; reflexivity|exact W3| |reflexivity].
      destruct (Node_Model.traffic_result _ _ _); reflexivity. }
    rewrite L. eauto. }
  destruct G3 as (w3 & w4 & logs & act & ->). eauto.
Qed.
Print Assumptions C74_succeeds.

(** ** Examples: two clients, bundled on node3, and three servers *)
Definition ex_reg (h : string) (a : list (string * string)) : bool * Seq_Model.reg_request :=
  (true, Seq_Model.mkReg (s_ h) (s_ h) 1 (-1) (map (fun x => mkAttr (s_ (fst x)) (s_ (snd x))) a)).
Definition ex_history : list (bool * Seq_Model.reg_request) :=
  [ex_reg "host0" [("rack", "1")]; ex_reg "host1" [("rack", "2")]; ex_reg "host2" []; ex_reg "host3" []]%string.
Definition ex_r : Seq_Model.registry := snd (Seq_Model.register_all ex_history Seq_Model.empty_registry).
Definition ex_whole (cs : list (str * constraint_list)) (bs : list (str * list str)) : whole :=
  mkWhole (mkTest Table_Props.ex_config [] [] [] cs bs []) 16 (map (fun n => mkSD n None) [s_ "client"; s_ "server"]) [] (s_ "grpc").
Definition ex_t : whole := ex_whole [(s_ "server/0/0/0", [[mkCon (s_ "rack") [s_ "2"] [] REqual 0]])] [(s_ "node3", [s_ "client/0/0/0"; s_ "client/1/0/0"])].
Definition ex_nes (id : Z) : node_env :=
  mkNE [mkIf AfInet (Some (s_ "10.0.0." ++ dec_of_Z id)) (s_ "eth0")] true (s_ "eth0") (s_ "eth0") (s_ "host" ++ dec_of_Z id) [] false false.
(** The answers arrive in different orders; one event of the queue is not an
    answer. *)
Definition ex_phase (order : list Z) : phase := mkPhase (fun _ => Served) (fun _ => ex_good) ((7, false) :: map (fun i => (i, true)) order).
Definition ex_ev : environment := mkEnvironment (ex_phase [0; 1; 2; 3]) (ex_phase [3; 1; 2; 0]) (ex_phase [1; 0; 3; 2]) (ex_phase [2; 3; 0; 1]).
Definition ex_w : world := fun id => if (0 <=? id) && (id <? 4) then Some start_node else None.
Definition run_ex (t : whole) (ev : environment) := do_run_test (fun _ _ => true) ex_r ex_nes ev t ex_w [0; 1; 2; 3; 9].

Lemma ex_setting cs bs order1 order2 order3 order4 : NoDup (map fst cs) -> NoDup (map fst bs) -> Forall (fun o => Permutation o [0; 1; 2; 3]) [order1; order2; order3; order4] ->
  setting ex_r ex_nes (mkEnvironment (ex_phase order1) (ex_phase order2) (ex_phase order3) (ex_phase order4)) (ex_whole cs bs) ex_w.
Proof.
  intros Dc Db F. constructor.
  - exists ex_history. exists (fst (Seq_Model.register_all ex_history Seq_Model.empty_registry)). split; [|unfold ex_r; destruct (Seq_Model.register_all _ _); reflexivity].
    intros ok rq I. cbn in I. repeat destruct I as [I|I]; [injection I as <- _; reflexivity ..|destruct I].
  - constructor; [exact Peer_Props.ex_sane|exact Db|exact Dc].
  - assert (G : forall o, Permutation o [0; 1; 2; 3] -> completes (node_numbers ex_r) (ph_events (ex_phase o))).
    { intros o P. unfold completes, ex_phase. cbn [ph_events filter snd]. replace (map fst (filter snd (map (fun i => (i, true)) o))) with o; [exact P|].
      clear P. induction o as [|x o IH]; [reflexivity|]. cbn [map filter snd fst]. f_equal. exact IH. }
    inversion F as [|? ? P1 F1]; subst. inversion F1 as [|? ? P2 F2]; subst. inversion F2 as [|? ? P3 F3]; subst. inversion F3 as [|? ? P4 _]; subst. constructor; apply G; assumption.
  - intros id s E. unfold ex_w in E. destruct (_ && _); [|discriminate]. injection E as <-. exists [], []. reflexivity.
Qed.
Example C74_ex_setting : setting ex_r ex_nes ex_ev ex_t ex_w.
Proof.
  apply ex_setting; [repeat constructor; intros []|repeat constructor; intros []|].
  repeat constructor; apply NoDup_Permutation; try (repeat constructor; cbn [In]; intuition discriminate); intro x; cbn [In]; tauto.
Qed.
Example C74_ex_run : exists res ws w', run_ex ex_t ex_ev = (TestOk res ws, w', [9]) /\
  map (fun x => (fst x, ep_address (snd x))) (tr_placement res) =
    [(s_ "server/1/0/0", s_ "10.0.0.0:5000"); (s_ "server/0/0/0", s_ "10.0.0.1:5000"); (s_ "server/2/0/0", s_ "10.0.0.2:5000");
     (s_ "client/0/0/0", s_ "10.0.0.3:5000"); (s_ "client/1/0/0", s_ "10.0.0.3:5001")] /\
  tr_logs res = [(s_ "server/2/0/0", 0); (s_ "client/0/0/0", 0); (s_ "client/1/0/0", 1); (s_ "server/1/0/0", 0); (s_ "server/0/0/0", 0)] /\
  (exists s, w' 3 = Some s /\ nd_log s = [EvDestroy 1; EvDestroy 0; EvCancel 1; EvCancel 0; EvLogs 1; EvLogs 0; EvJoin 1; EvJoin 0; EvMain 1; EvRun 1; EvMain 0; EvRun 0; EvPeers 1; EvPeers 0; EvCreate 1; EvCreate 0]).
Proof. do 3 eexists. split; [vm_compute; reflexivity|]. split; [reflexivity|]. split; [reflexivity|]. eexists. split; reflexivity. Qed.
Example C74_ex_once : ~ bundled_and_constrained (fun _ _ => true) ex_t (s_ "client/0/0/0") /\ In (s_ "client/0/0/0") (names (config_of ex_t)).
Proof.
  split; [|vm_compute; auto]. intros (_ & c & [(_ & [K|[]])|(_ & k & [K|[]] & S & _)]); [apply (f_equal fst) in K; discriminate|].
  apply (f_equal fst) in K. cbn [fst] in K. subst k. vm_compute in S. repeat destruct S as [S|S]; try discriminate S. exact S.
Qed.
(** The hypotheses of [C74_succeeds] hold of these nodes. *)
Definition ex_fixed : externals := mkExt (fun _ _ _ => None) (fun _ => inl 5000) (fun _ => None) (fun i => Some (Z.of_nat i)).
Definition ex_steady : environment := let ph := mkPhase (fun _ => Served) (fun _ => ex_fixed) (map (fun i => (i, true)) [0; 1; 2; 3]) in mkEnvironment ph ph ph ph.
Example C74_ex_succeeds : exists m, place_services (fun _ _ => true) (desc_of ex_t) (Seq_Model.node_attributes ex_r) = PlaceOk m /\
  forall id, occupied ex_r id -> ex_w id <> None /\ (forall n, hosts m (Seq_Model.node_alias id) n -> can_host (ex_nes id) (ph_ext (ev_configure ex_steady) id) (traffic_of ex_t) n).
Proof.
  eexists. split; [vm_compute; reflexivity|]. intros id O. apply node_numbers_In in O. change (In id [0; 1; 2; 3]) in O.
  split; [destruct O as [<-|[<-|[<-|[<-|[]]]]]; discriminate|]. intros n I. cbn [ph_ext ev_configure ex_steady].
  destruct O as [<-|[<-|[<-|[<-|[]]]]]; vm_compute in I; repeat destruct I as [<-|I]; try destruct I.
  all: eexists; split; [vm_compute; reflexivity|]; intro j; split; [eexists; vm_compute; reflexivity|]; eexists; eexists; split; [reflexivity|vm_compute; reflexivity].
Qed.

(** An instance both bundled and constrained has two engines; its peers only
    know one of them, and only one log is kept. *)
Definition ex_double : whole := ex_whole [(s_ "server/0/0/0", [[mkCon (s_ "rack") [s_ "2"] [] REqual 0]])]
  [(s_ "node3", [s_ "client/0/0/0"; s_ "client/1/0/0"; s_ "server/0/0/0"])].
Definition ex_double_ev : environment := mkEnvironment (ex_phase [3; 1; 2; 0]) (ex_phase [0; 1; 2; 3]) (ex_phase [0; 1; 2; 3]) (ex_phase [3; 2; 1; 0]).
Definition ex_double_run := do_run_test (fun _ _ => true) ex_r ex_nes ex_double_ev ex_double ex_w [].
Definition logs_of (o : test_outcome) : list (str * Z) := match o with TestOk r _ => tr_logs r | _ => [] end.
Definition placement_of (o : test_outcome) : list (str * endpoint) := match o with TestOk r _ => tr_placement r | _ => [] end.
Definition worlds_of (o : test_outcome) : worlds := match o with TestOk _ ws => ws | _ => mkWorlds ex_w ex_w ex_w ex_w end.
Theorem C74_two_engines_refuted : exists fnm r nes ev t w active res ws w' active' n id id' e e', setting r nes ev t w /\
  do_run_test fnm r nes ev t w active = (TestOk res ws, w', active') /\ id <> id' /\ occupied r id /\ occupied r id' /\
  engine_at (wo_ran ws) id n e /\ engine_at (wo_ran ws) id' n e' /\ (forall s, w' id = Some s -> In (EvRun (en_id e)) (nd_log s)) /\
  (exists v v', ex_logs (ph_ext (ev_get ev) id) (en_id e) = Some v /\ ex_logs (ph_ext (ev_get ev) id') (en_id e') = Some v' /\ v <> v' /\ map_find n (tr_logs res) = Some v') /\
  (exists ep, map_find n (tr_placement res) = Some ep /\ ep_hostname ep <> ne_hostname (nes id)).
Proof.
  exists (fun _ _ => true), ex_r, ex_nes, ex_double_ev, ex_double, ex_w, [].
  exists (mkTR ex_double (placement_of (fst (fst ex_double_run))) (logs_of (fst (fst ex_double_run)))), (worlds_of (fst (fst ex_double_run))), (snd (fst ex_double_run)), (snd ex_double_run).
  exists (s_ "server/0/0/0"), 3, 1. eexists. eexists.
  split. { apply ex_setting; [repeat constructor; intros []|repeat constructor; intros []|].
    repeat constructor; apply NoDup_Permutation; try (repeat constructor; cbn [In]; intuition discriminate); intro x; cbn [In]; tauto. }
  split; [vm_compute; reflexivity|]. split; [discriminate|]. split; [eexists; split; [vm_compute; reflexivity|reflexivity]|]. split; [eexists; split; [vm_compute; reflexivity|reflexivity]|].
  split; [eexists; split; [vm_compute; reflexivity|right; right; left; reflexivity]|]. split; [eexists; split; [vm_compute; reflexivity|left; reflexivity]|].
  split. { assert (Q : exists s0, snd (fst ex_double_run) 3 = Some s0 /\ In (EvRun 2) (nd_log s0)) by (eexists; split; [vm_compute; reflexivity|vm_compute; tauto]).
    destruct Q as (s0 & Q & H). intros s E. rewrite Q in E. injection E as <-. exact H. }
  split; [exists 2, 0; split; [vm_compute; reflexivity|]; split; [vm_compute; reflexivity|]; split; [discriminate|vm_compute; reflexivity]|]. eexists. split; [vm_compute; reflexivity|vm_compute; discriminate].
Qed.
Print Assumptions C74_two_engines_refuted.

(** A test that fails leaves the engines of the nodes that did not. *)
Definition ex_half : environment :=
  mkEnvironment (ex_phase [0; 1; 2; 3]) (mkPhase (fun id => if id =? 2 then NotServed else Served) (fun _ => ex_good) (map (fun i => (i, true)) [0; 1; 2; 3])) (ex_phase []) (ex_phase []).
Theorem C74_failure_cleared_refuted : exists fnm r nes ev t w active w' active' id s, do_run_test fnm r nes ev t w active = (TestFailed Seq_Model.PhIntroduce, w', active') /\
  (forall id0 s0, w id0 = Some s0 -> nd_engines s0 = []) /\ occupied r id /\ w' id = Some s /\ map fst (nd_engines s) = [s_ "client/0/0/0"; s_ "client/1/0/0"] /\ In id active'.
Proof.
  exists (fun _ _ => true), ex_r, ex_nes, ex_half, ex_t, ex_w, [0; 1; 2; 3]. eexists. eexists. exists 3. eexists. split; [vm_compute; reflexivity|].
  split; [intros id0 s0 E; unfold ex_w in E; destruct (_ && _); [injection E as <-; reflexivity|discriminate]|]. split; [eexists; split; [vm_compute; reflexivity|reflexivity]|].
  split; [reflexivity|]. split; [reflexivity|]. vm_compute. tauto.
Qed.
Print Assumptions C74_failure_cleared_refuted.
