(** Lemmas about whole tests. *)
From Coq Require Import Ascii String List NArith ZArith Bool Arith Lia Permutation.
From Verif Require Import Base_Model Base_Proofs Grid_Model Grid_Proofs Place_Model Place_Proofs Util_Model Driver_Model Table_Model Cli_Model.
From Verif Require Seq_Model.
From Verif Require Import Seq_Proofs Peer_Proofs Node_Model Node_Proofs Cluster_Model.
Import ListNotations.
Open Scope Z_scope.

(** ** Requests *)
Lemma call_ok {A} f (h : node -> outcome A) n a : snd (call f h n) = Some a ->
  exists s s', n = Some s /\ f = Served /\ h s = Replied s' ROk a /\ fst (call f h n) = Some s'.
Proof.
  unfold call. destruct n as [s|]; [|discriminate]. destruct f; try discriminate; destruct (h s) as [s' r x|] eqn:E; try discriminate;
    destruct r; cbn [snd fst]; try discriminate. intros [= ->]. exists s, s'. auto.
Qed.
Lemma call_served {A} (h : node -> outcome A) s s' a : h s = Replied s' ROk a -> call Served h (Some s) = (Some s', Some a).
Proof. intro E. unfold call. rewrite E. reflexivity. Qed.
Lemma call_all_spec {A} f : forall (l : list (Z * (node -> outcome A))) w w' replies, NoDup (map fst l) ->
  call_all f l w = (w', replies) ->
  map fst replies = map fst l /\
  (forall id h, In (id, h) l -> w' id = fst (call (f id) h (w id)) /\ answer_of replies id = snd (call (f id) h (w id))) /\
  (forall id, ~ In id (map fst l) -> w' id = w id).
Proof.
  induction l as [|[id h] l IH]; intros w w' replies D E; cbn [call_all] in E.
  - injection E as <- <-. split; [reflexivity|]. split; [intros id h []|auto].
  - destruct (call (f id) h (w id)) as [n a] eqn:C. destruct (call_all f l (set_node w id n)) as [w1 r1] eqn:R. injection E as <- <-.
    cbn [map fst] in D. apply NoDup_cons_iff in D as [N D]. destruct (IH _ _ _ D R) as (K & Q & O). cbn [map fst]. split; [f_equal; exact K|]. split.
    + intros j g [J|J].
      * injection J as <- <-. rewrite (O id N), C. unfold set_node, answer_of. cbn [find fst snd]. rewrite !Z.eqb_refl. auto.
      * assert (j <> id) as Ne by (intros ->; apply N; exact (in_map fst _ _ J)). destruct (Q j g J) as (Q1 & Q2). unfold set_node in Q1, Q2.
        rewrite (proj2 (Z.eqb_neq j id) Ne) in Q1, Q2. split; [exact Q1|]. rewrite <- Q2. unfold answer_of. cbn [find fst].
        rewrite (proj2 (Z.eqb_neq id j)) by congruence. reflexivity.
    + intros j J. rewrite O by (intro K'; apply J; right; exact K'). unfold set_node. rewrite (proj2 (Z.eqb_neq j id)); [reflexivity|]. intros ->. apply J. left. reflexivity.
Qed.

Definition eps_of {A} (answer : Z -> option (list A)) (i : Z) : list A := match answer i with Some e => e | None => [] end.
Lemma await_endpoints_spec answer ev : forall n st acc, (length (map fst (filter snd ev)) = n)%nat ->
  await_endpoints n ev answer st acc =
    match last_such (fun i => negb (is_some (answer i))) (map fst (filter snd ev)) st with
    | Some who => PhFailed who
    | None => PhOk (fold_left (fun m i => Seq_Model.merge m (eps_of answer i)) (map fst (filter snd ev)) acc)
    end.
Proof.
  induction ev as [|[i [|]] ev IH]; intros n st acc H; cbn [filter snd map fst length] in H.
  - subst n. reflexivity.
  - subst n. cbn [await_endpoints filter snd map fst last_such fold_left]. unfold eps_of at 2. destruct (answer i) as [e|] eqn:E; cbn [is_some negb]; rewrite IH by reflexivity; reflexivity.
  - destruct n; cbn [await_endpoints filter snd map fst].
    + apply length_zero_iff_nil in H. rewrite H. reflexivity.
    + apply IH, H.
Qed.

(** ** The nodes of a placement *)
(** The ids of the registered nodes. *)
Definition node_numbers (r : Seq_Model.registry) : list Z :=
  filter (fun i => match Seq_Model.slot_get i (Seq_Model.rg_nodes r) with Some n => negb (Seq_Model.ns_pending n) | None => false end)
    (zseq (Seq_Model.nb_slots r)).
Lemma node_numbers_In r i : In i (node_numbers r) <-> occupied r i.
Proof.
  unfold node_numbers, occupied. rewrite filter_In. destruct (Seq_Model.slot_get i (Seq_Model.rg_nodes r)) as [n|] eqn:E.
  - split; [intros [_ P]; exists n; split; [reflexivity|apply negb_true_iff, P]|]. intros (n' & [= <-] & P). rewrite P. split; [|reflexivity].
    apply zseq_In. apply slot_get_range in E. exact E.
  - split; [intros [_ P]; discriminate|intros (n & K & _); discriminate].
Qed.
Lemma zseq_NoDup n : NoDup (zseq n).
Proof. unfold zseq. apply FinFun.Injective_map_NoDup; [intros a b K; lia|apply seq_NoDup]. Qed.
Lemma node_numbers_NoDup r : NoDup (node_numbers r).
Proof. apply NoDup_filter, zseq_NoDup. Qed.

(** A registry as the sequencer builds it, all stubs created. *)
Record sound_registry (r : Seq_Model.registry) : Prop := mkSoundReg { sr_inv : reg_inv r; sr_stubs : stubs_ok r }.
Lemma sound_history l out r : all_stubs l -> Seq_Model.register_all l Seq_Model.empty_registry = (out, r) -> sound_registry r.
Proof.
  intros A E. constructor; [apply (register_all_spec l _ _ _ empty_inv E)|].
  apply (history_stubs l A Seq_Model.empty_registry out r empty_inv); [|exact E]. intros id' m K. apply slot_get_range in K. cbn in K. lia.
Qed.
Lemma lookup_alias r a id : sound_registry r -> (Seq_Model.lookup_node r a = Seq_Model.LookupOk id <-> occupied r id /\ a = Seq_Model.node_alias id).
Proof.
  intros [I S]. unfold Seq_Model.lookup_node. split.
  - destruct (map_find a (Seq_Model.rg_alias r)) as [j|] eqn:F; [|discriminate]. apply (ri_alias r I) in F as F'. destruct F' as ((n & Hn & P) & ->).
    rewrite Hn, (S j n Hn P). intros [= <-]. split; [exists n; auto|reflexivity].
  - intros (O & ->). assert (F : map_find (Seq_Model.node_alias id) (Seq_Model.rg_alias r) = Some id) by (apply (ri_alias r I); auto).
    rewrite F. destruct O as (n & Hn & P). rewrite Hn, (S id n Hn P). reflexivity.
Qed.
Lemma attributes_alias r a : sound_registry r -> (In a (map fst (Seq_Model.node_attributes r)) <-> exists id, occupied r id /\ a = Seq_Model.node_alias id).
Proof.
  intros [I S]. rewrite in_map_iff. split.
  - intros ([a' l] & <- & H). cbn [fst]. apply attributes_in in H as (id & n & Hn & P & ->). exists id. split; [exists n; auto|]. apply (ri_slot_alias r I); assumption.
  - intros (id & (n & Hn & P) & ->). exists (Seq_Model.ns_alias n, match Seq_Model.ns_reg n with Some q => Seq_Model.rq_attrs q | None => [] end).
    split; [apply (ri_slot_alias r I); assumption|]. unfold Seq_Model.node_attributes. apply in_flat_map. exists n. split; [|rewrite P; left; reflexivity].
    unfold Seq_Model.slot_get in Hn. destruct (id <? 0); [discriminate|]. exact (nth_error_In _ _ Hn).
Qed.
Lemma node_ids_spec r m : sound_registry r -> NoDup (map fst m) -> (forall a, In a (map fst m) -> In a (map fst (Seq_Model.node_attributes r))) ->
  exists l, node_ids r m = Some l /\ NoDup (map fst l) /\
    Forall2 (fun x y => Seq_Model.lookup_node r (fst x) = Seq_Model.LookupOk (fst y) /\ snd x = snd y) m l.
Proof.
  intros S. induction m as [|[a names] m IH]; intros D K; cbn [node_ids].
  - exists []. repeat constructor.
  - cbn [map fst] in D, K. apply NoDup_cons_iff in D as [N D]. destruct IH as (l & E & Dl & F); [exact D|intros b J; apply K; right; exact J|].
    destruct (proj1 (attributes_alias r a S) (K a (or_introl eq_refl))) as (id & O & Ea).
    assert (L : Seq_Model.lookup_node r a = Seq_Model.LookupOk id) by (apply lookup_alias; auto). rewrite L, E.
    exists ((id, names) :: l). split; [reflexivity|]. split; [|constructor; [cbn; auto|exact F]]. cbn [map fst]. constructor; [|exact Dl].
    intro J. apply in_map_iff in J as (y & Ey & J). apply In_nth_error in J as (j & J). destruct (Forall2_right _ _ _ F j y J) as (x & Ex & Lx & _).
    apply (lookup_alias r _ _ S) in Lx. destruct Lx as (_ & Lx). rewrite Ey in Lx. apply N. rewrite Ea, <- Lx. apply in_map, (nth_error_In _ _ Ex).
Qed.

(** ** The placement as a map *)
Lemma map_insert_NoDup n s m : NoDup (map fst m) -> NoDup (map fst (map_insert n s m)).
Proof. intro H. unfold map_insert. apply map_set_NoDup, H. Qed.
Lemma bundle_services_NoDup node l : forall st st', NoDup (map fst (sv_map st)) -> bundle_services node l st = PlaceOk st' -> NoDup (map fst (sv_map st')).
Proof.
  induction l as [|s l IH]; intros st st' D E; cbn [bundle_services] in E; [injection E as <-; exact D|].
  destruct (set_mem s (sv_unplaced st)); [|discriminate]. apply IH in E; [exact E|]. apply map_insert_NoDup, D.
Qed.
Lemma place_bundles_NoDup l : forall st st', NoDup (map fst (sv_map st)) -> place_bundles l st = PlaceOk st' -> NoDup (map fst (sv_map st')).
Proof.
  induction l as [|[n s] l IH]; intros st st' D E; cbn [place_bundles] in E; [injection E as <-; exact D|].
  destruct (bundle_services n s st) as [| | |st1] eqn:B; try discriminate. apply bundle_services_NoDup in B; [|exact D].
  destruct (set_mem n (sv_idle st1)); [|discriminate]. apply IH in E; [exact E|exact B].
Qed.
Lemma place_constrained_NoDup eff attrs l : forall st st', NoDup (map fst (sv_map st)) -> place_constrained eff attrs l st = PlaceOk st' -> NoDup (map fst (sv_map st')).
Proof.
  induction l as [|s l IH]; intros st st' D E; cbn [place_constrained] in E; [injection E as <-; exact D|].
  destruct (map_find s eff); [|eauto]. destruct (first_match _ _ _) as [[n|]|]; try discriminate. apply IH in E; [exact E|]. apply map_insert_NoDup, D.
Qed.
Lemma place_rest_NoDup l : forall st fl st' fl', NoDup (map fst (sv_map st)) -> place_rest l st fl = (st', fl') -> NoDup (map fst (sv_map st')).
Proof.
  induction l as [|s l IH]; intros st fl st' fl' D E; cbn [place_rest] in E; [injection E as <- <-; exact D|].
  destruct (sv_idle st); [eauto|]. apply IH in E; [exact E|]. apply map_insert_NoDup, D.
Qed.
Lemma placement_NoDup fnm d nodes m : place_services fnm d nodes = PlaceOk m -> NoDup (map fst m).
Proof.
  unfold place_services. destruct (constraint_solver fnm d nodes) as [| | |m0] eqn:E; try discriminate. intros [= <-].
  assert (D : NoDup (map fst m0)).
  { unfold constraint_solver in E. destruct (total_count _ _); [|discriminate]. destruct (strip_names _); [|discriminate]. destruct (_ <? 0); [discriminate|].
    destruct (place_bundles _ _) as [| | |st1] eqn:B; try discriminate. apply place_bundles_NoDup in B; [|constructor].
    destruct (place_constrained _ _ _ _) as [| | |st2] eqn:C; try discriminate. apply place_constrained_NoDup in C; [|exact B].
    destruct (place_rest _ _ _) as [st3 fl] eqn:R. apply place_rest_NoDup in R; [|exact C]. destruct fl; [|discriminate]. injection E as <-. exact R. }
  clear E. revert m0 D. induction nodes as [|n nodes IH]; intros m0 D; cbn [fold_left]; [exact D|]. apply IH, map_set_NoDup, D.
Qed.
Lemma placement_nodes fnm d nodes m names : instances d = Some names -> NoDup names -> NoDup (map fst nodes) -> NoDup (map fst (pd_bundles d)) ->
  place_services fnm d nodes = PlaceOk m -> (forall a, In a (map fst m) <-> In a (map fst nodes)) /\ (forall a, NoDup (map_list a m)).
Proof.
  intros Hn NDn NDa NDb E. destruct (place_services_spec fnm d nodes m E) as (m0 & Em & L & En & Ex).
  destruct (solver_sound fnm d nodes names m0 Hn NDn NDa NDb Em) as [P1 P2 P3 P4 P5 P6 P7].
  assert (Q : forall (m : list (str * list str)) a, In a (map fst m) <-> map_find a m <> None).
  { intros m' a. split; [intros I K; apply map_find_None in K; contradiction|]. intro K. destruct (map_find a m') eqn:F; [|congruence]. apply map_find_In in F. exact (in_map fst _ _ F). }
  split.
  - intro a. rewrite Q. split; [|apply En]. intro K. destruct (Ex a K) as [K'|K']; [|exact K']. destruct (map_find a m0) as [l|] eqn:F; [|congruence]. apply (P1 a l F).
  - intro a. rewrite L. unfold map_list. destruct (map_find a m0) as [l|] eqn:F; [apply (P1 a l F)|constructor].
Qed.

Lemma in_order_In l n : In n (in_order l) <-> In n l.
Proof.
  unfold in_order. assert (G : forall l m, In n (map fst (fold_left (fun m n => omap_set n tt m) l m)) <-> In n (map fst m) \/ In n l).
  { clear. induction l as [|x l IH]; intro m; cbn [fold_left In]; [tauto|]. rewrite IH, omap_set_keys. split; [intros [[->|]|]; auto|intros [|[<-|]]; auto]. }
  rewrite G. cbn. tauto.
Qed.

(** ** Merging *)
Section Merge.
  Context {V : Type}.
  Notation merge := (@Seq_Model.merge V).
  Lemma merge_NoDup logs : forall acc, NoDup (map fst acc) -> NoDup (map fst (merge acc logs)).
  Proof. induction logs as [|x logs IH]; intros acc D; [exact D|]. cbn [Seq_Model.merge fold_left]. apply IH, map_set_NoDup, D. Qed.
  Lemma merge_keys logs : forall acc k, In k (map fst (merge acc logs)) <-> In k (map fst acc) \/ In k (map fst logs).
  Proof.
    induction logs as [|[k' v] logs IH]; intros acc k; cbn [Seq_Model.merge fold_left map fst snd In]; [tauto|].
    unfold Seq_Model.merge in IH. rewrite IH, map_set_keys_In. split; [intros [[->|]|]; auto|intros [|[<-|]]; auto].
  Qed.
  Lemma merges_NoDup (rep : Z -> list (str * V)) l : forall acc, NoDup (map fst acc) -> NoDup (map fst (fold_left (fun m i => merge m (rep i)) l acc)).
  Proof. induction l as [|i l IH]; intros acc D; [exact D|]. cbn [fold_left]. apply IH, merge_NoDup, D. Qed.
  Lemma merges_keys (rep : Z -> list (str * V)) l : forall acc k,
    In k (map fst (fold_left (fun m i => merge m (rep i)) l acc)) <-> In k (map fst acc) \/ exists i, In i l /\ In k (map fst (rep i)).
  Proof.
    induction l as [|i l IH]; intros acc k; cbn [fold_left]; [split; [auto|intros [K|(i & [] & _)]; exact K]|].
    rewrite IH, merge_keys. split.
    - intros [[K|K]|(j & J & K)]; [auto|right; exists i; split; [left; reflexivity|exact K]|right; exists j; split; [right; exact J|exact K]].
    - intros [K|(j & [<-|J] & K)]; [auto|auto|right; exists j; auto].
  Qed.
  Lemma merges_some (rep : Z -> list (str * V)) l : forall acc k v, (forall i, In i l -> NoDup (map fst (rep i))) ->
    map_find k (fold_left (fun m i => merge m (rep i)) l acc) = Some v -> map_find k acc = Some v \/ exists i, In i l /\ In (k, v) (rep i).
  Proof.
    induction l as [|i l IH]; intros acc k v D E; cbn [fold_left] in E; [auto|].
    apply IH in E; [|intros j J; apply D; right; exact J]. destruct E as [E|(j & J & K)]; [|right; exists j; split; [right; exact J|exact K]].
    rewrite merge_find in E by (apply D; left; reflexivity). destruct (map_find k (rep i)) as [x|] eqn:F; [|auto]. injection E as ->.
    right. exists i. split; [left; reflexivity|apply map_find_In, F].
  Qed.
End Merge.

(** ** A successful test, request by request *)
(** Every node of [ids] completes its request once in every phase. *)
Record completed_by (ids : list Z) (ev : environment) : Prop := mkCB {
  cb_configure : completes ids (ph_events (ev_configure ev)); cb_introduce : completes ids (ph_events (ev_introduce ev));
  cb_run : completes ids (ph_events (ev_run ev)); cb_get : completes ids (ph_events (ev_get ev)) }.
Lemma completes_perm ids ids' ev : Permutation ids ids' -> completes ids ev -> completes ids' ev.
Proof. unfold completes. intros P C. exact (Permutation_trans C P). Qed.
Lemma completes_In ids ev i : completes ids ev -> (In i (map fst (filter snd ev)) <-> In i ids).
Proof. intro C. unfold completes in C. split; apply Permutation_in; [|symmetry]; exact C. Qed.

(** What happened to one node. *)
Record served (nes : Z -> node_env) (ev : environment) (t : whole) (w : world) (sm : list (str * endpoint)) (ws : worlds)
    (id : Z) (names : list str) (s0 s1 s2 s3 : node) (eps : list (str * endpoint)) : Prop := mkServed {
  sd_start : w id = Some s0;
  sd_configure : configure (nes id) (ph_ext (ev_configure ev) id) (traffic_of t) (in_order names) s0 = Replied s1 ROk eps;
  sd_configured : wo_configured ws id = Some s1;
  sd_introduce : introduce_peers (ph_ext (ev_introduce ev) id) sm s1 = (s2, ROk);
  sd_introduced : wo_introduced ws id = Some s2;
  sd_run : Node_Model.run_traffic s2 = Replied s3 ROk tt;
  sd_ran : wo_ran ws id = Some s3;
  sd_final : wo_final ws id = Some (fst (Node_Model.traffic_result (ph_ext (ev_get ev) id) true s3)) }.

Lemma handlers_fst {X A} (l : list X) (g : X -> Z) (h : X -> node -> outcome A) : map fst (map (fun x => (g x, h x)) l) = map g l.
Proof. rewrite map_map. reflexivity. Qed.

Lemma configure_nodes_ok nes ph t l w w1 sm : NoDup (map fst l) -> completes (map fst l) (ph_events ph) -> configure_nodes nes ph t l w = (w1, PhOk sm) ->
  (forall id, ~ In id (map fst l) -> w1 id = w id) /\
  exists eps, (forall id names, In (id, names) l -> exists s0 s1, w id = Some s0 /\ w1 id = Some s1 /\
      configure (nes id) (ph_ext ph id) (traffic_of t) (in_order names) s0 = Replied s1 ROk (eps id)) /\
    sm = fold_left (fun m i => Seq_Model.merge m (eps i)) (map fst (filter snd (ph_events ph))) [].
Proof.
  intros D C E. unfold configure_nodes in E. set (hs := map _ l) in E. destruct (call_all (ph_fate ph) hs w) as [w' replies] eqn:R.
  apply call_all_spec in R; [|unfold hs; rewrite handlers_fst; exact D]. destruct R as (_ & Q & O).
  rewrite await_endpoints_spec in E by (rewrite <- (map_length fst l); apply Permutation_length, C). apply pair_equal_spec in E as [-> E].
  destruct (last_such _ _ _) as [who|] eqn:L; [discriminate|]. injection E as <-. apply last_such_None in L as [_ L].
  split; [intros id N; apply O; unfold hs; rewrite handlers_fst; exact N|]. exists (eps_of (answer_of replies)). split; [|reflexivity].
  intros id names I. assert (In (id, configure (nes id) (ph_ext ph id) (traffic_of t) (in_order names)) hs) as J by (unfold hs; apply in_map_iff; exists (id, names); auto).
  destruct (Q _ _ J) as (Q1 & Q2). assert (K : is_some (answer_of replies id) = true).
  { apply negb_false_iff, L, (completes_In _ _ _ C). exact (in_map fst _ _ I). }
  destruct (answer_of replies id) as [e|] eqn:An; [|discriminate]. symmetry in Q2. apply call_ok in Q2 as (s & s' & E1 & _ & E3 & E4).
  exists s, s'. split; [exact E1|]. split; [rewrite Q1; exact E4|]. unfold eps_of. rewrite An. exact E3.
Qed.
Lemma await_none ids ev ok : completes ids ev -> Seq_Model.await_run (length ids) ev ok None = Some None -> forall i, In i ids -> ok i = true.
Proof.
  intros C E i I. rewrite await_run_spec in E by (apply Permutation_length, C). injection E as E. apply last_such_None in E as [_ E]. apply negb_false_iff, E, (completes_In _ _ _ C), I.
Qed.
Lemma introduce_ok ph sm l w w2 : NoDup (map fst l) -> completes (map fst l) (ph_events ph) -> introduce ph sm l w = (w2, PhOk tt) ->
  (forall id, ~ In id (map fst l) -> w2 id = w id) /\
  forall id names, In (id, names) l -> exists s1 s2, w id = Some s1 /\ w2 id = Some s2 /\ introduce_peers (ph_ext ph id) sm s1 = (s2, ROk).
Proof.
  intros D C E. unfold introduce in E. set (hs := map _ l) in E. destruct (call_all (ph_fate ph) hs w) as [w' replies] eqn:R.
  apply call_all_spec in R; [|unfold hs; rewrite handlers_fst; exact D]. destruct R as (_ & Q & O). apply pair_equal_spec in E as [-> E].
  rewrite <- (map_length fst l) in E. destruct (Seq_Model.await_run _ _ _ _) as [[who|]|] eqn:A; try discriminate. pose proof (await_none _ _ _ C A) as A'.
  split; [intros id N; apply O; unfold hs; rewrite handlers_fst; exact N|]. intros id names I.
  assert (J : In (id, fun s => let (s', r) := introduce_peers (ph_ext ph id) sm s in Replied s' r tt) hs) by (unfold hs; apply in_map_iff; exists (id, names); auto).
  destruct (Q _ _ J) as (Q1 & Q2). pose proof (A' id (in_map fst _ _ I)) as K. cbv beta in K. destruct (answer_of replies id) as [e|] eqn:An; [|discriminate].
  symmetry in Q2. apply call_ok in Q2 as (s & s' & E1 & _ & E3 & E4). exists s, s'. split; [exact E1|]. split; [rewrite Q1; exact E4|].
  destruct (introduce_peers _ _ s) as [s2 r]. injection E3 as -> ->. reflexivity.
Qed.
Lemma traffic_ok run get l active w w3 w4 logs active' : NoDup (map fst l) -> completes (map fst l) (ph_events run) -> completes (map fst l) (ph_events get) ->
  traffic run get l active w = (w3, w4, Seq_Model.TOk logs, active') ->
  (forall id, ~ In id (map fst l) -> w3 id = w id /\ w4 id = w id) /\
  (forall id names, In (id, names) l -> exists s2 s3, w id = Some s2 /\ w3 id = Some s3 /\ Node_Model.run_traffic s2 = Replied s3 ROk tt /\
     w4 id = Some (fst (Node_Model.traffic_result (ph_ext get id) true s3))) /\
  (forall j, In j active' <-> In j active /\ ~ In j (map fst l)) /\
  exists rep, (forall id, In id (map fst l) -> exists s3, w3 id = Some s3 /\ rep id = snd (Node_Model.traffic_result (ph_ext get id) true s3)) /\
    logs = fold_left (fun m i => Seq_Model.merge m (rep i)) (map fst (filter snd (ph_events get))) [].
Proof.
  intros D C1 C2 E. unfold traffic in E. set (h1 := map _ (map fst l)) in E. destruct (call_all (ph_fate run) h1 w) as [w1 ran] eqn:R1.
  assert (D1 : map fst h1 = map fst l) by (unfold h1; rewrite map_map; cbn [fst]; apply map_id).
  apply call_all_spec in R1; [|rewrite D1; exact D]. destruct R1 as (_ & Q1 & O1).
  destruct (Seq_Model.await_run _ _ _ _) as [[who|]|] eqn:A.
  { exfalso. cbv zeta in E. unfold Seq_Model.run_traffic in E. cbv beta in A. rewrite A in E. discriminate. }
  2: { exfalso. cbv zeta in E. unfold Seq_Model.run_traffic in E. cbv beta in A. rewrite A in E. discriminate. }
  set (h2 := map _ (map fst l)) in E. destruct (call_all (ph_fate get) h2 w1) as [w2 got] eqn:R2.
  assert (D2 : map fst h2 = map fst l) by (unfold h2; rewrite map_map; cbn [fst]; apply map_id).
  apply call_all_spec in R2; [|rewrite D2; exact D]. destruct R2 as (_ & Q2 & O2). cbv zeta in E.
  set (rep := fun id => match answer_of got id with Some logs => Seq_Model.mkReply true logs | None => Seq_Model.mkReply false [] end) in E.
  destruct (Seq_Model.run_traffic _ _ _ _ _ _) as [res act] eqn:T. injection E as -> -> -> ->.
  pose proof (run_traffic_spec _ _ _ _ _ _ _ _ C1 C2 T) as (S1 & _ & _ & S2 & _). pose proof (proj1 S1 (ex_intro _ logs eq_refl)) as Ok. clear S1.
  split. { intros id N. split; [apply O1; rewrite D1; exact N|]. rewrite O2 by (rewrite D2; exact N). apply O1. rewrite D1. exact N. }
  assert (G : forall id, In id (map fst l) -> exists s2 s3, w id = Some s2 /\ w3 id = Some s3 /\ Node_Model.run_traffic s2 = Replied s3 ROk tt /\
     w4 id = Some (fst (Node_Model.traffic_result (ph_ext get id) true s3)) /\ Seq_Model.rp_logs (rep id) = snd (Node_Model.traffic_result (ph_ext get id) true s3)).
  { intros id I. destruct (Ok id I) as (K1 & K2).
    assert (J1 : In (id, Node_Model.run_traffic) h1) by (unfold h1; apply in_map_iff; exists id; auto). destruct (Q1 _ _ J1) as (A1 & A2).
    assert (J2 : In (id, fun s => let (s', logs) := Node_Model.traffic_result (ph_ext get id) true s in Replied s' ROk logs) h2) by (unfold h2; apply in_map_iff; exists id; auto).
    destruct (Q2 _ _ J2) as (B1 & B2).
    destruct (answer_of ran id) as [[]|] eqn:An; [|discriminate]. symmetry in A2. apply call_ok in A2 as (s2 & s3 & E1 & _ & E3 & E4).
    unfold rep in K2. destruct (answer_of got id) as [lg|] eqn:Bn; [|discriminate]. symmetry in B2. apply call_ok in B2 as (s3' & s4 & F1 & _ & F3 & F4).
    exists s2, s3. split; [exact E1|]. split; [rewrite A1; exact E4|]. split; [exact E3|]. rewrite A1, E4 in F1. injection F1 as <-.
    unfold rep. rewrite Bn. cbn [Seq_Model.rp_logs]. destruct (Node_Model.traffic_result _ _ s3) as [x y]. injection F3 as -> ->. cbn [fst snd]. split; [rewrite B1; exact F4|reflexivity]. }
  split. { intros id names I. destruct (G id (in_map fst _ _ I)) as (s2 & s3 & G1 & G2 & G3 & G4 & _). exists s2, s3. auto. }
  split. { apply S2. intros i I. apply (Ok i I). }
  exists (fun i => Seq_Model.rp_logs (rep i)). split.
  - intros id I. destruct (G id I) as (s2 & s3 & _ & G2 & _ & _ & G5). exists s3. auto.
  - unfold Seq_Model.run_traffic in T. cbv beta in A. rewrite A in T. rewrite await_results_spec in T by (apply Permutation_length, C2).
    destruct (last_such _ _ _); [discriminate|]. injection T as <- _. reflexivity.
Qed.

(** The test is well formed as far as placement needs. *)
Record placeable (t : whole) : Prop := mkPlaceable {
  pl_sane : sane (config_of t);
  pl_bundles : NoDup (map fst (te_bundles (wt_test t)));
  pl_constraints : NoDup (map fst (te_constraints (wt_test t))) }.
Lemma strip_somes l : ~ In None l -> strip_names l = Some (somes l).
Proof.
  induction l as [|[a|] l IH]; intro H; cbn [strip_names somes]; [reflexivity| |exfalso; apply H; left; reflexivity].
  rewrite IH; [reflexivity|]. intro K. apply H. right. exact K.
Qed.
Lemma desc_names t : placeable t -> instances (desc_of t) = Some (names (config_of t)).
Proof. intros [S _ _]. unfold instances, desc_of, names. cbn [pd_services]. apply strip_somes. apply (sane_unique _ S). Qed.

Lemma test_ok fnm r nes ev t w active res ws w' active' : sound_registry r -> placeable t -> completed_by (node_numbers r) ev ->
  do_run_test fnm r nes ev t w active = (TestOk res ws, w', active') ->
  exists m l, place_services fnm (desc_of t) (Seq_Model.node_attributes r) = PlaceOk m /\ node_ids r m = Some l /\ NoDup (map fst l) /\
    Permutation (map fst l) (node_numbers r) /\
    (forall id names, In (id, names) l <-> occupied r id /\ map_find (Seq_Model.node_alias id) m = Some names) /\
    tr_test res = t /\ w' = wo_final ws /\ (forall j, In j active' <-> In j active /\ ~ In j (map fst l)) /\
    (forall id, ~ In id (map fst l) -> wo_configured ws id = w id /\ wo_introduced ws id = w id /\ wo_ran ws id = w id /\ wo_final ws id = w id) /\
    exists eps rep,
      (forall id names, In (id, names) l -> exists s0 s1 s2 s3, served nes ev t w (tr_placement res) ws id names s0 s1 s2 s3 (eps id) /\
         rep id = snd (Node_Model.traffic_result (ph_ext (ev_get ev) id) true s3)) /\
      (exists ids, Permutation ids (map fst l) /\ tr_placement res = fold_left (fun m i => Seq_Model.merge m (eps i)) ids []) /\
      (exists ids, Permutation ids (map fst l) /\ tr_logs res = fold_left (fun m i => Seq_Model.merge m (rep i)) ids []).
Proof.
  intros Sr Pl [C1 C2 C3 C4] E. unfold do_run_test in E. destruct (cf_services (config_of t)) as [|sv0 svs]; [discriminate|].
  destruct (place_services fnm (desc_of t) (Seq_Model.node_attributes r)) as [| | |m] eqn:P; try discriminate.
  pose proof (placement_NoDup _ _ _ _ P) as Dm.
  destruct (placement_nodes _ _ _ _ _ (desc_names t Pl) (names_NoDup _ (pl_sane t Pl)) (NoDup_aliases r (sr_inv r Sr)) (pl_bundles t Pl) P) as (Km & _).
  destruct (node_ids_spec r m Sr Dm (fun a I => proj1 (Km a) I)) as (l & El & Dl & F). rewrite El in E.
  assert (Hl : forall id names, In (id, names) l <-> occupied r id /\ map_find (Seq_Model.node_alias id) m = Some names).
  { intros id names. split.
    - intro I. apply In_nth_error in I as (j & J). destruct (Forall2_right _ _ _ F j _ J) as ([a n] & Ex & Lx & En). cbn [fst snd] in *. subst n.
      apply (lookup_alias r _ _ Sr) in Lx as (O & ->). split; [exact O|]. apply nth_error_In in Ex. clear -Ex Dm. induction m as [|[k v] m IH]; [destruct Ex|].
      cbn [map fst map_find] in *. apply NoDup_cons_iff in Dm as [N D]. destruct Ex as [Ex|Ex]; [injection Ex as -> ->; rewrite str_eqb_refl; reflexivity|].
      destruct (str_eqb_spec (Seq_Model.node_alias id) k) as [Q|]; [exfalso; apply N; rewrite <- Q; exact (in_map fst _ _ Ex)|auto].
    - intros (O & M). apply map_find_In in M. apply In_nth_error in M as (j & J). destruct (Forall2_left _ _ _ F j _ J) as ([i n] & Ex & Lx & En). cbn [fst snd] in *. subst n.
      apply (lookup_alias r _ _ Sr) in Lx as (_ & Q). apply node_alias_inj in Q as ->. exact (nth_error_In _ _ Ex). }
  assert (Pm : Permutation (map fst l) (node_numbers r)).
  { apply NoDup_Permutation; [exact Dl|apply node_numbers_NoDup|]. intro id. rewrite node_numbers_In. split.
    - intro I. apply in_map_iff in I as ([i n] & <- & I). apply Hl in I as (O & _). exact O.
    - intro O. assert (I : In (Seq_Model.node_alias id) (map fst m)) by (apply Km, (attributes_alias r _ Sr); eauto).
      destruct (map_find (Seq_Model.node_alias id) m) as [names|] eqn:M; [|apply map_find_None in M; contradiction].
      apply in_map_iff. exists (id, names). split; [reflexivity|]. apply Hl. auto. }
  apply (completes_perm _ _ _ (Permutation_sym Pm)) in C1, C2, C3, C4.
  destruct (configure_nodes _ _ _ _ _) as [w1 [| |?|sm]] eqn:E1; try discriminate. destruct (configure_nodes_ok _ _ _ _ _ _ _ Dl C1 E1) as (O1 & eps & H1 & Hs).
  destruct (introduce _ _ _ _) as [w2 [| |?|[]]] eqn:E2; try discriminate. destruct (introduce_ok _ _ _ _ _ Dl C2 E2) as (O2 & H2).
  destruct (attribute_int _ _ _); [|discriminate]. destruct (traffic _ _ _ _ _) as [[[w3 w4] tr] act] eqn:E3. destruct tr as [|?|logs]; try discriminate.
  destruct (traffic_ok _ _ _ _ _ _ _ _ _ Dl C3 C4 E3) as (O3 & H3 & Ha & rep & Hr & Hg).
  injection E as <- <- <- <-. exists m, l. split; [reflexivity|]. split; [exact El|]. split; [exact Dl|]. split; [exact Pm|]. split; [exact Hl|].
  split; [reflexivity|]. split; [reflexivity|]. split; [exact Ha|]. cbn [wo_configured wo_introduced wo_ran wo_final tr_placement tr_logs].
  split. { intros id N. destruct (O3 id N) as (A & B). rewrite A, B, (O2 id N), (O1 id N). auto. }
  exists eps, rep. split; [|split].
  - intros id nm I. destruct (H1 id nm I) as (s0 & s1 & A1 & A2 & A3). destruct (H2 id nm I) as (s1' & s2 & B1 & B2 & B3).
    destruct (H3 id nm I) as (s2' & s3 & D1 & D2 & D3 & D4). assert (s1' = s1) as -> by congruence. assert (s2' = s2) as -> by congruence.
    exists s0, s1, s2, s3. split; [constructor; cbn [wo_configured wo_introduced wo_ran wo_final]; assumption|].
    destruct (Hr id (in_map fst _ _ I)) as (s3' & G1 & G2). assert (s3' = s3) as -> by congruence. exact G2.
  - exists (map fst (filter snd (ph_events (ev_configure ev)))). split; [exact C1|exact Hs].
  - exists (map fst (filter snd (ph_events (ev_get ev)))). split; [exact C4|exact Hg].
Qed.

(** ** The engines of one node *)
Definition given_peers (p : list (str * endpoint)) (e : engine) : engine :=
  mkEngine (en_id e) (en_type e) (en_index e) (en_port e) (Some p) (en_main e) (en_cancel e).
Lemma peers_loop_ok ex p : forall l l' evs, peers_loop ex p l = (l', ROk, evs) ->
  l' = map (fun ke => (fst ke, given_peers p (snd ke))) l /\ forall k e, In (k, e) l -> ex_connect ex (en_id e) = None.
Proof.
  induction l as [|[k e] l IH]; intros l' evs E; cbn [peers_loop] in E; [injection E as <- <-; split; [reflexivity|intros k e []]|].
  unfold engine_peers in E. destruct p as [|p0 p1]; [discriminate|]. destruct (ex_connect ex (en_id e)) eqn:C; [discriminate|].
  destruct (peers_loop ex (p0 :: p1) l) as [[r' o] evs'] eqn:F. injection E as <- -> <-. destruct (IH _ _ eq_refl) as (-> & I). split; [reflexivity|].
  intros k' e' [H|H]; [injection H as <- <-; exact C|eauto].
Qed.
Lemma introduce_engines ex p s s' : introduce_peers ex p s = (s', ROk) ->
  nd_engines s' = map (fun ke => (fst ke, given_peers p (snd ke))) (nd_engines s) /\ nd_traffic s' = nd_traffic s /\
  (forall k e, In (k, e) (nd_engines s) -> ex_connect ex (en_id e) = None).
Proof.
  unfold introduce_peers. destruct (peers_loop ex p (nd_engines s)) as [[l r] evs] eqn:E. intro H. injection H as <- ->. cbn [nd_engines nd_traffic].
  destruct (peers_loop_ok _ _ _ _ _ E) as (-> & C). auto.
Qed.
Lemma introduce_total ex p s : p <> [] \/ nd_engines s = [] -> (forall k e, In (k, e) (nd_engines s) -> ex_connect ex (en_id e) = None) -> exists s', introduce_peers ex p s = (s', ROk).
Proof.
  intros H C. unfold introduce_peers. assert (G : exists l evs, peers_loop ex p (nd_engines s) = (l, ROk, evs)).
  { revert H C. generalize (nd_engines s). induction l as [|[k e] l IH]; intros H C; cbn [peers_loop]; [eauto|].
    destruct H as [H|H]; [|discriminate]. destruct p as [|p0 p1]; [congruence|]. cbn [engine_peers]. rewrite (C k e (or_introl eq_refl)).
    destruct IH as (l' & evs & ->); [auto|intros k' e' I; apply (C k' e'); right; exact I|]. eauto. }
  destruct G as (l & evs & ->). eauto.
Qed.
Lemma run_engines lists : forall l l' evs, Forall (fun ke => en_main (snd ke) = false) l -> run_all lists l = RAOk l' evs -> fst (finish_all l') = l.
Proof.
  unfold finish_all. cbn [fst]. induction l as [|[k e] l IH]; intros l' evs M E; cbn [run_all] in E; [injection E as <- <-; reflexivity|].
  inversion M as [|? ? Me M']; subst. cbn [snd] in Me. destruct (engine_run lists e) as [e' ev1| |] eqn:R; [|discriminate|discriminate].
  destruct (run_all lists l) as [r' evs'| |] eqn:A; [|discriminate|discriminate]. injection E as <- <-. cbn [map fst snd]. f_equal; [|eapply IH; eauto].
  f_equal. unfold engine_run in R. destruct (en_peers e) eqn:Pe; [|discriminate]. destruct (existsb _ lists).
  - rewrite Me in R. injection R as <- <-. unfold engine_finish. cbn [en_main en_id en_type en_index en_port en_peers en_cancel fst]. destruct e; cbn in *; subst; reflexivity.
  - injection R as <- <-. unfold engine_finish. rewrite Me. reflexivity.
Qed.
Lemma run_node_engines s s' : Forall (fun ke => en_main (snd ke) = false) (nd_engines s) -> Node_Model.run_traffic s = Replied s' ROk tt ->
  nd_engines s' = nd_engines s /\ nd_traffic s' = nd_traffic s.
Proof.
  intros M E. unfold Node_Model.run_traffic in E. destruct (run_all _ _) as [l evs|l evs|] eqn:R; try discriminate. pose proof (run_engines _ _ _ _ M R) as K.
  destruct (finish_all l) as [l' evs'] eqn:F. injection E as <-. cbn [fst] in K. subst l'. split; reflexivity.
Qed.
Lemma run_node_total s : Forall (fun ke => en_main (snd ke) = false /\ en_peers (snd ke) <> None) (nd_engines s) -> exists s', Node_Model.run_traffic s = Replied s' ROk tt.
Proof.
  intro F. unfold Node_Model.run_traffic. assert (G : exists l evs, run_all (tc_lists (nd_traffic s)) (nd_engines s) = RAOk l evs).
  { induction F as [|[k e] l (M & P) F IH]; cbn [run_all]; [eauto|]. cbn [snd] in *. unfold engine_run. destruct (en_peers e); [|congruence]. rewrite M.
    destruct IH as (l' & evs & ->). destruct (existsb _ _); eauto. }
  destruct G as (l & evs & ->). destruct (finish_all l). eauto.
Qed.

(** What a node needs to host an instance. *)
Definition can_host (ne : node_env) (ex : externals) (t : Node_Model.traffic) (n : str) : Prop :=
  exists o, options_for (tc_services t) (tc_options t) (nth 0 (split_slash n) []) (tc_protocol t) (ne_data ne) = Some o /\
  forall j, (exists d, allocate 5 (mkEnv (ne_homa ne) (ne_mercury ne) (Some (resolve_alias (tc_options t))) (ex_driver ex j)) o 0 [] = DrvOk d) /\
    exists port a, ex_engine ex j = inl port /\ Net_Model.socket_for_device (ne_ifs ne) (ne_flag ne) (ne_control ne) port = Some a.
Lemma configure_loop_total ne ex t : forall names s eps, nd_traffic s = t ->
  (forall n, In n names -> can_host ne ex t n /\ (2 <= length (split_slash n))%nat /\ grid_index_from_name n <> None) ->
  exists s' eps', configure_loop ne ex names s eps = Replied s' ROk eps'.
Proof.
  induction names as [|n names IH]; intros s eps T H; cbn [configure_loop]; [eauto|].
  destruct (H n (or_introl eq_refl)) as ((o & Eo & Ha) & Hl & Hg). destruct (Nat.ltb_spec (length (split_slash n)) 2); [lia|].
  destruct (grid_index_from_name n) as [g|]; [|congruence]. unfold alloc_service. rewrite T, Eo. destruct (Ha (nd_next s)) as ((d & ->) & port & a & -> & Ea).
  rewrite Ea. apply IH; [|intros n' I; apply H; right; exact I]. destruct (map_find n (nd_engines s)); cbn; exact T.
Qed.
Lemma configure_total ne ex t names s : 0 < tc_max_threads t ->
  (forall n, In n names -> can_host ne ex t n /\ (2 <= length (split_slash n))%nat /\ grid_index_from_name n <> None) ->
  exists s' eps, configure ne ex t names s = Replied s' ROk eps.
Proof. intros P H. unfold configure. destruct (Z.leb_spec (tc_max_threads t) 0); [lia|]. apply configure_loop_total with (t := t); [reflexivity|exact H]. Qed.
Lemma located_parts c n k i : sane c -> located c n k i -> (2 <= length (split_slash n))%nat /\ grid_index_from_name n <> None /\
  exists s, nth_error (cf_services c) k = Some s /\ nth 0 (split_slash n) [] = svc_name s.
Proof.
  intros S L. destruct (located_facts _ _ _ _ S L) as (s & g & E & _ & _ & G & _ & _ & Nm). destruct (sane_nth c k s S E) as (_ & Ns).
  destruct (instance_name_prefix _ _ _ Nm) as (r & ->). rewrite (split_slash_app _ _ Ns). cbn [length nth]. split; [|split; [congruence|eauto]].
  destruct (split_slash r) eqn:Q; [|cbn [length]; lia]. exfalso. clear -Q. destruct r as [|c r]; cbn [split_slash] in Q; [discriminate|]. destruct (Ascii.eqb c slash); [discriminate|]. destruct (split_slash r); discriminate.
Qed.

(** ** A test that succeeds *)
Lemma await_total ids ev ok : completes ids ev -> (forall i, In i ids -> ok i = true) -> Seq_Model.await_run (length ids) ev ok None = Some None.
Proof.
  intros C K. rewrite await_run_spec by (apply Permutation_length, C). f_equal. apply last_such_None. split; [reflexivity|]. intros i I. rewrite K; [reflexivity|]. apply (completes_In _ _ _ C), I.
Qed.
