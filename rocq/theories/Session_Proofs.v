(** Supporting lemmas for C76. *)
From Coq Require Import Ascii String List NArith ZArith Bool Arith Lia Permutation.
From Verif Require Import Base_Model Base_Proofs Grid_Model Grid_Proofs Canon_Model Canon_Proofs Place_Model Place_Proofs Util_Model Table_Model Table_Proofs Peer_Proofs
  Cli_Model Cli_Proofs.
From Verif Require Seq_Model.
From Verif Require Import Seq_Proofs Node_Model Node_Proofs Node_Props Cluster_Model Cluster_Proofs Cluster_Props Session_Model.
Import ListNotations.
Open Scope Z_scope.

(** The number of instances a service of a request asks for. *)
Definition wanted (s : service_spec) : Z := match sp_x s with Some _ => x_size s * y_size s * z_size s | None => get_count s end.
(** A request within the documented rules that GetCanonicalTestSequence does not
    check. *)
Record well_formed (t : whole) : Prop := mkWF {
  wf_distinct : NoDup (map svc_name (cf_services (config_of t)));
  wf_names : Forall (fun s => no_slash (svc_name s)) (cf_services (config_of t));
  wf_wanted : Forall (fun s => 0 < wanted (sv_spec s) <= int32_max) (cf_services (config_of t));
  wf_bundles : NoDup (map fst (te_bundles (wt_test t)));
  wf_constraints : NoDup (map fst (te_constraints (wt_test t))) }.
(** Nothing in it overflows or divides by zero. *)
Record tame (t : whole) : Prop := mkTame {
  ta_total : fold_right Z.add 0 (map (fun s => wanted (sv_spec s)) (cf_services (config_of t))) <= int32_max;
  ta_moduli : Forall (fun kv => moduli_ok (snd kv)) (te_constraints (wt_test t)) }.
(** [t'] is [t] with its services completed. *)
Definition completed_test (t t' : whole) : Prop :=
  completed (wt_test t) (wt_test t') /\ wt_threads t' = wt_threads t /\ wt_drivers t' = wt_drivers t /\ wt_options t' = wt_options t /\
  wt_protocol t' = wt_protocol t.

Lemma completes_count s s' : Grid_Proofs.completes s s' -> get_count s' = wanted s.
Proof.
  intros (_ & _ & _ & _ & _ & _ & _ & C2 & C3). unfold wanted. destruct (sp_x s) eqn:X.
  - unfold get_count. rewrite C2 by discriminate. reflexivity.
  - unfold get_count. rewrite C3 by reflexivity. reflexivity.
Qed.
Lemma completes_canonical s s' : acceptable s -> Grid_Proofs.completes s s' -> 0 < wanted s <= int32_max -> canonical s'.
Proof.
  intros A C W. rewrite <- (completes_count _ _ C) in W. revert A C W.
  intros (A1 & A2 & A3 & A4) (C1 & C2 & C3 & C4 & C5 & C6 & C7 & C8 & C9) W.
  destruct (sp_x s) as [x|] eqn:Ex.
  - specialize (C5 ltac:(discriminate)). specialize (C8 ltac:(discriminate)).
    assert (S : x_size s' * y_size s' * z_size s' = x_size s * y_size s * z_size s)
      by (unfold x_size, y_size, z_size; rewrite C3, C4, C5, Ex; reflexivity).
    constructor.
    + exists x. split; [congruence|apply A3; auto].
    + intros y Ey. apply A3. rewrite C3 in Ey. auto.
    + intros z Ez. rewrite C3. rewrite C4 in Ez. split; [apply A3; auto|]. apply A2. congruence.
    + rewrite S. exact C8.
    + rewrite S. unfold get_count in W. rewrite C8 in W. lia.
  - specialize (C6 eq_refl). specialize (C9 eq_refl).
    assert (Y : sp_y s = None) by (destruct (sp_y s); [exfalso; apply A1; [discriminate|reflexivity]|reflexivity]).
    assert (Z' : sp_z s = None) by (destruct (sp_z s); [exfalso; apply A2; [discriminate|assumption]|reflexivity]).
    unfold get_count in W, C6. rewrite C9 in W. destruct (sp_count s) as [c|] eqn:Ec; [|lia].
    constructor.
    + exists c. split; [exact C6|lia].
    + intros y Ey. rewrite C3, Y in Ey. discriminate.
    + intros z Ez. rewrite C4, Z' in Ez. discriminate.
    + unfold x_size, y_size, z_size, dim. rewrite C3, C4, C6, Y, Z', C9. f_equal. lia.
    + unfold x_size, y_size, z_size, dim. rewrite C3, C4, C6, Y, Z'. lia.
Qed.

Lemma completed_with t x : completed (wt_test t) x -> completed_test t (with_test t x).
Proof. intro C. unfold completed_test, with_test. cbn [wt_test wt_threads wt_drivers wt_options wt_protocol]. auto. Qed.
Lemma canonical_session_spec s l : canonical_session s = VOk l ->
  Forall (fun t => test_valid (dsd_of (wt_test t))) (ss_tests s) /\ Forall2 completed_test (ss_tests s) l.
Proof.
  unfold canonical_session. destruct (canonical_tests_of _) as [|e|c] eqn:E; [discriminate|discriminate|]. intros [= <-].
  apply canonical_tests_completed in E as (V & F & _). cbn [sq_tests] in *. split; [rewrite Forall_map in V; exact V|].
  clear V. revert F. generalize (sq_tests c). induction (ss_tests s) as [|t ts IH]; intros l F; cbn [map] in F; inversion F as [|? x ? l' H F']; subst; cbn [combine map fst snd]; constructor.
  - apply completed_with. exact H.
  - apply IH. exact F'.
Qed.
Lemma completed_services t t' : completed (wt_test t) (wt_test t') ->
  Forall2 (fun s s' => svc_name s' = svc_name s /\ Grid_Proofs.completes (sv_spec s) (sv_spec s')) (cf_services (config_of t)) (cf_services (config_of t')).
Proof.
  intros ((G & _) & C & _). unfold config_of. revert C. induction G as [|s s' l l' (N & _) G IH]; intro C; cbn [map] in C; [constructor|]. inversion C; subst. constructor; auto.
Qed.
Lemma Forall2_map_eq {A B} (f g : A -> B) (P : A -> A -> Prop) l l' : (forall a b, P a b -> g b = f a) -> Forall2 P l l' -> map g l' = map f l.
Proof. intros H F. induction F as [|a b l l' p F IH]; cbn [map]; [reflexivity|]. rewrite (H a b p), IH. reflexivity. Qed.
Lemma completed_placeable t t' : test_valid (dsd_of (wt_test t)) -> well_formed t -> completed_test t t' -> placeable t'.
Proof.
  intros (_ & V) [D N W B K] (C & _). pose proof (completed_services _ _ C) as F. unfold dsd_of in V. cbn [d_services] in V. fold (config_of t) in V.
  rewrite Forall_map in V. constructor.
  - constructor.
    + unfold specs. apply Forall_map. clear -F V W. induction F as [|s s' l l' (_ & p) F IH]; [constructor|]. apply Forall_cons_iff in V as (V1 & V), W as (W1 & W).
      constructor; [exact (completes_canonical _ _ V1 p W1)|auto].
    + unfold specs. apply Forall_map. clear -F N. induction F as [|s s' l l' (p & _) F IH]; [constructor|]. apply Forall_cons_iff in N as (N1 & N).
      constructor; [|auto]. unfold svc_name in p, N1. rewrite p. exact N1.
    + rewrite (Forall2_map_eq svc_name svc_name _ _ _ (fun a b (p : svc_name b = svc_name a /\ _) => proj1 p) F). exact D.
  - destruct C as (_ & _ & _ & _ & _ & _ & E & _). rewrite E. exact B.
  - destruct C as (_ & _ & _ & _ & _ & E & _). rewrite E. exact K.
Qed.

(** ** Placement is defined *)
Lemma total_count_defined l : forall acc, 0 <= acc -> Forall (fun s => 0 < get_count s) l -> acc + fold_right Z.add 0 (map get_count l) <= int32_max ->
  total_count acc l = Some (acc + fold_right Z.add 0 (map get_count l)).
Proof.
  assert (P : forall l, Forall (fun s => 0 < get_count s) l -> 0 <= fold_right Z.add 0 (map get_count l)).
  { clear. induction l as [|s l IH]; intro F; cbn [map fold_right]; [lia|]. apply Forall_cons_iff in F as (A & F). specialize (IH F). lia. }
  induction l as [|s l IH]; intros acc A F T; cbn [total_count map fold_right] in *; [f_equal; lia|]. apply Forall_cons_iff in F as (G & F). pose proof (P l F) as Q.
  assert (I : in_int32 (acc + get_count s) = true) by (unfold in_int32, int32_max in *; lia). rewrite I, IH by (auto; lia). f_equal. lia.
Qed.
Lemma bundle_services_defined node svcs : forall st, bundle_services node svcs st <> PlaceUB /\ bundle_services node svcs st <> PlaceThrow.
Proof. induction svcs as [|s l IH]; intro st; cbn [bundle_services]; [split; discriminate|]. destruct (set_mem _ _); [apply IH|split; discriminate]. Qed.
Lemma place_bundles_defined b : forall st, place_bundles b st <> PlaceUB /\ place_bundles b st <> PlaceThrow.
Proof.
  induction b as [|[n svcs] b IH]; intro st; cbn [place_bundles]; [split; discriminate|]. pose proof (bundle_services_defined n svcs st) as (A & B).
  destruct (bundle_services n svcs st); [congruence|congruence|split; discriminate|]. destruct (set_mem _ _); [apply IH|split; discriminate].
Qed.
Lemma first_match_defined cl attrs idle : moduli_ok cl -> exists x, first_match cl attrs idle = Some x.
Proof.
  intro M. induction idle as [|n l IH]; cbn [first_match]; [eauto|]. destruct (check_list_spec cl (map_list n attrs) M) as (b & -> & _). destruct b; eauto.
Qed.
Lemma place_constrained_defined eff attrs names : (forall s cl, In s names -> map_find s eff = Some cl -> moduli_ok cl) -> forall st,
  place_constrained eff attrs names st <> PlaceUB /\ place_constrained eff attrs names st <> PlaceThrow.
Proof.
  induction names as [|s l IH]; intros M st; cbn [place_constrained]; [split; discriminate|].
  assert (M' : forall s0 cl, In s0 l -> map_find s0 eff = Some cl -> moduli_ok cl) by (intros s0 cl I; apply M; right; exact I).
  destruct (map_find s eff) as [cl|] eqn:E; [|apply IH; exact M'].
  destruct (first_match_defined cl attrs (sv_idle st) (M s cl (or_introl eq_refl) E)) as ([n|] & ->); [apply IH; exact M'|split; discriminate].
Qed.
Lemma placement_defined fnm d attrs names : instances d = Some names -> Forall (fun s => 0 < get_count s) (pd_services d) ->
  fold_right Z.add 0 (map get_count (pd_services d)) <= int32_max -> NoDup (map fst (pd_constraints d)) ->
  Forall (fun kv => moduli_ok (snd kv)) (pd_constraints d) ->
  place_services fnm d attrs <> PlaceUB /\ place_services fnm d attrs <> PlaceThrow.
Proof.
  intros N G T D M. enough (H : constraint_solver fnm d attrs <> PlaceUB /\ constraint_solver fnm d attrs <> PlaceThrow).
  { unfold place_services. destruct (constraint_solver fnm d attrs); destruct H; split; congruence. }
  unfold constraint_solver. rewrite total_count_defined by (auto; lia). unfold instances in N. rewrite N.
  assert (P : 0 <= fold_right Z.add 0 (map get_count (pd_services d))).
  { clear -G. induction (pd_services d) as [|s l IH]; cbn [map fold_right]; [lia|]. apply Forall_cons_iff in G as (A & G). specialize (IH G). lia. }
  destruct (Z.ltb_spec (0 + fold_right Z.add 0 (map get_count (pd_services d))) 0); [lia|].
  destruct (place_bundles_defined (pd_bundles d) (mkSolver (fold_left (fun l s => set_add s l) names []) (map fst attrs) [])) as (B1 & B2).
  destruct (place_bundles _ _) as [| | |st1]; [congruence|congruence|split; discriminate|].
  destruct (place_constrained_defined (effective fnm (pd_constraints d) names) attrs names) with (st := st1) as (C1 & C2).
  { intros s cl I F. destruct (effective_spec fnm (pd_constraints d) names s D I) as (E & _). specialize (E cl F). rewrite Forall_forall in M.
    destruct E as [(_ & E)|(_ & k & E & _)]; exact (M _ E). }
  destruct (place_constrained _ _ _ _) as [| | |st2]; [congruence|congruence|split; discriminate|].
  destruct (place_rest _ _ _) as [st3 [|? ?]]; split; discriminate.
Qed.
Lemma completed_defined fnm attrs t t' : test_valid (dsd_of (wt_test t)) -> well_formed t -> tame t -> completed_test t t' ->
  place_services fnm (desc_of t') attrs <> PlaceUB /\ place_services fnm (desc_of t') attrs <> PlaceThrow.
Proof.
  intros V Wf [T M] C. pose proof (completed_placeable _ _ V Wf C) as P. destruct C as (C & _). pose proof (completed_services _ _ C) as F.
  apply placement_defined with (names := names (config_of t')); [apply desc_names; exact P| | |apply P|].
  - unfold desc_of. cbn [pd_services]. apply Forall_map. pose proof (wf_wanted _ Wf) as W. clear -F W. induction F as [|s s' l l' (_ & p) F IH]; [constructor|].
    apply Forall_cons_iff in W as (W1 & W). constructor; [rewrite (completes_count _ _ p); lia|auto].
  - unfold desc_of. cbn [pd_services]. rewrite map_map.
    rewrite (Forall2_map_eq (fun s => wanted (sv_spec s)) (fun s => get_count (sv_spec s)) _ _ _ (fun a b (p : svc_name b = svc_name a /\ _) => completes_count _ _ (proj2 p)) F). exact T.
  - unfold desc_of. cbn [pd_constraints]. destruct C as (_ & _ & _ & _ & _ & E & _). rewrite E. exact M.
Qed.

(** ** Active nodes *)
Definition marked (r : Seq_Model.registry) (active : list Z) : Prop := NoDup active /\ forall id, In id active -> occupied r id.
Lemma mark_all_NoDup ids : forall s, NoDup s -> NoDup (fold_left (fun s i => Seq_Model.mark_active i s) ids s).
Proof.
  induction ids as [|i ids IH]; intros s D; cbn [fold_left]; [exact D|]. apply IH. unfold Seq_Model.mark_active. destruct (existsb (Z.eqb i) s) eqn:E; [exact D|].
  apply NoDup_snoc; [exact D|]. intro I. assert (X : existsb (Z.eqb i) s = true) by (apply existsb_exists; exists i; split; [exact I|apply Z.eqb_refl]). congruence.
Qed.
Lemma await_results_active {Log} (reply_of : Z -> Seq_Model.reply Log) n : forall ev st acc a st' acc' a', Seq_Model.await_results n ev reply_of st acc a = Some (st', acc', a') ->
  NoDup a -> NoDup a' /\ incl a' a.
Proof.
  induction n as [|n IH]; intros ev st acc a st' acc' a' H D; [destruct ev; cbn [Seq_Model.await_results] in H; injection H as _ _ <-; (split; [exact D|apply incl_refl])|].
  induction ev as [|[i b] ev IHe]; cbn [Seq_Model.await_results] in H; [discriminate|]. destruct b; [|exact (IHe H)].
  destruct (IH _ _ _ _ _ _ _ H) as (D' & I'); [apply NoDup_filter; exact D|]. split; [exact D'|]. intros j J. apply I' in J. unfold Seq_Model.mark_inactive in J. apply filter_In in J. apply J.
Qed.
Lemma run_traffic_active {Log} ids ok (get : Z -> Seq_Model.reply Log) ev1 ev2 active res active' : Seq_Model.run_traffic ids ok get ev1 ev2 active = (res, active') ->
  NoDup active -> NoDup active' /\ forall j, In j active' -> In j ids \/ In j active.
Proof.
  intros E D. unfold Seq_Model.run_traffic in E. cbv zeta in E. pose proof (mark_all_NoDup ids active D) as D1.
  assert (I1 : forall j, In j (fold_left (fun s i => Seq_Model.mark_active i s) ids active) -> In j ids \/ In j active) by (intro j; apply mark_all_In).
  revert D1 I1 E. generalize (fold_left (fun s i => Seq_Model.mark_active i s) ids active). intros a1 D1 I1 E.
  destruct (Seq_Model.await_run _ _ _ _) as [[who|]|]; [injection E as _ <-; auto| |injection E as _ <-; auto].
  destruct (Seq_Model.await_results _ _ _ _ _ _) as [[[[who|] logs] a2]|] eqn:R; [| |injection E as _ <-; auto];
    destruct (await_results_active _ _ _ _ _ _ _ _ _ R D1) as (D2 & I2); injection E as _ <-; (split; [exact D2|intros j J; exact (I1 j (I2 j J))]).
Qed.
Lemma traffic_active run get l active w w3 w4 res active' : traffic run get l active w = (w3, w4, res, active') ->
  NoDup active -> NoDup active' /\ forall j, In j active' -> In j (map fst l) \/ In j active.
Proof.
  intro E. unfold traffic in E. destruct (call_all _ _ _) as [w1 rs]. destruct (Seq_Model.await_run _ _ _ _) as [[who|]|].
  - destruct (Seq_Model.run_traffic _ _ _ _ _ _) as [x a] eqn:R. injection E as _ _ _ <-. exact (run_traffic_active _ _ _ _ _ _ _ _ R).
  - destruct (call_all _ _ _) as [w2 rs2]. destruct (Seq_Model.run_traffic _ _ _ _ _ _) as [x a] eqn:R. injection E as _ _ _ <-. exact (run_traffic_active _ _ _ _ _ _ _ _ R).
  - destruct (Seq_Model.run_traffic _ _ _ _ _ _) as [x a] eqn:R. injection E as _ _ _ <-. exact (run_traffic_active _ _ _ _ _ _ _ _ R).
Qed.
Lemma node_ids_occupied r : sound_registry r -> forall m l, node_ids r m = Some l -> forall id, In id (map fst l) -> occupied r id.
Proof.
  intro Sr. induction m as [|[a nm] m IH]; intros l E id I; cbn [node_ids] in E; [injection E as <-; destruct I|].
  destruct (Seq_Model.lookup_node r a) as [| |j] eqn:L; try discriminate. destruct (node_ids r m) as [l'|]; [|discriminate]. injection E as <-. destruct I as [<-|I]; [|exact (IH _ eq_refl _ I)].
  apply (lookup_alias r a j Sr) in L. apply L.
Qed.
Lemma test_marked fnm r nes ev t w active out w' active' : sound_registry r -> marked r active -> do_run_test fnm r nes ev t w active = (out, w', active') -> marked r active'.
Proof.
  intros Sr K E. unfold do_run_test in E. destruct (cf_services (config_of t)) as [|sv0 svs]; [injection E as _ _ <-; exact K|].
  destruct (place_services _ _ _) as [| | |m]; [injection E as _ _ <-; exact K|injection E as _ _ <-; exact K|injection E as _ _ <-; exact K|].
  destruct (node_ids r m) as [l|] eqn:L; [|injection E as _ _ <-; exact K].
  destruct (configure_nodes _ _ _ _ _) as [w1 r1]. destruct r1 as [| |who|sm]; [injection E as _ _ <-; exact K|injection E as _ _ <-; exact K|injection E as _ _ <-; exact K|].
  destruct (introduce _ _ _ _) as [w2 r2]. destruct r2 as [| |who|u]; [injection E as _ _ <-; exact K|injection E as _ _ <-; exact K|injection E as _ _ <-; exact K|].
  destruct (attribute_int _ _ _); [|injection E as _ _ <-; exact K].
  destruct (traffic _ _ _ _ _) as [[[w3 w4] tr] act] eqn:T. destruct K as (D & O). destruct (traffic_active _ _ _ _ _ _ _ _ _ T D) as (D' & I').
  assert (K : marked r act). { split; [exact D'|]. intros id J. destruct (I' id J) as [J'|J']; [exact (node_ids_occupied r Sr _ _ L _ J')|exact (O id J')]. }
  destruct tr; injection E as _ _ <-; exact K.
Qed.

(** ** Cancelling *)
Definition cancelled_by_sequencer (s : node) : node := Node_Model.cancel_traffic (s_ "cancelled by test_sequencer") s.
Lemma keeps_cancel ne : keeps ne (fun s => Replied (cancelled_by_sequencer s) ROk tt).
Proof. intros s s' o a R [= <- _ _]. exact (reachable_step ne (mkExt (fun _ _ _ => None) (fun _ => inl 0) (fun _ => None) (fun _ => None)) QCancel s _ ROk R eq_refl). Qed.
Lemma cancel_all f (act : list Z) : forall w w' rs, NoDup act ->
  call_all f (map (fun id => (id, fun s => Replied (cancelled_by_sequencer s) ROk tt)) act) w = (w', rs) ->
  forall id, w' id = match w id with
                     | Some s => Some (if existsb (Z.eqb id) act then match f id with NotServed => s | _ => cancelled_by_sequencer s end else s)
                     | None => None
                     end.
Proof.
  induction act as [|i act IH]; intros w w' rs D E id; cbn [map call_all existsb] in *; [injection E as <- _; destruct (w id); reflexivity|].
  apply NoDup_cons_iff in D as (N & D). destruct (call (f i) _ (w i)) as [n a] eqn:C. destruct (call_all _ _ _) as [w1 rs1] eqn:E1. injection E as <- _.
  rewrite (IH _ _ _ D E1 id). unfold set_node. destruct (Z.eqb_spec id i) as [->|Hi]; cbn [orb].
  - assert (X : existsb (Z.eqb i) act = false).
    { destruct (existsb (Z.eqb i) act) eqn:X; [|reflexivity]. apply existsb_exists in X as (j & J & Q). apply Z.eqb_eq in Q. subst j. contradiction. }
    rewrite X. unfold call in C. destruct (w i) as [s|]; [|injection C as <- _; reflexivity]. destruct (f i); injection C as <- _; reflexivity.
  - reflexivity.
Qed.
Lemma marked_bound r active : marked r active -> (Z.of_nat (length active) <=? Seq_Model.nb_slots r) = true.
Proof.
  intros (D & O). apply Z.leb_le. unfold Seq_Model.nb_slots.
  assert (L : (length active <= length (map Z.of_nat (seq 0 (length (Seq_Model.rg_nodes r)))))%nat).
  { apply NoDup_incl_length; [exact D|]. intros i I. destruct (O i I) as (n & E & _). apply slot_get_range in E. apply in_map_iff. exists (Z.to_nat i). split; [lia|]. apply in_seq. lia. }
  rewrite map_length, seq_length in L. lia.
Qed.
Lemma cancel_active_spec r ph w active : sound_registry r -> marked r active -> completes active (ph_events ph) ->
  exists w1, cancel_active r ph w active = (w1, PhOk []) /\
  forall id, w1 id = match w id with
                     | Some s => Some (if existsb (Z.eqb id) active then match ph_fate ph id with NotServed => s | _ => cancelled_by_sequencer s end else s)
                     | None => None
                     end.
Proof.
  intros [I S] (D & O) C. unfold cancel_active. rewrite (marked_bound r active (conj D O)). cbn [andb].
  assert (X : forallb (fun id => match Seq_Model.slot_get id (Seq_Model.rg_nodes r) with Some n => Seq_Model.ns_stub n | None => false end) active = true).
  { apply forallb_forall. intros id J. destruct (O id J) as (n & E & P). rewrite E. exact (S id n E P). }
  rewrite X. destruct (call_all _ _ _) as [w1 rs] eqn:E. exists w1. split; [|exact (cancel_all _ _ _ _ _ D E)].
  rewrite cancel_spec; [reflexivity|unfold Seq_Model.nb_slots; lia|exact D| |exact C].
  intros i J. destruct (O i J) as (n & En & _). apply slot_get_range in En. unfold Seq_Model.nb_slots. exact En.
Qed.
Lemma cancel_active_reachable r ph w active w1 x nes : cancel_active r ph w active = (w1, x) -> (forall id s, w id = Some s -> reachable (nes id) s) ->
  forall id s, w1 id = Some s -> reachable (nes id) s.
Proof.
  intros E R. unfold cancel_active in E. destruct (_ && _); [|injection E as <- _; exact R]. destruct (call_all _ _ _) as [w' rs] eqn:C. injection E as <- _.
  refine (call_all_keeps _ nes _ _ _ _ _ R C). intros id h J. apply in_map_iff in J as (i & Q & _). injection Q as <- <-. apply keeps_cancel.
Qed.

(** ** The tests *)
(** Tests number [i], [i+1], ... succeed one after the other, each starting with
    the nodes as the one before it left them. *)
Inductive in_turn (fnm : str -> str -> bool) (r : Seq_Model.registry) (nes : Z -> node_env) (env : nat -> environment)
    : nat -> list whole -> world -> list Z -> list (test_result * worlds) -> world -> list Z -> Prop :=
  | turn_none i w a : in_turn fnm r nes env i [] w a [] w a
  | turn_next i t ts w a x ws w1 a1 l w2 a2 : do_run_test fnm r nes (env i) t w a = (TestOk x ws, w1, a1) ->
      in_turn fnm r nes env (S i) ts w1 a1 l w2 a2 -> in_turn fnm r nes env i (t :: ts) w a ((x, ws) :: l) w2 a2.
Section Each.
  Context (fnm : str -> str -> bool) (r : Seq_Model.registry) (nes : Z -> node_env) (summary : test_result -> list str) (env : nat -> environment) (cancelled : nat -> bool) (keep : bool).
  Lemma run_each_spec tests : forall i w active acc out alive w' active',
    run_each fnm r nes summary cancelled env keep i tests w active acc = (out, alive, w', active') ->
    exists ran rest l wm am, tests = ran ++ rest /\ in_turn fnm r nes env i ran w active l wm am /\
      (forall j, (j < length ran)%nat -> cancelled (i + j)%nat = false) /\
      match out with
      | Some (st, res) => alive = true /\ res = acc ++ map (fun x => report summary keep (fst x)) l /\
          match st with
          | Seq_Model.SeqOk => rest = [] /\ w' = wm /\ active' = am
          | Seq_Model.SeqCancelled => rest <> [] /\ cancelled (i + length ran)%nat = true /\ w' = wm /\ active' = am
          | Seq_Model.SeqTestFailed => cancelled (i + length ran)%nat = false /\
              exists t rest' ph, rest = t :: rest' /\ do_run_test fnm r nes (env (i + length ran)%nat) t wm am = (TestFailed ph, w', active')
          | Seq_Model.SeqTooBig => False
          end
      | None => cancelled (i + length ran)%nat = false /\
          exists t rest', rest = t :: rest' /\ do_run_test fnm r nes (env (i + length ran)%nat) t wm am = (if alive then TestStuck else TestCrashed, w', active')
      end.
  Proof.
    induction tests as [|t tests IH]; intros i w active acc out alive w' active' E; cbn [run_each] in E.
    - injection E as <- <- <- <-. exists [], [], [], w, active. split; [reflexivity|]. split; [constructor|]. split; [intros j J; cbn [length] in J; lia|]. cbn [map]. rewrite app_nil_r. auto.
    - destruct (cancelled i) eqn:C.
      { injection E as <- <- <- <-. exists [], (t :: tests), [], w, active. split; [reflexivity|]. split; [constructor|]. split; [intros j J; cbn [length] in J; lia|]. cbn [map length].
        rewrite app_nil_r, Nat.add_0_r. repeat (split; [auto; discriminate|]). auto. }
      destruct (do_run_test fnm r nes (env i) t w active) as [[o w1] a1] eqn:D.
      assert (Z0 : forall (o' : test_outcome) (w2 : world) (a2 : list Z), (o, w1, a1) = (o', w2, a2) -> exists t0 rest', t :: tests = t0 :: rest' /\
        do_run_test fnm r nes (env (i + length (@nil whole))%nat) t0 w active = (o', w2, a2)).
      { intros o' w2 a2 Q. exists t, tests. cbn [length]. rewrite Nat.add_0_r, D. auto. }
      destruct o as [| |ph|x ws].
      + injection E as <- <- <- <-. exists [], (t :: tests), [], w, active. split; [reflexivity|]. split; [constructor|]. split; [intros j J; cbn [length] in J; lia|].
        split; [cbn [length]; rewrite Nat.add_0_r; exact C|apply Z0; reflexivity].
      + injection E as <- <- <- <-. exists [], (t :: tests), [], w, active. split; [reflexivity|]. split; [constructor|]. split; [intros j J; cbn [length] in J; lia|].
        split; [cbn [length]; rewrite Nat.add_0_r; exact C|apply Z0; reflexivity].
      + injection E as <- <- <- <-. exists [], (t :: tests), [], w, active. split; [reflexivity|]. split; [constructor|]. split; [intros j J; cbn [length] in J; lia|].
        split; [reflexivity|]. split; [cbn [map]; rewrite app_nil_r; reflexivity|]. split; [cbn [length]; rewrite Nat.add_0_r; exact C|].
        destruct (Z0 _ _ _ eq_refl) as (t0 & rest' & A & B). exists t0, rest', ph. auto.
      + destruct (IH _ _ _ _ _ _ _ _ E) as (ran & rest & l & wm & am & A & T & N & M). exists (t :: ran), rest, ((x, ws) :: l), wm, am.
        split; [cbn [app]; rewrite A; reflexivity|]. split; [econstructor; eauto|].
        split. { intros [|j] J; [rewrite Nat.add_0_r; exact C|]. cbn [length] in J. rewrite Nat.add_succ_r. apply (N j). lia. }
        cbn [length]. rewrite Nat.add_succ_r. cbn [plus] in M. destruct out as [[st res]|]; [|exact M]. destruct M as (M1 & M2 & M3). split; [exact M1|]. split; [|exact M3].
        rewrite M2, <- app_assoc. reflexivity.
  Qed.
  Lemma in_turn_length i ts w a l w' a' : in_turn fnm r nes env i ts w a l w' a' -> length l = length ts.
  Proof. induction 1; cbn [length]; auto. Qed.
End Each.
