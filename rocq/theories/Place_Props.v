(** Properties C09-C10: attribute constraints and placement of service
    instances on nodes. *)
From Coq Require Import Ascii String List NArith ZArith Bool Lia.
From Verif Require Import Base_Model Base_Proofs Grid_Model Grid_Proofs Place_Model Place_Proofs.
Import ListNotations.
Open Scope Z_scope.

(** Examples use this matcher for '*' patterns: everything matches. *)
Definition fnm_all (_ _ : str) : bool := true.
Definition svc (n : string) (k : Z) : service_spec := mkSpec (s_ n) (Some k) None (Some k) None None.
Definition rack (v : string) : attribute := mkAttr (s_ "rack") (s_ v).
Definition rack_is (v : string) : constraint_list := [[mkCon (s_ "rack") [s_ v] [] REqual 0]].

(** C10.  A constraint list is a conjunction of sets, each set a disjunction of
    constraints, each satisfied by some attribute of the node.  The check gives
    exactly that answer whenever no MODULO constraint has modulus 0 or -1, and
    never gives another answer. *)
Theorem C10_constraints_exact : forall cl attrs, moduli_ok cl ->
  exists b, check_list cl attrs = Some b /\ (b = true <-> satisfies cl attrs).
Proof. exact check_list_spec. Qed.
Print Assumptions C10_constraints_exact.

Theorem C10_constraints_sound : forall cl attrs b,
  check_list cl attrs = Some b -> (b = true <-> satisfies cl attrs).
Proof. exact check_list_sound. Qed.
Print Assumptions C10_constraints_sound.

Definition even_rack : constraint_list :=
  [[mkCon (s_ "rack") [] [0] RModEqual 2; mkCon (s_ "rack") [s_ "spare"] [] REqual 0];
   [mkCon (s_ "arch") [s_ "arm"] [] RNotEqual 0]].
Example C10_example :
  moduli_ok even_rack /\
  check_list even_rack [rack "14"; mkAttr (s_ "arch") (s_ "x86")] = Some true /\
  check_list even_rack [rack "spare"; mkAttr (s_ "arch") (s_ "x86")] = Some true /\
  check_list even_rack [rack "7"; mkAttr (s_ "arch") (s_ "x86")] = Some false /\
  check_list even_rack [rack "14"] = Some false /\
  check_list [] [rack "7"] = Some true /\ check_list [[]] [rack "7"] = Some false.
Proof.
  split; [|vm_compute; repeat split]. intros cs c [<-|[<-|[]]] H; cbn [In] in H;
    repeat (destruct H as [<-|H]; [cbn; try (split; lia); exact I|]); destruct H.
Qed.

(** A MODULO constraint without a modulus divides by zero. *)
Theorem C10_modulus_refuted : exists cl attrs, check_list cl attrs = None.
Proof. exists [[mkCon (s_ "rack") [] [0] RModEqual 0]], [rack "14"]. vm_compute. reflexivity. Qed.
Print Assumptions C10_modulus_refuted.

(** C09.  Any placement the solver accepts, for any wildcard matcher. *)
Theorem C09_placement_sound : forall fnm d nodes names r,
  instances d = Some names -> NoDup names -> NoDup (map fst nodes) -> NoDup (map fst (pd_bundles d)) ->
  NoDup (map fst (pd_constraints d)) ->
  place_services fnm d nodes = PlaceOk r ->
  (* only registered nodes, only instances of the test *)
  (forall n s, hosts r n s -> In n (map fst nodes) /\ In s names) /\
  (* every instance is hosted; by exactly one node unless it is both bundled and constrained *)
  (forall s, In s names -> exists n, hosts r n s) /\
  (forall s n1 n2, hosts r n1 s -> hosts r n2 s ->
     ~ (in_bundle d s /\ exists c, governed_by fnm (pd_constraints d) s c) -> n1 = n2) /\
  (* a bundle node hosts exactly its bundle, any other node at most one instance *)
  (forall n l, In (n, l) (pd_bundles d) -> map_list n r = l) /\
  (forall n, ~ is_bundle_node d n -> (length (map_list n r) <= 1)%nat) /\
  (* a constrained instance has a node outside the bundles that satisfies its constraints *)
  (forall s c0, In s names -> governed_by fnm (pd_constraints d) s c0 ->
     exists c, governed_by fnm (pd_constraints d) s c /\
     (exists n, hosts r n s /\ ~ is_bundle_node d n) /\
     forall n, hosts r n s -> ~ is_bundle_node d n -> satisfies c (map_list n nodes)) /\
  (* every registered node gets an entry, possibly empty *)
  (forall n, In n (map fst nodes) -> map_find n r <> None).
Proof. exact placement_spec. Qed.
Print Assumptions C09_placement_sound.

(** Without constraints and with well formed bundles, placement succeeds
    exactly when the nodes outside the bundles suffice. *)
Theorem C09_placement_complete_unconstrained : forall fnm d attrs names total,
  pd_constraints d = [] -> instances d = Some names -> NoDup names -> NoDup (map fst attrs) ->
  total_count 0 (pd_services d) = Some total -> 0 <= total ->
  bundles_valid d names (map fst attrs) ->
  ((length names - length (flat_map snd (pd_bundles d)) <= length attrs - length (pd_bundles d))%nat <->
   exists m, constraint_solver fnm d attrs = PlaceOk m).
Proof. exact solver_complete. Qed.
Print Assumptions C09_placement_complete_unconstrained.

Definition nodes3 : list (str * list attribute) :=
  [(s_ "node0", [rack "1"]); (s_ "node1", [rack "2"]); (s_ "node2", [rack "2"]); (s_ "node3", [])].
Definition web : place_desc :=
  mkPD [svc "client" 2; svc "server" 2] [(s_ "server/*", rack_is "2")]
       [(s_ "node3", [s_ "client/0"; s_ "client/1"])].
Definition fnm_server (p s : str) : bool := starts_with s (s_ "server").
Example C09_example :
  exists names, instances web = Some names /\ NoDup names /\ NoDup (map fst nodes3) /\
  NoDup (map fst (pd_bundles web)) /\ NoDup (map fst (pd_constraints web)) /\
  place_services fnm_server web nodes3 =
    PlaceOk [(s_ "node3", [s_ "client/0"; s_ "client/1"]); (s_ "node1", [s_ "server/0"]);
             (s_ "node2", [s_ "server/1"]); (s_ "node0", [])] /\
  governed_by fnm_server (pd_constraints web) (s_ "server/0") (rack_is "2").
Proof.
  eexists. split; [vm_compute; reflexivity|].
  split; [repeat constructor; cbn; intuition discriminate|].
  split; [repeat constructor; cbn; intuition discriminate|].
  split; [repeat constructor; cbn; intuition discriminate|].
  split; [repeat constructor; cbn; intuition discriminate|].
  split; [vm_compute; reflexivity|].
  right. split; [cbn; intuition discriminate|]. exists (s_ "server/*"). split; [left; reflexivity|split; [vm_compute; tauto|reflexivity]].
Qed.
Example C09_complete_example :
  let d := mkPD [svc "client" 2; svc "server" 2] [] [(s_ "node3", [s_ "client/0"; s_ "client/1"])] in
  exists names, instances d = Some names /\ bundles_valid d names (map fst nodes3) /\
  (exists m, constraint_solver fnm_all d nodes3 = PlaceOk m) /\
  constraint_solver fnm_all d (tl (tl nodes3)) = PlaceErr (ENoIdle [s_ "server/1"]).
Proof.
  eexists. split; [vm_compute; reflexivity|]. split.
  - split; [repeat constructor; cbn; intuition discriminate|].
    split; [repeat constructor; cbn; intuition discriminate|].
    split; intros x H; cbn in *; intuition.
  - split; [eexists|]; vm_compute; reflexivity.
Qed.

(** "Exactly one node" fails for an instance that is both bundled and
    constrained: it is placed on two nodes. *)
Theorem C09_exactly_one_refuted : exists fnm d nodes names r s n1 n2,
  instances d = Some names /\ NoDup names /\ NoDup (map fst nodes) /\
  place_services fnm d nodes = PlaceOk r /\ In s names /\ hosts r n1 s /\ hosts r n2 s /\ n1 <> n2.
Proof.
  exists fnm_all, (mkPD [svc "server" 1] [(s_ "server/0", rack_is "2")] [(s_ "node0", [s_ "server/0"])]), nodes3.
  eexists. eexists. exists (s_ "server/0"), (s_ "node0"), (s_ "node1").
  split; [vm_compute; reflexivity|].
  split; [repeat constructor; cbn; intuition discriminate|].
  split; [repeat constructor; cbn; intuition discriminate|].
  split; [vm_compute; reflexivity|].
  split; [left; reflexivity|]. split; [left; reflexivity|]. split; [left; reflexivity|discriminate].
Qed.
Print Assumptions C09_exactly_one_refuted.

(** A negative instance count passes canonicalisation and makes reserve() throw. *)
Theorem C09_negative_count_refuted : exists fnm d nodes, place_services fnm d nodes = PlaceThrow.
Proof.
  exists fnm_all, (mkPD [mkSpec (s_ "server") (Some (-1)) None None None None] [] []), nodes3.
  vm_compute. reflexivity.
Qed.
Print Assumptions C09_negative_count_refuted.

(** The constrained phase is greedy: it can fail although an assignment of
    instances to distinct nodes satisfying every constraint exists. *)
Theorem C09_greedy_refuted : exists fnm d nodes names (f : str -> str) e,
  instances d = Some names /\ pd_bundles d = [] /\
  (forall s, In s names -> In (f s) (map fst nodes) /\
     forall c, governed_by fnm (pd_constraints d) s c -> satisfies c (map_list (f s) nodes)) /\
  (forall s1 s2, In s1 names -> In s2 names -> f s1 = f s2 -> s1 = s2) /\
  place_services fnm d nodes = PlaceErr e.
Proof.
  pose (c1 := [[mkCon (s_ "rack") [s_ "9"] [] RNotEqual 0]] : constraint_list).
  exists fnm_all, (mkPD [svc "a" 1; svc "b" 1] [(s_ "a/0", c1); (s_ "b/0", rack_is "1")] []),
    [(s_ "node0", [rack "1"]); (s_ "node1", [rack "2"])].
  eexists. exists (fun s => if str_eqb s (s_ "a/0") then s_ "node1" else s_ "node0"). eexists.
  split; [vm_compute; reflexivity|]. split; [reflexivity|]. split; [|split; [|vm_compute; reflexivity]].
  - intros s [<-|[<-|[]]]; (split; [cbn; auto|]); intros c [[_ [H|[H|[]]]]|[H _]];
      try discriminate H; try (exfalso; apply H; cbn; auto; fail).
    + replace c with c1 by (symmetry; congruence).
      intros cs [<-|[]]. eexists. split; [left; reflexivity|]. eexists. split; [left; reflexivity|].
      split; [reflexivity|]. left. eexists. split; [left; reflexivity|]. cbn. discriminate.
    + replace c with (rack_is "1") by (symmetry; congruence).
      intros cs [<-|[]]. eexists. split; [left; reflexivity|]. eexists. split; [left; reflexivity|].
      split; [reflexivity|]. left. eexists. split; [left; reflexivity|]. reflexivity.
  - intros s1 s2 [<-|[<-|[]]] [<-|[<-|[]]]; cbn; intros K; try reflexivity; discriminate.
Qed.
Print Assumptions C09_greedy_refuted.
