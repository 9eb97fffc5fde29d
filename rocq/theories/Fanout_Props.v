(** Properties C15-C21: which peers an RPC is sent to. *)
From Coq Require Import Ascii String List NArith ZArith QArith Bool Lia Permutation.
From Verif Require Import Base_Model Base_Proofs Grid_Model Grid_Proofs Fanout_Model Fanout_Proofs.
Import ListNotations.
Open Scope Z_scope.

(** A 3x2x2 service and the situation of its instance [i]. *)
Definition mesh : service_spec := mkSpec (s_ "mesh") (Some 12) None (Some 3) (Some 2) (Some 2).
Definition mesh_env (i : Z) (g : grid_index) : fanout_env :=
  mkEnv true i g mesh 12 7 (fun lo _ => lo) (1 # 2) (fun l => l).
Lemma mesh_canonical : canonical mesh.
Proof.
  constructor; cbn; try discriminate.
  - exists 3. split; [reflexivity|lia].
  - intros y [= <-]; lia.
  - intros z [= <-]; split; [lia|discriminate].
  - reflexivity.
Qed.
Lemma mesh_env_ok i g : 0 <= i < 12 -> service_index mesh i = Some g -> env_ok (mesh_env i g).
Proof.
  intros Hi E. destruct (proj1 (grid_bijection mesh mesh_canonical) i Hi) as (g' & E1 & (A & B & C) & _).
  assert (g' = g) as -> by congruence.
  constructor; cbn; auto using mesh_canonical; try lia.
Qed.

(** C15.  [supported e f] excludes only stochastic filters and grid filters
    naming a coordinate of the sender that the target grid does not have. *)
Theorem C15_targets_valid : forall e f, env_ok e -> supported e f ->
  exists l, pick_targets e f = PickOk l /\ NoDup l /\
    forall t, In t l -> 0 <= t < fe_n e /\ (fe_exclude_self e = true -> t <> fe_self e).
Proof. exact targets_valid. Qed.
Print Assumptions C15_targets_valid.

Theorem C15_within_service_always_supported : forall e f, env_ok e -> fe_exclude_self e = true ->
  (forall d, f <> FStochastic d) -> supported e f.
Proof.
  exact (fun e f H Ex Hf =>
    match f as f0 return (forall d, f0 <> FStochastic d) -> supported e f0 with
    | FGrid fx fy fz => fun _ => same_service_compatible e fx fy fz H Ex
    | FStochastic d => fun K => K d eq_refl
    | _ => fun _ => I
    end Hf).
Qed.
Print Assumptions C15_within_service_always_supported.

Example C15_example : env_ok (mesh_env 4 (mkGI 1 1 0)) /\ supported (mesh_env 4 (mkGI 1 1 0)) (FGrid true false false) /\
  pick_targets (mesh_env 4 (mkGI 1 1 0)) (FGrid true false false) = PickOk [7; 10; 1].
Proof. split; [apply mesh_env_ok; [lia|reflexivity]|]. split; [|vm_compute; reflexivity]. repeat split; cbn; intros; try discriminate; reflexivity. Qed.

(** A sender from a larger grid using same_x addresses an instance that does
    not exist (the code then indexes past the end of the peer table). *)
Theorem C15_foreign_grid_refuted : exists e f l t, env_ok e /\ (forall d, f <> FStochastic d) /\
  pick_targets e f = PickOk l /\ In t l /\ fe_n e <= t.
Proof.
  exists (mkEnv false 3 (mkGI 3 0 0) (mkSpec (s_ "server") (Some 2) None (Some 2) None None) 2 0
            (fun lo _ => lo) 0 (fun l => l)), (FGrid true false false), [3], 3.
  split; [|split; [discriminate|split; [reflexivity|split; [left; reflexivity|cbn; lia]]]].
  constructor; cbn; try discriminate; try reflexivity; try lia; auto.
  constructor; cbn; try discriminate.
  - exists 2. split; [reflexivity|lia].
  - reflexivity.
Qed.
Print Assumptions C15_foreign_grid_refuted.

(** C16. *)
Theorem C16_grid_filters : forall e fx fy fz, env_ok e -> grid_compatible e fx fy fz ->
  exists l, pick_targets e (FGrid fx fy fz) = PickOk l /\ NoDup l /\
    forall t, In t l <->
      exists g, in_grid (fe_peer e) g /\ matches fx (gx g) (gx (fe_me e)) /\
             matches fy (gy g) (gy (fe_me e)) /\ matches fz (gz g) (gz (fe_me e)) /\
             t = instance_from_grid (fe_peer e) g /\ (fe_exclude_self e = true -> t <> fe_self e).
Proof. exact grid_targets. Qed.
Print Assumptions C16_grid_filters.

Example C16_example : exists e, env_ok e /\ grid_compatible e false true true /\
  pick_targets e (FGrid false true true) = PickOk [11; 9].
Proof.
  exists (mesh_env 10 (mkGI 1 1 1)). split; [apply mesh_env_ok; [lia|reflexivity]|].
  split; [repeat split; cbn; intros; try discriminate; reflexivity|vm_compute; reflexivity].
Qed.

(** C17. *)
Theorem C17_ring_target : forall e alt a, env_ok e -> in_grid (fe_peer e) (fe_me e) ->
  exists g', in_grid (fe_peer e) g' /\ ring_step (fe_peer e) a (direction alt a (fe_me e)) (fe_me e) g' /\
    let t := instance_from_grid (fe_peer e) g' in
    pick_targets e (ring_filter alt a) = PickOk (if fe_exclude_self e && (t =? fe_self e) then [] else [t]).
Proof. exact ring_targets. Qed.
Print Assumptions C17_ring_target.

Theorem C17_ring_permutes : forall s alt a g1 g2, canonical s -> in_grid s g1 -> in_grid s g2 ->
  ring_next s alt a g1 = ring_next s alt a g2 -> g1 = g2.
Proof. exact ring_next_inj. Qed.
Print Assumptions C17_ring_permutes.

Theorem C17_ring_visits_line : forall s alt a g g', canonical s -> in_grid s g -> in_grid s g' ->
  (forall b, b <> a -> axis_get b g' = axis_get b g) ->
  exists k, (Z.of_nat k < axis_size a s) /\ iter k (ring_next s alt a) g = g'.
Proof. exact ring_reaches. Qed.
Print Assumptions C17_ring_visits_line.

(** [ring_next] is the step of the picked target. *)
Theorem C17_next_is_step : forall s alt a g, ring_step s a (direction alt a g) g (ring_next s alt a g).
Proof. exact ring_next_step. Qed.
Print Assumptions C17_next_is_step.

Example C17_example :
  pick_targets (mesh_env 2 (mkGI 2 0 0)) (FRing AxX) = PickOk [0] /\
  pick_targets (mesh_env 3 (mkGI 0 1 0)) (FAltRing AxX) = PickOk [5] /\
  env_ok (mesh_env 3 (mkGI 0 1 0)) /\ in_grid mesh (mkGI 0 1 0).
Proof.
  split; [vm_compute; reflexivity|]. split; [vm_compute; reflexivity|].
  split; [apply mesh_env_ok; [lia|reflexivity]|]. unfold in_grid; cbn. lia.
Qed.

(** C18. *)
Theorem C18_round_robin_fair : forall e c target_of k,
  env_ok e -> 0 <= c -> 0 < num_eligible e ->
  (forall v, 0 <= v -> pick_targets (with_counter e v) FRoundRobin = PickOk [target_of v]) ->
  let run := fold_left (rr_exec target_of)
               (flat_map (fun i => [RRPick i; RRIncr i]) (seq 0 (k + Z.to_nat (num_eligible e)))) (mkRR c []) in
  Permutation (skipn k (map snd (rr_targets run))) (eligible e).
Proof. exact round_robin_fair. Qed.
Print Assumptions C18_round_robin_fair.

(** The hypothesis of C18_round_robin_fair always has a solution. *)
Theorem C18_round_robin_defined : forall e v, env_ok e -> 0 <= v -> 0 < num_eligible e ->
  pick_targets (with_counter e v) FRoundRobin = PickOk [slot_target e (v mod num_eligible e)].
Proof. exact round_robin_target. Qed.
Print Assumptions C18_round_robin_defined.

Theorem C18_random_single_uniform : forall e, env_ok e -> 0 < num_eligible e ->
  Permutation
    (flat_map (fun r => the_target (pick_targets (with_draw e r) FRandomSingle)) (zrange 0 (num_eligible e)))
    (eligible e).
Proof. exact random_single_bijective. Qed.
Print Assumptions C18_random_single_uniform.

(** Two iterations running at once both read the counter before either
    increments it: one window of two RPCs hits one peer twice and skips the
    other. *)
Theorem C18_concurrent_refuted : exists e target_of sched,
  env_ok e /\ num_eligible e = 2 /\
  (forall v, 0 <= v -> pick_targets (with_counter e v) FRoundRobin = PickOk [target_of v]) /\
  Permutation sched [RRPick 0; RRIncr 0; RRPick 1; RRIncr 1]%nat /\
  ~ Permutation (map snd (rr_targets (fold_left (rr_exec target_of) sched (mkRR 0 [])))) (eligible e).
Proof.
  set (e := mkEnv false 0 (mkGI 0 0 0) (mkSpec (s_ "server") (Some 2) None (Some 2) None None) 2 0
            (fun lo _ => lo) 0 (fun l => l)).
  assert (H : env_ok e).
  { constructor; cbn; try discriminate; try reflexivity; try lia; auto.
    constructor; cbn; try discriminate.
    - exists 2. split; [reflexivity|lia].
    - reflexivity. }
  exists e, (fun v => slot_target e (v mod num_eligible e)), [RRPick 0; RRPick 1; RRIncr 0; RRIncr 1]%nat.
  split; [exact H|]. split; [reflexivity|]. split.
  { intros v Hv. apply round_robin_target; [exact H|exact Hv|reflexivity]. }
  split; [apply perm_skip, perm_swap|].
  intros P. apply Permutation_sym in P. apply (Permutation_in 1) in P; [|vm_compute; auto].
  vm_compute in P. intuition discriminate.
Qed.
Print Assumptions C18_concurrent_refuted.

Example C18_example : env_ok (mesh_env 4 (mkGI 1 1 0)) /\ num_eligible (mesh_env 4 (mkGI 1 1 0)) = 11 /\
  pick_targets (mesh_env 4 (mkGI 1 1 0)) FRoundRobin = PickOk [7] /\
  pick_targets (with_counter (mesh_env 4 (mkGI 1 1 0)) 15) FRoundRobin = PickOk [11].
Proof. split; [apply mesh_env_ok; [lia|reflexivity]|]. repeat split; vm_compute; reflexivity. Qed.

(** C19. *)
Theorem C19_linear_target : forall e a d, env_ok e ->
  exists l, pick_targets e (FLinear a d) = PickOk l /\ NoDup l /\ (length l <= 1)%nat /\
    forall t, In t l <-> exists g, in_grid (fe_peer e) g /\ shifted a d (fe_me e) g /\
                          t = instance_from_grid (fe_peer e) g /\ (fe_exclude_self e = true -> t <> fe_self e).
Proof. exact linear_targets. Qed.
Print Assumptions C19_linear_target.

Theorem C19_linear_parses : forall ps d,
  parse_filter ps (s_ "linear_x{" ++ dec_of_Z d ++ s_ "}") = Some (FLinear AxX d) /\
  parse_filter ps (s_ "linear_y{" ++ dec_of_Z d ++ s_ "}") = Some (FLinear AxY d) /\
  parse_filter ps (s_ "linear_z{" ++ dec_of_Z d ++ s_ "}") = Some (FLinear AxZ d).
Proof. exact linear_parses. Qed.
Print Assumptions C19_linear_parses.

(** A linear filter with its distance missing is accepted as distance 0. *)
Theorem C19_missing_distance_refuted : forall ps,
  parse_filter ps (s_ "linear_x{") = Some (FLinear AxX 0).
Proof. exact (fun ps => eq_refl). Qed.
Print Assumptions C19_missing_distance_refuted.

Example C19_example : env_ok (mesh_env 4 (mkGI 1 1 0)) /\
  pick_targets (mesh_env 4 (mkGI 1 1 0)) (FLinear AxX (-1)) = PickOk [3] /\
  pick_targets (mesh_env 4 (mkGI 1 1 0)) (FLinear AxX 2) = PickOk [].
Proof. split; [apply mesh_env_ok; [lia|reflexivity]|]. split; vm_compute; reflexivity. Qed.

(** C20. *)
Theorem C20_staggered_order : forall e, env_ok e -> fe_exclude_self e = true ->
  pick_targets e (FGrid false false false) =
  PickOk (map (fun k => (fe_self e + k) mod fe_n e) (zrange 1 (fe_n e))).
Proof. exact staggered. Qed.
Print Assumptions C20_staggered_order.

Theorem C20_no_common_destination : forall e1 e2 l1 l2 k t1 t2,
  env_ok e1 -> env_ok e2 -> fe_exclude_self e1 = true -> fe_exclude_self e2 = true ->
  fe_peer e1 = fe_peer e2 -> fe_self e1 <> fe_self e2 ->
  pick_targets e1 (FGrid false false false) = PickOk l1 ->
  pick_targets e2 (FGrid false false false) = PickOk l2 ->
  nth_error l1 k = Some t1 -> nth_error l2 k = Some t2 -> t1 <> t2.
Proof. exact staggered_distinct. Qed.
Print Assumptions C20_no_common_destination.

Example C20_example :
  pick_targets (mesh_env 10 (mkGI 1 1 1)) (FGrid false false false) = PickOk [11; 0; 1; 2; 3; 4; 5; 6; 7; 8; 9] /\
  env_ok (mesh_env 10 (mkGI 1 1 1)) /\ env_ok (mesh_env 11 (mkGI 2 1 1)).
Proof. split; [vm_compute; reflexivity|]. split; apply mesh_env_ok; (lia || reflexivity). Qed.

(** C21.  The intended behaviour is [stochastic_spec]: as many distinct
    eligible peers as drawn. *)
Definition stochastic_spec (e : fanout_env) (drawn : Z) (l : list Z) : Prop :=
  NoDup l /\ (forall t, In t l -> In t (eligible e)) /\ Z.of_nat (length l) = Z.min drawn (num_eligible e).

Theorem C21_cardinality : forall dist rv c, stochastic_count dist rv 0 = c ->
  (exists pre p post, dist = pre ++ (p, c) :: post /\ (rv <= 0 + cumulative pre + p)%Q /\
     forall q m mid, pre = q ++ m :: mid -> (0 + cumulative q + fst m < rv)%Q) \/
  (c = 0 /\ forall q m mid, dist = q ++ m :: mid -> (0 + cumulative q + fst m < rv)%Q).
Proof. exact (fun dist rv => stochastic_count_spec_aux dist rv 0%Q). Qed.
Print Assumptions C21_cardinality.

(** What holds: the number of RPCs is the drawn cardinality capped by the size
    of the service, and every RPC goes to instance 0 (none at all when the
    sender itself is instance 0 of the service).  Missing from the full
    statement: distinct destinations. *)
Theorem C21_stochastic_partial : forall e dist, env_ok e ->
  exists k, pick_targets e (FStochastic dist) = PickOk (repeat 0 k) /\
    (Z.of_nat k <= Z.max 0 (stochastic_count dist (fe_rv e) 0)) /\ Z.of_nat k <= fe_n e /\
    (fe_exclude_self e = false -> 0 <= stochastic_count dist (fe_rv e) 0 ->
     Z.of_nat k = Z.min (stochastic_count dist (fe_rv e) 0) (fe_n e)) /\
    (fe_exclude_self e = true -> fe_self e = 0 -> k = 0%nat) /\
    (fe_exclude_self e = true -> fe_self e <> 0 -> 0 <= stochastic_count dist (fe_rv e) 0 ->
     Z.of_nat k = Z.min (stochastic_count dist (fe_rv e) 0) (fe_n e)).
Proof. exact stochastic_targets. Qed.
Print Assumptions C21_stochastic_partial.

Theorem C21_distinct_peers_refuted : exists e dist l, env_ok e /\
  stochastic_count dist (fe_rv e) 0 = 3 /\ 3 <= num_eligible e /\
  pick_targets e (FStochastic dist) = PickOk l /\ ~ stochastic_spec e 3 l /\ ~ NoDup l.
Proof.
  exists (mesh_env 4 (mkGI 1 1 0)), [((1 # 1)%Q, 3)], [0; 0; 0].
  assert (ND : ~ NoDup [0; 0; 0]) by (intros K; inversion K as [|? ? K1 _]; apply K1; left; reflexivity).
  split; [apply mesh_env_ok; [lia|reflexivity]|]. split; [reflexivity|]. split; [vm_compute; discriminate|].
  split; [reflexivity|]. split; [intros [K _]; auto|exact ND].
Qed.
Print Assumptions C21_distinct_peers_refuted.
