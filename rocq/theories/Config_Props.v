(** Properties C05-C08: grids, instance names, service shapes, validation. *)
From Coq Require Import Ascii String List NArith ZArith Bool Lia.
From Verif Require Import Base_Model Base_Proofs Grid_Model Grid_Proofs Canon_Model Canon_Proofs.
Import ListNotations.
Open Scope Z_scope.

(** C05. *)
Theorem C05_grid_bijection : forall s, canonical s ->
  (forall i, 0 <= i < get_count s ->
     exists g, service_index s i = Some g /\ in_grid s g /\ instance_from_grid s g = i) /\
  (forall g, in_grid s g ->
     0 <= instance_from_grid s g < get_count s /\ service_index s (instance_from_grid s g) = Some g).
Proof. exact grid_bijection. Qed.
Print Assumptions C05_grid_bijection.

Definition cube : service_spec := mkSpec (s_ "cube") (Some 24) None (Some 2) (Some 3) (Some 4).
Example C05_example : canonical cube /\ service_index cube 17 = Some (mkGI 1 2 2).
Proof.
  split; [|reflexivity]. constructor; cbn; try discriminate.
  - exists 2. split; [reflexivity|lia].
  - intros y [= <-]; lia.
  - intros z [= <-]; split; [lia|discriminate].
  - reflexivity.
Qed.

(** C06. *)
Theorem C06_names_unique : forall services,
  Forall canonical services -> Forall (fun s => no_slash (sp_name s)) services ->
  NoDup (map sp_name services) ->
  NoDup (all_instance_names services) /\ ~ In None (all_instance_names services).
Proof. exact all_names_unique. Qed.
Print Assumptions C06_names_unique.

Theorem C06_names_parse_back : forall s i, dims_positive s -> no_slash (sp_name s) ->
  exists n g, instance_name s i = Some n /\ service_index s i = Some g /\ grid_index_from_name n = Some g.
Proof. exact name_parses. Qed.
Print Assumptions C06_names_parse_back.

Example C06_example : instance_name cube 17 = Some (s_ "cube/1/2/2") /\ no_slash (sp_name cube) /\
  grid_index_from_name (s_ "cube/1/2/2") = Some (mkGI 1 2 2).
Proof. split; [reflexivity|]. split; [|reflexivity]. unfold no_slash; cbn. intuition discriminate. Qed.

(** A '/' in a service name breaks both halves: two instances share a name,
    the coordinate read back is wrong, or the process aborts. *)
Theorem C06_slash_in_name_refuted :
  (exists s1 i1 s2 i2, canonical s1 /\ canonical s2 /\ sp_name s1 <> sp_name s2 /\
     0 <= i1 < get_count s1 /\ 0 <= i2 < get_count s2 /\
     instance_name s1 i1 = instance_name s2 i2) /\
  (exists s i n, canonical s /\ instance_name s i = Some n /\ grid_index_from_name n = None).
Proof.
  assert (C1 : forall n k, 0 < k <= int32_max -> canonical (mkSpec n (Some k) None (Some k) None None)).
  { intros n k Hk. constructor; cbn; try discriminate.
    - exists k. split; [reflexivity|lia].
    - f_equal. unfold x_size, y_size, z_size, dim; cbn. lia.
    - unfold x_size, y_size, z_size, dim; cbn. lia. }
  split.
  - exists (mkSpec (s_ "a") (Some 4) None (Some 2) (Some 2) None), 2,
           (mkSpec (s_ "a/0") (Some 2) None (Some 2) None None), 1.
    split; [|split; [apply C1; unfold int32_max; lia|]].
    + constructor; cbn; try discriminate.
      * exists 2. split; [reflexivity|lia].
      * intros y [= <-]; lia.
      * reflexivity.
    + split; [discriminate|]. cbn [get_count sp_count]. split; [lia|]. split; [lia|]. vm_compute. reflexivity.
  - exists (mkSpec (s_ "a/b") (Some 2) None (Some 2) None None), 1, (s_ "a/b/1").
    split; [apply C1; unfold int32_max; lia|]. split; vm_compute; reflexivity.
Qed.
Print Assumptions C06_slash_in_name_refuted.

(** C07. *)
Theorem C07_accepts_only_valid_shapes : forall s s',
  canonical_spec s = CanonOk s' -> acceptable s /\ completes s s'.
Proof. exact canonical_spec_sound. Qed.
Print Assumptions C07_accepts_only_valid_shapes.

Theorem C07_accepts_all_valid_shapes : forall s,
  acceptable s -> fits s -> exists s', canonical_spec s = CanonOk s'.
Proof. exact canonical_spec_complete. Qed.
Print Assumptions C07_accepts_all_valid_shapes.

Theorem C07_result_canonical : forall s s',
  canonical_spec s = CanonOk s' -> 0 < get_count s' <= int32_max -> canonical s'.
Proof. exact canonical_spec_canonical. Qed.
Print Assumptions C07_result_canonical.

Theorem C07_idempotent : forall s s',
  canonical_spec s = CanonOk s' -> 0 < get_count s' <= int32_max -> canonical_spec s' = CanonOk s'.
Proof. exact canonical_spec_idempotent. Qed.
Print Assumptions C07_idempotent.

Theorem C07_overflow_only_when_too_big : forall s,
  canonical_spec s = CanonUB -> (forall v, sp_x s = Some v -> v <= int32_max) -> ~ fits s.
Proof. exact canonical_spec_ub. Qed.
Print Assumptions C07_overflow_only_when_too_big.

Example C07_example :
  canonical_spec (mkSpec (s_ "a") None None (Some 3) (Some 5) None)
  = CanonOk (mkSpec (s_ "a") (Some 15) None (Some 3) (Some 5) None) /\
  canonical_spec (mkSpec (s_ "a") (Some 4) None None None None)
  = CanonOk (mkSpec (s_ "a") (Some 4) None (Some 4) None None).
Proof. split; reflexivity. Qed.

(** Without a size or a count the accepted result is rejected the second time,
    and large positive sizes overflow int. *)
Theorem C07_idempotent_refuted : exists s s',
  canonical_spec s = CanonOk s' /\ canonical_spec s' = CanonErr XNotPositive.
Proof.
  exists (mkSpec (s_ "a") None None None None None). eexists. split; reflexivity.
Qed.
Print Assumptions C07_idempotent_refuted.

Theorem C07_no_overflow_refuted : exists s,
  (forall v, sp_x s = Some v \/ sp_y s = Some v -> 0 < v <= int32_max) /\
  acceptable s /\ canonical_spec s = CanonUB.
Proof.
  exists (mkSpec (s_ "a") None None (Some 65536) (Some 65536) None).
  split; [|split; [|reflexivity]].
  - cbn. intros v [K|K]; injection K as <-; unfold int32_max; lia.
  - unfold acceptable; cbn. repeat split; try congruence; intros v [K|[K|K]]; congruence || (injection K as <-; lia).
Qed.
Print Assumptions C07_no_overflow_refuted.

(** C08: exactly what validation accepts, and what it changes.  The predicate
    and replay parts of [test_valid] are weaker than documented, hence
    partial; the gaps are the refutations below. *)
Theorem C08_validation_partial : forall t,
  (forall t', canonical_sequence t = VOk t' ->
     Forall test_valid (ts_tests t) /\ Forall2 dsd_completes (ts_tests t) (ts_tests t') /\
     (forall s, ts_settings t = Some s -> ts_settings t' = Some s)) /\
  (Forall test_valid (ts_tests t) -> Forall (fun d => Forall fits (d_services d)) (ts_tests t) ->
     exists t', canonical_sequence t = VOk t').
Proof. exact canonical_sequence_spec. Qed.
Print Assumptions C08_validation_partial.

Definition good_test : dsd :=
  mkDsd [mkSpec (s_ "client") (Some 2) None None None None; mkSpec (s_ "server") None None (Some 2) (Some 2) None]
        [mkTrace (Some (s_ "client")) (Some (s_ "client")) (mkTrRec (Some 1) None) [mkTrRec None (Some 0)]]
        [mkActDesc (Some (Some (s_ "exponential"))); mkActDesc None]
        [mkALDesc [s_ "p"]] [].
Example C08_example : exists t',
  canonical_sequence (mkSeq None [good_test]) = VOk t'.
Proof. eexists. vm_compute. reflexivity. Qed.

Theorem C08_bang_predicate_refuted : exists d d' p,
  In p (flat_map al_predicates (d_action_lists d)) /\ starts_with p (s_ "!") = true /\
  canonical_dsd d = VOk d'.
Proof.
  exists (mkDsd [] [] [] [mkALDesc [s_ "!p"]] []). eexists. exists (s_ "!p").
  split; [left; reflexivity|]. split; vm_compute; reflexivity.
Qed.
Print Assumptions C08_bang_predicate_refuted.

(** A replay record naming an instance that does not exist is accepted (the
    index may equal the size, or be negative) ... *)
Theorem C08_replay_index_refuted : exists i j, j < 0 /\ 
  let services := [mkSpec (s_ "s") (Some 2) None None None None] in
  let d := mkDsd services [mkTrace (Some (s_ "s")) (Some (s_ "s")) (mkTrRec None None)
                                   [mkTrRec (Some j) (Some i)]] [] [] [] in
  i = get_count (mkSpec (s_ "s") (Some 2) None None None None) /\
  exists d', canonical_dsd d = VOk d'.
Proof. exists 2, (-1). split; [lia|]. split; [reflexivity|]. eexists. vm_compute. reflexivity. Qed.
Print Assumptions C08_replay_index_refuted.

(** ... and a replay between existing instances of a grid service that gave
    only its dimensions is rejected. *)
Theorem C08_replay_grid_refuted : exists s s', canonical_spec s = CanonOk s' /\ get_count s' = 4 /\
  canonical_dsd (mkDsd [s] [mkTrace (Some (sp_name s)) (Some (sp_name s)) (mkTrRec None None)
                                    [mkTrRec (Some 0) (Some 3)]] [] [] []) = VErr EServerIndex.
Proof.
  exists (mkSpec (s_ "s") None None (Some 4) None None). eexists.
  split; [reflexivity|]. split; vm_compute; reflexivity.
Qed.
Print Assumptions C08_replay_grid_refuted.
