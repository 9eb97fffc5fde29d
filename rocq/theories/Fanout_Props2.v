(** Properties C15 and C18, continued: what remains true, and how far the code
    departs from the statement, outside the proved part. *)
From Coq Require Import Ascii String List NArith ZArith QArith Bool Lia Permutation.
From Verif Require Import Base_Model Base_Proofs Grid_Model Grid_Proofs Fanout_Model Fanout_Proofs Fanout_Proofs2.
Import ListNotations.
Open Scope Z_scope.

Definition two_peers : service_spec := mkSpec (s_ "server") (Some 2) None (Some 2) None None.
Definition two_env (me : grid_index) : fanout_env := mkEnv false 3 me two_peers 2 0 (fun lo _ => lo) 0 (fun l => l).
Lemma two_env_ok x y z : 0 <= x -> 0 <= y -> 0 <= z -> env_ok (two_env (mkGI x y z)).
Proof.
  intros. constructor; cbn; try discriminate; try reflexivity; try lia; auto.
  constructor; cbn; try discriminate.
  - exists 2. split; [reflexivity|lia].
  - reflexivity.
Qed.

(** C15.  For a sender of another service, exactly when all targets of a grid
    filter exist: [furthest] is the instance number of the sender's named
    coordinates and the last value of the others. *)
Theorem C15_grid_exact : forall e fx fy fz, env_ok e -> fe_exclude_self e = false ->
  exists l, pick_targets e (FGrid fx fy fz) = PickOk l /\ l <> [] /\
    ((forall t, In t l -> 0 <= t < fe_n e) <-> furthest e fx fy fz < fe_n e).
Proof. exact grid_exact. Qed.
Print Assumptions C15_grid_exact.

(** When a named coordinate does not exist in the target grid the filter still
    sends, and never to an instance with the coordinates it names: the target
    does not exist, or it is an instance with other coordinates. *)
Theorem C15_foreign_grid : forall e fx fy fz, env_ok e -> ~ grid_compatible e fx fy fz ->
  exists l, pick_targets e (FGrid fx fy fz) = PickOk l /\ l <> [] /\
    forall t g, In t l -> in_grid (fe_peer e) g -> t = instance_from_grid (fe_peer e) g ->
      ~ (matches fx (gx g) (gx (fe_me e)) /\ matches fy (gy g) (gy (fe_me e)) /\ matches fz (gz g) (gz (fe_me e))).
Proof. exact grid_foreign. Qed.
Print Assumptions C15_foreign_grid.

Definition flat_peers : service_spec := mkSpec (s_ "server") (Some 6) None (Some 2) (Some 3) None.
Definition flat_env (me : grid_index) : fanout_env := mkEnv false 3 me flat_peers 6 0 (fun lo _ => lo) 0 (fun l => l).
(** Both departures: same_xy from (2,0) is sent to the instance at (0,1), from
    (2,2) to an instance past the end. *)
Example C15_exact_example :
  env_ok (flat_env (mkGI 2 0 0)) /\ ~ grid_compatible (flat_env (mkGI 2 0 0)) true true false /\
  pick_targets (flat_env (mkGI 2 0 0)) (FGrid true true false) = PickOk [2] /\
  service_index flat_peers 2 = Some (mkGI 0 1 0) /\
  furthest (flat_env (mkGI 2 0 0)) true true false = 2 /\
  pick_targets (flat_env (mkGI 2 2 0)) (FGrid true true false) = PickOk [6] /\
  furthest (flat_env (mkGI 2 2 0)) true true false = 6 /\ fe_n (flat_env (mkGI 2 2 0)) = 6.
Proof.
  split.
  { constructor; cbn; try discriminate; try reflexivity; try lia; auto.
    constructor; cbn; try discriminate.
    - exists 2. split; [reflexivity|lia].
    - intros y [= <-]; lia.
    - reflexivity. }
  split; [intros (A & _); specialize (A eq_refl); vm_compute in A; discriminate|].
  repeat split; vm_compute; reflexivity.
Qed.

(** C18.  With at most [k] iterations between their read and their increment of
    the counter, no peer receives more than [k] times its share, plus [k]. *)
Theorem C18_parallel_bound : forall e c target_of k sched t,
  env_ok e -> 0 <= c -> 0 < num_eligible e -> (0 < k)%nat ->
  (forall v, 0 <= v -> pick_targets (with_counter e v) FRoundRobin = PickOk [target_of v]) ->
  in_flight k [] sched ->
  received t (rr_targets (fold_left (rr_exec target_of) sched (mkRR c []))) <=
  Z.of_nat k * (increments sched / num_eligible e + 1).
Proof. exact round_robin_parallel. Qed.
Print Assumptions C18_parallel_bound.

(** The bound is the strongest of its kind: two iterations that stay in step
    send every RPC to one of two peers, for as long as they run. *)
Theorem C18_starved_refuted : exists e target_of, env_ok e /\ num_eligible e = 2 /\
  (forall v, 0 <= v -> pick_targets (with_counter e v) FRoundRobin = PickOk [target_of v]) /\
  forall n, exists sched, in_flight 2 [] sched /\ increments sched = 2 * Z.of_nat n /\
    let l := rr_targets (fold_left (rr_exec target_of) sched (mkRR 0 [])) in
    length l = (2 * n)%nat /\ forall p, In p l -> snd p = 0.
Proof.
  exists (two_env (mkGI 0 0 0)), (fun v => v mod 2).
  assert (H : env_ok (two_env (mkGI 0 0 0))) by (apply two_env_ok; lia).
  split; [exact H|]. split; [reflexivity|]. split.
  { intros v Hv. exact (round_robin_target _ v H Hv eq_refl). }
  intros n. exists (lockstep n). split; [apply lockstep_ok|]. split.
  { induction n as [|n IH]; [reflexivity|]. unfold increments in *. cbn [lockstep filter length]. lia. }
  destruct (lockstep_run (fun v => v mod 2) n 0 []) as (l' & E & L & P). rewrite E. cbn [rr_targets app].
  split; [exact L|]. intros p K. destruct (P p K) as (q & Hq & ->).
  rewrite Z.add_0_l, Z.mul_comm. apply Z_mod_mult.
Qed.
Print Assumptions C18_starved_refuted.

Example C18_parallel_example :
  in_flight 2 [] [RRPick 0; RRPick 1; RRIncr 1; RRPick 2; RRIncr 0; RRIncr 2]%nat /\
  map snd (rr_targets (fold_left (rr_exec (fun v => v mod 2))
     [RRPick 0; RRPick 1; RRIncr 1; RRPick 2; RRIncr 0; RRIncr 2]%nat (mkRR 0 []))) = [0; 0; 1] /\
  ~ in_flight 1 [] [RRPick 0; RRPick 1; RRIncr 1; RRIncr 0]%nat.
Proof.
  split; [cbn; repeat split; auto; try lia; intros [K|[]]; discriminate|].
  split; [vm_compute; reflexivity|]. cbn. intros (_ & _ & _ & K & _). lia.
Qed.

(** C19.  Which strings after "linear_x{" are accepted: those that start with a
    number (white space and a sign allowed, anything may follow, such as a
    missing brace), and those with white space only, which mean distance 0. *)
Theorem C19_accepts : forall ps a r,
  (all_space r = true -> parse_filter ps (linear_name a ++ lbrace :: r) = Some (FLinear a 0)) /\
  (starts_with_number r -> exists d, parse_filter ps (linear_name a ++ lbrace :: r) = Some (FLinear a d)) /\
  (all_space r = false -> ~ starts_with_number r -> parse_filter ps (linear_name a ++ lbrace :: r) = None).
Proof. exact linear_accepts. Qed.
Print Assumptions C19_accepts.

Example C19_accepts_example :
  starts_with_number (s_ " -3junk") /\
  parse_filter (fun _ => None) (s_ "linear_y{ -3junk") = Some (FLinear AxY (-3)) /\
  parse_filter (fun _ => None) (s_ "linear_y{}") = None /\
  parse_filter (fun _ => None) (s_ "linear_y{ ") = Some (FLinear AxY 0).
Proof.
  split; [|repeat split; vm_compute; reflexivity].
  exists (s_ " "), [minus], "3"%char, (s_ "junk"). repeat split; cbn; auto.
Qed.
