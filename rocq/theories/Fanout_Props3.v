(** Properties C15 to C18, continued: what the names of the filters mean. *)
From Coq Require Import Ascii String List NArith ZArith QArith Bool Lia Permutation.
From Verif Require Import Base_Model Base_Proofs Grid_Model Grid_Proofs Fanout_Model Fanout_Proofs Fanout_Props.
Import ListNotations.
Open Scope Z_scope.

(** The letters of the axes in the order of the names. *)
Definition axes (x y z : bool) : str := ((if x then s_ "x" else []) ++ (if y then s_ "y" else []) ++ (if z then s_ "z" else []))%list.
Definition letter (a : axis) : str := match a with AxX => s_ "x" | AxY => s_ "y" | AxZ => s_ "z" end.

(** "same_" and some axes: the instances with the same coordinates on these axes;
    "all" and the empty filter: every instance. *)
Theorem C16_names : forall ps e x y z, env_ok e -> grid_compatible e x y z ->
  forall name, (axes x y z <> [] /\ name = s_ "same_" ++ axes x y z \/ axes x y z = [] /\ (name = s_ "all" \/ name = [])) ->
  exists f l, parse_filter ps name = Some f /\ pick_targets e f = PickOk l /\ NoDup l /\
    forall t, In t l <->
      exists g, in_grid (fe_peer e) g /\ (x = true -> gx g = gx (fe_me e)) /\ (y = true -> gy g = gy (fe_me e)) /\ (z = true -> gz g = gz (fe_me e)) /\
             t = instance_from_grid (fe_peer e) g /\ (fe_exclude_self e = true -> t <> fe_self e).
Proof.
  intros ps e x y z K G name N. destruct (C16_grid_filters e x y z K G) as (l & E & D & T). exists (FGrid x y z), l. split.
  - destruct x, y, z; (destruct N as [[A ->]|[A B]]; [try (exfalso; apply A; reflexivity); reflexivity|try discriminate A]); destruct B as [->| ->]; reflexivity.
  - split; [exact E|]. split; [exact D|]. intros t. rewrite (T t). unfold matches. reflexivity.
Qed.
(** "ring_" and "alternating_ring_" with an axis. *)
Theorem C17_names : forall ps e (alt : bool) a, env_ok e -> in_grid (fe_peer e) (fe_me e) ->
  exists f g', parse_filter ps ((if alt then s_ "alternating_ring_" else s_ "ring_") ++ letter a)%list = Some f /\
    in_grid (fe_peer e) g' /\ ring_step (fe_peer e) a (direction alt a (fe_me e)) (fe_me e) g' /\
    let t := instance_from_grid (fe_peer e) g' in
    pick_targets e f = PickOk (if fe_exclude_self e && (t =? fe_self e) then [] else [t]).
Proof.
  intros ps e alt a K I. destruct (C17_ring_target e alt a K I) as (g' & G & R & P). exists (ring_filter alt a), g'.
  split; [destruct alt, a; reflexivity|]. auto.
Qed.
(** "random", "random_single" and "round_robin". *)
Theorem C18_names : forall ps e, env_ok e -> 0 < num_eligible e ->
  (exists f, parse_filter ps (s_ "random") = Some f /\ parse_filter ps (s_ "random_single") = Some f /\
     Permutation (flat_map (fun r => the_target (pick_targets (with_draw e r) f)) (zrange 0 (num_eligible e))) (eligible e)) /\
  (exists f, parse_filter ps (s_ "round_robin") = Some f /\
     forall v, 0 <= v -> pick_targets (with_counter e v) f = PickOk [slot_target e (v mod num_eligible e)]).
Proof.
  intros ps e K N. split; eexists; (split; [reflexivity|]).
  - split; [reflexivity|]. apply C18_random_single_uniform; assumption.
  - intros v V. apply C18_round_robin_defined; assumption.
Qed.
(** Nothing else without parameters is accepted, and with parameters only the four
    families. *)
Theorem C15_names : forall ps s, 
  (~ In "{"%char s -> (exists f, parse_filter ps s = Some f) <->
     In s (map s_ [""; "all"; "random"; "random_single"; "round_robin"; "same_x"; "same_y"; "same_z"; "same_xy"; "same_xz"; "same_yz"; "same_xyz";
                   "ring_x"; "ring_y"; "ring_z"; "alternating_ring_x"; "alternating_ring_y"; "alternating_ring_z"]%string)) /\
  (forall n r, ~ In "{"%char n -> s = (n ++ "{"%char :: r)%list -> parse_filter ps s <> None -> In n (map s_ ["stochastic"; "linear_x"; "linear_y"; "linear_z"]%string)).
Proof.
  intros ps s. assert (SB : forall s, ~ In "{"%char s -> split_brace s = None).
  { clear. induction s as [|c s IH]; intros N; [reflexivity|]. cbn [split_brace]. destruct (Ascii.eqb_spec c lbrace) as [E|E]; [destruct N; left; exact E|]. rewrite IH; [reflexivity|]. intros H. apply N. right. exact H. }
  split.
  - intros N. unfold parse_filter. rewrite (SB s N). destruct (map_find s fixed_filters) as [f|] eqn:F.
    + split; [intros _|eauto]. apply map_find_In in F. apply (in_map fst) in F. cbn [fst] in F. exact F.
    + split; [intros (f & H); discriminate H|]. intros H. exfalso. cbn [map] in H. repeat (destruct H as [H|H]; [rewrite <- H in F; discriminate F|]). destruct H.
  - intros n r N -> P. unfold parse_filter in P. rewrite map_find_none in P by (intros v H; apply fixed_no_brace in H; apply H; apply in_or_app; right; left; reflexivity).
    change "{"%char with lbrace in P. rewrite split_brace_at in P by exact N.
    destruct (str_eqb_spec n (s_ "stochastic")) as [E|_]; [left; auto|]. destruct (str_eqb_spec n (s_ "linear_x")) as [E|_]; [right; left; auto|].
    destruct (str_eqb_spec n (s_ "linear_y")) as [E|_]; [right; right; left; auto|]. destruct (str_eqb_spec n (s_ "linear_z")) as [E|_]; [right; right; right; left; auto|]. congruence.
Qed.
Print Assumptions C16_names.
Print Assumptions C17_names.
Print Assumptions C18_names.
Print Assumptions C15_names.
(** A 3x2x2 service: the filter "same_yz", a wrong one, and one with a distance. *)
Example C16_ex_names : grid_compatible (mesh_env 10 (mkGI 1 1 1)) false true true /\ s_ "same_" ++ axes false true true = s_ "same_yz" /\
  parse_filter (fun _ => None) (s_ "same_zy") = None /\ parse_filter (fun _ => None) (s_ "linear_x{2}") = Some (FLinear AxX 2) /\ 0 < num_eligible (mesh_env 10 (mkGI 1 1 1)).
Proof. split; [repeat split; cbn; intros; try discriminate; reflexivity|]. vm_compute. auto. Qed.
