(** Model of RPC fanout target selection (distbench_engine.cc).  Definitions only. *)
From Coq Require Import Ascii String List NArith ZArith QArith Bool.
From Verif Require Import Base_Model Grid_Model.
Import ListNotations.
Open Scope Z_scope.

(** distbench_engine.h:80-101 FanoutFilter.  kAll and the kSame* values are the
    eight combinations of the bits kSameX, kSameY, kSameZ. *)
Inductive axis := AxX | AxY | AxZ.
Inductive fanout :=
| FGrid (same_x same_y same_z : bool)
| FRing (a : axis)
| FAltRing (a : axis)
| FLinear (a : axis) (distance : Z)
| FRandomSingle
| FRoundRobin
| FStochastic (dist : list (Q * Z)).

(** distbench_engine.cc:2342-2377 PickGridTargets. *)
Definition zrange (a b : Z) : list Z := map (fun k => a + Z.of_nat k) (seq 0 (Z.to_nat (b - a))).
Definition pick_grid (fx fy fz : bool) (me : grid_index) (p : service_spec) : list Z :=
  let xr := if fx then zrange (gx me) (gx me + 1) else zrange 0 (x_size p) in
  let yr := if fy then zrange (gy me) (gy me + 1) else zrange 0 (y_size p) in
  let zr := if fz then zrange (gz me) (gz me + 1) else zrange 0 (z_size p) in
  flat_map (fun i => flat_map (fun j => map (fun k =>
     i + j * x_size p + k * x_size p * y_size p) zr) yr) xr.

(** distbench_engine.cc:2258-2288 PickLinearTargets.  Overflow of the int
    addition (a distance close to INT_MAX) is not modelled. *)
Definition pick_linear (a : axis) (d : Z) (me : grid_index) (p : service_spec) : list Z :=
  let x := match a with AxX => gx me + d | _ => gx me end in
  let y := match a with AxY => gy me + d | _ => gy me end in
  let z := match a with AxZ => gz me + d | _ => gz me end in
  if (x <? 0) || (y <? 0) || (z <? 0) then []
  else if (x_size p <=? x) || (y_size p <=? y) || (z_size p <=? z) then []
  else [x + y * x_size p + z * x_size p * y_size p].

(** distbench_engine.cc:2290-2340 PickRingTargets; None is a zero divisor. *)
Definition alt_step (parity : Z) : Z := if Z.odd parity then -1 else 1.
Definition pick_ring (alternating : bool) (a : axis) (me : grid_index) (p : service_spec) : option (list Z) :=
  let x0 := gx me + x_size p in
  let y0 := gy me + y_size p in
  let z0 := gz me + z_size p in
  let x := match a with AxX => x0 + (if alternating then alt_step (gy me) else 1) | _ => x0 end in
  let y := match a with AxY => y0 + (if alternating then alt_step (gx me) else 1) | _ => y0 end in
  let z := match a with AxZ => z0 + (if alternating then alt_step (gx me) else 1) | _ => z0 end in
  match cmod x (x_size p), cmod y (y_size p), cmod z (z_size p) with
  | Some x', Some y', Some z' => Some [x' + y' * x_size p + z' * x_size p * y_size p]
  | _, _, _ => None
  end.

(** distbench_engine.cc:2462-2474: the cardinality drawn by a stochastic
    filter (floats are rationals in this model), capped by num_servers. *)
Fixpoint stochastic_count (dist : list (Q * Z)) (rv acc : Q) : Z :=
  match dist with
  | [] => 0
  | (p, n) :: r => let acc' := (acc + p)%Q in
                   if Qle_bool rv acc' then n else stochastic_count r rv acc'
  end.

(** std::remove + erase of one value. *)
Definition remove_value (v : Z) (l : list Z) : list Z := filter (fun t => negb (t =? v)) l.

(** std::sort with the comparator of lines 2497-2501: by
    (t + num_servers - self) % num_servers.  Equal keys keep their order here
    (std::sort leaves it unspecified). *)
Definition rot_key (n self t : Z) : Z := Z.rem (t + (n - self)) n.
Fixpoint insert_by (key : Z -> Z) (t : Z) (l : list Z) : list Z :=
  match l with
  | [] => [t]
  | u :: r => if key t <=? key u then t :: l else u :: insert_by key t r
  end.
Fixpoint sort_by (key : Z -> Z) (l : list Z) : list Z :=
  match l with [] => [] | t :: r => insert_by key t (sort_by key r) end.

(** Everything PickRpcFanoutTargets reads: the engine's own service index and
    instance, its coordinate, the target service, num_servers, the RPC
    counter, and the random draws ([draw lo hi] stands for
    uniform_int_distribution(lo,hi), [rv] for absl::Uniform(0,1.0), [shuffle]
    for std::shuffle). *)
Record fanout_env := mkEnv {
  fe_exclude_self : bool;         (* rpc_service_index == service_index_ *)
  fe_self : Z;                    (* service_instance_ *)
  fe_me : grid_index;             (* grid_index_ *)
  fe_peer : service_spec;         (* server_service_spec *)
  fe_n : Z;                       (* num_servers = peers_[...].size() *)
  fe_counter : Z;                 (* rpc_tracing_counter *)
  fe_draw : Z -> Z -> Z;
  fe_rv : Q;
  fe_shuffle : list Z -> list Z }.

Inductive pick_result := PickUB | PickOk (targets : list Z).

(** The switch of lines 2392-2487: the raw targets. *)
Definition raw_targets (e : fanout_env) (f : fanout) : pick_result :=
  let n := fe_n e in
  match f with
  | FGrid fx fy fz => PickOk (pick_grid fx fy fz (fe_me e) (fe_peer e))
  | FLinear a d => PickOk (pick_linear a d (fe_me e) (fe_peer e))
  | FRing a => match pick_ring false a (fe_me e) (fe_peer e) with Some l => PickOk l | None => PickUB end
  | FAltRing a => match pick_ring true a (fe_me e) (fe_peer e) with Some l => PickOk l | None => PickUB end
  | FRandomSingle =>
      if fe_exclude_self e then
        if n - 2 <? 0 then PickUB
        else let t := fe_draw e 0 (n - 2) in
             PickOk [if t =? fe_self e then n - 1 else t]
      else if n - 1 <? 0 then PickUB
      else PickOk [fe_draw e 0 (n - 1)]
  | FRoundRobin =>
      if fe_exclude_self e then
        match cmod (fe_counter e) (n - 1) with
        | Some t => PickOk [if t =? fe_self e then n - 1 else t]
        | None => PickUB
        end
      else match cmod (fe_counter e) n with Some t => PickOk [t] | None => PickUB end
  | FStochastic dist =>
      let nb := stochastic_count dist (fe_rv e) 0 in
      let nb := if n <? nb then n else nb in
      (* reserve() leaves the vector empty: iota, erase and shuffle do nothing *)
      let v := fe_shuffle e (if fe_exclude_self e then remove_value (fe_self e) [] else []) in
      (* resize(nb_targets) value-initialises the new elements *)
      PickOk (firstn (Z.to_nat nb) v ++ repeat 0 (Z.to_nat nb - length v))
  end.

(** distbench_engine.cc:2381-2517 PickRpcFanoutTargets. *)
Definition pick_targets (e : fanout_env) (f : fanout) : pick_result :=
  if fe_exclude_self e && (fe_n e =? 1) then PickOk []
  else match raw_targets e f with
       | PickUB => PickUB
       | PickOk t =>
           let t1 := if fe_exclude_self e then remove_value (fe_self e) t else t in
           match f with
           | FStochastic _ => PickOk t1
           | _ => if fe_exclude_self e then PickOk (sort_by (rot_key (fe_n e) (fe_self e)) t1)
                  else PickOk (fe_shuffle e t1)
           end
       end.

(** distbench_engine.cc:185-317 InitializeRpcFanoutFilter, except the parameter
    list of a stochastic filter, which is parsed elsewhere ([parse_stochastic]). *)
Definition fixed_filters : list (str * fanout) :=
  [(s_ "", FGrid false false false); (s_ "all", FGrid false false false);
   (s_ "random", FRandomSingle); (s_ "random_single", FRandomSingle);
   (s_ "round_robin", FRoundRobin);
   (s_ "same_x", FGrid true false false); (s_ "same_y", FGrid false true false);
   (s_ "same_z", FGrid false false true); (s_ "same_xy", FGrid true true false);
   (s_ "same_xz", FGrid true false true); (s_ "same_yz", FGrid false true true);
   (s_ "same_xyz", FGrid true true true);
   (s_ "ring_x", FRing AxX); (s_ "ring_y", FRing AxY); (s_ "ring_z", FRing AxZ);
   (s_ "alternating_ring_x", FAltRing AxX); (s_ "alternating_ring_y", FAltRing AxY);
   (s_ "alternating_ring_z", FAltRing AxZ)].

Definition lbrace : ascii := "{"%char.
Fixpoint split_brace (s : str) : option (str * str) :=
  match s with
  | [] => None
  | c :: r => if Ascii.eqb c lbrace then Some ([], s)
              else match split_brace r with Some (a, b) => Some (c :: a, b) | None => None end
  end.

(** sscanf(params, "{%d}", &distance) is non-zero iff the '{' matches and
    the conversion succeeds, or the input ends before it (EOF). *)
Definition sscanf_distance (params : str) : option Z :=
  match params with
  | c :: r => if Ascii.eqb c lbrace then
                match scan_d r with
                | ScanInt z _ => Some z
                | ScanEof => Some 0      (* EOF is -1: accepted, distance keeps its default *)
                | ScanFail => None
                end
              else None
  | [] => Some 0
  end.

Definition parse_filter (parse_stochastic : str -> option (list (Q * Z))) (s : str) : option fanout :=
  match map_find s fixed_filters with
  | Some f => Some f
  | None =>
      match split_brace s with
      | None => None
      | Some (name, params) =>
          if str_eqb name (s_ "stochastic") then option_map FStochastic (parse_stochastic params)
          else if str_eqb name (s_ "linear_x") then option_map (FLinear AxX) (sscanf_distance params)
          else if str_eqb name (s_ "linear_y") then option_map (FLinear AxY) (sscanf_distance params)
          else if str_eqb name (s_ "linear_z") then option_map (FLinear AxZ) (sscanf_distance params)
          else None
      end
  end.

(** distbench_engine.cc:2381-2388, 2116-2119: one iteration of a round-robin
    RPC reads the counter when it picks its target and increments it in a
    later step; iterations running in parallel interleave these two steps. *)
Inductive rr_step := RRPick (iteration : nat) | RRIncr (iteration : nat).
Record rr_state := mkRR { rr_counter : Z; rr_targets : list (nat * Z) }.
Definition rr_exec (target_of : Z -> Z) (st : rr_state) (s : rr_step) : rr_state :=
  match s with
  | RRPick i => mkRR (rr_counter st) (rr_targets st ++ [(i, target_of (rr_counter st))])
  | RRIncr _ => mkRR (rr_counter st + 1) (rr_targets st)
  end.
