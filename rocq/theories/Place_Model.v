(** Model of attribute constraints (distbench_utils.cc) and of service
    placement (distbench_test_sequencer.cc).  Definitions only. *)
From Coq Require Import Ascii String List NArith ZArith Bool.
From Verif Require Import Base_Model Grid_Model.
Import ListNotations.
Open Scope Z_scope.

(** traffic_config.proto:68-97 and distbench.proto Attribute (an absent string
    reads as ""; modulus reads as 0 when absent). *)
Inductive relation := RUnknown | REqual | RNotEqual | RModEqual | RModNotEqual.
Record attribute := mkAttr { at_name : str; at_value : str }.
Record constraint := mkCon {
  cn_attr : str; cn_strings : list str; cn_ints : list Z; cn_rel : relation; cn_modulus : Z }.
Definition constraint_set := list constraint.
Definition constraint_list := list constraint_set.

(** distbench_utils.cc:861-873 CheckStringConstraint. *)
Definition check_string (v : str) (a : attribute) (c : constraint) : bool :=
  match cn_rel c with
  | REqual => str_eqb (at_value a) v
  | RNotEqual => negb (str_eqb (at_value a) v)
  | _ => false
  end.

(** int64_t %: undefined for a zero divisor and for INT64_MIN % -1. *)
Definition int64_min : Z := -9223372036854775808.
Definition rem_int64 (a b : Z) : option Z :=
  if b =? 0 then None
  else if (a =? int64_min) && (b =? -1) then None
  else Some (Z.rem a b).

(** distbench_utils.cc:875-892 CheckIntConstraint; None is undefined behaviour. *)
Definition check_int (v : Z) (a : attribute) (c : constraint) : option bool :=
  match simple_atoi (at_value a) with
  | None => Some false
  | Some av =>
      match cn_rel c with
      | REqual => Some (av =? v)
      | RNotEqual => Some (negb (av =? v))
      | RModEqual => option_map (fun r => r =? v) (rem_int64 av (cn_modulus c))
      | RModNotEqual => option_map (fun r => negb (r =? v)) (rem_int64 av (cn_modulus c))
      | RUnknown => Some false
      end
  end.

(** "for (...) if (f(x)) return true; return false", stopping at the first
    undefined behaviour. *)
Fixpoint any_of {A} (f : A -> option bool) (l : list A) : option bool :=
  match l with
  | [] => Some false
  | a :: r => match f a with
              | None => None
              | Some true => Some true
              | Some false => any_of f r
              end
  end.
(** "for (...) if (!f(x)) return false; return true". *)
Fixpoint all_of {A} (f : A -> option bool) (l : list A) : option bool :=
  match l with
  | [] => Some true
  | a :: r => match f a with
              | None => None
              | Some false => Some false
              | Some true => all_of f r
              end
  end.

(** distbench_utils.cc:894-909 CheckConstraint. *)
Definition check_attribute (c : constraint) (a : attribute) : option bool :=
  if negb (str_eqb (at_name a) (cn_attr c)) then Some false
  else if existsb (fun v => check_string v a c) (cn_strings c) then Some true
  else any_of (fun v => check_int v a c) (cn_ints c).
Definition check_constraint (c : constraint) (attrs : list attribute) : option bool :=
  any_of (check_attribute c) attrs.

(** distbench_utils.cc:911-917 CheckConstraintSet. *)
Definition check_set (cs : constraint_set) (attrs : list attribute) : option bool :=
  any_of (fun c => check_constraint c attrs) cs.

(** distbench_utils.cc:919-925 CheckConstraintList. *)
Definition check_list (cl : constraint_list) (attrs : list attribute) : option bool :=
  all_of (fun cs => check_set cs attrs) cl.

(** The parts of DistributedSystemDescription read by ConstraintSolver.  The
    two protobuf maps are lists in (unspecified) iteration order. *)
Record place_desc := mkPD {
  pd_services : list service_spec;
  pd_constraints : list (str * constraint_list);   (* service_constraints *)
  pd_bundles : list (str * list str) }.            (* node_service_bundles *)

(** std::set<std::string> as a duplicate-free list; only membership matters
    for service sets, and idle nodes keep the order of the node map. *)
Definition set_mem (x : str) (l : list str) : bool := existsb (str_eqb x) l.
Definition set_add (x : str) (l : list str) : list str := if set_mem x l then l else l ++ [x].
Definition set_del (x : str) (l : list str) : list str := filter (fun y => negb (str_eqb x y)) l.

(** node_service_map[node].insert(service). *)
Definition map_list {V} (k : str) (m : list (str * list V)) : list V :=
  match map_find k m with Some l => l | None => [] end.
Definition map_insert (node svc : str) (m : list (str * list str)) : list (str * list str) :=
  map_set node (set_add svc (map_list node m)) m.

Inductive place_error := ENotFoundOrPlaced (svc : str) | ENodeNotIdle (node : str)
                       | ECouldntPlace (svc : str) | ENoIdle (svcs : list str).
Inductive place_result (A : Type) :=
| PlaceUB                    (* undefined behaviour *)
| PlaceThrow                 (* std::length_error from reserve() *)
| PlaceErr (e : place_error)
| PlaceOk (a : A).
Arguments PlaceUB {A}. Arguments PlaceThrow {A}. Arguments PlaceErr {A}. Arguments PlaceOk {A}.

Record solver := mkSolver {
  sv_unplaced : list str; sv_idle : list str; sv_map : list (str * list str) }.

(** distbench_test_sequencer.cc:256-259: total_services += count, an int. *)
Fixpoint total_count (acc : Z) (l : list service_spec) : option Z :=
  match l with
  | [] => Some acc
  | s :: r => if in_int32 (acc + get_count s) then total_count (acc + get_count s) r else None
  end.

(** distbench_test_sequencer.cc:261-267: the instance names in order. *)
Fixpoint strip_names (l : list (option str)) : option (list str) :=
  match l with
  | [] => Some []
  | Some n :: r => option_map (cons n) (strip_names r)
  | None :: _ => None
  end.

(** distbench_test_sequencer.cc:270-278: the services of one bundle. *)
Fixpoint bundle_services (node : str) (svcs : list str) (st : solver) : place_result solver :=
  match svcs with
  | [] => PlaceOk st
  | s :: r =>
      if set_mem s (sv_unplaced st)
      then bundle_services node r
             (mkSolver (set_del s (sv_unplaced st)) (sv_idle st) (map_insert node s (sv_map st)))
      else PlaceErr (ENotFoundOrPlaced s)
  end.

(** distbench_test_sequencer.cc:269-285: all bundles. *)
Fixpoint place_bundles (bundles : list (str * list str)) (st : solver) : place_result solver :=
  match bundles with
  | [] => PlaceOk st
  | (node, svcs) :: r =>
      match bundle_services node svcs st with
      | PlaceOk st1 =>
          if set_mem node (sv_idle st1)
          then place_bundles r (mkSolver (sv_unplaced st1) (set_del node (sv_idle st1)) (sv_map st1))
          else PlaceErr (ENodeNotIdle node)
      | PlaceUB => PlaceUB | PlaceThrow => PlaceThrow | PlaceErr e => PlaceErr e
      end
  end.

(** distbench_test_sequencer.cc:287-305: constraints per instance; [fnm] is
    fnmatch(pattern, name, FNM_PATHNAME) == 0. *)
Definition star : ascii := "*"%char.
Definition has_star (k : str) : bool := existsb (Ascii.eqb star) k.
Definition add_constraints (fnm : str -> str -> bool) (all : list (str * constraint_list)) (names : list str)
    (acc : list (str * constraint_list)) (kv : str * constraint_list) : list (str * constraint_list) :=
  let '(key, value) := kv in
  if has_star key then
    fold_left (fun m svc => if fnm key svc
                            then match map_find svc all with
                                 | Some _ => m
                                 | None => map_set svc value m
                                 end
                            else m) names acc
  else map_set key value acc.
Definition effective (fnm : str -> str -> bool) (all : list (str * constraint_list)) (names : list str)
    : list (str * constraint_list) :=
  fold_left (add_constraints fnm all names) all [].

(** distbench_test_sequencer.cc:312-319: the first idle node that satisfies
    the constraints. *)
Fixpoint first_match (cl : constraint_list) (attrs : list (str * list attribute)) (idle : list str)
    : option (option str) :=
  match idle with
  | [] => Some None
  | n :: r => match check_list cl (map_list n attrs) with
              | None => None
              | Some true => Some (Some n)
              | Some false => first_match cl attrs r
              end
  end.

Definition put (svc node : str) (st : solver) : solver :=
  mkSolver (set_del svc (sv_unplaced st)) (set_del node (sv_idle st)) (map_insert node svc (sv_map st)).

(** distbench_test_sequencer.cc:307-324: constrained services, in order. *)
Fixpoint place_constrained (eff : list (str * constraint_list)) (attrs : list (str * list attribute))
    (names : list str) (st : solver) : place_result solver :=
  match names with
  | [] => PlaceOk st
  | s :: r =>
      match map_find s eff with
      | None => place_constrained eff attrs r st
      | Some cl =>
          match first_match cl attrs (sv_idle st) with
          | None => PlaceUB
          | Some None => PlaceErr (ECouldntPlace s)
          | Some (Some n) => place_constrained eff attrs r (put s n st)
          end
      end
  end.

(** distbench_test_sequencer.cc:326-356: the remaining services, in order, each
    on the first idle node; all failures are collected. *)
Fixpoint place_rest (names : list str) (st : solver) (failures : list str) : solver * list str :=
  match names with
  | [] => (st, failures)
  | s :: r =>
      match sv_idle st with
      | [] => place_rest r st (failures ++ [s])
      | n :: _ => place_rest r (mkSolver (sv_unplaced st) (set_del n (sv_idle st)) (map_insert n s (sv_map st))) failures
      end
  end.

(** distbench_test_sequencer.cc:245-371 ConstraintSolver.  [attrs] is
    node_attributes (a std::map: its order is the order of the list). *)
Definition constraint_solver (fnm : str -> str -> bool) (d : place_desc) (attrs : list (str * list attribute))
    : place_result (list (str * list str)) :=
  match total_count 0 (pd_services d), strip_names (all_instance_names (pd_services d)) with
  | Some total, Some names =>
      if total <? 0 then PlaceThrow
      else match place_bundles (pd_bundles d)
                   (mkSolver (fold_left (fun l s => set_add s l) names []) (map fst attrs) []) with
      | PlaceOk st1 =>
          match place_constrained (effective fnm (pd_constraints d) names) attrs names st1 with
          | PlaceOk st2 =>
              let remaining := filter (fun s => set_mem s (sv_unplaced st2)) names in
              let '(st3, failures) := place_rest remaining st2 [] in
              match failures with
              | [] => PlaceOk (sv_map st3)
              | _ => PlaceErr (ENoIdle failures)
              end
          | PlaceUB => PlaceUB | PlaceThrow => PlaceThrow | PlaceErr e => PlaceErr e
          end
      | PlaceUB => PlaceUB | PlaceThrow => PlaceThrow | PlaceErr e => PlaceErr e
      end
  | _, _ => PlaceUB
  end.

(** distbench_test_sequencer.cc:225-243 PlaceServices: [nodes] are the
    registered nodes that are no longer pending. *)
Definition place_services (fnm : str -> str -> bool) (d : place_desc) (nodes : list (str * list attribute))
    : place_result (list (str * list str)) :=
  match constraint_solver fnm d nodes with
  | PlaceOk m => PlaceOk (fold_left (fun m n => map_set (fst n) (map_list (fst n) m) m) nodes m)
  | r => r
  end.
