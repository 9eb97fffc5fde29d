(** Model of service shapes, grid coordinates and instance names
    (distbench_utils.cc).  Definitions only. *)
From Coq Require Import Ascii String List NArith ZArith Bool.
From Verif Require Import Base_Model.
Import ListNotations.
Open Scope Z_scope.

(** traffic_config.proto:40-53 ServiceSpec (multi_server_channels omitted,
    they are never read by these functions). *)
Record service_spec := mkSpec {
  sp_name : str;
  sp_count : option Z;
  sp_opts : option str;          (* protocol_driver_options_name *)
  sp_x : option Z;               (* x_size [default = 1] *)
  sp_y : option Z;
  sp_z : option Z }.

(** Generated accessors: the default when unset. *)
Definition get_count (s : service_spec) : Z := match sp_count s with Some c => c | None => 0 end.
Definition dim (o : option Z) : Z := match o with Some v => v | None => 1 end.
Definition x_size (s : service_spec) := dim (sp_x s).
Definition y_size (s : service_spec) := dim (sp_y s).
Definition z_size (s : service_spec) := dim (sp_z s).

Inductive canon_error := XNotPositive | YNotPositive | ZNotPositive | ZWithoutY
                       | CountMismatch | YWithoutX | ZWithoutXY.
Inductive canon_result :=
| CanonUB                       (* signed int overflow in xyz_size *= ... *)
| CanonErr (e : canon_error)
| CanonOk (s : service_spec).

(** [xyz_size *= f] on int: overflow is undefined behaviour. *)
Definition mul_int (a b : Z) : option Z := if in_int32 (a * b) then Some (a * b) else None.

(** distbench_utils.cc:666-681: what follows once xyz_size is known. *)
Definition canon_count (s : service_spec) (xyz : Z) : canon_result :=
  match sp_count s with
  | Some c => if c =? xyz then CanonOk s else CanonErr CountMismatch
  | None => CanonOk (mkSpec (sp_name s) (Some xyz) (sp_opts s) (sp_x s) (sp_y s) (sp_z s))
  end.

(** distbench_utils.cc:647-692 GetCanonicalServiceSpec. *)
Definition canonical_spec (s : service_spec) : canon_result :=
  match sp_x s with
  | Some x =>
      if x <=? 0 then CanonErr XNotPositive
      else match mul_int 1 x with
      | None => CanonUB
      | Some n1 =>
        match sp_y s with
        | Some y =>
            if y <=? 0 then CanonErr YNotPositive
            else match mul_int n1 y with
            | None => CanonUB
            | Some n2 =>
              match sp_z s with
              | Some z => if z <=? 0 then CanonErr ZNotPositive
                          else match mul_int n2 z with
                               | None => CanonUB
                               | Some n3 => canon_count s n3
                               end
              | None => canon_count s n2
              end
            end
        | None =>
            match sp_z s with
            | Some _ => CanonErr ZWithoutY
            | None => canon_count s n1
            end
        end
      end
  | None =>
      match sp_y s with
      | Some _ => CanonErr YWithoutX
      | None => match sp_z s with
                | Some _ => CanonErr ZWithoutXY
                | None => CanonOk (mkSpec (sp_name s) (sp_count s) (sp_opts s)
                                          (Some (get_count s)) None None)
                end
      end
  end.

(** distbench_utils.h GridIndex. *)
Record grid_index := mkGI { gx : Z; gy : Z; gz : Z }.

(** distbench_utils.cc:708-712 GetInstanceFromGridIndex. *)
Definition instance_from_grid (s : service_spec) (g : grid_index) : Z :=
  gx g + gy g * x_size s + gz g * x_size s * y_size s.

(** C++ integer / and %: truncated, undefined for a zero divisor. *)
Definition cdiv (a b : Z) : option Z := if b =? 0 then None else Some (Z.quot a b).
Definition cmod (a b : Z) : option Z := if b =? 0 then None else Some (Z.rem a b).

(** distbench_utils.cc:714-726 GetServiceIndex; None is a division by zero. *)
Definition service_index (s : service_spec) (i : Z) : option grid_index :=
  match sp_x s with
  | None => Some (mkGI i 0 0)
  | Some x =>
      match cmod i x, cdiv i x with
      | Some rx, Some q =>
          match sp_y s with
          | None => Some (mkGI rx 0 0)
          | Some y =>
              match cmod q y with
              | None => None
              | Some ry =>
                  match sp_z s with
                  | None => Some (mkGI rx ry 0)
                  | Some _ => match cdiv q y with
                              | None => None
                              | Some rz => Some (mkGI rx ry rz)
                              end
                  end
              end
          end
      | _, _ => None
      end
  end.

(** distbench_utils.cc:728-741 GetInstanceName. *)
Definition instance_name (s : service_spec) (i : Z) : option str :=
  match sp_x s with
  | None => Some (sp_name s ++ slash :: dec_of_Z i)
  | Some _ =>
      match service_index s i with
      | None => None
      | Some g =>
          match sp_z s, sp_y s with
          | Some _, _ => Some (sp_name s ++ slash :: dec_of_Z (gx g) ++ slash :: dec_of_Z (gy g)
                                       ++ slash :: dec_of_Z (gz g))
          | None, Some _ => Some (sp_name s ++ slash :: dec_of_Z (gx g) ++ slash :: dec_of_Z (gy g))
          | None, None => Some (sp_name s ++ slash :: dec_of_Z (gx g))
          end
      end
  end.

(** std::string_view::find_first_of('/') + remove_prefix. *)
Fixpoint after_first_slash (s : str) : option str :=
  match s with
  | [] => None
  | c :: r => if Ascii.eqb c slash then Some r else after_first_slash r
  end.

(** sscanf(s, "%d/%d/%d", &x, &y, &z): the return value is 0 exactly when the
    first conversion fails on a non-empty input; assigned values are kept. *)
Definition scan_slash (s : str) : option str :=
  match s with c :: r => if Ascii.eqb c slash then Some r else None | [] => None end.
Definition sscanf_ddd (s : str) : option grid_index :=
  match scan_d s with
  | ScanEof => Some (mkGI 0 0 0)      (* returns EOF = -1, which is non-zero *)
  | ScanFail => None                  (* returns 0 *)
  | ScanInt x r =>
      match scan_slash r with
      | None => Some (mkGI x 0 0)
      | Some r1 =>
          match scan_d r1 with
          | ScanInt y r2 =>
              match scan_slash r2 with
              | None => Some (mkGI x y 0)
              | Some r3 => match scan_d r3 with
                           | ScanInt z _ => Some (mkGI x y z)
                           | _ => Some (mkGI x y 0)
                           end
              end
          | _ => Some (mkGI x 0 0)
          end
      end
  end.

(** distbench_utils.cc:694-706 GetGridIndexFromName; None is LOG(FATAL). *)
Definition grid_index_from_name (name : str) : option grid_index :=
  sscanf_ddd (match after_first_slash name with Some r => r | None => name end).

(** distbench_utils.cc:816-826 AllServiceInstances, and the names generated by
    distbench_utils.cc:116-127: for every service, for i in 0..count-1. *)
Definition zseq (n : Z) : list Z := map Z.of_nat (seq 0 (Z.to_nat n)).
Definition service_names (s : service_spec) : list (option str) :=
  map (instance_name s) (zseq (get_count s)).
Definition all_instance_names (services : list service_spec) : list (option str) :=
  flat_map service_names services.
