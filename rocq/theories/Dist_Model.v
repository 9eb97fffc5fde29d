(** Model of joint_distribution_sample_generator.cc, the distribution functions
    of distbench_utils.cc and InitializeSampleGenerators.  float values are
    IEEE binary32 as in Float_Model.  Definitions only. *)
From Coq Require Import Ascii String List ZArith Bool SpecFloat.
From Verif Require Import Base_Model Float_Model.
Import ListNotations.
Open Scope Z_scope.

(** joint_distribution.proto: DataPoint, PmfPoint, CdfPoint, DistributionConfig.
    A field that is not set reads as 0; only exact is asked with has_exact. *)
Record data_point := mkData { dp_exact : option Z; dp_lower : Z; dp_upper : Z }.
Record pmf_point := mkPmf { pp_pmf : spec_float; pp_data : list data_point }.
Record cdf_point := mkCdf { cp_cdf : spec_float; cp_value : Z }.
Record dist_config := mkDist {
  dc_name : str; dc_pmf : list pmf_point; dc_cdf : list cdf_point; dc_fields : list str }.
Definition dp_exactly (v : Z) : data_point := mkData (Some v) 0 0.
Definition dp_range (lo hi : Z) : data_point := mkData None lo hi.

(** Comparisons with literals; 0.0 and 1 are exact. *)
Definition f_zero : spec_float := S754_zero false.
Definition f32_one : spec_float := S754_finite false 8388608 (-23).
Definition f64_one : spec_float := S754_finite false 4503599627370496 (-52).
Definition f64_1e_6 : spec_float := S754_finite false 4722366482869645 (-72).

(** ** Validation, distbench_utils.cc *)
Inductive dist_error :=
| DEBoth | DEFieldTwice | DEDimensions | DEPmfSum | DECdfNegative | DECdfValue | DECdfOrder | DECdfEnd
| DEFieldMissing (field : str) | DETwice (name : str).
(** ValidatePmfConfig 469-492; called with at least one point. *)
Fixpoint pmf_loop (dims : nat) (cdf : spec_float) (l : list pmf_point) : dist_error + spec_float :=
  match l with
  | [] => inr cdf
  | p :: r => if negb (Nat.eqb (length (pp_data p)) dims) then inl DEDimensions else pmf_loop dims (f32_add cdf (pp_pmf p)) r
  end.
Definition validate_pmf (c : dist_config) : option dist_error :=
  let dims := match dc_fields c with
              | [] => match dc_pmf c with p :: _ => length (pp_data p) | [] => O end
              | f => length f
              end in
  match pmf_loop dims f_zero (dc_pmf c) with
  | inl e => Some e
  | inr cdf => if SFltb f64_1e_6 (SFabs (f64_sub (f64_of_f32 cdf) f64_one)) then Some DEPmfSum else None
  end.
(** ValidateCdfConfig 494-530; called with at least one point. *)
Fixpoint cdf_loop (prev_cdf : spec_float) (prev_value : Z) (l : list cdf_point) : option dist_error :=
  match l with
  | [] => if SFeqb prev_cdf f32_one then None else Some DECdfEnd
  | p :: r => if cp_value p <=? prev_value then Some DECdfValue
              else if SFltb (cp_cdf p) prev_cdf then Some DECdfOrder
              else cdf_loop (cp_cdf p) (cp_value p) r
  end.
Definition validate_cdf (l : list cdf_point) : option dist_error :=
  match l with
  | [] => Some DECdfEnd
  | p :: r => if SFltb (cp_cdf p) f_zero then Some DECdfNegative else cdf_loop (cp_cdf p) (cp_value p) r
  end.
Fixpoint mem (x : str) (l : list str) : bool := match l with [] => false | y :: r => str_eqb x y || mem x r end.
Fixpoint repeats (seen l : list str) : bool :=
  match l with [] => false | x :: r => mem x seen || repeats (x :: seen) r end.
(** ValidateDistributionConfig 534-557. *)
Definition validate_dist (c : dist_config) : option dist_error :=
  match dc_cdf c, dc_pmf c with
  | [], [] => Some DEBoth
  | _ :: _, _ :: _ => Some DEBoth
  | _ :: _, [] => if repeats [] (dc_fields c) then Some DEFieldTwice else validate_cdf (dc_cdf c)
  | [], _ :: _ => if repeats [] (dc_fields c) then Some DEFieldTwice else validate_pmf c
  end.

(** ** GetCanonicalDistributionConfig, distbench_utils.cc 576-645 *)
Inductive canon_result := CanonOk (c : dist_config) | CanonError (e : dist_error) | CanonUndefined.
(** 588-598: the last index of [f] among the names. *)
Fixpoint field_index (f : str) (j : nat) (names : list str) (found : option nat) : option nat :=
  match names with [] => found | n :: r => field_index f (S j) r (if str_eqb n f then Some j else found) end.
Fixpoint field_map (names fields : list str) : str + list nat :=
  match fields with
  | [] => inr []
  | f :: r => match field_index f 0 names None with
              | None => inl f
              | Some j => match field_map names r with inl e => inl e | inr js => inr (j :: js) end
              end
  end.
(** 601-612; None: an index outside data_points. *)
Fixpoint pick (js : list nat) (d : list data_point) : option (list data_point) :=
  match js with
  | [] => Some []
  | j :: r => match nth_error d j, pick r d with Some x, Some xs => Some (x :: xs) | _, _ => None end
  end.
Fixpoint canon_points (js : list nat) (l : list pmf_point) : option (list pmf_point) :=
  match l with
  | [] => Some []
  | p :: r => match pick js (pp_data p), canon_points js r with Some d, Some ps => Some (mkPmf (pp_pmf p) d :: ps) | _, _ => None end
  end.
(** 614-642: a CDF becomes a PMF.  The difference is taken in double and stored
    as float; value() + 1 may overflow (None). *)
Definition mass (prev_cdf : spec_float) (p : cdf_point) : spec_float := f32_of_f64 (f64_sub (f64_of_f32 (cp_cdf p)) prev_cdf).
Fixpoint canon_uniform (n : nat) (prev_cdf : spec_float) (lower : Z) (l : list cdf_point) : option (list pmf_point) :=
  match l with
  | [] => Some []
  | p :: r => if in_int64 (cp_value p + 1)
              then match canon_uniform n (f64_of_f32 (cp_cdf p)) (cp_value p + 1) r with
                   | Some ps => Some (mkPmf (mass prev_cdf p) (repeat (dp_range lower (cp_value p)) n) :: ps)
                   | None => None
                   end
              else None
  end.
Fixpoint canon_exact (n : nat) (prev_cdf : spec_float) (l : list cdf_point) : list pmf_point :=
  match l with
  | [] => []
  | p :: r => mkPmf (mass prev_cdf p) (repeat (dp_exactly (cp_value p)) n) :: canon_exact n (f64_of_f32 (cp_cdf p)) r
  end.
Definition canonical_dist (c : dist_config) (fields : list str) : canon_result :=
  match validate_dist c with
  | Some e => CanonError e
  | None =>
      match field_map (dc_fields c) fields with
      | inl f => CanonError (DEFieldMissing f)
      | inr js =>
          match canon_points js (dc_pmf c) with
          | None => CanonUndefined
          | Some ps =>
              match dc_cdf c with
              | [] => CanonOk (mkDist (dc_name c) ps [] fields)
              | p :: r =>
                  if SFeqb (cp_cdf p) f_zero
                  then match canon_uniform (length fields) f_zero (cp_value p) r with
                       | Some qs => CanonOk (mkDist (dc_name c) (ps ++ qs) [] fields)
                       | None => CanonUndefined
                       end
                  else CanonOk (mkDist (dc_name c) (ps ++ canon_exact (length fields) f_zero (p :: r)) [] fields)
              end
          end
      end
  end.

(** ** DistributionSampleGenerator *)
(** A value of one dimension: exact, or std::uniform_int_distribution<int>,
    whose bounds are converted to int. *)
Definition to_int32 (z : Z) : Z := (z + 2147483648) mod 4294967296 - 2147483648.
Inductive value := VExact (v : Z) | VRange (lo hi : Z).
Definition value_of_point (d : data_point) : value :=
  match dp_exact d with Some v => VExact v | None => VRange (to_int32 (dp_lower d)) (to_int32 (dp_upper d)) end.
Record generator := mkGen { ge_dims : nat; ge_weights : list spec_float; ge_values : list (list value) (* per point, per dimension *) }.
Inductive gen_result := GenOk (g : generator) | GenError (e : dist_error) | GenUndefined.
(** What std::discrete_distribution requires of its weights: finite, not
    negative, not all zero. *)
Definition weight_ok (w : spec_float) : bool := match w with S754_zero _ | S754_finite false _ _ => true | _ => false end.
Definition weight_positive (w : spec_float) : bool := match w with S754_finite false _ _ => true | _ => false end.
(** ... and std::uniform_int_distribution of its bounds. *)
Definition value_ok (v : value) : bool := match v with VExact _ => true | VRange lo hi => lo <=? hi end.
(** InitializeWithPmf 74-100; called with at least one point.  Undefined: a
    point with more values than the first, bad bounds, or bad weights.  (A point
    with fewer values would shift the later ones; the model calls this undefined
    too.) *)
Definition init_pmf (l : list pmf_point) : gen_result :=
  match l with
  | [] => GenUndefined
  | p :: _ =>
      let n := length (pp_data p) in
      let vs := map (fun q => map value_of_point (pp_data q)) l in
      let ws := map pp_pmf l in
      if forallb (fun q => Nat.eqb (length (pp_data q)) n) l && forallb (forallb value_ok) vs
         && forallb weight_ok ws && existsb weight_positive ws
      then GenOk (mkGen n ws vs)
      else GenUndefined
  end.
(** InitializeWithCdf 35-71; None: overflow of value + 1. *)
Fixpoint cdf_to_pmf (uniform : bool) (prev_cdf : spec_float) (lower : Z) (l : list cdf_point) : option (list pmf_point) :=
  match l with
  | [] => Some []
  | p :: r => if in_int64 (cp_value p + 1)
              then match cdf_to_pmf uniform (cp_cdf p) (cp_value p + 1) r with
                   | Some ps => Some (mkPmf (f32_sub (cp_cdf p) prev_cdf)
                                        [if uniform then dp_range lower (cp_value p) else dp_exactly (cp_value p)] :: ps)
                   | None => None
                   end
              else None
  end.
Definition init_cdf (l : list cdf_point) : gen_result :=
  match l with
  | [] => GenUndefined
  | p :: r =>
      let uniform := SFeqb (cp_cdf p) f_zero in
      match cdf_to_pmf uniform (cp_cdf p) (cp_value p) r with
      | Some ps => init_pmf (mkPmf (cp_cdf p) [if uniform then dp_range 0 0 else dp_exactly (cp_value p)] :: ps)
      | None => GenUndefined
      end
  end.
(** Initialize 102-110 and AllocateSampleGenerator 26-33. *)
Definition allocate (c : dist_config) : gen_result :=
  match validate_dist c with
  | Some e => GenError e
  | None => match dc_cdf c with [] => init_pmf (dc_pmf c) | l => init_cdf l end
  end.

(** GetRandomSample 112-125 and GetScalarRandomSample 127-137.  The random
    numbers are arguments: [i] is the index that distribution_array_ yields,
    [draws] what the ranges yield.  By the C++ standard an index of weight zero
    and a number outside the bounds cannot be drawn: NoDraw. *)
Inductive draw_result (A : Type) := Drawn (a : A) | NoDraw | DrawCrash.
Arguments Drawn {A}. Arguments NoDraw {A}. Arguments DrawCrash {A}.
Fixpoint draw_values (vs : list value) (draws : list Z) : option (list Z) :=
  match vs, draws with
  | [], [] => Some []
  | VExact v :: r, ds => match draw_values r ds with Some s => Some (v :: s) | None => None end
  | VRange lo hi :: r, d :: ds => if (lo <=? d) && (d <=? hi) then match draw_values r ds with Some s => Some (d :: s) | None => None end else None
  | _, _ => None
  end.
Definition random_sample (g : generator) (i : nat) (draws : list Z) : draw_result (list Z) :=
  match nth_error (ge_weights g) i, nth_error (ge_values g) i with
  | Some w, Some vs => if weight_positive w then match draw_values vs draws with Some s => Drawn s | None => NoDraw end else NoDraw
  | _, _ => NoDraw
  end.
Definition scalar_sample (g : generator) (i : nat) (draws : list Z) : draw_result Z :=
  if negb (Nat.eqb (ge_dims g) 1) then DrawCrash
  else match random_sample g i draws with Drawn (v :: _) => Drawn v | Drawn [] => DrawCrash | NoDraw => NoDraw | DrawCrash => DrawCrash end.

(** ** InitializeSampleGenerators, distbench_engine.cc 2555-2640 *)
Definition fields_2d : list str := [s_ "request_payload_size"; s_ "response_payload_size"].   (* 56-57 *)
Definition fields_1d : list str := [s_ "payload_size"].                                       (* 54 *)
Definition fields_delay : list str := [s_ "action_delay_ns"].                                 (* 52 *)
(** 2566-2576 and 2620-2629: two fields if possible, otherwise one. *)
Definition canonical_sizes (c : dist_config) : canon_result :=
  match canonical_dist c fields_2d with CanonError _ => canonical_dist c fields_1d | r => r end.
Definition canonical_delay (c : dist_config) : canon_result := canonical_dist c fields_delay.
Definition make_generator (canon : dist_config -> canon_result) (c : dist_config) : gen_result :=
  match canon c with CanonOk c' => allocate c' | CanonError e => GenError e | CanonUndefined => GenUndefined end.
Inductive gens_result := GensOk (g : list generator) (index : list (str * nat)) | GensError (e : dist_error) | GensUndefined.
Fixpoint make_generators (canon : dist_config -> canon_result) (l : list dist_config) (g : list generator) (index : list (str * nat)) : gens_result :=
  match l with
  | [] => GensOk g index
  | c :: r =>
      match map_find (dc_name c) index with
      | Some _ => GensError (DETwice (dc_name c))
      | None =>
          match make_generator canon c with
          | GenOk x => make_generators canon r (g ++ [x]) (map_set (dc_name c) (length g) index)
          | GenError e => GensError e
          | GenUndefined => GensUndefined
          end
      end
  end.
(** Get{Size,Rpc,Delay}SampleGeneratorIndex 2519-2553. *)
Definition generator_index (name : str) (index : list (str * nat)) : Z :=
  match map_find name index with Some i => Z.of_nat i | None => -1 end.
