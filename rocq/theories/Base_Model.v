(** Strings and decimal numbers shared by the models.  Definitions only. *)
From Coq Require Import Ascii String List NArith ZArith Bool.
Import ListNotations.
Open Scope Z_scope.

(** std::string / std::string_view: a list of characters. *)
Definition str := list ascii.
Definition s_ (x : string) : str := list_ascii_of_string x.

(** operator== on strings. *)
Fixpoint str_eqb (a b : str) : bool :=
  match a, b with
  | [], [] => true
  | x :: a', y :: b' => Ascii.eqb x y && str_eqb a' b'
  | _, _ => false
  end.

(** operator< on std::string (unsigned byte order), used by std::map. *)
Fixpoint str_ltb (a b : str) : bool :=
  match a, b with
  | _, [] => false
  | [], _ :: _ => true
  | x :: a', y :: b' =>
      if N.ltb (N_of_ascii x) (N_of_ascii y) then true
      else if N.ltb (N_of_ascii y) (N_of_ascii x) then false
      else str_ltb a' b'
  end.

(** absl::StartsWith(text, prefix). *)
Fixpoint starts_with (text prefix : str) : bool :=
  match prefix, text with
  | [], _ => true
  | p :: ps, t :: ts => Ascii.eqb p t && starts_with ts ps
  | _ :: _, [] => false
  end.

Definition slash : ascii := "/"%char.
Definition minus : ascii := "-"%char.
Definition plus_ : ascii := "+"%char.

Definition digit_char (d : N) : ascii := ascii_of_N (48 + d).
Definition is_digit (c : ascii) : bool :=
  (N.leb 48 (N_of_ascii c) && N.leb (N_of_ascii c) 57)%bool.
Definition digit_val (c : ascii) : Z := Z.of_N (N_of_ascii c) - 48.

(** Decimal rendering of a non-negative number, most significant digit first
    (absl::StrCat / std::to_string of an integer). *)
Fixpoint dec_loop (fuel : nat) (n : N) (acc : str) : str :=
  match fuel with
  | O => acc
  | S f =>
      let acc' := digit_char (n mod 10) :: acc in
      if (n / 10 =? 0)%N then acc' else dec_loop f (n / 10) acc'
  end.
Definition dec_of_N (n : N) : str := dec_loop (S (N.size_nat n)) n [].
Definition dec_of_Z (z : Z) : str :=
  if z <? 0 then minus :: dec_of_N (Z.abs_N z) else dec_of_N (Z.to_N z).

(** The longest prefix of decimal digits, accumulated onto [acc]. *)
Fixpoint digits_prefix (acc : Z) (s : str) : Z * str :=
  match s with
  | c :: r => if is_digit c then digits_prefix (10 * acc + digit_val c) r else (acc, s)
  | [] => (acc, [])
  end.

(** isspace in the C locale. *)
Definition is_space (c : ascii) : bool :=
  let n := N_of_ascii c in ((n =? 32) || ((9 <=? n) && (n <=? 13)))%N.
Fixpoint skip_space (s : str) : str :=
  match s with
  | c :: r => if is_space c then skip_space r else s
  | [] => []
  end.

(** One "%d" conversion of sscanf: skip white space, optional sign, at least
    one digit.  Values outside int are not truncated in this model. *)
Inductive scan_res := ScanEof | ScanFail | ScanInt (z : Z) (rest : str).
Definition scan_d (s : str) : scan_res :=
  match skip_space s with
  | [] => ScanEof
  | c :: r =>
      let '(neg, body) := if Ascii.eqb c minus then (true, r)
                          else if Ascii.eqb c plus_ then (false, r) else (false, c :: r) in
      match body with
      | d :: _ => if is_digit d
                  then let '(v, rest) := digits_prefix 0 body in
                       ScanInt (if neg then - v else v) rest
                  else ScanFail
      | [] => ScanFail
      end
  end.

Definition int32_max : Z := 2147483647.
Definition int64_max : Z := 9223372036854775807.
Definition in_int32 (z : Z) : bool := (-2147483648 <=? z) && (z <=? int32_max).
Definition in_int64 (z : Z) : bool := (-9223372036854775808 <=? z) && (z <=? int64_max).

(** absl::SimpleAtoi<int64_t>: surrounding white space is ignored, optional
    sign, all remaining characters must be digits, the value must fit. *)
Definition all_space (s : str) : bool := forallb is_space s.
Definition simple_atoi (s : str) : option Z :=
  match scan_d s with
  | ScanInt z rest => if all_space rest && in_int64 z then Some z else None
  | _ => None
  end.

(** std::map<std::string, V> with operator[]/find; the representation is an
    association list without duplicate keys in insertion order (iteration
    order is supplied separately where it matters). *)
Fixpoint map_find {V} (k : str) (m : list (str * V)) : option V :=
  match m with
  | [] => None
  | (k', v) :: r => if str_eqb k k' then Some v else map_find k r
  end.
Fixpoint map_set {V} (k : str) (v : V) (m : list (str * V)) : list (str * V) :=
  match m with
  | [] => [(k, v)]
  | (k', v') :: r => if str_eqb k k' then (k', v) :: r else (k', v') :: map_set k v r
  end.
