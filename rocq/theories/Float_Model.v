(** IEEE 754 arithmetic as used by distbench: float and double, rounding to
    nearest even, on the standard library's SpecFloat (no axioms; NaN payloads
    are not distinguished).  Definitions only. *)
From Coq Require Import ZArith Bool SpecFloat.
Open Scope Z_scope.

(** C++ double and float. *)
Definition f64_mul : spec_float -> spec_float -> spec_float := SFmul 53 1024.
Definition f64_add : spec_float -> spec_float -> spec_float := SFadd 53 1024.
Definition f64_sub : spec_float -> spec_float -> spec_float := SFsub 53 1024.
Definition f32_add : spec_float -> spec_float -> spec_float := SFadd 24 128.
Definition f32_sub : spec_float -> spec_float -> spec_float := SFsub 24 128.
(** Integer to double. *)
Definition f64_of_Z (n : Z) : spec_float := binary_normalize 53 1024 n 0 false.
(** float to double, and double to float. *)
Definition f_convert (prec emax : Z) (x : spec_float) : spec_float :=
  match x with S754_finite s m e => binary_round prec emax s m e | _ => x end.
Definition f64_of_f32 : spec_float -> spec_float := f_convert 53 1024.
Definition f32_of_f64 : spec_float -> spec_float := f_convert 24 128.
(** double to an integer type, towards zero; None: not a finite number (the
    conversion is undefined). *)
Definition f_trunc (x : spec_float) : option Z :=
  match x with
  | S754_zero _ => Some 0
  | S754_finite s m e =>
      let a := match e with Zneg k => Z.pos m / 2 ^ Z.pos k | _ => Z.pos m * 2 ^ e end in
      Some (if s then - a else a)
  | _ => None
  end.
(** Literals. *)
Definition f64_0_5 : spec_float := S754_finite false 4503599627370496 (-53).
Definition f64_0_9 : spec_float := S754_finite false 8106479329266893 (-53).
Definition f64_0_99 : spec_float := S754_finite false 8917127262193582 (-53).
Definition f64_0_999 : spec_float := S754_finite false 8998192055486251 (-53).
