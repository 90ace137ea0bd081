(* The floating-point expression of get_merkle_tree_row_count (merkle.rs 1945-1952) in IEEE
   binary64 arithmetic (Flocq).  f64::ln is a parameter with a specification. *)
From Coq Require Import ZArith NArith Bool Reals.
From Flocq Require Import Core BinarySingleNaN.

(* f64: 53 bits of precision, exponents below 1024 *)
Definition p53 : Prec_gt_0 53 := eq_refl.
Definition e1024 : Prec_lt_emax 53 1024 := eq_refl.
Definition f64 : Type := binary_float 53 1024.

(* merkle.rs 1950, usize as f64: to nearest, ties to even *)
Definition of_usize (n : N) : f64 := binary_normalize 53 1024 p53 e1024 mode_NE (Z.of_N n) 0 false.

(* merkle.rs 1950, f64 as usize: towards zero, saturating, NaN gives 0 *)
Definition to_usize (x : f64) : N :=
  match x with
  | B754_nan => 0
  | B754_infinity s => if s then 0 else 2 ^ 64 - 1
  | _ => N.min (Z.to_N (Btrunc x)) (2 ^ 64 - 1)
  end.

(* merkle.rs 1950: the product, and the quotient inside f64::log *)
Definition f64_mul : f64 -> f64 -> f64 := Bmult (prec_gt_0_ := p53) (prec_lt_emax_ := e1024) mode_NE.
Definition f64_div : f64 -> f64 -> f64 := Bdiv (prec_gt_0_ := p53) (prec_lt_emax_ := e1024) mode_NE.

(* merkle.rs 1950: f64::log(self, base) is self.ln() / base.ln() *)
Definition f64_log (ln : f64 -> f64) (x base : f64) : f64 := f64_div (ln x) (ln base).

(* merkle.rs 1950: (branches as f64 * leafs as f64).log(branches as f64) as usize *)
Definition row_count_f64 (ln : f64 -> f64) (leafs branches : N) : N :=
  to_usize (f64_log ln (f64_mul (of_usize branches) (of_usize leafs)) (of_usize branches)).

(* rounding a real to binary64 *)
Definition rnd64 (x : R) : R := round radix2 (FLT_exp (3 - 1024 - 53) 53) ZnearestE x.

(* what f64::ln must satisfy: correct rounding, and the IEEE special values *)
Record ln_spec (ln : f64 -> f64) : Prop := {
  ln_round : forall x, is_finite x = true -> (0 < B2R x)%R -> B2R (ln x) = rnd64 (Rpower.ln (B2R x));
  ln_finite : forall x, is_finite x = true -> (0 < B2R x)%R -> is_finite (ln x) = true;
  ln_one : forall x, is_finite x = true -> B2R x = 1%R -> ln x = B754_zero false;
  ln_zero : forall s, ln (B754_zero s) = B754_infinity true
}.
