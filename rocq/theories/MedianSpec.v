(** Vocabulary for statements about the float64 median of a distribution: real numbers, end points and values only. *)
From Coq Require Import ZArith Reals.
From Flocq Require Import Core BinarySingleNaN.
From Verif Require Import GoBase GoVal FloatBase.
From stdpp Require Import list.
From Verif Require Import DistModel DistSpec.
Local Open Scope R_scope.

(** a float64 that is a number of size at most 2^1020, so that adding two such numbers does not overflow *)
Definition moderate (v : num64) : Prop := is_finite (v : float64) = true ∧ Rabs (B2R (v : float64)) <= bpow radix2 1020.
(** the real number r is not outside bucket i, whose end points i-1 and i may be infinite *)
Definition real_in_bucket (es : list num64) (i : nat) (r : R) : Prop :=
  (∀ lower : num64, (0 < i)%nat → es !! (i - 1)%nat = Some lower → is_finite (lower : float64) = true → B2R (lower : float64) <= r) ∧
  (∀ upper : num64, es !! i = Some upper → is_finite (upper : float64) = true → r <= B2R (upper : float64)).
(** the greatest rounding error: a 2^-50th of the greater of the two sizes, and a few units of the smallest float64 *)
Definition slack (mn mx : num64) : R := bpow radix2 (-50) * Rmax (Rabs (B2R (mn : float64))) (Rabs (B2R (mx : float64))) + bpow radix2 (-1072).
