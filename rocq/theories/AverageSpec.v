(** Vocabulary for statements about float64 sums and averages: real numbers and values only. *)
From Coq Require Import ZArith Reals.
From Flocq Require Import Core BinarySingleNaN.
From Verif Require Import GoBase GoVal FloatBase.
From stdpp Require Import list.
From Verif Require Import DistModel DistSpec.
Local Open Scope R_scope.

(** the sum of the values as real numbers, and the sum of their sizes *)
Definition sum_R (l : list num64) : R := foldr (λ (v : num64) a, B2R (v : float64) + a) 0 l.
Definition size_R (l : list num64) : R := foldr (λ (v : num64) a, Rabs (B2R (v : float64)) + a) 0 l.
Definition mean_R (l : list num64) : R := sum_R l / INR (length l).
(** all numbers that the calls mention *)
Definition mentioned (h : list (op num64)) : list num64 := concat (op_values <$> h).
(** a whole number *)
Definition whole (v : num64) : Prop := is_finite (v : float64) = true ∧ ∃ z : Z, B2R (v : float64) = IZR z.
