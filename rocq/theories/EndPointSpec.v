(** Where the documentation puts the end points of buckets. *)
From Coq Require Import Reals.
From Verif Require Import GoBase GoVal FloatBase.
From stdpp Require Import list.
From Flocq Require Import Core BinarySingleNaN.
From Verif Require Import DistModel.

(** end point number i *)
Definition linear_point (start increment : num64) (i : nat) : R := (B2R (start : float64) + INR i * B2R (increment : float64))%R.
Definition exponential_point (start scale : num64) (i : nat) : R := (B2R (start : float64) * B2R (scale : float64) ^ i)%R.
(** x is a float64 number *)
Definition representable (x : R) : Prop := ∃ f : float64, is_finite f = true ∧ B2R f = x.
