(** float64 arithmetic (IEEE 754 binary64, round to nearest even) as Go uses it. *)
From Coq Require Import ZArith NArith Reals Lra Bool.
From Flocq Require Import Core.Core IEEE754.BinarySingleNaN.
From Verif Require Import GoVal.

#[global] Instance prec53 : Prec_gt_0 53 := eq_refl.
#[global] Instance emax1024 : Prec_lt_emax 53 1024 := eq_refl.
#[global] Instance prec24 : Prec_gt_0 24 := eq_refl.
#[global] Instance emax128 : Prec_lt_emax 24 128 := eq_refl.

Definition f64_add : float64 -> float64 -> float64 := Bplus mode_NE.
Definition f64_sub : float64 -> float64 -> float64 := Bminus mode_NE.
Definition f64_mul : float64 -> float64 -> float64 := Bmult mode_NE.
Definition f64_div : float64 -> float64 -> float64 := Bdiv mode_NE.
(** Go's <, <=, == on float64 (false when an operand is NaN) *)
Definition f64_lt : float64 -> float64 -> bool := Bltb.
Definition f64_le : float64 -> float64 -> bool := Bleb.
Definition f64_eq : float64 -> float64 -> bool := Beqb.
(** float64(z) for an integer z *)
Definition f64_of_Z (z : Z) : float64 := binary_normalize 53 1024 eq_refl eq_refl mode_NE z 0 false.
Definition f64_of_N (n : N) : float64 := f64_of_Z (Z.of_N n).
(** m * 2^e, for literals *)
Definition f64_lit (m e : Z) : float64 := binary_normalize 53 1024 eq_refl eq_refl mode_NE m e false.
Definition f64_pinf : float64 := B754_infinity false.
Definition f64_ninf : float64 := B754_infinity true.
Definition f64_nan : float64 := B754_nan.

(** float64(f) for a float32 f: exact *)
Definition f64_of_f32 (f : float32) : float64 :=
  match f with
  | B754_zero s => B754_zero s
  | B754_infinity s => B754_infinity s
  | B754_nan => B754_nan
  | B754_finite s m e _ => binary_normalize 53 1024 eq_refl eq_refl mode_NE (if s then Zneg m else Zpos m) e s
  end.

(** math.Min, math.Max (math/dim.go) *)
Definition f64_min (x y : float64) : float64 :=
  match x, y with
  | B754_infinity true, _ | _, B754_infinity true => f64_ninf
  | B754_nan, _ | _, B754_nan => f64_nan
  | B754_zero s, B754_zero _ => if s then x else y
  | _, _ => if f64_lt x y then x else y
  end.
Definition f64_max (x y : float64) : float64 :=
  match x, y with
  | B754_infinity false, _ | _, B754_infinity false => f64_pinf
  | B754_nan, _ | _, B754_nan => f64_nan
  | B754_zero s, B754_zero _ => if s then y else x
  | _, _ => if f64_lt y x then x else y
  end.

(** *** The order of float64 without NaN is that of the reals with two end points *)
Definition f64_key (x : float64) : R :=
  match x with
  | B754_infinity s => if s then (- bpow radix2 1024)%R else bpow radix2 1024
  | _ => B2R x
  end.
Lemma key_bound (x : float64) : is_finite x = true -> (- bpow radix2 1024 < B2R x < bpow radix2 1024)%R.
Proof. intros F. pose proof (abs_B2R_lt_emax 53 1024 x) as H. apply Rabs_def2 in H. lra. Qed.
Lemma f64_lt_key (x y : float64) : is_nan x = false -> is_nan y = false -> f64_lt x y = Rlt_bool (f64_key x) (f64_key y).
Proof.
  intros Nx Ny. pose proof (bpow_gt_0 radix2 1024) as P.
  destruct (is_finite x) eqn:Fx; [destruct (is_finite y) eqn:Fy|].
  - replace (f64_key x) with (B2R x) by now destruct x. replace (f64_key y) with (B2R y) by now destruct y. now apply Bltb_correct.
  - destruct y as [|s| |]; try discriminate. pose proof (key_bound x Fx). replace (f64_key x) with (B2R x) by now destruct x. cbv beta iota delta [f64_key].
    destruct s; [rewrite Rlt_bool_false by lra|rewrite Rlt_bool_true by lra]; destruct x as [[]|[]| |[]]; try discriminate; reflexivity.
  - destruct x as [|s| |]; try discriminate.
    destruct (is_finite y) eqn:Fy.
    + pose proof (key_bound y Fy). replace (f64_key y) with (B2R y) by now destruct y. cbv beta iota delta [f64_key].
      destruct s; [rewrite Rlt_bool_true by lra|rewrite Rlt_bool_false by lra]; destruct y as [[]|[]| |[]]; try discriminate; reflexivity.
    + destruct y as [|s'| |]; try discriminate. cbv beta iota delta [f64_key].
      destruct s, s'; (rewrite Rlt_bool_true by lra) || (rewrite Rlt_bool_false by lra); reflexivity.
Qed.
Lemma f64_lt_asym (x y : float64) : is_nan x = false -> is_nan y = false -> f64_lt x y = true -> f64_lt y x = false.
Proof.
  intros Nx Ny. rewrite !f64_lt_key by assumption. intros H. destruct (Rlt_bool_spec (f64_key x) (f64_key y)); [|discriminate].
  apply Rlt_bool_false. lra.
Qed.
Lemma f64_lt_negtrans (x y z : float64) : is_nan x = false -> is_nan y = false -> is_nan z = false ->
  f64_lt x y = false -> f64_lt y z = false -> f64_lt x z = false.
Proof.
  intros Nx Ny Nz. rewrite !f64_lt_key by assumption. intros H1 H2.
  destruct (Rlt_bool_spec (f64_key x) (f64_key y)); [discriminate|]. destruct (Rlt_bool_spec (f64_key y) (f64_key z)); [discriminate|].
  apply Rlt_bool_false. lra.
Qed.
Lemma f64_lt_nan (x y : float64) : is_nan x = true \/ is_nan y = true -> f64_lt x y = false.
Proof. intros [H|H]; [destruct x; try discriminate; now destruct y|destruct y; try discriminate; now destruct x as [| | |[]]]. Qed.
