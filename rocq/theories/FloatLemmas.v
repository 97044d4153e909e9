(** Bounds on float64 results from the corresponding real results (Flocq). *)
From Coq Require Import ZArith NArith Reals Lra Lia Bool.
From Flocq Require Import Core BinarySingleNaN Mult_error.
From Verif Require Import GoVal FloatBase.
Local Open Scope R_scope.

Notation fmt64 := (generic_format radix2 (FLT_exp (-1074) 53)).
Notation rnd64 := (round radix2 (FLT_exp (-1074) 53) ZnearestE).
Notation top := (bpow radix2 1024).

Lemma top_pos : 0 < top.
Proof. apply bpow_gt_0. Qed.
Lemma fmt_B2R (x : float64) : fmt64 (B2R x).
Proof. apply (generic_format_B2R 53 1024 x). Qed.
Lemma rnd_le x y : x <= y -> rnd64 x <= rnd64 y.
Proof. apply round_le; typeclasses eauto. Qed.
Lemma rnd_fmt x : fmt64 x -> rnd64 x = x.
Proof. apply round_generic; typeclasses eauto. Qed.
Lemma rnd_fmt_rnd x : fmt64 (rnd64 x).
Proof. apply generic_format_round; typeclasses eauto. Qed.
Lemma fmt_Z (z : Z) : (Z.abs z <= 2 ^ 53)%Z -> fmt64 (IZR z).
Proof.
  intros H. destruct (Z.eq_dec (Z.abs z) (2 ^ 53)) as [E|E].
  - assert (fmt64 (bpow radix2 53)) as F by (apply generic_format_bpow; vm_compute; discriminate).
    assert (IZR (2 ^ 53) = bpow radix2 53) as P by (rewrite (IZR_Zpower radix2) by lia; reflexivity).
    destruct (Z.abs_spec z) as [[_ A]|[_ A]]; [replace z with (2 ^ 53)%Z by lia; rewrite P; exact F|].
    replace z with (- 2 ^ 53)%Z by lia. rewrite opp_IZR, P. now apply generic_format_opp.
  - apply generic_format_FLT. exists (Float radix2 z 0); cbn [Fnum Fexp]; [unfold F2R; cbn; ring|change (radix2 ^ 53)%Z with (2 ^ 53)%Z; lia|lia].
Qed.
Lemma rnd_Z (z : Z) : (Z.abs z <= 2 ^ 53)%Z -> rnd64 (IZR z) = IZR z.
Proof. intros H. now apply rnd_fmt, fmt_Z. Qed.
(** integers of magnitude up to 2^53 are exact *)
Lemma f64_of_Z_exact (z : Z) : (Z.abs z <= 2 ^ 53)%Z -> B2R (f64_of_Z z) = IZR z /\ is_finite (f64_of_Z z) = true.
Proof.
  intros H. unfold f64_of_Z. pose proof (binary_normalize_correct 53 1024 eq_refl eq_refl mode_NE z 0 false) as C. cbv zeta in C.
  replace (F2R (Float radix2 z 0)) with (IZR z) in C by (unfold F2R; cbn; ring). change (round_mode mode_NE) with ZnearestE in C.
  change (round radix2 (SpecFloat.fexp 53 1024) ZnearestE (IZR z)) with (rnd64 (IZR z)) in C. rewrite rnd_Z in C by assumption.
  rewrite Rlt_bool_true in C; [now destruct C as (C1 & C2 & _)|].
  rewrite <- abs_IZR. apply Rle_lt_trans with (IZR (2 ^ 53)); [now apply IZR_le|]. rewrite (IZR_Zpower radix2) by lia. now apply bpow_lt.
Qed.
Lemma sign_pos (x : float64) : 0 < B2R x -> Bsign x = false.
Proof.
  destruct x as [s|s| |s m e H]; cbn [B2R Bsign]; intros P; try lra. destruct s; [|reflexivity]. exfalso.
  assert (F2R (Float radix2 (cond_Zopp true (Zpos m)) e) < 0); [|lra]. now apply F2R_lt_0.
Qed.
Lemma finite_pos (x : float64) : 0 < B2R x -> is_finite x = true.
Proof. destruct x; cbn; intros; try lra; reflexivity. Qed.
Lemma overflow_inf (z : float64) : B2SF z = binary_overflow 53 1024 mode_NE false -> z = f64_pinf.
Proof. destruct z as [s|s| |s m e H]; cbn; try discriminate. destruct s; [discriminate|reflexivity]. Qed.
(** a result that is the rounded real number, or +Inf if that is too large *)
Definition rounds (z : float64) (r : R) : Prop := (is_finite z = true /\ B2R z = rnd64 r) \/ (z = f64_pinf /\ top <= rnd64 r).
Lemma mul_pos (x y : float64) : 0 < B2R x -> 0 < B2R y -> rounds (f64_mul x y) (B2R x * B2R y).
Proof.
  intros X Y. pose proof (Bmult_correct 53 1024 eq_refl eq_refl mode_NE x y) as C. change (round_mode mode_NE) with ZnearestE in C.
  change (round radix2 (SpecFloat.fexp 53 1024) ZnearestE (B2R x * B2R y)) with (rnd64 (B2R x * B2R y)) in C.
  assert (0 <= rnd64 (B2R x * B2R y)) as P.
  { rewrite <- (rnd_fmt 0) by apply generic_format_0. apply rnd_le. apply Rlt_le. now apply Rmult_lt_0_compat. }
  rewrite Rabs_pos_eq in C by assumption. destruct (Rlt_bool_spec (rnd64 (B2R x * B2R y)) top) as [L|L].
  - left. destruct C as (C1 & C2 & _). split; [|exact C1]. etransitivity; [exact C2|]. rewrite (finite_pos x X), (finite_pos y Y). reflexivity.
  - right. split; [|exact L]. apply overflow_inf. etransitivity; [exact C|]. rewrite (sign_pos x X), (sign_pos y Y). reflexivity.
Qed.
Lemma div_pos (x y : float64) : 0 < B2R x -> 0 < B2R y -> rounds (f64_div x y) (B2R x / B2R y).
Proof.
  intros X Y. pose proof (Bdiv_correct 53 1024 eq_refl eq_refl mode_NE x y ltac:(lra)) as C. change (round_mode mode_NE) with ZnearestE in C.
  change (round radix2 (SpecFloat.fexp 53 1024) ZnearestE (B2R x / B2R y)) with (rnd64 (B2R x / B2R y)) in C.
  assert (0 <= rnd64 (B2R x / B2R y)) as P.
  { rewrite <- (rnd_fmt 0) by apply generic_format_0. apply rnd_le. apply Rlt_le. now apply Rdiv_lt_0_compat. }
  rewrite Rabs_pos_eq in C by assumption. destruct (Rlt_bool_spec (rnd64 (B2R x / B2R y)) top) as [L|L].
  - left. destruct C as (C1 & C2 & _). split; [|exact C1]. etransitivity; [exact C2|]. now apply finite_pos.
  - right. split; [|exact L]. apply overflow_inf. etransitivity; [exact C|]. rewrite (sign_pos x X), (sign_pos y Y). reflexivity.
Qed.
(** adding a positive number *)
Lemma add_pos (x y : float64) : is_finite x = true -> 0 < B2R y -> rounds (f64_add x y) (B2R x + B2R y).
Proof.
  intros X Y. pose proof (Bplus_correct 53 1024 eq_refl eq_refl mode_NE x y X (finite_pos y Y)) as C. change (round_mode mode_NE) with ZnearestE in C.
  change (round radix2 (SpecFloat.fexp 53 1024) ZnearestE (B2R x + B2R y)) with (rnd64 (B2R x + B2R y)) in C.
  destruct (Rlt_bool_spec (Rabs (rnd64 (B2R x + B2R y))) top) as [L|L].
  - left. destruct C as (C1 & C2 & _). now split.
  - right. destruct C as [C1 C2]. split.
    + apply overflow_inf. etransitivity; [exact C1|]. rewrite C2, (sign_pos y Y). reflexivity.
    + assert (B2R x <= rnd64 (B2R x + B2R y)) as G by (rewrite <- (rnd_fmt (B2R x)) at 1 by apply fmt_B2R; apply rnd_le; lra).
      pose proof (key_bound x X). unfold Rabs in L. destruct (Rcase_abs (rnd64 (B2R x + B2R y))); lra.
Qed.
Lemma rounds_notnan z r : rounds z r -> is_nan z = false.
Proof. intros [[F _]| [-> _]]; [destruct z; try discriminate|]; reflexivity. Qed.
Lemma key_finite (z : float64) : is_finite z = true -> f64_key z = B2R z.
Proof. now destruct z. Qed.
Lemma key_top (z : float64) : f64_key z <= top.
Proof.
  destruct (is_finite z) eqn:F; [rewrite key_finite by assumption; pose proof (key_bound z F); lra|].
  pose proof top_pos. destruct z as [s|s| |s m e Hb]; try discriminate; cbv beta iota delta [f64_key B2R]; [destruct s|]; lra.
Qed.
Lemma rounds_ge z r l : rounds z r -> fmt64 l -> l <= top -> l <= r -> l <= f64_key z.
Proof.
  intros [[F E]|[-> E]] Fl T L; [|cbv beta iota delta [f64_key f64_pinf]; exact T].
  rewrite key_finite by assumption. rewrite E. rewrite <- (rnd_fmt l) by assumption. now apply rnd_le.
Qed.
Lemma rounds_le z r u : rounds z r -> fmt64 u -> u < top -> r <= u -> is_finite z = true /\ B2R z <= u.
Proof.
  intros Q Fu T L. assert (rnd64 r <= u) as G by (rewrite <- (rnd_fmt u) by assumption; now apply rnd_le).
  destruct Q as [[F E]|[-> E]]; [|exfalso; lra]. split; [assumption|]. now rewrite E.
Qed.
Lemma fmt_scale (x : float64) e : (0 <= e)%Z -> fmt64 (B2R x * bpow radix2 e).
Proof. intros E. apply (mult_bpow_pos_exact_FLT radix2 (-1074) 53); [apply fmt_B2R|exact E]. Qed.
Lemma fmt_scale_down (x : float64) e : bpow radix2 (-1022 - e) <= B2R x -> fmt64 (B2R x * bpow radix2 e).
Proof.
  intros L. apply (mult_bpow_exact_FLT radix2 (-1074) 53); [apply fmt_B2R|].
  assert (-1022 - e < mag radix2 (B2R x))%Z; [|lia]. apply mag_gt_bpow. rewrite Rabs_pos_eq; [exact L|]. pose proof (bpow_gt_0 radix2 (-1022 - e)). lra.
Qed.
(** comparisons *)
Lemma f64_lt_true (x y : float64) : f64_lt x y = true -> is_nan x = false /\ is_nan y = false /\ f64_key x < f64_key y.
Proof.
  intros H. destruct (is_nan x) eqn:Nx; [rewrite f64_lt_nan in H by (now left); discriminate|]. destruct (is_nan y) eqn:Ny; [rewrite f64_lt_nan in H by (now right); discriminate|].
  rewrite f64_lt_key in H by assumption. destruct (Rlt_bool_spec (f64_key x) (f64_key y)); [easy|discriminate].
Qed.
Lemma f64_lt_false (x y : float64) : is_nan x = false -> is_nan y = false -> f64_lt x y = false -> f64_key y <= f64_key x.
Proof. intros Nx Ny H. rewrite f64_lt_key in H by assumption. destruct (Rlt_bool_spec (f64_key x) (f64_key y)); [discriminate|lra]. Qed.
Lemma f64_le_lt (x y : float64) : is_nan x = false -> is_nan y = false -> f64_le x y = negb (f64_lt y x).
Proof.
  intros Nx Ny. unfold f64_le, f64_lt, Bleb, Bltb, SpecFloat.SFleb, SpecFloat.SFltb. rewrite (Bcompare_swap 53 1024 y x : SpecFloat.SFcompare (B2SF x) (B2SF y) = _).
  assert (SpecFloat.SFcompare (B2SF y) (B2SF x) <> None) as N by (destruct x as [| | |[]], y as [| | |[]]; try discriminate; cbn; try (destruct (Z.compare _ _)); discriminate).
  change (Bcompare y x) with (SpecFloat.SFcompare (B2SF y) (B2SF x)). now destruct (SpecFloat.SFcompare (B2SF y) (B2SF x)) as [[]|].
Qed.
Lemma f64_le_true (x y : float64) : f64_le x y = true -> is_nan x = false /\ is_nan y = false /\ f64_key x <= f64_key y.
Proof.
  intros H. assert (is_nan x = false) as Nx by (destruct x; try discriminate; reflexivity).
  assert (is_nan y = false) as Ny by (destruct x as [| | |[]], y as [| | |[]]; try discriminate; reflexivity).
  rewrite f64_le_lt in H by assumption. apply negb_true_iff in H. pose proof (f64_lt_false y x Ny Nx H). easy.
Qed.
Lemma f64_le_false (x y : float64) : is_nan x = false -> is_nan y = false -> f64_le x y = false -> f64_key y < f64_key x.
Proof. intros Nx Ny H. rewrite f64_le_lt in H by assumption. apply negb_false_iff in H. now apply f64_lt_true in H. Qed.
