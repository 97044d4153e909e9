(** Property theorems C84: where linear and exponential bucketers have their end points. *)
From Coq Require Import ZArith Reals Lra Lia.
From Flocq Require Import Core BinarySingleNaN.
From Verif Require Import GoBase GoVal FloatBase FloatLemmas FloatConvProofs.
From stdpp Require Import list.
From Verif Require Import DistModel DistSpec BucketerModel BucketerSpec BucketerProofs DurDistSpec EndPointSpec EndPointProofs PropBucketer.
Local Open Scope R_scope.

(** The full property: end point number i is the float64 number nearest to start + i * increment, or start * scale^i. *)
Definition linear_points (right : R → num64 → Prop) : Prop := ∀ count (start increment : num64) ps,
  is_finite (start : float64) = true → is_finite (increment : float64) = true → NewLinearBucketer count start increment = Some ps →
  ∃ es, buckets es ps ∧ ∀ i (e : num64), es !! i = Some e → Rabs (linear_point start increment i) <= bpow radix2 1022 → right (linear_point start increment i) e.
Definition exponential_points (right : R → num64 → Prop) : Prop := ∀ count (start scale : num64) ps,
  is_finite (start : float64) = true → is_finite (scale : float64) = true → NewExponentialBucketer count start scale = Some ps →
  ∃ es, buckets es ps ∧ ∀ i (e : num64), es !! i = Some e → exponential_point start scale i <= bpow radix2 1022 → right (exponential_point start scale i) e.

(** As long as the end points that are meant are float64 numbers, they are exact, for example for whole numbers up to 2^53. *)
Theorem c84_linear_exact_partial : ∀ count (start increment : num64) ps, is_finite (start : float64) = true → is_finite (increment : float64) = true →
  NewLinearBucketer count start increment = Some ps →
  ∃ es, buckets es ps ∧ ∀ i (e : num64), es !! i = Some e → (∀ j, (j ≤ i)%nat → representable (linear_point start increment j)) →
    is_finite (e : float64) = true ∧ B2R (e : float64) = linear_point start increment i.
Proof.
  intros count start increment ps Fs Fi B. destruct (linear_stream count start increment ps Fs Fi B) as (es & Bu & Pr & Pi). exists es. split; [exact Bu|].
  intros i e E Rp. by eapply linear_exact.
Qed.
Theorem c84_exponential_exact_partial : ∀ count (start scale : num64) ps, is_finite (start : float64) = true → is_finite (scale : float64) = true →
  NewExponentialBucketer count start scale = Some ps →
  ∃ es, buckets es ps ∧ ∀ i (e : num64), es !! i = Some e → (∀ j, (j ≤ i)%nat → representable (exponential_point start scale j)) →
    is_finite (e : float64) = true ∧ B2R (e : float64) = exponential_point start scale i.
Proof.
  intros count start scale ps Fs Fi B. destruct (exponential_stream count start scale ps Fs Fi B) as (es & Bu & Pr & Ps & Pc). exists es. split; [exact Bu|].
  intros i e E Rp. by eapply exponential_exact.
Qed.
(** So the buckets of PowersOfTwo, PowersOfFour and PowersOfTen end at the powers of 2, 4 and 10. *)
Theorem c84_powers : ∀ n base bucketer, (n, base, bucketer) ∈ [(20%nat, 2%Z, PowersOfTwo); (11%nat, 4%Z, PowersOfFour); (7%nat, 10%Z, PowersOfTen)] →
  ∃ ps es, bucketer = Some ps ∧ length ps = n ∧ buckets es ps ∧
    ∀ i (e : num64), es !! i = Some e → is_finite (e : float64) = true ∧ B2R (e : float64) = IZR (base ^ Z.of_nat i).
Proof. exact powers. Qed.
(** In any case they are off by at most i * 2^-52, relative to the size of the numbers. *)
Theorem c84_linear_close_partial : ∀ count (start increment : num64) ps, is_finite (start : float64) = true → is_finite (increment : float64) = true →
  NewLinearBucketer count start increment = Some ps →
  ∃ es, buckets es ps ∧ ∀ i (e : num64), es !! i = Some e → INR i <= bpow radix2 52 →
    Rabs (B2R (start : float64)) + INR i * B2R (increment : float64) <= bpow radix2 1022 →
    is_finite (e : float64) = true ∧
    Rabs (B2R (e : float64) - linear_point start increment i) <= INR i * bpow radix2 (-52) * (Rabs (B2R (start : float64)) + INR i * B2R (increment : float64)).
Proof.
  intros count start increment ps Fs Fi B. destruct (linear_stream count start increment ps Fs Fi B) as (es & Bu & Pr & Pi). exists es. split; [exact Bu|].
  intros i e E L M. by eapply linear_close.
Qed.
Theorem c84_exponential_close_partial : ∀ count (start scale : num64) ps, is_finite (start : float64) = true → is_finite (scale : float64) = true →
  NewExponentialBucketer count start scale = Some ps →
  ∃ es, buckets es ps ∧ ∀ i (e : num64), es !! i = Some e → INR i <= bpow radix2 52 → bpow radix2 (-1022) <= B2R (start : float64) →
    exponential_point start scale i <= bpow radix2 1022 →
    is_finite (e : float64) = true ∧ Rabs (B2R (e : float64) - exponential_point start scale i) <= INR i * bpow radix2 (-52) * exponential_point start scale i.
Proof.
  intros count start scale ps Fs Fi B. destruct (exponential_stream count start scale ps Fs Fi B) as (es & Bu & Pr & Ps & Pc). exists es. split; [exact Bu|].
  intros i e E L N M. destruct (exponential_close start scale Ps Pc es Pr i e E L N M) as [[F _] C]. by split.
Qed.

(** Not exactly the nearest: NewLinearBucketer(12, 0, 0.1) has 0.9999999999999999 where 1 is meant, so that 0.9999999999999999 is not
    counted below 1 ... *)
Definition tenth : num64 := f64_lit 7205759403792794 (-56).
Theorem c84_linear_refuted : ¬ linear_points (λ x e, nearest e x).
Proof.
  intros T. destruct (NewLinearBucketer 12 (f64_of_Z 0 : num64) tenth) as [ps|] eqn:B; [|exact (is_some_ne (NewLinearBucketer 12 (f64_of_Z 0 : num64) tenth) ltac:(vm_compute; reflexivity) B)].
  destruct (T 12%Z (f64_of_Z 0 : num64) tenth ps eq_refl eq_refl B) as (es & Bu & H). clear T.
  assert (end_point (Some ps) 10 = end_point (NewLinearBucketer 12 (f64_of_Z 0 : num64) tenth) 10) as Ep by (rewrite B; reflexivity).
  assert (length ps = 12%nat) as Lp. { assert (option_map length (NewLinearBucketer 12 (f64_of_Z 0 : num64) tenth) = Some 12%nat) as Lo by (vm_compute; reflexivity). rewrite B in Lo. by injection Lo. }
  destruct (points_of es ps 10 Bu ltac:(rewrite Lp; lia)) as (e & E & P). change (end_point (Some ps) 10 = e) in P.
  destruct (of_Z_rnd 0 ltac:(lia)) as [_ Z]. rewrite rnd_Z in Z by lia.
  assert (linear_point (f64_of_Z 0 : num64) tenth 10 = B2R (f64_of_Z 10) * B2R (tenth : float64)) as X.
  { unfold linear_point. rewrite Z. destruct (of_Z_rnd 10 ltac:(lia)) as [_ Z10]. rewrite rnd_Z in Z10 by lia. rewrite Z10. rewrite INR_IZR_INZ. change (IZR (Z.of_nat 10)) with 10. ring. }
  assert (0 < B2R (tenth : float64)) as Tp by (apply positive_R; [vm_compute; reflexivity|reflexivity]).
  assert (B2R (f64_of_Z 10) = 10) as T10. { destruct (of_Z_rnd 10 ltac:(lia)) as [_ Z10]. by rewrite rnd_Z in Z10 by lia. }
  pose proof (mul_pos (f64_of_Z 10) tenth ltac:(rewrite T10; lra) Tp) as [[F M]|[I _]].
  2: { assert (f64_eq (f64_mul (f64_of_Z 10) tenth) f64_pinf = false) as C by (vm_compute; reflexivity). rewrite I in C. discriminate C. }
  destruct (H 10%nat e E) as [Fe Ne].
  - rewrite X, T10. assert (B2R (tenth : float64) < 1) as T1. { apply le_one_R; [vm_compute; reflexivity|reflexivity]. }
    rewrite Rabs_pos_eq by nra. apply Rle_trans with (bpow radix2 4); [change (bpow radix2 4) with 16; lra|apply bpow_le; lia].
  - assert (f64_lt e (f64_mul (f64_of_Z 10) tenth) = true) as C by (rewrite <- P, Ep; vm_compute; reflexivity).
    apply f64_lt_true in C as (_ & _ & C). rewrite !key_finite in C by assumption. rewrite M, Ne, X in C. lra.
Qed.
(** ... and in the example of the documentation, NewExponentialBucketer(25, 3.0, 1.7), the sixth end point is not the nearest. *)
Definition one_seven : num64 := f64_lit 7656119366529843 (-52).
Lemma fifth m : 3 * (IZR m * bpow radix2 (-52)) ^ 5 = IZR (3 * m ^ 5) * bpow radix2 (-260).
Proof.
  change (m ^ 5)%Z with (Z.pow_pos m 5). rewrite Zpower_pos_nat. change (Pos.to_nat 5) with 5%nat. rewrite mult_IZR. unfold Zpower_nat. cbn [nat_rect]. rewrite !mult_IZR.
  change (-260)%Z with (-52 + (-52 + (-52 + (-52 + -52))))%Z. rewrite !bpow_plus. generalize (bpow radix2 (-52)). intros b. ring.
Qed.
Theorem c84_exponential_refuted : ¬ exponential_points (λ x e, nearest e x).
Proof.
  intros T. destruct (NewExponentialBucketer 25 (f64_of_Z 3 : num64) one_seven) as [ps|] eqn:B; [|exact (is_some_ne (NewExponentialBucketer 25 (f64_of_Z 3 : num64) one_seven) ltac:(vm_compute; reflexivity) B)].
  destruct (T 25%Z (f64_of_Z 3 : num64) one_seven ps eq_refl eq_refl B) as (es & Bu & H). clear T.
  assert (end_point (Some ps) 5 = end_point (NewExponentialBucketer 25 (f64_of_Z 3 : num64) one_seven) 5) as Ep by (rewrite B; reflexivity).
  assert (length ps = 25%nat) as Lp. { assert (option_map length (NewExponentialBucketer 25 (f64_of_Z 3 : num64) one_seven) = Some 25%nat) as Lo by (vm_compute; reflexivity). rewrite B in Lo. by injection Lo. }
  destruct (points_of es ps 5 Bu ltac:(rewrite Lp; lia)) as (e & E & P).
  destruct (f64_of_Z_exact 3 ltac:(lia)) as [Z _].
  assert (B2R (one_seven : float64) = IZR 7656119366529843 * bpow radix2 (-52)) as V.
  { unfold one_seven. rewrite lit_nearest by reflexivity. apply rnd_fmt. apply (fmt_dyadic 7656119366529843 52); lia. }
  pose (big := (3 * 7656119366529843 ^ 5)%Z).
  assert (exponential_point (f64_of_Z 3 : num64) one_seven 5 = IZR big * bpow radix2 (-260)) as X.
  { unfold exponential_point. rewrite Z, V. apply fifth. }
  assert (is_finite (f64_lit big (-260)) = true) as F by reflexivity. pose proof (lit_nearest _ _ F) as M.
  destruct (H 5%nat e E) as [Fe Ne].
  - rewrite X. apply Rle_trans with (bpow radix2 (6)).
    + replace (bpow radix2 6) with (bpow radix2 266 * bpow radix2 (-260)) by (rewrite <- bpow_plus; reflexivity). apply Rmult_le_compat_r; [apply bpow_ge_0|]. rewrite <- (IZR_Zpower radix2) by lia. apply IZR_le. vm_compute. discriminate.
    + apply bpow_le. lia.
  - assert (f64_lt e (f64_lit big (-260)) = true) as C by (rewrite <- P, Ep; vm_compute; reflexivity).
    apply f64_lt_true in C as (_ & _ & C). rewrite !key_finite in C by assumption. rewrite M, Ne, X in C. lra.
Qed.
(** "NewLinearBucketer(5, 0, 10) means 5 buckets starting with <0; 0-10; 10-20; 20-30; >=30", and every end point is meant to be a float64 number;
    "NewExponentialBucketer(25, 3.0, 1.7) means 25 buckets starting with <3.0; 3.0 - 5.1; 5.1 - 8.67; 8.67 - 14.739 etc", in thousandths, rounded. *)
Example c84_nonvacuous :
  (option_map ranges (NewLinearBucketer 5 (f64_of_Z 0 : num64) (f64_of_Z 10 : num64)) =
     Some [(0, 0, true, false); (0, 10, false, false); (10, 20, false, false); (20, 30, false, false); (30, 0, false, true)]%Z) ∧
  (∀ j, (j ≤ 3)%nat → representable (linear_point (f64_of_Z 0 : num64) (f64_of_Z 10 : num64) j)) ∧
  ((λ i, Zof (f64_add (f64_mul (end_point (NewExponentialBucketer 25 (f64_of_Z 3 : num64) one_seven) i) (f64_of_Z 1000)) (f64_lit 1 (-1)))) <$> [0; 1; 2; 3]%nat = [3000; 5100; 8670; 14739]%Z) ∧
  option_map length (NewExponentialBucketer 25 (f64_of_Z 3 : num64) one_seven) = Some 25%nat.
Proof.
  split; [vm_compute; reflexivity|]. split; [|split; vm_compute; reflexivity].
  intros j J. destruct (linear_whole 0 10 3 ltac:(lia) ltac:(lia) j J) as [L|L]; [exact L|lia].
Qed.
Print Assumptions c84_linear_exact_partial.
Print Assumptions c84_exponential_exact_partial.
Print Assumptions c84_powers.
Print Assumptions c84_linear_close_partial.
Print Assumptions c84_exponential_close_partial.
Print Assumptions c84_linear_refuted.
Print Assumptions c84_exponential_refuted.
