(** Property theorems C46-C47: bucketer constructors. *)
From Coq Require Import ZArith QArith Reals Lia.
From Verif Require Import GoBase GoVal FloatBase.
From stdpp Require Import list.
From Flocq Require Import Core BinarySingleNaN.
From Verif Require Import DistModel DistSpec BucketerModel BucketerSpec BucketerProofs BucketerQ BucketerGeo BucketerEmit BucketerClose.

(** C46 (float64, overflow included).  Each end point is the one before times scale (plus increment) in float64. *)
Theorem c46_exponential : ∀ (count : Z) (start scale : num64), notNaN start → notNaN scale →
  (NewExponentialBucketer count start scale = None ↔ (count < 2)%Z ∨ f64_le start (f64_of_Z 0) = true ∨ f64_le scale (f64_of_Z 1) = true) ∧
  ∀ ps, NewExponentialBucketer count start scale = Some ps → Z.of_nat (length ps) = count ∧
    ∃ es, buckets es ps ∧ Forall notNaN es ∧ ascending es ∧ progression (λ e : num64, f64_mul e scale : num64) start es.
Proof. exact stream_exponential. Qed.
Theorem c46_linear : ∀ (count : Z) (start increment : num64), notNaN start → notNaN increment →
  (NewLinearBucketer count start increment = None ↔ (count < 2)%Z ∨ f64_le increment (f64_of_Z 0) = true) ∧
  ∀ ps, NewLinearBucketer count start increment = Some ps → Z.of_nat (length ps) = count ∧
    ∃ es, buckets es ps ∧ progression (λ e : num64, f64_add e increment : num64) start es ∧
      (¬ (start = f64_ninf ∧ increment = f64_pinf) → Forall notNaN es ∧ ascending es).
Proof. exact stream_linear. Qed.
Theorem c46_arbitrary : ∀ es : list num64, (NewArbitraryBucketer es = None ↔ es = []) ∧ ∀ ps, NewArbitraryBucketer es = Some ps → buckets es ps.
Proof. exact arbitrary. Qed.
(** The one non-NaN corner where the end points are not ascending: NewLinearBucketer(3, -Inf, +Inf) has the end points -Inf, NaN *)
Theorem c46_linear_refuted : ∃ (start increment : num64) ps p, notNaN start ∧ notNaN increment ∧ NewLinearBucketer 3 start increment = Some ps ∧
  ps !! 1 = Some p ∧ ¬ notNaN (p_end p).
Proof.
  exists f64_ninf, f64_pinf. eexists _, _. split; [reflexivity|]. split; [reflexivity|]. split; [unfold NewLinearBucketer; reflexivity|]. split; [reflexivity|]. intros H. by vm_compute in H.
Qed.
Definition Zof (f : num64) : Z := match (f : float64) with B754_finite s m e _ => (if s then -1 else 1) * (Zpos m * 2 ^ Z.max e 0 / 2 ^ Z.max (- e) 0) | _ => 0 end%Z.
Definition ranges (ps : list (piece num64)) : list (Z * Z * bool * bool) := (λ p, (Zof (p_start p), Zof (p_end p), p_first p, p_last p)) <$> ps.
Example c46_nonvacuous :
  option_map ranges (NewExponentialBucketer 4 (f64_of_Z 1 : num64) (f64_of_Z 10)) = Some [(0, 1, true, false); (1, 10, false, false); (10, 100, false, false); (100, 0, false, true)]%Z ∧
  option_map ranges (NewLinearBucketer 5 (f64_of_Z 0 : num64) (f64_of_Z 10)) = Some [(0, 0, true, false); (0, 10, false, false); (10, 20, false, false); (20, 30, false, false); (30, 0, false, true)]%Z ∧
  isSome (NewExponentialBucketer 1 (f64_of_Z 1 : num64) (f64_of_Z 10)) = false ∧ isSome (NewLinearBucketer 5 (f64_of_Z 0 : num64) (f64_of_Z 0)) = false ∧
  (** overflow: 2^1023, +Inf, +Inf *)
  option_map (fmap (λ p : piece num64, f64_eq (f64_lit 1 1023) (p_start p))) (NewExponentialBucketer 4 (f64_lit 1 1023 : num64) (f64_of_Z 2)) = Some [false; true; false; false] ∧
  option_map (fmap (λ p : piece num64, f64_eq f64_pinf (p_start p))) (NewExponentialBucketer 4 (f64_lit 1 1023 : num64) (f64_of_Z 2)) = Some [false; false; true; true].
Proof. vm_compute. done. Qed.
Print Assumptions c46_exponential.
Print Assumptions c46_linear.
Print Assumptions c46_arbitrary.
Print Assumptions c46_linear_refuted.

(** C47 in exact arithmetic: the full statement.  Partial as the code computes in float64. *)
Theorem c47_exact_partial : ∀ lower upper : numQ,
  ((lower <= 0)%Q ∨ (upper < lower)%Q → ∀ fuel, newGeometricBucketerStream fuel lower upper = Panicked) ∧
  ((0 < lower)%Q → (lower <= upper)%Q → ∃ n k m es, (∀ fuel, (n < fuel)%nat → newGeometricBucketerStream fuel lower upper = Finished es) ∧
    length es = S m ∧ (∀ i e, es !! i = Some e → (e == seriesQ (k + Z.of_nat i))%Q) ∧
    (seriesQ k <= lower)%Q ∧ (lower < seriesQ (k + 1))%Q ∧ (seriesQ (k + Z.of_nat m - 1) < upper)%Q ∧ (upper <= seriesQ (k + Z.of_nat m))%Q).
Proof. exact geometric_Q. Qed.
(** C47 in float64: panics, termination, and the end points relative to upper, for every lower except +Inf and the two smallest
    positive float64 numbers.  Missing: the end points are the series, see [c47_close_partial]. *)
Theorem c47_float_partial : ∀ lower upper : num64, notNaN lower → notNaN upper →
  (f64_le lower (f64_of_Z 0) = true ∨ f64_lt upper lower = true → ∀ fuel, newGeometricBucketerStream fuel lower upper = Panicked) ∧
  (f64_le (f64_lit 3 (-1074)) lower = true → lower ≠ f64_pinf → f64_lt upper lower = false →
   ∃ n es, (∀ fuel, (n ≤ fuel)%nat → newGeometricBucketerStream fuel lower upper = Finished es) ∧
     es ≠ [] ∧ Forall notNaN es ∧ ascending es ∧ (∀ i e, es !! i = Some e → f64_lt e upper = bool_decide (S i < length es)%nat)).
Proof. exact geometric_works. Qed.
(** C47 in float64 up to a relative error of 2^-41.  Missing: exactly the members of the series, first <= lower; false, see below. *)
Theorem c47_close_partial : ∀ lower upper : num64, (bpow radix2 (-960) <= f64_key lower)%R → (f64_key lower <= f64_key upper)%R → (f64_key upper <= bpow radix2 960)%R →
  ∃ n k m es, (∀ fuel, (n ≤ fuel)%nat → newGeometricBucketerStream fuel lower upper = Finished es) ∧ length es = S m ∧
    (∀ i e, es !! i = Some e → (Rabs (f64_key e - seriesR (k + Z.of_nat i)) <= bpow radix2 (-41) * seriesR (k + Z.of_nat i))%R) ∧
    (seriesR k <= (1 + bpow radix2 (-41)) * f64_key lower)%R ∧ ((1 - bpow radix2 (-41)) * f64_key lower <= seriesR (k + 1))%R ∧
    ((1 - bpow radix2 (-41)) * seriesR (k + Z.of_nat m - 1) < f64_key upper)%R ∧ (f64_key upper <= (1 + bpow radix2 (-41)) * seriesR (k + Z.of_nat m))%R.
Proof. exact geometric_close. Qed.
(** the buckets are those of the end points *)
Theorem c47_buckets : ∀ fuel (lower upper : num64) ps, NewGeometricBucketer fuel lower upper = Finished ps →
  ∃ es, newGeometricBucketerStream fuel lower upper = Finished es ∧ buckets es ps.
Proof.
  intros fuel lower upper ps. unfold NewGeometricBucketer. destruct (newGeometricBucketerStream fuel lower upper) as [| |es]; [done|done|]. destruct (newBucketerFromEndpoints es) as [ps'|] eqn:E; [|done].
  intros [= <-]. exists es. split; [done|]. by apply buckets_of.
Qed.
(** NewGeometricBucketer(1e-6, 1.0): the first end point is greater than lower *)
Definition micro : num64 := f64_lit 4722366482869645 (-72).
Definition stream (r : run (list num64)) : list num64 := match r with Finished es => es | _ => [] end.
Theorem c47_refuted : ∃ (lower upper : num64) fuel es e, f64_lt (f64_of_Z 0) lower = true ∧ f64_le lower upper = true ∧
  newGeometricBucketerStream fuel lower upper = Finished es ∧ es !! 0 = Some e ∧ f64_lt lower e = true.
Proof.
  destruct (newGeometricBucketerStream 40 micro (f64_of_Z 1)) as [| |es] eqn:E.
  - exfalso. assert ((match newGeometricBucketerStream 40 micro (f64_of_Z 1 : num64) with Running => true | _ => false end) = false) as X by by vm_compute. by rewrite E in X.
  - exfalso. assert ((match newGeometricBucketerStream 40 micro (f64_of_Z 1 : num64) with Panicked => true | _ => false end) = false) as X by by vm_compute. by rewrite E in X.
  - assert (match stream (newGeometricBucketerStream 40 micro (f64_of_Z 1)) with e :: _ => f64_lt micro e | [] => false end = true) as X by by vm_compute.
    rewrite E in X. simpl in X. destruct es as [|e es]; [done|]. exists micro, (f64_of_Z 1), 40, (e :: es), e. split; [by vm_compute|]. split; [by vm_compute|]. split; [exact E|]. split; [reflexivity|exact X].
Qed.
(** It never returns when lower is +Inf or one of the two smallest positive numbers *)
Theorem c47_hangs_refuted : ∀ lower upper : num64, lower = f64_pinf ∨ lower = f64_lit 1 (-1074) ∨ lower = f64_lit 2 (-1074) → f64_lt upper lower = false → notNaN upper →
  ∀ fuel, newGeometricBucketerStream fuel lower upper = Running.
Proof. exact geometric_hangs. Qed.
(** NewGeometricBucketer(0.5, 50) as in the documentation (times 2), NewGeometricBucketer(3, 3), and 10^-6 as a lower bound *)
Example c47_nonvacuous : (λ e : num64, Zof (f64_mul (f64_of_Z 2) e)) <$> stream (newGeometricBucketerStream 20 (f64_lit 1 (-1) : num64) (f64_of_Z 50)) = [1; 2; 4; 10; 20; 40; 100]%Z ∧
  Zof <$> stream (newGeometricBucketerStream 20 (f64_of_Z 3 : num64) (f64_of_Z 3)) = [2; 5]%Z ∧
  length (stream (newGeometricBucketerStream 40 micro (f64_of_Z 1 : num64))) = 19 ∧
  seriesQ (-1) == 5 # 10 ∧ seriesQ 5 == 50.
Proof. vm_compute. done. Qed.
Example c47_exact_nonvacuous : (Qred <$> match newGeometricBucketerStream 20 (5 # 10 : numQ)%Q (50 : numQ)%Q with Finished es => es | _ => [] end) = [1 # 2; 1; 2; 5; 10; 20; 50]%Q.
Proof. vm_compute. done. Qed.
Print Assumptions c47_exact_partial.
Print Assumptions c47_float_partial.
Print Assumptions c47_close_partial.
Print Assumptions c47_buckets.
Print Assumptions c47_refuted.
Print Assumptions c47_hangs_refuted.
