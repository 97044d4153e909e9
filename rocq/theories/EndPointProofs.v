(** Rounding errors of the end points of linear and exponential bucketers. *)
From Coq Require Import ZArith Reals Lra Lia Psatz.
From Flocq Require Import Core BinarySingleNaN Plus_error Relative.
From Verif Require Import GoBase GoVal FloatBase FloatLemmas FloatConvProofs.
From stdpp Require Import list.
From Verif Require Import DistModel DistSpec BucketerModel BucketerSpec BucketerProofs EndPointSpec.
Local Open Scope R_scope.

Notation u1 := (bpow radix2 (-53)).
Notation u2 := (bpow radix2 (-52)).
Lemma u12 : u2 = 2 * u1.
Proof. change (-52)%Z with (1 + -53)%Z. rewrite bpow_plus. reflexivity. Qed.
Lemma u_pos : 0 < u1. Proof. apply bpow_gt_0. Qed.
Lemma fmt_rep x : representable x → fmt64 x ∧ Rabs x < bpow radix2 1024.
Proof. intros (f & F & <-). split; [apply fmt_B2R|]. apply (abs_B2R_lt_emax 53 1024 f). Qed.
(** sums have a small relative error, however small they are *)
Lemma add_err x y : fmt64 x → fmt64 y → Rabs (rnd64 (x + y) - (x + y)) <= u1 * Rabs (x + y).
Proof.
  intros X Y. destruct (FLT_plus_error_N_ex radix2 (-1074) 53 (λ n, negb (Z.even n)) x y X Y) as (eps & E & Rr).
  change (round radix2 (FLT_exp (-1074) 53) (Znearest (λ n, negb (Z.even n))) (x + y)) with (rnd64 (x + y)) in Rr. rewrite Rr.
  replace ((x + y) * (1 + eps) - (x + y)) with (eps * (x + y)) by ring. rewrite Rabs_mult. apply Rmult_le_compat_r; [apply Rabs_pos|].
  assert (u_ro radix2 53 = u1) as U. { unfold u_ro. change (-53 + 1)%Z with (1 + -53)%Z. rewrite bpow_plus. change (bpow radix2 1) with 2. change (- (53))%Z with (-53)%Z. lra. }
  rewrite U in E. pose proof u_pos. eapply Rle_trans; [exact E|]. apply Rle_trans with (u1 / 1); [|lra]. unfold Rdiv. apply Rmult_le_compat_l; [lra|]. apply Rinv_le; lra.
Qed.
Lemma small (i : nat) : INR i <= bpow radix2 52 → INR i * u2 <= 1.
Proof. intros L. apply Rle_trans with (bpow radix2 52 * u2); [apply Rmult_le_compat_r; [apply bpow_ge_0|exact L]|]. rewrite <- bpow_plus. change (bpow radix2 (52 + -52)) with 1. apply Rle_refl. Qed.
Lemma pow1022 : bpow radix2 1023 < bpow radix2 1024. Proof. apply bpow_lt. lia. Qed.
Lemma fmt1023 : fmt64 (bpow radix2 1023). Proof. apply fmt_pow. lia. Qed.
Lemma two1022 : 2 * bpow radix2 1022 = bpow radix2 1023. Proof. change 1023%Z with (1 + 1022)%Z. rewrite bpow_plus. reflexivity. Qed.

Section Linear.
  Context (start inc : num64) (Fs : is_finite (start : float64) = true) (Pi : 0 < B2R (inc : float64)).
  Context (es : list num64) (Pr : progression (λ e : num64, f64_add e inc : num64) start es).
  Let x (i : nat) := linear_point start inc i.
  Let M (i : nat) := Rabs (B2R (start : float64)) + INR i * B2R (inc : float64).
  Lemma linear_S i : x (S i) = x i + B2R (inc : float64).
  Proof using. unfold x, linear_point. rewrite S_INR. ring. Qed.
  Lemma M_S i : M (S i) = M i + B2R (inc : float64).
  Proof using. unfold M. rewrite S_INR. ring. Qed.
  Lemma x_M i : Rabs (x i) <= M i.
  Proof using Pi. unfold x, M, linear_point. eapply Rle_trans; [apply Rabs_triang|]. rewrite (Rabs_pos_eq (INR i * _)); [lra|]. apply Rmult_le_pos; [apply pos_INR|lra]. Qed.
  Lemma linear_exact i (e : num64) : es !! i = Some e → (∀ j, (j ≤ i)%nat → representable (x j)) → is_finite (e : float64) = true ∧ B2R (e : float64) = x i.
  Proof using All.
    revert e. induction i as [|i IH]; intros e E Rp.
    - destruct Pr as [P0 _]. rewrite P0 in E. injection E as <-. split; [exact Fs|]. unfold x, linear_point. cbn. ring.
    - assert (is_Some (es !! i)) as [a Ea]. { apply lookup_lt_is_Some. apply lookup_lt_Some in E. lia. }
      destruct (IH a Ea) as [Fa Ba]; [intros j J; apply Rp; lia|]. pose proof (proj2 Pr i a e Ea E) as ->.
      destruct (fmt_rep _ (Rp (S i) ltac:(lia))) as [Fm Tp]. destruct (add_pos a inc Fa Pi) as [[F B]|[_ T]].
      + split; [exact F|]. rewrite B, Ba, <- linear_S. apply rnd_fmt. exact Fm.
      + exfalso. rewrite Ba, <- linear_S, rnd_fmt in T by exact Fm. apply Rabs_def2 in Tp. lra.
  Qed.
  Lemma linear_close i (e : num64) : es !! i = Some e → INR i <= bpow radix2 52 → M i <= bpow radix2 1022 →
    is_finite (e : float64) = true ∧ Rabs (B2R (e : float64) - x i) <= INR i * u2 * M i.
  Proof using All.
    revert e. induction i as [|i IH]; intros e E L Hi.
    - destruct Pr as [P0 _]. rewrite P0 in E. injection E as <-. split; [exact Fs|]. unfold x, linear_point. cbn [INR]. replace (_ - _) with 0 by ring. rewrite Rabs_R0. lra.
    - assert (is_Some (es !! i)) as [a Ea]. { apply lookup_lt_is_Some. apply lookup_lt_Some in E. lia. }
      assert (INR i <= bpow radix2 52) as L' by (rewrite S_INR in L; lra). assert (M i <= bpow radix2 1022) as Hi' by (rewrite M_S in Hi; lra).
      destruct (IH a Ea L' Hi') as [Fa Ba]. pose proof (proj2 Pr i a e Ea E) as ->.
      pose proof (small i L') as Sm. pose proof (pos_INR i) as Pos. pose proof u_pos as Up. pose proof (x_M (S i)) as XM.
      assert (0 <= M i) as M0 by (eapply Rle_trans; [apply Rabs_pos|apply x_M]). pose proof (M_S i) as MS.
      assert (Rabs (B2R (a : float64) + B2R (inc : float64) - x (S i)) <= INR i * u2 * M i) as E1.
      { replace (B2R (a : float64) + B2R (inc : float64) - x (S i)) with (B2R (a : float64) - x i) by (rewrite linear_S; ring). exact Ba. }
      assert (0 <= INR i * u2) as P0 by (rewrite u12; nra).
      assert (INR i * u2 * M i <= INR i * u2 * M (S i)) as E2 by (apply Rmult_le_compat_l; lra).
      assert (Rabs (B2R (a : float64) + B2R (inc : float64)) <= (1 + INR i * u2) * M (S i)) as E3.
      { replace (B2R (a : float64) + B2R (inc : float64)) with ((B2R (a : float64) + B2R (inc : float64) - x (S i)) + x (S i)) by ring. eapply Rle_trans; [apply Rabs_triang|]. lra. }
      assert (Rabs (B2R (a : float64) + B2R (inc : float64)) <= 2 * M (S i)) as E4.
      { eapply Rle_trans; [exact E3|]. apply Rmult_le_compat_r; lra. }
      assert (B2R (a : float64) + B2R (inc : float64) <= bpow radix2 1023) as E5.
      { eapply Rle_trans; [apply Rle_abs|]. eapply Rle_trans; [exact E4|]. rewrite <- two1022. lra. }
      destruct (rounds_le _ _ _ (add_pos a inc Fa Pi) fmt1023 pow1022 E5) as [F _]. split; [exact F|].
      destruct (add_pos a inc Fa Pi) as [[_ B]|[Z _]]; [|rewrite Z in F; discriminate F]. rewrite B.
      pose proof (add_err _ _ (fmt_B2R a) (fmt_B2R inc)) as Er.
      set (s := B2R (a : float64) + B2R (inc : float64)) in *. replace (rnd64 s - x (S i)) with ((rnd64 s - s) + (s - x (S i))) by ring.
      eapply Rle_trans; [apply Rabs_triang|]. apply Rle_trans with (u1 * (2 * M (S i)) + INR i * u2 * M (S i)).
      + apply Rplus_le_compat; [|lra]. eapply Rle_trans; [exact Er|]. apply Rmult_le_compat_l; lra.
      + rewrite S_INR, u12. lra.
  Qed.
End Linear.

Section Exponential.
  Context (start scale : num64) (Ps : 0 < B2R (start : float64)) (Pc : 1 < B2R (scale : float64)).
  Context (es : list num64) (Pr : progression (λ e : num64, f64_mul e scale : num64) start es).
  Let x (i : nat) := exponential_point start scale i.
  Lemma exp_S i : x (S i) = x i * B2R (scale : float64).
  Proof using. unfold x, exponential_point. simpl. ring. Qed.
  Lemma exp_pos i : 0 < x i.
  Proof using Ps Pc. unfold x, exponential_point. apply Rmult_lt_0_compat; [exact Ps|]. apply pow_lt. lra. Qed.
  Lemma exponential_exact i (e : num64) : es !! i = Some e → (∀ j, (j ≤ i)%nat → representable (x j)) → is_finite (e : float64) = true ∧ B2R (e : float64) = x i.
  Proof using All.
    revert e. induction i as [|i IH]; intros e E Rp.
    - destruct Pr as [P0 _]. rewrite P0 in E. injection E as <-. split; [by apply finite_pos|]. unfold x, exponential_point. cbn. ring.
    - assert (is_Some (es !! i)) as [a Ea]. { apply lookup_lt_is_Some. apply lookup_lt_Some in E. lia. }
      destruct (IH a Ea) as [Fa Ba]; [intros j J; apply Rp; lia|]. pose proof (proj2 Pr i a e Ea E) as ->. pose proof (exp_pos i) as Xp.
      destruct (fmt_rep _ (Rp (S i) ltac:(lia))) as [Fm Tp]. destruct (mul_pos a scale ltac:(rewrite Ba; exact Xp) ltac:(lra)) as [[F B]|[_ T]].
      + split; [exact F|]. rewrite B, Ba, <- exp_S. apply rnd_fmt. exact Fm.
      + exfalso. rewrite Ba, <- exp_S, rnd_fmt in T by exact Fm. apply Rabs_def2 in Tp. lra.
  Qed.
  Lemma exponential_close i (e : num64) : es !! i = Some e → INR i <= bpow radix2 52 → bpow radix2 (-1022) <= B2R (start : float64) → x i <= bpow radix2 1022 →
    (is_finite (e : float64) = true ∧ B2R (start : float64) <= B2R (e : float64)) ∧ Rabs (B2R (e : float64) - x i) <= INR i * u2 * x i.
  Proof using All.
    revert e. induction i as [|i IH]; intros e E L Ns Hi.
    - destruct Pr as [P0 _]. rewrite P0 in E. injection E as <-. split; [split; [by apply finite_pos|lra]|]. unfold x, exponential_point. cbn [INR Rpow_def.pow]. replace (_ - _) with 0 by ring. rewrite Rabs_R0. lra.
    - assert (is_Some (es !! i)) as [a Ea]. { apply lookup_lt_is_Some. apply lookup_lt_Some in E. lia. }
      pose proof (exp_pos i) as Xp. pose proof (exp_S i) as XS. set (c := B2R (scale : float64)) in *.
      assert (INR i <= bpow radix2 52) as L' by (rewrite S_INR in L; lra). assert (x i <= bpow radix2 1022) as Hi' by nra.
      destruct (IH a Ea L' Ns Hi') as [[Fa La] Ba]. pose proof (proj2 Pr i a e Ea E) as ->.
      pose proof (small i L') as Sm. pose proof (pos_INR i) as Pos. pose proof u_pos as Up.
      assert (0 < B2R (a : float64)) as Pa by lra. pose proof (mul_pos a scale Pa ltac:(fold c; lra)) as Rd. fold c in Rd. set (s := B2R (a : float64) * c) in *.
      assert (0 <= INR i * u2) as P0 by (rewrite u12; nra).
      assert (Rabs (s - x (S i)) <= INR i * u2 * x (S i)) as E1.
      { rewrite XS. unfold s. rewrite <- Rmult_minus_distr_r, Rabs_mult, (Rabs_pos_eq c) by lra. rewrite <- Rmult_assoc. apply Rmult_le_compat_r; lra. }
      assert (0 < x (S i)) as Xp' by apply exp_pos.
      assert (Rabs s <= 2 * x (S i)) as E4.
      { replace s with ((s - x (S i)) + x (S i)) by ring. eapply Rle_trans; [apply Rabs_triang|]. rewrite (Rabs_pos_eq (x (S i))) by lra.
        assert (INR i * u2 * x (S i) <= 1 * x (S i)) by (apply Rmult_le_compat_r; lra). lra. }
      assert (s <= bpow radix2 1023) as E5. { eapply Rle_trans; [apply Rle_abs|]. eapply Rle_trans; [exact E4|]. rewrite <- two1022. lra. }
      assert (B2R (a : float64) <= s) as Gr by (unfold s; nra).
      destruct (rounds_le _ _ _ Rd fmt1023 pow1022 E5) as [F _]. destruct Rd as [[_ B]|[Z _]]; [|rewrite Z in F; discriminate F]. split; [split; [exact F|]|].
      + rewrite B. apply Rle_trans with (B2R (a : float64)); [exact La|]. rewrite <- (rnd_fmt (B2R (a : float64))) by apply fmt_B2R. by apply rnd_le.
      + rewrite B. pose proof (err_rel s ltac:(right; rewrite Rabs_pos_eq; lra)) as Er.
        replace (rnd64 s - x (S i)) with ((rnd64 s - s) + (s - x (S i))) by ring.
        eapply Rle_trans; [apply Rabs_triang|]. apply Rle_trans with (u1 * (2 * x (S i)) + INR i * u2 * x (S i)).
        * apply Rplus_le_compat; [|lra]. eapply Rle_trans; [exact Er|]. apply Rmult_le_compat_l; lra.
        * rewrite S_INR, u12. lra.
  Qed.
End Exponential.

(** ** the bucketers *)
Lemma positive_le (x : num64) : is_finite (x : float64) = true → f64_le x (f64_of_Z 0) = false → 0 < B2R (x : float64).
Proof.
  intros F L. apply f64_le_false in L; [|by destruct (x : float64)|reflexivity]. rewrite (key_finite x F) in L. exact L.
Qed.
Lemma linear_stream count (start increment : num64) ps : is_finite (start : float64) = true → is_finite (increment : float64) = true → NewLinearBucketer count start increment = Some ps →
  ∃ es, buckets es ps ∧ progression (λ e : num64, f64_add e increment : num64) start es ∧ 0 < B2R (increment : float64).
Proof.
  intros Fs Fi B. assert (∀ f : num64, is_finite (f : float64) = true → notNaN f) as N by (intros f; unfold notNaN; destruct (f : float64); done).
  destruct (stream_linear count start increment (N _ Fs) (N _ Fi)) as [P H]. destruct (H ps B) as (_ & es & Bu & Pr & _). exists es. split; [exact Bu|]. split; [exact Pr|].
  apply positive_le; [exact Fi|]. destruct (f64_le increment (f64_of_Z 0)) eqn:L; [|done]. exfalso. rewrite (proj2 P) in B by (by right). done.
Qed.
Lemma exponential_stream count (start scale : num64) ps : is_finite (start : float64) = true → is_finite (scale : float64) = true → NewExponentialBucketer count start scale = Some ps →
  ∃ es, buckets es ps ∧ progression (λ e : num64, f64_mul e scale : num64) start es ∧ 0 < B2R (start : float64) ∧ 1 < B2R (scale : float64).
Proof.
  intros Fs Fi B. assert (∀ f : num64, is_finite (f : float64) = true → notNaN f) as N by (intros f; unfold notNaN; destruct (f : float64); done).
  destruct (stream_exponential count start scale (N _ Fs) (N _ Fi)) as [P H]. destruct (H ps B) as (_ & es & Bu & _ & _ & Pr). exists es. split; [exact Bu|]. split; [exact Pr|]. split.
  - apply positive_le; [exact Fs|]. destruct (f64_le start (f64_of_Z 0)) eqn:L; [|done]. exfalso. rewrite (proj2 P) in B by (by right; left). done.
  - destruct (f64_le scale (f64_of_Z 1)) eqn:L; [exfalso; rewrite (proj2 P) in B by (by right; right); done|]. apply f64_le_false in L; [|by destruct (scale : float64)|reflexivity].
    rewrite (key_finite scale Fi) in L. destruct (f64_of_Z_exact 1 ltac:(lia)) as [E F]. rewrite (key_finite _ F), E in L. exact L.
Qed.
Lemma is_some_ne {X} (o : option X) : match o with Some _ => true | None => false end = true → o ≠ None.
Proof. by destruct o. Qed.
Definition end_point (o : option (list (piece num64))) (i : nat) : num64 := match o with Some ps => match ps !! i with Some p => p_end p | None => f64_nan end | None => f64_nan end.
Lemma points_of (es : list num64) ps i : buckets es ps → (S i < length ps)%nat → ∃ e : num64, es !! i = Some e ∧ end_point (Some ps) i = e.
Proof.
  intros [L H] S. destruct (lookup_lt_is_Some_2 ps i ltac:(lia)) as [p P]. destruct (H i p P) as (_ & Q & _ & E). exists (p_end p). split; [|unfold end_point; by rewrite P].
  apply E. rewrite Q. apply bool_decide_eq_false. lia.
Qed.
Lemma positive_R (x : float64) : f64_lt (f64_of_Z 0) x = true → is_finite x = true → 0 < B2R x.
Proof. intros L F. apply f64_lt_true in L as (_ & _ & L). rewrite (key_finite x F) in L. exact L. Qed.
Lemma le_one_R (x : float64) : f64_lt x (f64_of_Z 1) = true → is_finite x = true → B2R x < 1.
Proof. intros L F. apply f64_lt_true in L as (_ & _ & L). destruct (f64_of_Z_exact 1 ltac:(lia)) as [E F1]. rewrite (key_finite x F), (key_finite _ F1), E in L. exact L. Qed.
(** literals are rounded correctly *)
Lemma lit_nearest m e : is_finite (f64_lit m e) = true → B2R (f64_lit m e) = rnd64 (IZR m * bpow radix2 e).
Proof.
  intros F. unfold f64_lit in *. pose proof (binary_normalize_correct 53 1024 eq_refl eq_refl mode_NE m e false) as C. cbv zeta in C. change (round_mode mode_NE) with ZnearestE in C.
  change (F2R (Float radix2 m e)) with (IZR m * bpow radix2 e) in C. change (round radix2 (SpecFloat.fexp 53 1024) ZnearestE (IZR m * bpow radix2 e)) with (rnd64 (IZR m * bpow radix2 e)) in C.
  destruct (Rlt_bool _ _); [by destruct C|]. exfalso. revert F C. destruct (binary_normalize _ _ _ _ _ m e false) as [s|s| |s mm ee Hb]; try done; cbn; unfold binary_overflow; cbn; destruct (Rlt_bool _ 0); discriminate.
Qed.
(** whole numbers are float64 numbers *)
Lemma whole_rep (z : Z) : (Z.abs z <= 2 ^ 53)%Z → representable (IZR z).
Proof. intros B. destruct (f64_of_Z_exact z B) as [V F]. by exists (f64_of_Z z). Qed.
Lemma linear_whole (a b : Z) i : (0 < b)%Z → (Z.abs a + Z.of_nat i * b <= 2 ^ 53)%Z → ∀ j, (j ≤ i)%nat → representable (linear_point (f64_of_Z a : num64) (f64_of_Z b : num64) j) ∨ (2 ^ 53 < b)%Z.
Proof.
  intros P B j L. destruct (Z.leb_spec b (2 ^ 53)) as [Bb|Bb]; [left|by right]. unfold linear_point. rewrite (proj1 (f64_of_Z_exact a ltac:(lia))), (proj1 (f64_of_Z_exact b ltac:(lia))), INR_IZR_INZ.
  rewrite <- mult_IZR, <- plus_IZR. apply whole_rep. assert (Z.of_nat j * b <= Z.of_nat i * b)%Z by (apply Z.mul_le_mono_nonneg_r; lia). lia.
Qed.
Lemma exponential_whole (a b : Z) i : (0 < a)%Z → (1 < b)%Z → (b <= 2 ^ 53)%Z → (a * b ^ Z.of_nat i <= 2 ^ 53)%Z → ∀ j, (j ≤ i)%nat →
  exponential_point (f64_of_Z a : num64) (f64_of_Z b : num64) j = IZR (a * b ^ Z.of_nat j) ∧ representable (exponential_point (f64_of_Z a : num64) (f64_of_Z b : num64) j).
Proof.
  intros Pa Pb Bb B j L. assert (b ^ Z.of_nat j <= b ^ Z.of_nat i)%Z as M by (apply Z.pow_le_mono_r; lia). assert (0 < b ^ Z.of_nat j)%Z as Q by (apply Z.pow_pos_nonneg; lia).
  assert (exponential_point (f64_of_Z a : num64) (f64_of_Z b : num64) j = IZR (a * b ^ Z.of_nat j)) as V.
  { unfold exponential_point. rewrite (proj1 (f64_of_Z_exact a ltac:(nia))), (proj1 (f64_of_Z_exact b ltac:(lia))), mult_IZR. f_equal. rewrite <- pow_IZR. reflexivity. }
  split; [exact V|]. rewrite V. apply whole_rep. nia.
Qed.
Lemma powers_of (count : Z) (n : nat) base : (1 < base)%Z → Z.of_nat n = count → (1 < n)%nat → (base <= 2 ^ 53)%Z → (base ^ Z.of_nat (n - 2) <= 2 ^ 53)%Z →
  match NewExponentialBucketer count (f64_of_Z 1 : num64) (f64_of_Z base : num64) with Some _ => true | None => false end = true →
  ∃ ps es, NewExponentialBucketer count (f64_of_Z 1 : num64) (f64_of_Z base : num64) = Some ps ∧ length ps = n ∧ buckets es ps ∧
    ∀ i (e : num64), es !! i = Some e → is_finite (e : float64) = true ∧ B2R (e : float64) = IZR (base ^ Z.of_nat i).
Proof.
  intros Pb C Pn Bb B Sm. destruct (NewExponentialBucketer count (f64_of_Z 1 : num64) (f64_of_Z base : num64)) as [ps|] eqn:E; [|discriminate]. clear Sm.
  destruct (f64_of_Z_exact 1 ltac:(lia)) as [V1 F1]. destruct (f64_of_Z_exact base ltac:(lia)) as [Vb Fb].
  destruct (exponential_stream count _ _ ps F1 Fb E) as (es & Bu & Pr & Ps & Pc). exists ps, es. split; [done|].
  assert (length ps = n) as L.
  { destruct (stream_exponential count (f64_of_Z 1 : num64) (f64_of_Z base : num64)) as [_ H]; [done|by destruct (f64_of_Z base)|]. destruct (H ps E) as (Ln & _). lia. }
  split; [exact L|]. split; [exact Bu|]. intros i e Ei. assert (i ≤ n - 2)%nat as Li. { apply lookup_lt_Some in Ei. destruct Bu as [Bl _]. lia. }
  assert (∀ j, (j ≤ i)%nat → exponential_point (f64_of_Z 1 : num64) (f64_of_Z base : num64) j = IZR (1 * base ^ Z.of_nat j) ∧ representable (exponential_point (f64_of_Z 1 : num64) (f64_of_Z base : num64) j)) as W.
  { intros j J. apply (exponential_whole 1 base (n - 2)); lia. }
  destruct (exponential_exact (f64_of_Z 1 : num64) (f64_of_Z base : num64) Ps Pc es Pr i e Ei (λ j J, proj2 (W j J))) as [F V]. split; [exact F|].
  rewrite V. destruct (W i ltac:(lia)) as [X _]. rewrite X. by rewrite Z.mul_1_l.
Qed.
Lemma powers n base bucketer : (n, base, bucketer) ∈ [(20%nat, 2%Z, PowersOfTwo); (11%nat, 4%Z, PowersOfFour); (7%nat, 10%Z, PowersOfTen)] →
  ∃ ps es, bucketer = Some ps ∧ length ps = n ∧ buckets es ps ∧
    ∀ i (e : num64), es !! i = Some e → is_finite (e : float64) = true ∧ B2R (e : float64) = IZR (base ^ Z.of_nat i).
Proof.
  intros I. apply elem_of_cons in I as [I|I]; [|apply elem_of_cons in I as [I|I]; [|apply elem_of_list_singleton in I]]; injection I as -> -> ->.
  - apply (powers_of 20 20 2); try lia; vm_compute; first [reflexivity|discriminate].
  - apply (powers_of 11 11 4); try lia; vm_compute; first [reflexivity|discriminate].
  - apply (powers_of 7 7 10); try lia; vm_compute; first [reflexivity|discriminate].
Qed.
