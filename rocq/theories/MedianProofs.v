(** Rounding errors of the median. *)
From Coq Require Import ZArith Reals Lra Lia Psatz.
From Flocq Require Import Core BinarySingleNaN Plus_error Relative.
From Verif Require Import GoBase GoVal UnitsModel DurationModel FloatBase FloatLemmas FloatConvProofs.
From stdpp Require Import list sorting.
From Verif Require Import DistModel DistSpec DistProofs DistThms DistQ DistApi BucketerModel BucketerSpec BucketerProofs EndPointSpec EndPointProofs MedianSpec.
Local Open Scope R_scope.

Notation eta := (bpow radix2 (-1075)).
Notation huge := (bpow radix2 1023).
Lemma eta_pos : 0 < eta. Proof. apply bpow_gt_0. Qed.
Lemma rnd_huge x : Rabs x <= huge → Rlt_bool (Rabs (rnd64 x)) (bpow radix2 1024) = true.
Proof. intros L. apply Rlt_bool_true. eapply Rle_lt_trans; [apply (abs_rnd x huge fmt1023 L)|]. by apply bpow_lt. Qed.
Lemma add_huge (x y : float64) : is_finite x = true → is_finite y = true → Rabs (B2R x + B2R y) <= huge →
  is_finite (f64_add x y) = true ∧ B2R (f64_add x y) = rnd64 (B2R x + B2R y).
Proof.
  intros X Y L. pose proof (Bplus_correct 53 1024 eq_refl eq_refl mode_NE x y X Y) as C.
  change (round radix2 (SpecFloat.fexp 53 1024) (round_mode mode_NE)) with rnd64 in C. rewrite (rnd_huge _ L) in C. by destruct C as (C1 & C2 & _).
Qed.
Lemma mul_huge (x y : float64) : is_finite x = true → is_finite y = true → Rabs (B2R x * B2R y) <= huge →
  is_finite (f64_mul x y) = true ∧ B2R (f64_mul x y) = rnd64 (B2R x * B2R y).
Proof.
  intros X Y L. pose proof (Bmult_correct 53 1024 eq_refl eq_refl mode_NE x y) as C.
  change (round radix2 (SpecFloat.fexp 53 1024) (round_mode mode_NE)) with rnd64 in C. rewrite (rnd_huge _ L), X, Y in C. by destruct C as (C1 & C2 & _).
Qed.
Lemma div_huge (x y : float64) : is_finite x = true → B2R y ≠ 0 → Rabs (B2R x / B2R y) <= huge →
  is_finite (f64_div x y) = true ∧ B2R (f64_div x y) = rnd64 (B2R x / B2R y).
Proof.
  intros X Y L. pose proof (Bdiv_correct 53 1024 eq_refl eq_refl mode_NE x y Y) as C.
  change (round radix2 (SpecFloat.fexp 53 1024) (round_mode mode_NE)) with rnd64 in C. rewrite (rnd_huge _ L), X in C. by destruct C as (C1 & C2 & _).
Qed.
(** every rounding: relative error, and an absolute one near zero *)
Lemma rnd_err x : Rabs (rnd64 x - x) <= u1 * Rabs x + eta.
Proof.
  destruct (Rle_or_lt (bpow radix2 (-1022)) (Rabs x)) as [H|H].
  - pose proof (err_rel x (or_intror H)) as E. pose proof eta_pos. lra.
  - pose proof (error_le_half_ulp radix2 (FLT_exp (-1074) 53) (λ n, negb (Z.even n)) x) as E.
    change (round radix2 (FLT_exp (-1074) 53) (Znearest (λ n, negb (Z.even n))) x) with (rnd64 x) in E.
    assert (ulp radix2 (FLT_exp (-1074) 53) x = bpow radix2 (-1074)) as U.
    { apply ulp_FLT_small; [reflexivity|]. change (-1074 + 53)%Z with (-1021)%Z. eapply Rlt_trans; [exact H|]. by apply bpow_lt. }
    rewrite U in E. assert (/ 2 * bpow radix2 (-1074) = eta) as Q. { change (-1075)%Z with (-1 + -1074)%Z. rewrite bpow_plus. reflexivity. }
    rewrite Q in E. pose proof u_pos. pose proof (Rabs_pos x). assert (0 <= u1 * Rabs x) by (apply Rmult_le_pos; lra). lra.
Qed.
Lemma one_val : is_finite (f64_of_N 1) = true ∧ B2R (f64_of_N 1) = 1.
Proof. destruct (f64_of_Z_exact 1 ltac:(lia)) as [B F]. by split. Qed.
Lemma two_val : is_finite (f64_of_N 2) = true ∧ B2R (f64_of_N 2) = 2.
Proof. destruct (f64_of_Z_exact 2 ltac:(lia)) as [B F]. by split. Qed.
Lemma fmt_one : fmt64 1. Proof. apply (fmt_Z 1). lia. Qed.
Lemma fmt_zero : fmt64 0. Proof. apply (fmt_Z 0). lia. Qed.

(** *** Fractions *)
Lemma frac_float (k start c : N) : (start ≤ k)%N → (k < start + c)%N → (start + c + 1 < 2^64)%N →
  let f := f64_div (f64_of_N (uwrap64 (usub64 k start + 1))) (f64_of_N (uwrap64 (c + 1))) in is_finite f = true ∧ 0 <= B2R f <= 1.
Proof.
  intros L1 L2 L3 f. unfold f. clear f. rewrite usub_small by lia. rewrite (uwrap_small (k - start + 1)), (uwrap_small (c + 1)) by lia. unfold f64_of_N.
  destruct (of_Z_rnd (Z.of_N (k - start + 1)) ltac:(lia)) as [Fa Ba]. destruct (of_Z_rnd (Z.of_N (c + 1)) ltac:(lia)) as [Fb Bb].
  assert (1 <= rnd64 (IZR (Z.of_N (k - start + 1)))) as A1. { rewrite <- (rnd_fmt 1 fmt_one). apply rnd_le. apply (IZR_le 1). lia. }
  assert (rnd64 (IZR (Z.of_N (k - start + 1))) <= rnd64 (IZR (Z.of_N (c + 1)))) as A2. { apply rnd_le, IZR_le. lia. }
  set (a := f64_of_Z (Z.of_N (k - start + 1))) in *. set (b := f64_of_Z (Z.of_N (c + 1))) in *. rewrite <- Ba, <- Bb in A2. rewrite <- Ba in A1. clearbody a b.
  assert (0 <= B2R a / B2R b <= 1) as Q.
  { split; [apply Rmult_le_pos; [lra|]; left; apply Rinv_0_lt_compat; lra|]. unfold Rdiv. rewrite <- (Rinv_r (B2R b)) by lra. apply Rmult_le_compat_r; [left; apply Rinv_0_lt_compat; lra|lra]. }
  destruct (div_huge a b Fa) as [F B]; [lra| |].
  { rewrite Rabs_pos_eq by lra. apply Rle_trans with (bpow radix2 0); [cbn; lra|]. apply bpow_le. lia. }
  split; [exact F|]. rewrite B. apply rnd_between; [exact fmt_zero|exact fmt_one|exact Q].
Qed.

(** *** interpolate *)
Lemma abs_between a b x m : a <= x <= b → Rabs a <= m → Rabs b <= m → Rabs x <= m.
Proof. intros H A B. apply Rabs_le. apply Rabs_le_inv in A, B. lra. Qed.
Lemma interpolate_float (lo hi f : float64) m : is_finite lo = true → is_finite hi = true → is_finite f = true → 0 <= B2R f <= 1 → B2R lo <= B2R hi →
  Rabs (B2R lo) <= m → Rabs (B2R hi) <= m → m <= bpow radix2 1020 →
  let y := interpolate (A := num64) lo hi f in is_finite (y : float64) = true ∧
  ∃ r, B2R lo <= r <= B2R hi ∧ Rabs (B2R (y : float64) - r) <= 6 * u1 * m + 4 * eta.
Proof.
  intros Fl Fh Ff Hf Le Ml Mh Mm y. unfold y, interpolate. clear y. cbn [nadd nmul nsub nofN num64].
  set (f0 := B2R f) in *. set (l0 := B2R lo) in *. set (h0 := B2R hi) in *.
  destruct one_val as [F1 B1]. assert (0 <= m) as M0 by (pose proof (Rabs_pos l0); lra).
  pose proof u_pos as Up. pose proof eta_pos as Ep. assert (u1 <= / 16) as Us. { change (/ 16) with (bpow radix2 (-4)). apply bpow_le. lia. }
  assert (8 * bpow radix2 1020 = huge) as H8. { change 1023%Z with (3 + 1020)%Z. rewrite bpow_plus. reflexivity. }
  assert (eta <= bpow radix2 1020) as He by (apply bpow_le; lia).
  assert (1 <= huge) as H1. { change 1 with (bpow radix2 0). apply bpow_le. lia. }
  (* 1 - f *)
  assert (is_finite (f64_sub (f64_of_N 1) f) = true ∧ B2R (f64_sub (f64_of_N 1) f) = rnd64 (1 - f0)) as [Fg Bg].
  { pose proof (Bminus_correct 53 1024 eq_refl eq_refl mode_NE (f64_of_N 1) f F1 Ff) as C.
    change (round radix2 (SpecFloat.fexp 53 1024) (round_mode mode_NE)) with rnd64 in C. rewrite B1 in C. fold f0 in C. rewrite rnd_huge in C; [by destruct C as (C1 & C2 & _)|]. rewrite Rabs_pos_eq by lra. lra. }
  pose proof (add_err 1 (- f0) fmt_one (generic_format_opp _ _ _ (fmt_B2R f))) as Eg. change (1 + - f0) with (1 - f0) in Eg. rewrite (Rabs_pos_eq (1 - f0)) in Eg by lra.
  assert (0 <= rnd64 (1 - f0) <= 1) as Rg. { apply rnd_between; [exact fmt_zero|exact fmt_one|lra]. }
  set (g := f64_sub (f64_of_N 1) f) in *. rewrite <- Bg in Eg, Rg. set (g0 := B2R g) in *.
  assert (u1 * (1 - f0) <= u1) as E1 by nra.
  (* the products *)
  assert (Rabs (g0 * l0) <= m) as Ma. { rewrite Rabs_mult, (Rabs_pos_eq g0) by lra. pose proof (Rabs_pos l0). nra. }
  assert (Rabs (f0 * h0) <= m) as Mb. { rewrite Rabs_mult, (Rabs_pos_eq f0) by lra. pose proof (Rabs_pos h0). nra. }
  destruct (mul_huge g lo Fg Fl) as [Fa Ba]; [fold g0 l0; lra|]. destruct (mul_huge f hi Ff Fh) as [Fb Bb]; [fold f0 h0; lra|].
  fold g0 l0 in Ba. fold f0 h0 in Bb. pose proof (rnd_err (g0 * l0)) as Ea. pose proof (rnd_err (f0 * h0)) as Eb. rewrite <- Ba in Ea. rewrite <- Bb in Eb.
  set (a := f64_mul g lo) in *. set (b := f64_mul f hi) in *.
  assert (Rabs (B2R a - g0 * l0) <= u1 * m + eta) as Ea'. { eapply Rle_trans; [exact Ea|]. nra. }
  assert (Rabs (B2R b - f0 * h0) <= u1 * m + eta) as Eb'. { eapply Rle_trans; [exact Eb|]. nra. }
  (* the exact value *)
  set (r := (1 - f0) * l0 + f0 * h0). assert (l0 <= r <= h0) as Rr by (unfold r; nra).
  assert (Rabs r <= m) as Mr by (eapply abs_between; [exact Rr|exact Ml|exact Mh]).
  assert (Rabs ((g0 - (1 - f0)) * l0) <= u1 * m) as Eg'. { rewrite Rabs_mult. pose proof (Rabs_pos l0). pose proof (Rabs_pos (g0 - (1 - f0))). nra. }
  assert (Rabs (B2R a + B2R b - r) <= 3 * u1 * m + 2 * eta) as Es.
  { replace (B2R a + B2R b - r) with ((B2R a - g0 * l0) + (B2R b - f0 * h0) + (g0 - (1 - f0)) * l0) by (unfold r; ring).
    eapply Rle_trans; [apply Rabs_triang|]. eapply Rle_trans; [apply Rplus_le_compat_r, Rabs_triang|]. lra. }
  assert (u1 * m <= m / 16) as Um by nra.
  assert (Rabs (B2R a + B2R b) <= m + 3 * u1 * m + 2 * eta) as Ms.
  { replace (B2R a + B2R b) with ((B2R a + B2R b - r) + r) by ring. eapply Rle_trans; [apply Rabs_triang|]. lra. }
  destruct (add_huge a b Fa Fb) as [Fy By]; [lra|]. split; [exact Fy|]. exists r. split; [exact Rr|].
  pose proof (add_err (B2R a) (B2R b) (fmt_B2R a) (fmt_B2R b)) as Ey. rewrite <- By in Ey.
  replace (B2R (f64_add a b) - r) with ((B2R (f64_add a b) - (B2R a + B2R b)) + (B2R a + B2R b - r)) by ring.
  eapply Rle_trans; [apply Rabs_triang|].
  assert (u1 * Rabs (B2R a + B2R b) <= u1 * (2 * m + 2 * eta)) as Z. { apply Rmult_le_compat_l; lra. }
  assert (u1 * eta <= eta / 16) as Ue. { replace (eta / 16) with (/ 16 * eta) by field. apply Rmult_le_compat_r; [apply Rlt_le; exact Ep|exact Us]. } assert (0 <= u1 * m) by (apply Rmult_le_pos; lra). lra.
Qed.

(** *** math.Min and math.Max *)
Lemma nmin_float (x y : float64) : is_nan x = false → is_finite y = true → ∀ z, is_finite z = true → f64_lt x z = false → f64_lt y z = false →
  is_finite (f64_min x y) = true ∧ B2R z <= B2R (f64_min x y) <= B2R y ∧ (is_finite x = true → B2R (f64_min x y) <= B2R x).
Proof.
  intros Nx Fy z Fz Zx Zy. assert (is_nan y = false) as Ny by (by apply fin_notnan). assert (is_nan z = false) as Nz by (by apply fin_notnan).
  pose proof (f64_lt_false x z Nx Nz Zx) as Kx. pose proof (f64_lt_false y z Ny Nz Zy) as Ky. rewrite (key_finite z Fz) in Kx, Ky. rewrite (key_finite y Fy) in Ky.
  assert (is_finite (if f64_lt x y then x else y) = true ∧ B2R z <= B2R (if f64_lt x y then x else y) <= B2R y ∧ (is_finite x = true → B2R (if f64_lt x y then x else y) <= B2R x)) as G.
  { destruct (f64_lt x y) eqn:E.
    - destruct (f64_lt_true x y E) as (_ & _ & K). rewrite (key_finite y Fy) in K. pose proof (key_bound y Fy). pose proof (key_bound z Fz).
      destruct (is_finite x) eqn:Fx; [rewrite (key_finite x Fx) in K, Kx; split_and!; try done; lra|].
      exfalso. destruct x as [| [|] | |]; try discriminate; cbn [f64_key] in K, Kx; lra.
    - pose proof (f64_lt_false x y Nx Ny E) as K. rewrite (key_finite y Fy) in K. split_and!; [done|lra|lra|]. intros Fx. rewrite (key_finite x Fx) in K. exact K. }
  destruct x as [s|s| |s m e V]; try discriminate.
  - destruct y as [s'|s'| |s' m' e' V']; try discriminate; [|exact G]. cbn [f64_min]. cbn [B2R] in *. destruct s; split_and!; try reflexivity; cbn [B2R]; lra.
  - destruct s; [|by destruct y as [|[|]| |]]. exfalso. pose proof (key_bound z Fz). cbn [f64_key] in Kx. lra.
  - destruct y as [s'|s'| |s' m' e' V']; try discriminate; exact G.
Qed.
Lemma nmax_float (x y : float64) : is_nan x = false → is_finite y = true → ∀ z, is_finite z = true → f64_lt z x = false → f64_lt z y = false →
  is_finite (f64_max x y) = true ∧ B2R y <= B2R (f64_max x y) <= B2R z ∧ (is_finite x = true → B2R x <= B2R (f64_max x y)).
Proof.
  intros Nx Fy z Fz Zx Zy. assert (is_nan y = false) as Ny by (by apply fin_notnan). assert (is_nan z = false) as Nz by (by apply fin_notnan).
  pose proof (f64_lt_false z x Nz Nx Zx) as Kx. pose proof (f64_lt_false z y Nz Ny Zy) as Ky. rewrite (key_finite z Fz) in Kx, Ky. rewrite (key_finite y Fy) in Ky.
  assert (is_finite (if f64_lt y x then x else y) = true ∧ B2R y <= B2R (if f64_lt y x then x else y) <= B2R z ∧ (is_finite x = true → B2R x <= B2R (if f64_lt y x then x else y))) as G.
  { destruct (f64_lt y x) eqn:E.
    - destruct (f64_lt_true y x E) as (_ & _ & K). rewrite (key_finite y Fy) in K. pose proof (key_bound y Fy). pose proof (key_bound z Fz).
      destruct (is_finite x) eqn:Fx; [rewrite (key_finite x Fx) in K, Kx; split_and!; try done; lra|].
      exfalso. destruct x as [| [|] | |]; try discriminate; cbn [f64_key] in K, Kx; lra.
    - pose proof (f64_lt_false y x Ny Nx E) as K. rewrite (key_finite y Fy) in K. split_and!; [done|lra|lra|]. intros Fx. rewrite (key_finite x Fx) in K. exact K. }
  destruct x as [s|s| |s m e V]; try discriminate.
  - destruct y as [s'|s'| |s' m' e' V']; try discriminate; [|exact G]. cbn [f64_max]. cbn [B2R] in *. destruct s; split_and!; try reflexivity; cbn [B2R]; lra.
  - destruct s; [by destruct y as [|[|]| |]|]. exfalso. pose proof (key_bound z Fz). cbn [f64_key] in Kx. lra.
  - destruct y as [s'|s'| |s' m' e' V']; try discriminate; exact G.
Qed.

(** *** Values of a history *)
Lemma since_values {A : num} (P : A → Prop) (h : list (op A)) : all_values P h → Forall P (since_empty h).
Proof.
  unfold since_empty. enough (∀ h s, all_values P h → Forall P (snd s) → Forall P (snd (foldl since_empty1 s h))) as G by (intros V; apply G; [exact V|by constructor]).
  clear h. induction h as [|o h IH]; intros s V S; [exact S|]. cbn [foldl]. apply IH; [intros o' v O; apply (V o' v); by right|].
  assert (∀ v, v ∈ op_values o → P v) as Vo by (intros v; apply V; left). destruct o as [v t|o v t|v t]; cbn [since_empty1 snd].
  - constructor; [apply Vo; left|exact S].
  - constructor; [apply Vo; right; left|exact S].
  - destruct (N.eqb (fst s) 1); [by constructor|exact S].
Qed.
Lemma moderate_ok (v : num64) : moderate v → notNaN v.
Proof. intros [F _]. by apply fin_notnan. Qed.
Lemma leF (a b : num64) : is_finite (a : float64) = true → is_finite (b : float64) = true → le_num a b → B2R (a : float64) <= B2R (b : float64).
Proof.
  intros Fa Fb E. pose proof (f64_lt_false b a (fin_notnan b Fb) (fin_notnan a Fa) E) as K. by rewrite (key_finite a Fa), (key_finite b Fb) in K.
Qed.
Lemma lt_le_F (x e : num64) : notNaN x → notNaN e → nlt x e = true → f64_lt e x = false.
Proof. intros X E L. by apply (f64_lt_asym x e). Qed.

Section F.
  Context (es : list num64) (ps : list (piece num64)) (nc : bool) (ts : gotime) (h : list (op num64)) (l : list num64).
  Context (B : newBucketerFromEndpoints es = Some ps) (As : ascending es) (Ok : Forall notNaN es) (V : all_values moderate h).
  Context (P : present nc h l) (L1 : (N.of_nat (length h) + 1 < 2^64)%N) (Ne : l ≠ []).
  Local Notation d := (final h (new ps nc ts)).
  Lemma shortF : (N.of_nat (length h) < 2^64)%N.
  Proof using L1. lia. Qed.
  Local Notation L := shortF.
  Lemma okhF : all_values notNaN h.
  Proof using V. intros o v O W. apply moderate_ok. by apply (V o v). Qed.
  Lemma oklF : Forall moderate l.
  Proof using V P. by apply (present_ok nc h l P). Qed.
  Lemma stateF : Forall (λ r, r = OK) (outcomes h (new ps nc ts)) ∧ d_count d = N.of_nat (length l) ∧ (∀ i, (i ≤ length es)%nat → d_counts d !! i = Some (cnt es i l)).
  Proof using All. apply (present_state ordered64 es ps nc ts h l B As Ok okhF P L). Qed.
  Lemma moderateF : moderate (d_min d) ∧ moderate (d_max d).
  Proof using All.
    destruct (minmax_state ordered64 es ps nc ts h B okhF L) as (_ & _ & M & _). destruct stateF as (S1 & S2 & _).
    rewrite succeeded_all in M; [|apply outcomes_length|exact S1]. destruct M as [[M1 _] [M2 _]]; [rewrite S2; destruct l; [done|]; cbn [length]; lia|].
    pose proof (since_values moderate h V) as F. rewrite Forall_forall in F. split; apply F; assumption.
  Qed.
  Lemma boundsF (v : num64) : v ∈ l → f64_lt v (d_min d) = false ∧ f64_lt (d_max d) v = false.
  Proof using All. intros E. apply (present_bounds ordered64 es ps nc ts h l v B As Ok okhF P L E). Qed.
  Local Notation m := (Rmax (Rabs (B2R (d_min d : float64))) (Rabs (B2R (d_max d : float64)))).
  Lemma indexF srt k (x : num64) : srt ≡ₚ l → ascending srt → srt !! k = Some x →
    ∃ (y : num64) (r : R), indexToValue d (N.of_nat k) = Some y ∧ is_finite (y : float64) = true ∧ B2R (d_min d : float64) <= r <= B2R (d_max d : float64) ∧
      real_in_bucket es (findDistributionIndex ps x) r ∧ Rabs (B2R (y : float64) - r) <= 6 * u1 * m + 4 * eta.
  Proof using All.
    intros Pm Srt E. destruct stateF as (_ & Cn & Cs). pose proof (hist_inv es ps nc ts h B L) as I. destruct (hist_frame ps nc ts h) as [Fp _].
    pose proof (bucketer_length es ps B) as Lp.
    assert (N.of_nat (length l) + 1 < 2^64)%N as Ll by (destruct I; lia).
    assert (x ∈ l) as Xl by (rewrite <- Pm; by eapply elem_of_list_lookup_2).
    assert (moderate x) as Mx by (pose proof oklF as F; rewrite Forall_forall in F; by apply F).
    assert (Forall notNaN l) as Okl. { pose proof oklF as F. rewrite Forall_forall in F |- *. intros v W. apply moderate_ok. by apply F. }
    destruct (index_bucket ordered64 es ps l (d_counts d) srt k x B As Ok Okl Cs) as (start & c & F & F1 & F2 & F3); try done.
    { rewrite (inv_len _ _ I), Fp. done. }
    unfold indexToValue. rewrite F, Fp. set (j := findDistributionIndex ps x) in *.
    destruct (find_bucket ordered64 es ps x B As Ok (moderate_ok x Mx)) as [Bx Lj]. fold j in Bx, Lj. unfold in_bucket in Bx. clearbody j.
    assert (is_Some (ps !! j)) as [p Pj] by (apply lookup_lt_is_Some; lia). rewrite Pj.
    destruct (bucketer_lookup es ps j p B Pj) as (Pe & Pst & _).
    pose proof (frac_float _ _ _ F1 F2 F3) as Fr. cbv zeta in Fr. pose proof (boundsF x Xl) as [X1 X2].
    cbn [ndiv nofN num64]. set (f := f64_div _ _) in *. destruct Fr as [Ff Fr]. clearbody f.
    destruct moderateF as [[Fmn Mmn] [Fmx Mmx]]. destruct Mx as [Fx Mx].
    assert (m <= bpow radix2 1020) as Mm by (by apply Rmax_lub).
    set (mn := d_min d) in *. set (mx := d_max d) in *. clearbody mn mx.
    pose proof (Rmax_l (Rabs (B2R (mn : float64))) (Rabs (B2R (mx : float64)))) as Ml. pose proof (Rmax_r (Rabs (B2R (mn : float64))) (Rabs (B2R (mx : float64)))) as Mr.
    assert (∀ e : num64, es !! j = Some e → notNaN e ∧ f64_lt e x = false) as Xe.
    { intros e Ee. assert (notNaN e) as Oe by (exact (Forall_lookup_1 notNaN es j e Ok Ee)). split; [exact Oe|]. apply andb_true_iff in Bx as [_ Bx]. rewrite Ee in Bx. apply lt_le_F; [by apply fin_notnan|exact Oe|exact Bx]. }
    assert (∀ (i : nat) (e : num64), j = S i → es !! i = Some e → notNaN e ∧ f64_lt x e = false) as Xs.
    { intros i e Ej Ee. split; [exact (Forall_lookup_1 notNaN es i e Ok Ee)|]. apply andb_true_iff in Bx as [Bx _]. rewrite Ej, Ee in Bx. by apply negb_true_iff in Bx. }
    pose proof (leF mn x Fmn Fx X1) as R1. pose proof (leF x mx Fx Fmx X2) as R2.
    assert (∀ lo hi : float64, is_finite lo = true → is_finite hi = true → B2R (mn : float64) <= B2R lo → B2R lo <= B2R (x : float64) → B2R (x : float64) <= B2R hi → B2R hi <= B2R (mx : float64) →
      (∀ e : num64, (0 < j)%nat → es !! (j - 1)%nat = Some e → is_finite (e : float64) = true → B2R (e : float64) <= B2R lo) →
      (∀ e : num64, es !! j = Some e → is_finite (e : float64) = true → B2R hi <= B2R (e : float64)) →
      ∃ (y : num64) (r : R), Some (interpolate (A := num64) lo hi f) = Some y ∧ is_finite (y : float64) = true ∧ B2R (mn : float64) <= r <= B2R (mx : float64) ∧
        real_in_bucket es j r ∧ Rabs (B2R (y : float64) - r) <= 6 * u1 * Rmax (Rabs (B2R (mn : float64))) (Rabs (B2R (mx : float64))) + 4 * eta) as G.
    { intros lo hi Flo Fhi H1 H2 H3 H4 H5 H6.
      destruct (interpolate_float lo hi f (Rmax (Rabs (B2R (mn : float64))) (Rabs (B2R (mx : float64)))) Flo Fhi Ff Fr) as [Fy (r & Rr & Er)]; [lra| | |exact Mm|].
      - apply (abs_between (B2R (mn : float64)) (B2R (mx : float64))); [lra|exact Ml|exact Mr].
      - apply (abs_between (B2R (mn : float64)) (B2R (mx : float64))); [lra|exact Ml|exact Mr].
      - eexists _, r. split; [reflexivity|]. split; [exact Fy|]. split; [lra|]. split; [|exact Er]. split.
        + intros e J Ee Fe. specialize (H5 e J Ee Fe). lra.
        + intros e Ee Fe. specialize (H6 e Ee Fe). lra. }
    destruct (Nat.eqb_spec j 0) as [Z|Z]; [|destruct (Nat.eqb_spec j (length ps - 1)) as [Z'|Z']].
    - assert (is_Some (es !! j)) as [e Ee] by (apply lookup_lt_is_Some; destruct es; [done|]; cbn [length] in *; lia).
      rewrite (Pe e Ee). destruct (Xe e Ee) as [Oe Le]. destruct (nmin_float e mx Oe Fmx x Fx Le X2) as (N1 & N2 & N3).
      cbn [nmin nmax num64]; apply G; try done; try lra; [intros e' J; lia|]. intros e' Ee' Fe'. replace e' with e in * by congruence. by apply N3.
    - assert (is_Some (es !! (j - 1)%nat)) as [e Ee] by (apply lookup_lt_is_Some; lia).
      rewrite (Pst (j - 1)%nat e) by (done || lia). destruct (Xs (j - 1)%nat e ltac:(lia) Ee) as [Oe Le]. destruct (nmax_float e mn Oe Fmn x Fx Le X1) as (N1 & N2 & N3).
      cbn [nmin nmax num64]; apply G; try done; try lra.
      + intros e' _ Ee' Fe'. replace e' with e in * by congruence. by apply N3.
      + intros e' Ee'. apply lookup_lt_Some in Ee'. lia.
    - assert (is_Some (es !! (j - 1)%nat)) as [e Ee] by (apply lookup_lt_is_Some; lia). assert (is_Some (es !! j)) as [g Eg] by (apply lookup_lt_is_Some; lia).
      rewrite (Pst (j - 1)%nat e) by (done || lia). rewrite (Pe g Eg). destruct (Xs (j - 1)%nat e ltac:(lia) Ee) as [Oe Le]. destruct (Xe g Eg) as [Og Lg].
      destruct (nmax_float e mn Oe Fmn x Fx Le X1) as (N1 & N2 & N3). destruct (nmin_float g mx Og Fmx x Fx Lg X2) as (K1 & K2 & K3).
      cbn [nmin nmax num64]; apply G; try done; try lra.
      + intros e' _ Ee' Fe'. replace e' with e in * by congruence. by apply N3.
      + intros e' Ee' Fe'. replace e' with g in * by congruence. by apply K3.
  Qed.
  (** the middle of two such values *)
  Lemma half_float (a b : float64) ra rb w : is_finite a = true → is_finite b = true → Rabs ra <= w → Rabs rb <= w → w <= bpow radix2 1020 →
    Rabs (B2R a - ra) <= 6 * u1 * w + 4 * eta → Rabs (B2R b - rb) <= 6 * u1 * w + 4 * eta →
    is_finite (f64_div (f64_add a b) (f64_of_N 2)) = true ∧ Rabs (B2R (f64_div (f64_add a b) (f64_of_N 2)) - (ra + rb) / 2) <= 8 * u1 * w + 8 * eta.
  Proof using.
    clear. intros Fa Fb Ma Mb Mw Ea Eb. assert (0 <= w) as W0 by (pose proof (Rabs_pos ra); lra). pose proof u_pos as Up. pose proof eta_pos as Ep.
    assert (u1 <= / 1024) as Us. { change (/ 1024) with (bpow radix2 (-10)). apply bpow_le. lia. }
    assert (8 * bpow radix2 1020 = huge) as H8. { change 1023%Z with (3 + 1020)%Z. rewrite bpow_plus. reflexivity. }
    assert (eta <= bpow radix2 1010) as He by (apply bpow_le; lia). assert (1024 * bpow radix2 1010 = bpow radix2 1020) as H10. { change 1020%Z with (10 + 1010)%Z. rewrite bpow_plus. reflexivity. }
    assert (0 <= u1 * w) as Uw0 by (apply Rmult_le_pos; lra).
    assert (u1 * w <= / 1024 * w) as Uw by (apply Rmult_le_compat_r; lra).
    assert (u1 * eta <= / 1024 * eta) as Ue by (apply Rmult_le_compat_r; lra).
    assert (Rabs (B2R a + B2R b - (ra + rb)) <= 12 * u1 * w + 8 * eta) as Es.
    { replace (B2R a + B2R b - (ra + rb)) with ((B2R a - ra) + (B2R b - rb)) by ring. eapply Rle_trans; [apply Rabs_triang|]. lra. }
    assert (Rabs (B2R a + B2R b) <= 2 * w + 12 * u1 * w + 8 * eta) as Ms.
    { replace (B2R a + B2R b) with ((B2R a + B2R b - (ra + rb)) + (ra + rb)) by ring. eapply Rle_trans; [apply Rabs_triang|]. pose proof (Rabs_triang ra rb). lra. }
    destruct (add_huge a b Fa Fb) as [Fs Bs]; [lra|]. pose proof (add_err (B2R a) (B2R b) (fmt_B2R a) (fmt_B2R b)) as Ec. rewrite <- Bs in Ec. set (s := f64_add a b) in *.
    assert (u1 * Rabs (B2R a + B2R b) <= u1 * (2 * w + 12 * u1 * w + 8 * eta)) as Ec' by (apply Rmult_le_compat_l; lra).
    assert (u1 * (12 * u1 * w) <= / 1024 * (12 * u1 * w)) as Uq by (apply Rmult_le_compat_r; lra).
    assert (Rabs (B2R s - (B2R a + B2R b)) <= 3 * u1 * w + eta) as Ed by lra.
    assert (Rabs (B2R s) <= 3 * w + 16 * eta) as Mt.
    { replace (B2R s) with ((B2R s - (B2R a + B2R b)) + (B2R a + B2R b)) by ring. eapply Rle_trans; [apply Rabs_triang|]. lra. }
    destruct two_val as [F2 B2]. destruct (div_huge s (f64_of_N 2) Fs) as [Fh Bh]; [rewrite B2; lra| |].
    { rewrite B2. unfold Rdiv. rewrite Rabs_mult, (Rabs_pos_eq (/ 2)) by lra. lra. }
    rewrite B2 in Bh. split; [exact Fh|]. rewrite Bh.
    assert (Rabs (rnd64 (B2R s / 2) - B2R s / 2) <= eta) as Eh.
    { destruct (Rle_or_lt (bpow radix2 (-1022 - -1)) (Rabs (B2R s))) as [Big|Sm].
      - assert (fmt64 (B2R s / 2)) as Fm.
        { replace (B2R s / 2) with (B2R s * bpow radix2 (-1)) by reflexivity. apply generic_format_FLT.
          destruct (FLT_format_generic _ _ _ _ (fmt_B2R s)) as [[n e] En Hn He']. cbn [Fnum Fexp] in *.
          destruct (Z.le_gt_cases (-1073) e) as [Le|Gt].
          - exists (Float radix2 n (e - 1)); cbn [Fnum Fexp]; [|exact Hn|lia]. rewrite En. unfold F2R. cbn [Fnum Fexp]. replace (e - 1)%Z with (e + -1)%Z by lia. rewrite bpow_plus. ring.
          - exfalso. assert (e = (-1074)%Z) as -> by lia. rewrite En in Big. unfold F2R in Big. cbn [Fnum Fexp] in Big. rewrite Rabs_mult, (Rabs_pos_eq (bpow _ _)) in Big by apply bpow_ge_0.
            assert (bpow radix2 (-1022 - -1) = bpow radix2 53 * bpow radix2 (-1074)) as Q by (rewrite <- bpow_plus; reflexivity). rewrite Q in Big.
            apply Rmult_le_reg_r in Big; [|apply bpow_gt_0]. rewrite <- abs_IZR, bp53 in Big. apply le_IZR in Big. change (radix_val radix2 ^ 53)%Z with (2 ^ 53)%Z in Hn. lia. }
        rewrite (rnd_fmt _ Fm). replace (_ - _) with 0 by ring. rewrite Rabs_R0. lra.
      - assert (Rabs (B2R s / 2) < bpow radix2 (-1022)) as Sm'.
        { unfold Rdiv. rewrite Rabs_mult, (Rabs_pos_eq (/ 2)) by lra. change (-1022 - -1)%Z with (1 + -1022)%Z in Sm. rewrite bpow_plus in Sm. change (bpow radix2 1) with 2 in Sm. lra. }
        pose proof (error_le_half_ulp radix2 (FLT_exp (-1074) 53) (λ n, negb (Z.even n)) (B2R s / 2)) as Q.
        change (round radix2 (FLT_exp (-1074) 53) (Znearest (λ n, negb (Z.even n))) (B2R s / 2)) with (rnd64 (B2R s / 2)) in Q.
        rewrite ulp_FLT_small in Q; [|reflexivity|change (-1074 + 53)%Z with (-1021)%Z; eapply Rlt_trans; [exact Sm'|]; by apply bpow_lt].
        assert (/ 2 * bpow radix2 (-1074) = eta) as Q'. { change (-1075)%Z with (-1 + -1074)%Z. rewrite bpow_plus. reflexivity. }
        rewrite Q' in Q. exact Q. }
    replace (rnd64 (B2R s / 2) - (ra + rb) / 2) with ((rnd64 (B2R s / 2) - B2R s / 2) + ((B2R s - (B2R a + B2R b)) + (B2R a + B2R b - (ra + rb))) / 2) by field.
    eapply Rle_trans; [apply Rabs_triang|]. unfold Rdiv at 3. rewrite Rabs_mult, (Rabs_pos_eq (/ 2)) by lra.
    pose proof (Rabs_triang (B2R s - (B2R a + B2R b)) (B2R a + B2R b - (ra + rb))). lra.
  Qed.
  Lemma slack_of w : 8 * u1 * w + 8 * eta = bpow radix2 (-50) * w + bpow radix2 (-1072).
  Proof using. change (-50)%Z with (3 + -53)%Z. change (-1072)%Z with (3 + -1075)%Z. rewrite !bpow_plus. change (bpow radix2 3) with 8. ring. Qed.
  Lemma medianF srt : (length l > 2)%nat → srt ≡ₚ l → ascending srt → ∃ (y : num64) (r : R), calculateMedian d = Some y ∧ is_finite (y : float64) = true ∧
    Rabs (B2R (y : float64) - r) <= slack (d_min d) (d_max d) ∧ B2R (d_min d : float64) <= r <= B2R (d_max d : float64) ∧
    (Nat.odd (length l) = true → ∀ x i, srt !! (length l / 2)%nat = Some x → (i ≤ length es)%nat → in_bucket es i x = true → real_in_bucket es i r) ∧
    (Nat.odd (length l) = false → ∃ a b : R, r = (a + b) / 2 ∧
      (∀ x i, srt !! (length l / 2 - 1)%nat = Some x → (i ≤ length es)%nat → in_bucket es i x = true → real_in_bucket es i a) ∧
      (∀ x i, srt !! (length l / 2)%nat = Some x → (i ≤ length es)%nat → in_bucket es i x = true → real_in_bucket es i b)).
  Proof using All.
    intros Gt Pm Srt. destruct stateF as (_ & Cn & _). unfold calculateMedian. rewrite Cn. pose proof (Permutation_length Pm) as PL.
    pose proof (hist_inv es ps nc ts h B L) as I.
    assert (∀ x i, x ∈ srt → (i ≤ length es)%nat → in_bucket es i x = true → i = findDistributionIndex ps x) as BF.
    { intros x i Xl Li Bi. apply (bucket_find ordered64 es ps i x B As Ok); try done. apply moderate_ok. pose proof oklF as F. rewrite Forall_forall in F. apply F. by rewrite <- Pm. }
    destruct (N.leb_spec (N.of_nat (length l)) 2) as [Le|_]; [lia|].
    assert (N.of_nat (length l) / 2 = N.of_nat (length l / 2))%N as D2 by (rewrite Nat2N.inj_div; done).
    assert (length l / 2 < length l)%nat as Lh by (apply Nat.div_lt; lia). assert (1 ≤ length l / 2)%nat as Lh1 by (apply Nat.div_le_lower_bound; lia).
    assert (is_Some (srt !! (length l / 2)%nat)) as [x X] by (apply lookup_lt_is_Some; lia).
    destruct (indexF srt _ x Pm Srt X) as (b & rb & Hb & Fb & Bb & Cb & Eb). rewrite D2.
    assert (N.of_nat (length l) mod 2 = N.of_nat (length l mod 2))%N as M2 by (rewrite Nat2N.inj_mod; done). rewrite M2.
    destruct moderateF as [[Fmn Mmn] [Fmx Mmx]]. unfold slack. rewrite <- slack_of.
    assert (m <= bpow radix2 1020) as Mm by (by apply Rmax_lub).
    pose proof (Rmax_l (Rabs (B2R (d_min d : float64))) (Rabs (B2R (d_max d : float64)))) as Ml. pose proof (Rmax_r (Rabs (B2R (d_min d : float64))) (Rabs (B2R (d_max d : float64)))) as Mr.
    assert (0 <= m) as M0. { eapply Rle_trans; [apply Rabs_pos|exact Ml]. } pose proof u_pos as Up. pose proof eta_pos as Ep.
    destruct (N.eqb_spec (N.of_nat (length l mod 2)) 0) as [Ev|Od].
    - assert (is_Some (srt !! (length l / 2 - 1)%nat)) as [w W] by (apply lookup_lt_is_Some; lia).
      destruct (indexF srt _ w Pm Srt W) as (a & ra & Ha & Fa & Ba & Ca & Ea).
      rewrite usub_small by (destruct I; lia). replace (N.of_nat (length l / 2) - 1)%N with (N.of_nat (length l / 2 - 1)) by lia.
      rewrite Ha, Hb. destruct (half_float a b ra rb m Fa Fb) as [Fh Eh]; try done; [by eapply abs_between|by eapply abs_between|].
      eexists _, ((ra + rb) / 2). split; [reflexivity|]. split; [exact Fh|]. split; [exact Eh|]. split; [lra|]. split.
      + intros Od. exfalso. rewrite <- Nat.bit0_odd, Nat.bit0_eqb in Od. apply Nat.eqb_eq in Od. lia.
      + intros _. exists ra, rb. split; [reflexivity|]. split; intros x' i X' Li Bi; rewrite (BF x' i) by (done || by eapply elem_of_list_lookup_2); [replace x' with w by congruence|replace x' with x by congruence]; done.
    - rewrite Hb. exists b, rb. split; [done|]. split; [exact Fb|]. split.
      { assert (0 <= u1 * m) by (apply Rmult_le_pos; lra). eapply Rle_trans; [exact Eb|]. lra. }
      split; [exact Bb|]. split.
      + intros _ x' i X' Li Bi. rewrite (BF x' i) by (done || by eapply elem_of_list_lookup_2). replace x' with x by congruence. done.
      + intros Ev. exfalso. apply Od. rewrite <- Nat.bit0_odd, Nat.bit0_eqb in Ev. apply Nat.eqb_neq in Ev.
        pose proof (Nat.mod_upper_bound (length l) 2). lia.
  Qed.
End F.
Lemma snapshot_medianF (es : list num64) ps nc ts h rs d l srt : newBucketerFromEndpoints es = Some ps → ascending es → Forall notNaN es → all_values moderate h →
  present nc h l → (length l > 2)%nat → performs h (newDistributionWithTimeStamp ps nc ts) = (rs, d) → (N.of_nat (length h) + 1 < 2^64)%N → srt ≡ₚ l → ascending srt →
  ∃ s (r : R), Snapshot d = Some s ∧ is_finite (s_median s : float64) = true ∧ Rabs (B2R (s_median s : float64) - r) <= slack (s_min s) (s_max s) ∧
    B2R (s_min s : float64) <= r <= B2R (s_max s : float64) ∧
    (Nat.odd (length l) = true → ∀ x i, srt !! (length l / 2)%nat = Some x → (i ≤ length es)%nat → in_bucket es i x = true → real_in_bucket es i r) ∧
    (Nat.odd (length l) = false → ∃ a b : R, r = (a + b) / 2 ∧
      (∀ x i, srt !! (length l / 2 - 1)%nat = Some x → (i ≤ length es)%nat → in_bucket es i x = true → real_in_bucket es i a) ∧
      (∀ x i, srt !! (length l / 2)%nat = Some x → (i ≤ length es)%nat → in_bucket es i x = true → real_in_bucket es i b)).
Proof.
  intros B As Ok V P Gt E L1 Pm Srt. assert (l ≠ []) as Ne by (destruct l; [cbn [length] in Gt; lia|done]).
  destruct (snapshot_total es ps nc ts h rs d B E ltac:(lia)) as [s S]. destruct (snapshot_fields d s S) as (_ & _ & _ & H).
  apply performs_final in E as [_ ->]. destruct (stateF es ps nc ts h l B As Ok V P L1 Ne) as (_ & C & _).
  destruct (medianF es ps nc ts h l B As Ok V P L1 Ne srt Gt Pm Srt) as (y & r & M & M1).
  exists s, r. split; [exact S|]. destruct H as (-> & -> & _ & _ & _ & _ & Me); [rewrite C; lia|]. rewrite M in Me. injection Me as <-. exact M1.
Qed.
(** one or two values of a cumulative distribution: no error at all *)
Lemma twice_fmt (x : float64) : fmt64 (2 * B2R x).
Proof. replace (2 * B2R x) with (B2R x * bpow radix2 1) by (change (bpow radix2 1) with 2; ring). apply fmt_scale. lia. Qed.
Lemma snapshot_median_few (es : list num64) ps ts (vs : list (num64 * gotime)) rs d : newBucketerFromEndpoints es = Some ps → Forall (λ x, moderate (fst x)) vs →
  (length vs = 1 ∨ length vs = 2)%nat → performs ((λ x, Add (fst x) (snd x)) <$> vs) (newDistributionWithTimeStamp ps false ts) = (rs, d) →
  ∃ s, Snapshot d = Some s ∧ is_finite (s_median s : float64) = true ∧ B2R (s_min s : float64) <= B2R (s_median s : float64) <= B2R (s_max s : float64).
Proof.
  intros B Md Len E.
  assert (Forall (λ x, notNaN (fst x)) vs) as Ok by (eapply Forall_impl; [exact Md|]; intros x; apply moderate_ok).
  assert (vs ≠ []) as Ne by (destruct vs; [cbn [length] in Len; lia|done]). assert (N.of_nat (length vs) < 2^64)%N as Lv by lia.
  destruct (snapshot_minmax_cumulative es ps ts vs rs d B Ok Ne E Lv) as (s & S & Mn & Mx). exists s. split; [exact S|].
  set (h := (λ x, Add (fst x) (snd x)) <$> vs) in *. assert (N.of_nat (length h) < 2^64)%N as Lh by (unfold h; rewrite fmap_length; lia).
  destruct (snapshot_fields d s S) as (_ & _ & _ & H). pose proof E as E'. apply performs_final in E' as [Rs ->].
  assert (all_values notNaN h) as Vh. { intros o v Ho Hv. apply elem_of_list_fmap in Ho as (x & -> & Hx). apply elem_of_list_singleton in Hv as ->. by eapply Forall_forall in Ok. }
  destruct (minmax_state ordered64 es ps false ts h B Vh Lh) as (C & _).
  assert (succeeded h (outcomes h (new ps false ts)) = h) as Sc. { unfold h. rewrite (adds_outcomes vs). apply succeeded_all; [by rewrite replicate_length, fmap_length|by apply Forall_replicate]. }
  rewrite Sc in C. unfold h in C at 1. rewrite adds_since in C. cbn [fst] in C.
  pose proof (total_succeeded es ps false ts h B Lh) as T. rewrite Sc in T.
  destruct H as (_ & _ & _ & _ & _ & _ & Me); [rewrite <- C; lia|]. unfold calculateMedian in Me. rewrite <- C in Me.
  destruct (N.leb_spec (0 + N.of_nat (length vs)) 2) as [_|Gt]; [|lia]. injection Me as Me. rewrite <- Me, T. clear Me T S E Rs.
  destruct Mn as [Mn1 Mn2], Mx as [Mx1 Mx2]. set (mn := s_min s) in *. set (mx := s_max s) in *. clearbody mn mx.
  assert (∀ v, v ∈ fst <$> vs → moderate v) as Mv. { intros v W. apply elem_of_list_fmap in W as (x & -> & Hx). rewrite Forall_forall in Md. by apply Md. }
  destruct (Mv _ Mn1) as [Fmn Amn]. destruct (Mv _ Mx1) as [Fmx Amx].
  assert (∀ v : num64, v ∈ fst <$> vs → is_finite (v : float64) = true ∧ Rabs (B2R (v : float64)) <= bpow radix2 1020 ∧ B2R (mn : float64) <= B2R (v : float64) <= B2R (mx : float64)) as K.
  { intros v W. destruct (Mv v W) as [Fv Av]. split; [exact Fv|]. split; [exact Av|]. split; [apply leF; try done; by apply Mn2|apply leF; try done; by apply Mx2]. }
  assert (8 * bpow radix2 1020 = huge) as H8. { change 1023%Z with (3 + 1020)%Z. rewrite bpow_plus. reflexivity. }
  destruct zero_val as [F0 B0]. destruct one_val as [F1 B1]. destruct two_val as [F2 B2]. pose proof (bpow_gt_0 radix2 1020) as P1020.
  destruct vs as [|[v t] vs]; [done|]. destruct (K v ltac:(left)) as (Fv & Av & Bv).
  destruct (add_huge (f64_of_Z 0) v F0 Fv) as [Fa Ba]; [rewrite B0, Rplus_0_l; lra|]. rewrite B0, Rplus_0_l, (rnd_fmt _ (fmt_B2R v)) in Ba.
  destruct vs as [|[w t'] vs].
  - unfold h, total_of. cbn [fmap list_fmap foldl total1 fst length nadd ndiv nofN num64]. change (0 + N.of_nat 1)%N with 1%N. change (f64_of_N 0) with (f64_of_Z 0).
    set (a := f64_add (f64_of_Z 0) v) in *. clearbody a.
    destruct (div_huge a (f64_of_N 1) Fa) as [Fd Bd]; [rewrite B1; lra|rewrite B1, Ba; unfold Rdiv; rewrite Rinv_1, Rmult_1_r; lra|]. split; [exact Fd|].
    rewrite Bd, B1, Ba. unfold Rdiv. rewrite Rinv_1, Rmult_1_r, (rnd_fmt _ (fmt_B2R v)). exact Bv.
  - destruct vs; [|cbn [length] in Len; lia]. destruct (K w ltac:(right; left)) as (Fw & Aw & Bw).
    unfold h, total_of. cbn [fmap list_fmap foldl total1 fst length nadd ndiv nofN num64]. change (0 + N.of_nat 2)%N with 2%N. change (f64_of_N 0) with (f64_of_Z 0).
    set (a := f64_add (f64_of_Z 0) v) in *. clearbody a.
    destruct (add_huge a w Fa Fw) as [Fs Bs]; [rewrite Ba; eapply Rle_trans; [apply Rabs_triang|]; lra|]. rewrite Ba in Bs. set (s2 := f64_add a w) in *. clearbody s2.
    assert (2 * B2R (mn : float64) <= B2R s2 <= 2 * B2R (mx : float64)) as Q. { rewrite Bs. apply rnd_between; [apply twice_fmt|apply twice_fmt|lra]. }
    assert (Rabs (B2R s2) <= 2 * bpow radix2 1020) as Q'. { apply Rabs_le. apply Rabs_le_inv in Amn, Amx. lra. }
    destruct (div_huge s2 (f64_of_N 2) Fs) as [Fd Bd]; [rewrite B2; lra|rewrite B2; unfold Rdiv; rewrite Rabs_mult, (Rabs_pos_eq (/ 2)) by lra; lra|]. split; [exact Fd|].
    rewrite Bd, B2. apply rnd_between; [apply fmt_B2R|apply fmt_B2R|]. lra.
Qed.
