(** Proofs about the conversions to and from float64. *)
From Coq Require Import ZArith Reals Lra Lia Psatz Bool String List.
From Flocq Require Import Core.Core IEEE754.BinarySingleNaN Relative.
From Verif Require Import GoBase UnitsModel DurationModel GoVal TypesModel FloatBase FloatLemmas FloatConvModel FloatConvSpec.
Local Open Scope R_scope.

(** ** Rounding *)
Notation big := (bpow radix2 100).
Lemma abs_rnd x u : fmt64 u -> Rabs x <= u -> Rabs (rnd64 x) <= u.
Proof. intros F L. apply abs_round_le_generic; [typeclasses eauto..|exact F|exact L]. Qed.
Lemma rnd_big x : Rabs x <= big -> Rlt_bool (Rabs (rnd64 x)) top = true.
Proof.
  intros L. apply Rlt_bool_true. eapply Rle_lt_trans; [apply (abs_rnd x big); [apply generic_format_bpow; vm_compute; discriminate|exact L]|].
  now apply bpow_lt.
Qed.
Lemma add_round (x y : float64) : is_finite x = true -> is_finite y = true -> Rabs (B2R x + B2R y) <= big ->
  is_finite (f64_add x y) = true /\ B2R (f64_add x y) = rnd64 (B2R x + B2R y).
Proof.
  intros X Y L. pose proof (Bplus_correct 53 1024 eq_refl eq_refl mode_NE x y X Y) as C.
  change (round radix2 (SpecFloat.fexp 53 1024) (round_mode mode_NE)) with rnd64 in C. rewrite (rnd_big _ L) in C. now destruct C as (C1 & C2 & _).
Qed.
Lemma sub_round (x y : float64) : is_finite x = true -> is_finite y = true -> Rabs (B2R x - B2R y) <= big ->
  is_finite (f64_sub x y) = true /\ B2R (f64_sub x y) = rnd64 (B2R x - B2R y).
Proof.
  intros X Y L. pose proof (Bminus_correct 53 1024 eq_refl eq_refl mode_NE x y X Y) as C.
  change (round radix2 (SpecFloat.fexp 53 1024) (round_mode mode_NE)) with rnd64 in C. rewrite (rnd_big _ L) in C. now destruct C as (C1 & C2 & _).
Qed.
Lemma mul_round (x y : float64) : is_finite x = true -> is_finite y = true -> Rabs (B2R x * B2R y) <= big ->
  is_finite (f64_mul x y) = true /\ B2R (f64_mul x y) = rnd64 (B2R x * B2R y).
Proof.
  intros X Y L. pose proof (Bmult_correct 53 1024 eq_refl eq_refl mode_NE x y) as C.
  change (round radix2 (SpecFloat.fexp 53 1024) (round_mode mode_NE)) with rnd64 in C. rewrite (rnd_big _ L), X, Y in C. now destruct C as (C1 & C2 & _).
Qed.
Lemma div_round' (x y : float64) : is_finite x = true -> B2R y <> 0 -> Rabs (B2R x / B2R y) <= big ->
  is_finite (f64_div x y) = true /\ B2R (f64_div x y) = rnd64 (B2R x / B2R y).
Proof.
  intros X Y L. pose proof (Bdiv_correct 53 1024 eq_refl eq_refl mode_NE x y Y) as C.
  change (round radix2 (SpecFloat.fexp 53 1024) (round_mode mode_NE)) with rnd64 in C. rewrite (rnd_big _ L), X in C. now destruct C as (C1 & C2 & _).
Qed.
Lemma fma_round (x y z : float64) : is_finite x = true -> is_finite y = true -> is_finite z = true -> Rabs (B2R x * B2R y + B2R z) <= big ->
  is_finite (Bfma mode_NE x y z) = true /\ B2R (Bfma mode_NE x y z) = rnd64 (B2R x * B2R y + B2R z).
Proof.
  intros X Y Z L. pose proof (Bfma_correct 53 1024 eq_refl eq_refl mode_NE x y z X Y Z) as C. cbv zeta in C.
  change (round radix2 (SpecFloat.fexp 53 1024) (round_mode mode_NE)) with rnd64 in C. rewrite (rnd_big _ L) in C. now destruct C as (C1 & C2 & _).
Qed.
Lemma of_Z_rnd (z : Z) : (Z.abs z <= 2 ^ 64)%Z -> is_finite (f64_of_Z z) = true /\ B2R (f64_of_Z z) = rnd64 (IZR z).
Proof.
  intros H. unfold f64_of_Z. pose proof (binary_normalize_correct 53 1024 eq_refl eq_refl mode_NE z 0 false) as C. cbv zeta in C.
  replace (F2R (Float radix2 z 0)) with (IZR z) in C by (unfold F2R; cbn; ring).
  change (round radix2 (SpecFloat.fexp 53 1024) (round_mode mode_NE)) with rnd64 in C. rewrite rnd_big in C; [now destruct C as (C1 & C2 & _)|].
  rewrite <- abs_IZR, <- (IZR_Zpower radix2) by lia. apply IZR_le. change (radix_val radix2 ^ 100)%Z with (2 ^ 100)%Z. lia.
Qed.
Lemma trunc_spec (x : float64) : Btrunc x = Ztrunc (B2R x).
Proof.
  apply eq_IZR. rewrite (Btrunc_correct 53 1024 eq_refl x). unfold round, scaled_mantissa, cexp, FIX_exp, F2R. cbn [Fnum Fexp Z.opp bpow].
  now rewrite !Rmult_1_r.
Qed.
Lemma trunc_pos z x : (0 <= z)%Z -> IZR z <= x < IZR z + 1 -> Ztrunc x = z.
Proof.
  intros P H. rewrite Ztrunc_floor by (apply IZR_le in P; lra). apply Zfloor_imp. rewrite plus_IZR. lra.
Qed.
Lemma trunc_neg z x : (z <= 0)%Z -> IZR z - 1 < x <= IZR z -> Ztrunc x = z.
Proof.
  intros P H. rewrite Ztrunc_ceil by (apply IZR_le in P; lra). apply Zceil_imp. rewrite minus_IZR. lra.
Qed.
Lemma to_int_spec lo hi (f : float64) z : is_finite f = true -> Ztrunc (B2R f) = z -> (lo <= z <= hi)%Z -> f64_to_int lo hi f = ConvOk z.
Proof.
  intros F T B. unfold f64_to_int. rewrite trunc_spec, T, F. now rewrite (proj2 (Z.leb_le lo z)), (proj2 (Z.leb_le z hi)) by lia.
Qed.
(** multiples of 2^-k *)
Lemma fmt_dyadic (z k : Z) : (Z.abs z <= 2 ^ 53)%Z -> (0 <= k <= 1074)%Z -> fmt64 (IZR z * bpow radix2 (- k)).
Proof.
  intros H K. destruct (Z.eq_dec (Z.abs z) (2 ^ 53)) as [E|E].
  - assert (IZR z * bpow radix2 (- k) = IZR (Z.sgn z) * bpow radix2 (53 - k)) as ->.
    { replace (53 - k)%Z with (53 + - k)%Z by ring. rewrite bpow_plus, <- Rmult_assoc. f_equal. rewrite <- (IZR_Zpower radix2) by lia. rewrite <- mult_IZR. f_equal.
      change (radix_val radix2) with 2%Z. rewrite <- E. lia. }
    apply generic_format_FLT. exists (Float radix2 (Z.sgn z) (53 - k)); cbn [Fnum Fexp]; [reflexivity|change (radix_val radix2 ^ 53)%Z with 9007199254740992%Z; lia|lia].
  - apply generic_format_FLT. exists (Float radix2 z (- k)); cbn [Fnum Fexp]; [reflexivity| |lia]. change (radix_val radix2 ^ 53)%Z with (2 ^ 53)%Z. lia.
Qed.
Lemma err_rel x : x = 0 \/ bpow radix2 (-1022) <= Rabs x -> Rabs (rnd64 x - x) <= bpow radix2 (-53) * Rabs x.
Proof.
  intros [->|H]; [rewrite round_0, Rminus_0_r, Rabs_R0 by typeclasses eauto; lra|].
  pose proof (relative_error_N_FLT radix2 (-1074) 53 eq_refl (fun n => negb (Z.even n)) x H) as E.
  change (/ 2) with (bpow radix2 (-1)) in E. rewrite <- bpow_plus in E. exact E.
Qed.

(** ** Integers *)
Lemma fmt_pow e : (-1074 <= e)%Z -> fmt64 (bpow radix2 e).
Proof. intros H. apply generic_format_bpow. unfold FLT_exp. lia. Qed.
Lemma bp52 : bpow radix2 52 = IZR (2 ^ 52). Proof. reflexivity. Qed.
Lemma bp53 : bpow radix2 53 = IZR (2 ^ 53). Proof. reflexivity. Qed.
Lemma rnd_half_small z : (0 <= z < 2 ^ 52)%Z -> rnd64 (IZR z + / 2) = IZR z + / 2.
Proof.
  intros H. apply rnd_fmt. replace (IZR z + / 2) with (IZR (2 * z + 1) * bpow radix2 (- (1))).
  - apply fmt_dyadic; lia.
  - change (bpow radix2 (- (1))) with (/ 2). rewrite plus_IZR, mult_IZR. field.
Qed.
Lemma rnd_half_mid z : (2 ^ 52 <= z < 2 ^ 53)%Z -> rnd64 (IZR z + / 2) = IZR (if Z.even z then z else z + 1)%Z.
Proof.
  intros H. assert (IZR (2 ^ 52) <= IZR z <= IZR (2 ^ 53 - 1)) as [L U] by (split; apply IZR_le; lia).
  rewrite minus_IZR in U. assert (cexp radix2 (FLT_exp (-1074) 53) (IZR z + / 2) = 0%Z) as C.
  { unfold cexp. rewrite (mag_unique_pos radix2 _ 53); [reflexivity|]. change (53 - 1)%Z with 52%Z. rewrite bp52, bp53. lra. }
  unfold round, scaled_mantissa. rewrite C. unfold F2R. cbn [Fnum Fexp Z.opp bpow]. rewrite !Rmult_1_r. f_equal.
  unfold Znearest. assert (Zfloor (IZR z + / 2) = z) as -> by (apply Zfloor_imp; rewrite plus_IZR; lra).
  replace (IZR z + / 2 - IZR z) with (/ 2) by ring. rewrite Rcompare_Eq by reflexivity.
  destruct (Z.even z); cbn [negb]; [reflexivity|]. apply Zceil_imp. rewrite minus_IZR, plus_IZR. lra.
Qed.
Lemma rnd_half_large z : (2 ^ 53 <= z)%Z -> fmt64 (IZR z) -> rnd64 (IZR z + / 2) = IZR z.
Proof.
  intros H F. apply IZR_le in H as L. apply Rle_antisym.
  - apply round_N_le_midp; [typeclasses eauto|exact F|].
    rewrite succ_eq_pos by lra. assert (2 <= ulp radix2 (FLT_exp (-1074) 53) (IZR z)) as U.
    { rewrite ulp_neq_0 by lra. change 2 with (bpow radix2 1). apply bpow_le. unfold cexp.
      assert (54 <= mag radix2 (IZR z))%Z as M by (apply mag_ge_bpow; change (54 - 1)%Z with 53%Z; rewrite bp53, Rabs_pos_eq; lra).
      unfold FLT_exp. lia. }
    lra.
  - rewrite <- (rnd_fmt _ F) at 1. apply rnd_le. lra.
Qed.
(** what round gives for an integer that is a float64 *)
Definition rounded (z : Z) : Z := if (Z.odd z && (2 ^ 52 <=? Z.abs z) && (Z.abs z <? 2 ^ 53))%Z then (z + Z.sgn z)%Z else z.
Lemma rnd_half_trunc z : (0 <= z)%Z -> fmt64 (IZR z) -> Ztrunc (rnd64 (IZR z + / 2)) = rounded z.
Proof.
  intros P F. unfold rounded. rewrite Z.abs_eq by lia. destruct (Z.ltb_spec z (2 ^ 53)) as [L|L]; [destruct (Z.leb_spec (2 ^ 52) z) as [M|M]|].
  - rewrite rnd_half_mid, Ztrunc_IZR by lia. rewrite <- Z.negb_even, Z.sgn_pos by lia. now destruct (Z.even z).
  - rewrite rnd_half_small, andb_false_r by lia. cbn [andb]. apply trunc_pos; [lia|lra].
  - rewrite rnd_half_large, Ztrunc_IZR, andb_false_r by assumption. reflexivity.
Qed.
Lemma fin_notnan (x : float64) : is_finite x = true -> is_nan x = false.
Proof. now destruct x. Qed.
Lemma half_val : is_finite f64_half = true /\ B2R f64_half = / 2.
Proof. split; [reflexivity|]. change (B2R f64_half) with (IZR 4503599627370496 * / IZR (2 ^ 53)). change (2 ^ 53)%Z with (4503599627370496 * 2)%Z. rewrite mult_IZR. field. Qed.
Lemma zero_val : is_finite (f64_of_Z 0) = true /\ B2R (f64_of_Z 0) = 0.
Proof. destruct (f64_of_Z_exact 0 ltac:(lia)) as (A & B). now split. Qed.
Lemma big_ge (z : Z) r : (Z.abs z <= 2 ^ 64)%Z -> Rabs (r - IZR z) <= 2 -> Rabs r <= big.
Proof.
  intros H D. replace r with ((r - IZR z) + IZR z) by ring. eapply Rle_trans; [apply Rabs_triang|]. rewrite <- abs_IZR.
  apply IZR_le in H. assert (big = IZR (2 ^ 100)) as -> by reflexivity. assert (2 + IZR (2 ^ 64) <= IZR (2 ^ 100)) by (rewrite <- plus_IZR; apply IZR_le; vm_compute; discriminate). lra.
Qed.
Lemma away_spec z : (Z.abs z <= 2 ^ 64)%Z -> fmt64 (IZR z) -> is_finite (round_away (f64_of_Z z)) = true /\ Ztrunc (B2R (round_away (f64_of_Z z))) = rounded z.
Proof.
  intros B F. destruct (of_Z_rnd z B) as (Fz & Ez). rewrite (rnd_fmt _ F) in Ez. destruct half_val as (Fh & Eh). destruct zero_val as (F0 & E0).
  assert (f64_lt (f64_of_Z z) (f64_of_Z 0) = Z.ltb z 0) as LT.
  { rewrite f64_lt_key, !key_finite, Ez, E0 by (assumption || now apply fin_notnan).
    destruct (Z.ltb_spec z 0) as [L|L]; [apply Rlt_bool_true, IZR_lt; lia|apply Rlt_bool_false, IZR_le; lia]. }
  unfold round_away. rewrite LT. destruct (Z.ltb_spec z 0) as [L|L].
  - destruct (sub_round (f64_of_Z z) f64_half Fz Fh) as (F1 & E1).
    { rewrite Ez, Eh. apply (big_ge z); [lia|]. replace (IZR z - / 2 - IZR z) with (- / 2) by ring. rewrite Rabs_Ropp, Rabs_pos_eq; lra. }
    split; [exact F1|]. rewrite E1, Ez, Eh. replace (IZR z - / 2) with (- (IZR (- z) + / 2)) by (rewrite opp_IZR; ring).
    rewrite round_NE_opp, Ztrunc_opp, rnd_half_trunc.
    + unfold rounded. rewrite Z.abs_opp, Z.odd_opp, Z.sgn_opp. destruct (_ && _ && _)%bool; lia.
    + lia.
    + rewrite opp_IZR. now apply generic_format_opp.
  - destruct (add_round (f64_of_Z z) f64_half Fz Fh) as (F1 & E1).
    { rewrite Ez, Eh. apply (big_ge z); [lia|]. replace (IZR z + / 2 - IZR z) with (/ 2) by ring. rewrite Rabs_pos_eq; lra. }
    split; [exact F1|]. rewrite E1, Ez, Eh. now apply rnd_half_trunc.
Qed.
Lemma from_int_spec st (mk : Z -> denote st) lo hi z : (Z.abs z <= 2 ^ 64)%Z -> fmt64 (IZR z) -> (lo <= rounded z <= hi)%Z ->
  from_int st mk lo hi (f64_of_Z z) = ConvOk (VScalar st (mk (rounded z))).
Proof.
  intros B F R. destruct (away_spec z B F) as (F1 & T). unfold from_int. now rewrite (to_int_spec _ _ _ _ F1 T R).
Qed.

(** ** float32 *)
Lemma f64_of_f32_val (v : float32) : is_finite v = true -> is_finite (f64_of_f32 v) = true /\ B2R (f64_of_f32 v) = B2R v.
Proof.
  destruct v as [s|s| |s m e H]; try discriminate; intros _; [now split|]. unfold f64_of_f32.
  pose proof (binary_normalize_correct 53 1024 eq_refl eq_refl mode_NE (if s then Zneg m else Zpos m) e s) as C. cbv zeta in C.
  replace (F2R (Float radix2 (if s then Zneg m else Zpos m) e)) with (B2R (B754_finite (prec:=24) (emax:=128) s m e H)) in C by now destruct s.
  set (v := B754_finite (prec:=24) (emax:=128) s m e H) in *.
  change (round radix2 (SpecFloat.fexp 53 1024) (round_mode mode_NE)) with rnd64 in C.
  assert (fmt64 (B2R v)) as F.
  { pose proof (generic_format_B2R 24 128 v) as G. apply (generic_inclusion_le radix2 (SpecFloat.fexp 24 128) (FLT_exp (-1074) 53) 129%Z); [| |exact G].
    - intros e' L. unfold SpecFloat.fexp, FLT_exp, SpecFloat.emin. lia.
    - pose proof (abs_B2R_lt_emax 24 128 v). apply Rlt_le. eapply Rlt_le_trans; [exact H0|]. apply bpow_le. lia. }
  rewrite (rnd_fmt _ F), Rlt_bool_true in C.
  - destruct C as (C1 & C2 & _). now split.
  - eapply Rlt_le_trans; [apply abs_B2R_lt_emax|]. apply bpow_le. lia.
Qed.
Lemma f64_of_f32_sign (v : float32) : is_nan v = false -> Bsign (f64_of_f32 v) = Bsign v.
Proof.
  destruct v as [s|s| |s m e H]; try discriminate; intros _; try reflexivity. unfold f64_of_f32.
  pose proof (binary_normalize_correct 53 1024 eq_refl eq_refl mode_NE (if s then Zneg m else Zpos m) e s) as C. cbv zeta in C.
  pose proof (f64_of_f32_val (B754_finite s m e H) eq_refl) as (V1 & V2). unfold f64_of_f32 in V1, V2.
  destruct (Rlt_bool _ _).
  - destruct C as (_ & _ & C). rewrite C. destruct s.
    + rewrite Rcompare_Lt; [reflexivity|]. now apply F2R_lt_0.
    + rewrite Rcompare_Gt; [reflexivity|]. now apply F2R_gt_0.
  - exfalso. rewrite <- is_finite_SF_B2SF, C in V1. now destruct s.
Qed.
Lemma f32_round_trip (v : float32) : f32_of_f64 (f64_of_f32 v) = v.
Proof.
  destruct (is_finite v) eqn:F; [|now destruct v].
  destruct (f64_of_f32_val v F) as (F1 & E1). pose proof (f64_of_f32_sign v ltac:(now destruct v)) as S1.
  destruct (f64_of_f32 v) as [s|s| |s m e H] eqn:EV; try discriminate.
  - apply (B2R_Bsign_inj 24 128); [reflexivity|exact F|exact E1|exact S1].
  - unfold f32_of_f64. pose proof (binary_normalize_correct 24 128 eq_refl eq_refl mode_NE (if s then Zneg m else Zpos m) e s) as C. cbv zeta in C.
    replace (F2R (Float radix2 (if s then Zneg m else Zpos m) e)) with (B2R v) in C by (rewrite <- E1; now destruct s).
    rewrite round_generic in C; [|apply valid_rnd_round_mode|apply generic_format_B2R].
    rewrite Rlt_bool_true in C by apply abs_B2R_lt_emax. destruct C as (C1 & C2 & C3).
    apply (B2R_Bsign_inj 24 128); [exact C2|exact F|exact C1|]. rewrite C3, <- S1. cbn [Bsign]. rewrite <- E1. destruct s.
    + rewrite Rcompare_Lt; [reflexivity|]. now apply F2R_lt_0.
    + rewrite Rcompare_Gt; [reflexivity|]. now apply F2R_gt_0.
Qed.

(** ** Durations *)
Lemma e9_val : is_finite f64_1e9 = true /\ B2R f64_1e9 = IZR 1000000000.
Proof.
  split; [reflexivity|]. change (B2R f64_1e9) with (IZR 8388608000000000 * / IZR (2 ^ 23)). change 8388608000000000%Z with (1000000000 * 2 ^ 23)%Z. rewrite mult_IZR.
  field. apply not_0_IZR. discriminate.
Qed.
Lemma e9_pos : 0 < IZR 1000000000. Proof. apply IZR_lt. reflexivity. Qed.
Lemma to_float_spec d : (Z.abs d <= 2 ^ 63)%Z -> is_finite (dur_ToFloat d) = true /\ B2R (dur_ToFloat d) = rnd64 (rnd64 (IZR d) / IZR 1000000000).
Proof.
  intros H. destruct (of_Z_rnd d ltac:(lia)) as (Fd & Ed). destruct e9_val as (F9 & E9). pose proof e9_pos.
  unfold dur_ToFloat. rewrite <- Ed, <- E9. apply div_round'; [exact Fd|rewrite E9; lra|]. rewrite E9, Ed.
  assert (Rabs (rnd64 (IZR d)) <= bpow radix2 63) as B.
  { apply abs_rnd; [apply fmt_pow; lia|]. rewrite <- abs_IZR, <- (IZR_Zpower radix2) by lia. apply IZR_le. exact H. }
  unfold Rdiv. rewrite Rabs_mult, (Rabs_pos_eq (/ _)) by (apply Rlt_le, Rinv_0_lt_compat; lra).
  apply Rle_trans with (bpow radix2 63 * 1).
  - apply Rmult_le_compat; [apply Rabs_pos|apply Rlt_le, Rinv_0_lt_compat; lra|exact B|]. rewrite <- Rinv_1. apply Rinv_le; [lra|]. apply IZR_le. lia.
  - rewrite Rmult_1_r. apply bpow_le. lia.
Qed.
Lemma mul_add_spec fused (x y z : float64) : is_finite x = true -> is_finite y = true -> is_finite z = true ->
  Rabs (B2R x * B2R y) <= bpow radix2 70 -> Rabs (B2R z) <= 1 ->
  is_finite (mul_add fused x y z) = true /\
  B2R (mul_add fused x y z) = rnd64 ((if fused then B2R x * B2R y else rnd64 (B2R x * B2R y)) + B2R z).
Proof.
  intros X Y Z P Q. assert (forall p, Rabs p <= bpow radix2 70 -> Rabs (p + B2R z) <= big) as T.
  { intros p Pp. eapply Rle_trans; [apply Rabs_triang|]. assert (bpow radix2 70 + 1 <= big); [|lra].
    change (bpow radix2 70) with (IZR (2 ^ 70)). change big with (IZR (2 ^ 100)). rewrite <- plus_IZR. apply IZR_le. vm_compute. discriminate. }
  unfold mul_add. destruct fused; [apply fma_round; auto|].
  assert (Rabs (B2R x * B2R y) <= big) as P' by (eapply Rle_trans; [exact P|apply bpow_le; lia]).
  destruct (mul_round x y X Y P') as (F & E). rewrite <- E. apply add_round; [exact F|exact Z|]. rewrite E. apply T. apply abs_rnd; [apply fmt_pow; lia|exact P].
Qed.
(** rounding keeps bounds that are float64 themselves *)
Lemma rnd_between l u x : fmt64 l -> fmt64 u -> l <= x <= u -> l <= rnd64 x <= u.
Proof. intros L U H. rewrite <- (rnd_fmt l L), <- (rnd_fmt u U) at 1. split; apply rnd_le; lra. Qed.
Lemma quarter_fmt d k : (Z.abs d < 2 ^ 51)%Z -> (Z.abs k <= 3)%Z -> fmt64 (IZR d + IZR k / 4).
Proof.
  intros D K. replace (IZR d + IZR k / 4) with (IZR (4 * d + k) * bpow radix2 (- (2))).
  - apply fmt_dyadic; lia.
  - change (bpow radix2 (- (2))) with (/ 4). rewrite plus_IZR, mult_IZR. field.
Qed.
Lemma bp70 : bpow radix2 70 = IZR (2 ^ 70). Proof. reflexivity. Qed.
Lemma close_dur fused d : (Z.abs d < 2 ^ 51)%Z ->
  is_finite (mul_add fused (dur_ToFloat d) f64_1e9 f64_half) = true /\
  IZR d + 1 / 4 <= B2R (mul_add fused (dur_ToFloat d) f64_1e9 f64_half) <= IZR d + 3 / 4.
Proof.
  intros H. destruct (to_float_spec d ltac:(lia)) as (Fq & Eq). destruct e9_val as (F9 & E9). destruct half_val as (Fh & Eh). pose proof e9_pos as P9.
  rewrite rnd_Z in Eq by lia.
  assert (IZR d - 1 / 4 <= B2R (dur_ToFloat d) * B2R f64_1e9 <= IZR d + 1 / 4) as Q.
  { rewrite Eq, E9. set (x := IZR d / IZR 1000000000). assert (x * IZR 1000000000 = IZR d) as Ex by (unfold x; field; lra).
    assert (Rabs (rnd64 x - x) <= bpow radix2 (-53) * Rabs x) as Err.
    { apply err_rel. destruct (Z.eq_dec d 0) as [->|N]; [left; unfold x; lra|right].
      unfold x, Rdiv. rewrite Rabs_mult, <- abs_IZR, (Rabs_pos_eq (/ _)) by (apply Rlt_le, Rinv_0_lt_compat; lra).
      apply Rle_trans with (1 * bpow radix2 (-30)); [rewrite Rmult_1_l; apply bpow_le; lia|].
      apply Rmult_le_compat; [lra|apply bpow_ge_0|apply IZR_le; lia|]. change (bpow radix2 (-30)) with (/ IZR (2 ^ 30)). apply Rinv_le; [lra|]. apply IZR_le. lia. }
    assert (Rabs ((rnd64 x - x) * IZR 1000000000) <= 1 / 4) as E4.
    { rewrite Rabs_mult, (Rabs_pos_eq (IZR _)) by lra.
      apply Rle_trans with (bpow radix2 (-53) * Rabs x * IZR 1000000000); [apply Rmult_le_compat_r; lra|].
      replace (bpow radix2 (-53) * Rabs x * IZR 1000000000) with (bpow radix2 (-53) * Rabs (IZR d)) by (rewrite <- Ex, Rabs_mult, (Rabs_pos_eq (IZR 1000000000)) by lra; ring).
      rewrite <- abs_IZR. apply Rle_trans with (bpow radix2 (-53) * bpow radix2 51).
      - apply Rmult_le_compat_l; [apply bpow_ge_0|]. change (bpow radix2 51) with (IZR (2 ^ 51)). apply IZR_le. lia.
      - rewrite <- bpow_plus. change (bpow radix2 (-53 + 51)) with (/ 4). lra. }
    rewrite Rmult_minus_distr_r, Ex in E4. apply Rabs_le_inv in E4. lra. }
  assert (Rabs (B2R (dur_ToFloat d) * B2R f64_1e9) <= bpow radix2 70) as B.
  { rewrite bp70. assert (IZR (- 2 ^ 51) <= IZR d <= IZR (2 ^ 51)) as D by (split; apply IZR_le; lia).
    assert (IZR (2 ^ 51) + 1 <= IZR (2 ^ 70)) by (rewrite <- plus_IZR; apply IZR_le; vm_compute; discriminate).
    rewrite opp_IZR in D. apply Rabs_le. lra. }
  destruct (mul_add_spec fused (dur_ToFloat d) f64_1e9 f64_half Fq F9 Fh B) as (F & E); [rewrite Eh, Rabs_pos_eq; lra|].
  split; [exact F|]. rewrite E, Eh.
  pose proof (quarter_fmt d 1 H ltac:(lia)) as G1. pose proof (quarter_fmt d 3 H ltac:(lia)) as G3. pose proof (quarter_fmt d (-1) H ltac:(lia)) as G0.
  change (IZR (-1)) with (-1) in G0. apply rnd_between; [exact G1|exact G3|]. destruct fused; [lra|].
  assert (IZR d + -1 / 4 <= rnd64 (B2R (dur_ToFloat d) * B2R f64_1e9) <= IZR d + 1 / 4) as R; [|lra]. apply rnd_between; [exact G0|exact G1|lra].
Qed.
Lemma dur_round_trip fused d : (0 <= d < 2 ^ 51)%Z -> dur_FromFloat fused (dur_ToFloat d) = ConvOk d.
Proof.
  intros H. destruct (close_dur fused d ltac:(lia)) as (F & B). apply to_int_spec; [exact F| |lia]. apply trunc_pos; [lia|lra].
Qed.
Lemma dur_negative fused d : (- 2 ^ 51 < d < 0)%Z -> dur_FromFloat fused (dur_ToFloat d) = ConvOk (d + 1)%Z.
Proof.
  intros H. destruct (close_dur fused d ltac:(lia)) as (F & B). apply to_int_spec; [exact F| |lia]. apply trunc_neg; [lia|]. rewrite plus_IZR. lra.
Qed.
(** exactly representable durations *)
Lemma dur_exact fused d : (0 <= d < 2 ^ 63)%Z -> fmt64 (IZR d) -> fmt64 (IZR d / IZR 1000000000) ->
  is_finite (dur_ToFloat d) = true /\ B2R (dur_ToFloat d) = IZR d / IZR 1000000000 /\ dur_FromFloat fused (dur_ToFloat d) = ConvOk (rounded d).
Proof.
  intros H Fd Fq. destruct (to_float_spec d ltac:(lia)) as (F & E). rewrite (rnd_fmt _ Fd), (rnd_fmt _ Fq) in E. split; [exact F|]. split; [exact E|].
  destruct e9_val as (F9 & E9). destruct half_val as (Fh & Eh). pose proof e9_pos as P9.
  assert (B2R (dur_ToFloat d) * B2R f64_1e9 = IZR d) as P by (rewrite E, E9; field; lra).
  destruct (mul_add_spec fused (dur_ToFloat d) f64_1e9 f64_half F F9 Fh) as (F1 & E1).
  - rewrite P, bp70, <- abs_IZR. apply IZR_le. lia.
  - rewrite Eh, Rabs_pos_eq; lra.
  - rewrite P, Eh in E1. assert (B2R (mul_add fused (dur_ToFloat d) f64_1e9 f64_half) = rnd64 (IZR d + / 2)) as E2 by (rewrite E1; destruct fused; [reflexivity|now rewrite (rnd_fmt _ Fd)]).
    apply to_int_spec; [exact F1|rewrite E2; apply rnd_half_trunc; [lia|exact Fd]|].
    unfold rounded. destruct (_ && _ && _)%bool eqn:O; [|lia]. apply andb_prop in O as (_ & O). apply Z.ltb_lt in O. lia.
Qed.
