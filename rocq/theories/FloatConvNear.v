(** How far a time moves when it is converted to float64 seconds and back. *)
From Coq Require Import ZArith Reals Lra Lia Psatz Bool String List.
From Flocq Require Import Core.Core IEEE754.BinarySingleNaN.
From Verif Require Import GoBase UnitsModel DurationModel DurationSpec DurationProofs GoVal TypesModel FloatBase FloatLemmas FloatConvModel FloatConvSpec FloatConvProofs FloatConvTime.
Local Open Scope R_scope.

Lemma abs_err x e : Rabs x <= bpow radix2 e -> (-1000 <= e)%Z -> Rabs (rnd64 x - x) <= / 2 * bpow radix2 (e - 52).
Proof.
  intros H E. eapply Rle_trans; [apply error_le_half_ulp; typeclasses eauto|]. apply Rmult_le_compat_l; [lra|].
  replace (bpow radix2 (e - 52)) with (ulp radix2 (FLT_exp (-1074) 53) (bpow radix2 e)).
  - rewrite <- (ulp_abs _ _ x). apply ulp_le; [typeclasses eauto..|]. rewrite Rabs_Rabsolu, (Rabs_pos_eq (bpow _ _)) by apply bpow_ge_0. exact H.
  - rewrite ulp_bpow. f_equal. unfold FLT_exp. lia.
Qed.
(** ** To float64 *)
Lemma x_bound n : (Z.abs n < 1000000000)%Z -> Rabs (IZR n * B2R f64_1em9) <= 1 /\ Rabs (IZR n * B2R f64_1em9 - IZR n / IZR 1000000000) <= bpow radix2 (-53).
Proof.
  intros H. pose proof em9_err as E. pose proof small_83 as S. pose proof bp53_small as P. pose proof e9_pos as P9.
  assert (IZR (-999999999) <= IZR n <= IZR 999999999) as N by (split; apply IZR_le; lia).
  set (y := IZR n / IZR 1000000000). assert (- (1 - / IZR 1000000000) <= y <= 1 - / IZR 1000000000) as Y.
  { assert (IZR n = y * IZR 1000000000) as En by (unfold y; field; lra). assert (/ IZR 1000000000 * IZR 1000000000 = 1) by (field; lra). split; apply Rmult_le_reg_r with (IZR 1000000000); lra. }
  replace (IZR n * B2R f64_1em9) with (y * (IZR 1000000000 * B2R f64_1em9)) by (unfold y; field; lra).
  set (q := IZR 1000000000 * B2R f64_1em9) in *. apply Rabs_le_inv in E.
  assert (/ IZR 1000000000 >= bpow radix2 (-53)) as I.
  { change (bpow radix2 (-53)) with (/ IZR (2 ^ 53)). apply Rle_ge, Rinv_le; [lra|]. apply IZR_le. vm_compute. discriminate. }
  assert (/ IZR 1000000000 <= 1) as I1 by lra.
  split.
  - apply Rabs_le. nra.
  - replace (y * q - y) with (y * (q - 1)) by ring. apply Rabs_le. nra.
Qed.
Lemma asFloat_near fused s n : (Z.abs s < 2 ^ 33)%Z -> (Z.abs n < 1000000000)%Z ->
  is_finite (asFloat fused (MkDur s n)) = true /\ Rabs (B2R (asFloat fused (MkDur s n))) <= bpow radix2 33 /\
  Rabs (B2R (asFloat fused (MkDur s n)) - (IZR s + IZR n / IZR 1000000000)) <= bpow radix2 (-20) + bpow radix2 (-52).
Proof.
  intros S N. destruct (f64_of_Z_exact s ltac:(lia)) as (E1 & F1). destruct (f64_of_Z_exact n ltac:(lia)) as (En & Fn). destruct em9_val as (Fc & _).
  destruct (x_bound n N) as (XB & XE). set (x := IZR n * B2R f64_1em9) in *. pose proof bp5253 as B52.
  assert (IZR (- (2 ^ 33 - 1)) <= IZR s <= IZR (2 ^ 33 - 1)) as SI by (split; apply IZR_le; lia). rewrite opp_IZR, minus_IZR in SI.
  assert (bpow radix2 33 = IZR (2 ^ 33)) as B33 by reflexivity.
  assert (forall p, Rabs p <= 1 -> Rabs (IZR s + p) <= bpow radix2 33) as SB by (intros p Hp; apply Rabs_le_inv in Hp; apply Rabs_le; lra).
  assert (forall p, Rabs p <= 1 -> Rabs (rnd64 (IZR s + p) - (IZR s + p)) <= bpow radix2 (-20)) as RE.
  { intros p Hp. eapply Rle_trans; [apply (abs_err _ 33); [now apply SB|lia]|]. change (/ 2) with (bpow radix2 (-1)). rewrite <- bpow_plus. apply Rle_refl. }
  assert (forall p, Rabs p <= 1 -> Rabs (rnd64 (IZR s + p)) <= bpow radix2 33) as RB by (intros p Hp; apply abs_rnd; [apply fmt_pow; lia|now apply SB]).
  assert (forall p, Rabs p <= 1 -> Rabs (p - IZR n / IZR 1000000000) <= bpow radix2 (-52) ->
    Rabs (rnd64 (IZR s + p) - (IZR s + IZR n / IZR 1000000000)) <= bpow radix2 (-20) + bpow radix2 (-52)) as FIN.
  { intros p Hp Hq. replace (rnd64 (IZR s + p) - (IZR s + IZR n / IZR 1000000000)) with ((rnd64 (IZR s + p) - (IZR s + p)) + (p - IZR n / IZR 1000000000)) by ring.
    eapply Rle_trans; [apply Rabs_triang|]. apply Rplus_le_compat; [now apply RE|exact Hq]. }
  pose proof bp53_small as P53. assert (bpow radix2 33 <= big) as BB by (apply bpow_le; lia).
  unfold asFloat. cbn [Seconds Nanoseconds]. destruct fused.
  - destruct (fma_round (f64_of_Z n) f64_1em9 (f64_of_Z s) Fn Fc F1) as (F & E).
    + rewrite En, E1. fold x. rewrite Rplus_comm. eapply Rle_trans; [apply SB; exact XB|exact BB].
    + rewrite En, E1 in E. fold x in E. rewrite Rplus_comm in E. rewrite E. split; [exact F|]. split; [now apply RB|]. apply FIN; [exact XB|lra].
  - destruct (mul_round (f64_of_Z n) f64_1em9 Fn Fc) as (Fm & Em); [rewrite En; fold x; apply one_big; lra|]. rewrite En in Em. fold x in Em.
    assert (Rabs (rnd64 x) <= 1) as XR by (apply abs_rnd; [apply (fmt_pow 0); lia|exact XB]).
    destruct (add_round (f64_of_Z s) (f64_mul (f64_of_Z n) f64_1em9) F1 Fm) as (F & E); [rewrite E1, Em; eapply Rle_trans; [apply SB; exact XR|exact BB]|].
    rewrite E1, Em in E. rewrite E. split; [exact F|]. split; [now apply RB|]. apply FIN; [exact XR|].
    replace (rnd64 x - IZR n / IZR 1000000000) with ((rnd64 x - x) + (x - IZR n / IZR 1000000000)) by ring. eapply Rle_trans; [apply Rabs_triang|].
    assert (Rabs (rnd64 x - x) <= bpow radix2 (-53)) as R1; [|lra].
    eapply Rle_trans; [apply (abs_err _ 0); [exact XB|lia]|]. change (/ 2) with (bpow radix2 (-1)). rewrite <- bpow_plus. apply Rle_refl.
Qed.
(** ** From float64 *)
Lemma trunc_close y : Rabs (IZR (Ztrunc y) - y) < 1.
Proof.
  destruct (Rle_or_lt 0 y) as [P|P].
  - rewrite Ztrunc_floor by exact P. pose proof (Zfloor_lb y). pose proof (Zfloor_ub y). apply Rabs_lt. lra.
  - rewrite Ztrunc_ceil by lra. pose proof (Zceil_ub y). pose proof (Zceil_lb y). apply Rabs_lt. lra.
Qed.
Lemma from_near (f : float64) : is_finite f = true -> Rabs (B2R f) <= bpow radix2 33 ->
  exists t, FloatToTime f = ConvOk t /\ valid_time t /\ Rabs (IZR (ns_of_time t) - B2R f * IZR 1000000000) < 101 / 100.
Proof.
  intros F B. unfold FloatToTime, sinceEpochFloat, modf.
  destruct (Bnearbyint_correct 53 1024 eq_refl mode_ZR f) as (Ei & Fi & _).
  change (B2R (Bnearbyint mode_ZR f) = round radix2 (FIX_exp 0) (round_mode mode_ZR) (B2R f)) in Ei. change (is_finite (Bnearbyint mode_ZR f) = is_finite f) in Fi.
  rewrite F in Fi. assert (round radix2 (FIX_exp 0) (round_mode mode_ZR) (B2R f) = IZR (Ztrunc (B2R f))) as T.
  { unfold round, scaled_mantissa, cexp, FIX_exp, F2R. cbn [Fnum Fexp Z.opp bpow round_mode]. now rewrite !Rmult_1_r. }
  rewrite T in Ei. clear T. set (i := Bnearbyint mode_ZR f) in *. set (r := B2R f) in *. set (s := Ztrunc r) in *.
  pose proof (trunc_close r) as TC. fold s in TC. apply Rabs_def2 in TC.
  assert (bpow radix2 33 = IZR (2 ^ 33)) as B33 by reflexivity. rewrite B33 in B. apply Rabs_le_inv in B.
  assert (Z.abs s <= 2 ^ 33)%Z as S.
  { apply Z.abs_le. unfold s. split; apply le_IZR; [|].
    - rewrite opp_IZR. destruct (Rle_or_lt 0 r) as [P|P]; [rewrite Ztrunc_floor by exact P; assert (IZR 0 <= IZR (Zfloor r)) by (apply IZR_le, Zfloor_lub, P); assert (0 <= IZR (2 ^ 33)) by (apply IZR_le; lia); lra|].
      rewrite Ztrunc_ceil by lra. pose proof (Zceil_ub r). lra.
    - destruct (Rle_or_lt 0 r) as [P|P]; [rewrite Ztrunc_floor by exact P; pose proof (Zfloor_lb r); lra|].
      rewrite Ztrunc_ceil by lra. apply IZR_le, Zceil_glb. lra. }
  destruct (sub_round f i F Fi) as (Fd & Ed); [fold r; rewrite Ei; apply one_big, Rabs_le; lra|]. fold r in Ed. rewrite Ei in Ed.
  set (g := r - IZR s) in *. assert (Rabs g <= 1) as GB by (apply Rabs_le; unfold g; lra).
  assert (Rabs (rnd64 g - g) <= bpow radix2 (-53)) as R1.
  { eapply Rle_trans; [apply (abs_err _ 0); [exact GB|lia]|]. change (/ 2) with (bpow radix2 (-1)). rewrite <- bpow_plus. apply Rle_refl. }
  assert (Rabs (rnd64 g) <= 1) as GR by (apply abs_rnd; [apply (fmt_pow 0); lia|exact GB]).
  destruct e9_val as (F9 & E9). pose proof e9_pos as P9. apply Rabs_le_inv in GR, R1.
  assert (Rabs (rnd64 g * IZR 1000000000) <= IZR 1000000000) as MB by (apply Rabs_le; nra).
  destruct (mul_round (f64_sub f i) f64_1e9 Fd F9) as (Fm & Em).
  { rewrite Ed, E9. eapply Rle_trans; [exact MB|]. change big with (IZR (2 ^ 100)). apply IZR_le. vm_compute. discriminate. }
  rewrite Ed, E9 in Em. set (h := rnd64 g * IZR 1000000000) in *.
  assert (Rabs (rnd64 h - h) <= / 1000) as R2.
  { eapply Rle_trans; [apply (abs_err _ 30); [|lia]|].
    - eapply Rle_trans; [exact MB|]. change (bpow radix2 30) with (IZR (2 ^ 30)). apply IZR_le. vm_compute. discriminate.
    - change (/ 2) with (bpow radix2 (-1)). rewrite <- bpow_plus. change (bpow radix2 (-1 + (30 - 52))) with (/ IZR (2 ^ 23)). apply Rinv_le; [lra|]. apply IZR_le. vm_compute. discriminate. }
  assert (Rabs (rnd64 h) <= IZR 1000000000) as HB.
  { apply abs_rnd; [apply fmt_Z; vm_compute; discriminate|exact MB]. }
  set (n := Ztrunc (rnd64 h)). pose proof (trunc_close (rnd64 h)) as TN. fold n in TN. apply Rabs_def2 in TN. apply Rabs_le_inv in R2, HB.
  assert (Z.abs n <= 1000000000)%Z as NB.
  { unfold n. apply Z.abs_le. split; apply le_IZR; [|].
    - destruct (Rle_or_lt 0 (rnd64 h)) as [P|P]; [rewrite Ztrunc_floor by exact P; assert (IZR 0 <= IZR (Zfloor (rnd64 h))) by (apply IZR_le, Zfloor_lub, P); assert (IZR (-1000000000) <= 0) by (apply IZR_le; lia); change (- (1000000000))%Z with (-1000000000)%Z; lra|].
      rewrite Ztrunc_ceil by lra. pose proof (Zceil_ub (rnd64 h)). rewrite opp_IZR. lra.
    - destruct (Rle_or_lt 0 (rnd64 h)) as [P|P]; [rewrite Ztrunc_floor by exact P; pose proof (Zfloor_lb (rnd64 h)); lra|].
      rewrite Ztrunc_ceil by lra. apply IZR_le, Zceil_glb. lra. }
  unfold f64_to_int64, f64_to_int32. rewrite (to_int_spec _ _ i s Fi); [|rewrite Ei; apply Ztrunc_IZR|lia].
  rewrite (to_int_spec _ _ (f64_mul (f64_sub f i) f64_1e9) n Fm); [|now rewrite Em|lia].
  exists (asGoTime (MkDur s n)). assert (valid_time (asGoTime (MkDur s n)) /\ ns_of_time (asGoTime (MkDur s n)) = (s * 1000000000 + n)%Z) as (V & NS).
  { unfold asGoTime, time_Unix, valid_time, ns_of_time. cbn [Seconds Nanoseconds]. unfold in64.
    destruct (Z.eq_dec n 1000000000) as [->|N1]; [|destruct (Z.eq_dec n (-1000000000)) as [->|N2]].
    - change (orb _ _) with true. cbv iota. change (Z.quot 1000000000 1000000000) with 1%Z. change (wrap64 (1000000000 - wrap64 (1 * 1000000000)))%Z with 0%Z.
      change (0 <? 0)%Z with false. cbv iota zeta. cbn [t_sec t_nsec]. rewrite wrap64_id by (unfold in64; lia). unfold billion. lia.
    - change (orb _ _) with true. cbv iota. change (Z.quot (-1000000000) 1000000000) with (-1)%Z. change (wrap64 (-1000000000 - wrap64 (-1 * 1000000000)))%Z with 0%Z.
      change (0 <? 0)%Z with false. cbv iota zeta. cbn [t_sec t_nsec]. rewrite wrap64_id by (unfold in64; lia). unfold billion. lia.
    - destruct (Z.ltb_spec n 0) as [L|L]; cbn [orb].
      + cbv zeta. assert (Z.quot n 1000000000 = 0)%Z as -> by (apply Z.quot_small_iff; lia).
        rewrite !wrap64_id by (rewrite ?wrap64_id; unfold in64; lia). rewrite (proj2 (Z.ltb_lt (n - 0 * 1000000000) 0)) by lia. cbn [t_sec t_nsec]. unfold billion. lia.
      + rewrite (proj2 (Z.leb_gt 1000000000 n)) by lia. cbn [t_sec t_nsec]. unfold billion. lia. }
  split; [reflexivity|]. split; [exact V|]. rewrite NS, plus_IZR, mult_IZR. change (B2R f) with r.
  assert (r * IZR 1000000000 = IZR s * IZR 1000000000 + g * IZR 1000000000) as -> by (unfold g; ring).
  assert (Rabs (h - g * IZR 1000000000) <= / 1000) as R3.
  { unfold h. rewrite <- Rmult_minus_distr_r. pose proof P9. assert (bpow radix2 (-53) * IZR 1000000000 <= / 1000) as Q.
    { change (bpow radix2 (-53)) with (/ IZR (2 ^ 53)). assert (0 < IZR (2 ^ 53)) by (apply IZR_lt; reflexivity). apply Rmult_le_reg_l with (IZR (2 ^ 53)); [assumption|].
      rewrite <- Rmult_assoc, Rinv_r, Rmult_1_l by lra. change (2 ^ 53)%Z with 9007199254740992%Z. lra. }
    apply Rabs_le. nra. }
  apply Rabs_le_inv in R3. apply Rabs_lt. lra.
Qed.
Lemma time_near fused t : valid_time t -> (- 2 ^ 33 < t_sec t < 2 ^ 33 - 1)%Z ->
  exists t', FloatToTime (TimeToFloat fused t) = ConvOk t' /\ valid_time t' /\ (Z.abs (ns_of_time t' - ns_of_time t) < 1000)%Z.
Proof.
  intros V S. destruct (sinceEpoch_spec t V) as (N & E & I). unfold TimeToFloat. destruct (sinceEpoch t) as [s n]. unfold dnorm, normalised, dvalue, billion in N, E. cbn [Seconds Nanoseconds] in *.
  unfold time_ns in E. unfold billion in E. unfold valid_time in V. unfold billion in V.
  destruct (asFloat_near fused s n ltac:(lia) ltac:(lia)) as (F & B & Err). destruct (from_near _ F B) as (t' & E' & V' & Err').
  exists t'. split; [exact E'|]. split; [exact V'|]. apply lt_IZR. rewrite abs_IZR, minus_IZR.
  set (f := B2R (asFloat fused (MkDur s n))) in *. pose proof e9_pos as P9.
  assert (IZR (ns_of_time t) = (IZR s + IZR n / IZR 1000000000) * IZR 1000000000) as ->.
  { unfold ns_of_time. rewrite <- E, plus_IZR, mult_IZR. field. }
  assert ((bpow radix2 (-20) + bpow radix2 (-52)) * IZR 1000000000 <= 955) as Q.
  { change (bpow radix2 (-20)) with (/ 1048576). assert (bpow radix2 (-52) <= / 1000000000000) as L.
    { change (bpow radix2 (-52)) with (/ IZR (2 ^ 52)). apply Rinv_le; [lra|]. apply IZR_le. vm_compute. discriminate. }
    lra. }
  apply Rabs_def2 in Err'. apply Rabs_le_inv in Err. apply Rabs_lt. nra.
Qed.
