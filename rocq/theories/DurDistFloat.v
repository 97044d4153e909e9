(** Durations as numbers of seconds or milliseconds in float64. *)
From Coq Require Import ZArith Reals Lra Lia Psatz Bool.
From Flocq Require Import Core.Core IEEE754.BinarySingleNaN.
From Verif Require Import GoBase GoVal FloatBase FloatLemmas FloatConvModel FloatConvSpec FloatConvProofs.
Local Open Scope R_scope.

Lemma int_exact z : (Z.abs z <= 2 ^ 53)%Z -> rnd64 (IZR z) = IZR z.
Proof.
  intros H. apply round_generic; [typeclasses eauto|]. replace (IZR z) with (IZR z * bpow radix2 (- 0)) by (cbn; ring).
  apply fmt_dyadic; lia.
Qed.
Definition quotient (ns k : Z) : float64 := f64_div (f64_of_Z ns) (f64_of_Z k).
Lemma quotient_spec ns k : (Z.abs ns <= 2 ^ 63)%Z -> (1 <= k <= 2 ^ 30)%Z ->
  is_finite (quotient ns k) = true /\ B2R (quotient ns k) = rnd64 (rnd64 (IZR ns) / IZR k).
Proof.
  intros H K. destruct (of_Z_rnd ns ltac:(lia)) as (Fd & Ed). destruct (of_Z_rnd k ltac:(lia)) as (Fk & Ek). rewrite (int_exact k) in Ek by lia.
  assert (1 <= IZR k) as K1 by (apply IZR_le; lia). unfold quotient. rewrite <- Ed, <- Ek. apply div_round'; [exact Fd|rewrite Ek; lra|]. rewrite Ek, Ed.
  assert (Rabs (rnd64 (IZR ns)) <= bpow radix2 63) as B.
  { apply abs_rnd; [apply fmt_pow; lia|]. rewrite <- abs_IZR, <- (IZR_Zpower radix2) by lia. apply IZR_le. exact H. }
  unfold Rdiv. rewrite Rabs_mult, (Rabs_pos_eq (/ _)) by (apply Rlt_le, Rinv_0_lt_compat; lra).
  apply Rle_trans with (bpow radix2 63 * 1).
  - apply Rmult_le_compat; [apply Rabs_pos|apply Rlt_le, Rinv_0_lt_compat; lra|exact B|]. rewrite <- Rinv_1. apply Rinv_le; [lra|exact K1].
  - rewrite Rmult_1_r. apply bpow_le. lia.
Qed.
Lemma ratio_normal a k : (1 <= k <= 2 ^ 30)%Z -> a = 0 \/ 1 <= Rabs a -> a / IZR k = 0 \/ bpow radix2 (-1022) <= Rabs (a / IZR k).
Proof.
  intros K [->|A]; [left; unfold Rdiv; ring|right]. assert (1 <= IZR k) as K1 by (apply IZR_le; lia).
  assert (IZR k <= bpow radix2 30) as K2 by (change (bpow radix2 30) with (IZR (2 ^ 30)); apply IZR_le; lia).
  unfold Rdiv. rewrite Rabs_mult, (Rabs_pos_eq (/ _)) by (apply Rlt_le, Rinv_0_lt_compat; lra).
  apply Rle_trans with (1 * / bpow radix2 30).
  - rewrite Rmult_1_l, <- bpow_opp. apply bpow_le. lia.
  - apply Rmult_le_compat; [lra|apply Rlt_le, Rinv_0_lt_compat, bpow_gt_0|exact A|apply Rinv_le; lra].
Qed.
Lemma int_or a : IZR a = 0 \/ 1 <= Rabs (IZR a).
Proof. destruct (Z.eq_dec a 0) as [->|N]; [now left|right]. rewrite <- abs_IZR. apply IZR_le. lia. Qed.
Lemma strict a b k : (1 <= k <= 2 ^ 30)%Z -> (Z.abs a < 2 ^ 52)%Z -> (Z.abs b < 2 ^ 52)%Z -> (a < b)%Z -> rnd64 (IZR a / IZR k) < rnd64 (IZR b / IZR k).
Proof.
  intros K A B L. assert (1 <= IZR k) as K1 by (apply IZR_le; lia).
  assert (forall x, (Z.abs x < 2 ^ 52)%Z -> Rabs (rnd64 (IZR x / IZR k) - IZR x / IZR k) < / 2 / IZR k) as E.
  { intros x X. eapply Rle_lt_trans; [apply err_rel, ratio_normal; [exact K|apply int_or]|]. unfold Rdiv. rewrite Rabs_mult, (Rabs_pos_eq (/ _)) by (apply Rlt_le, Rinv_0_lt_compat; lra).
    rewrite <- Rmult_assoc. apply Rmult_lt_compat_r; [apply Rinv_0_lt_compat; lra|]. rewrite <- abs_IZR.
    apply Rlt_le_trans with (bpow radix2 (-53) * bpow radix2 52); [|rewrite <- bpow_plus; change (bpow radix2 (-53 + 52)) with (/ 2); lra].
    apply Rmult_lt_compat_l; [apply bpow_gt_0|]. rewrite bp52. now apply IZR_lt. }
  pose proof (E a A) as Ea. pose proof (E b B) as Eb. apply Rabs_def2 in Ea, Eb.
  assert (IZR a / IZR k + / IZR k <= IZR b / IZR k) as Gap.
  { unfold Rdiv. assert (IZR a + 1 <= IZR b) by (rewrite <- plus_IZR; apply IZR_le; lia). assert (0 < / IZR k) by (apply Rinv_0_lt_compat; lra). nra. }
  unfold Rdiv in *. lra.
Qed.
Lemma quotient_close ns k : (Z.abs ns <= 2 ^ 63)%Z -> (1 <= k <= 2 ^ 30)%Z ->
  Rabs (B2R (quotient ns k) - IZR ns / IZR k) <= bpow radix2 (-51) * Rabs (IZR ns / IZR k).
Proof.
  intros H K. destruct (quotient_spec ns k H K) as [_ ->]. assert (1 <= IZR k) as K1 by (apply IZR_le; lia). assert (0 < / IZR k) as KI by (apply Rinv_0_lt_compat; lra).
  set (r := rnd64 (IZR ns)). assert (Rabs (r - IZR ns) <= bpow radix2 (-53) * Rabs (IZR ns)) as E1.
  { apply err_rel. destruct (int_or ns) as [Z|Z]; [now left|right]. eapply Rle_trans; [|exact Z]. apply (bpow_le radix2 (-1022) 0). lia. }
  assert (r = 0 \/ 1 <= Rabs r) as R1.
  { destruct (int_or ns) as [Z|Z]; [left; unfold r; rewrite Z; apply round_0; typeclasses eauto|right].
    apply (abs_round_ge_generic radix2 (FLT_exp (-1074) 53) ZnearestE); [exact (fmt_pow 0 ltac:(lia))|exact Z]. }
  pose proof (err_rel _ (ratio_normal r k K R1)) as E2.
  replace (rnd64 (r / IZR k) - IZR ns / IZR k) with ((rnd64 (r / IZR k) - r / IZR k) + (r - IZR ns) / IZR k) by (unfold Rdiv; ring).
  eapply Rle_trans; [apply Rabs_triang|]. unfold Rdiv in *. rewrite !Rabs_mult, (Rabs_pos_eq (/ _)) in * by lra.
  assert (Rabs r <= Rabs (IZR ns) * (1 + bpow radix2 (-53))) as R2.
  { replace r with ((r - IZR ns) + IZR ns) by ring. eapply Rle_trans; [apply Rabs_triang|]. lra. }
  assert (bpow radix2 (-53) <= / 4) as S1. { change (/ 4) with (bpow radix2 (-2)). apply bpow_le. lia. }
  assert (bpow radix2 (-51) = 4 * bpow radix2 (-53)) as S2. { change 4 with (bpow radix2 2). rewrite <- bpow_plus. reflexivity. }
  pose proof (bpow_ge_0 radix2 (-53)) as S0. set (u := bpow radix2 (-53)) in *. rewrite S2.
  apply Rle_trans with ((u * Rabs r + Rabs (r - IZR ns)) * / IZR k); [rewrite Rmult_plus_distr_r; apply Rplus_le_compat_r; lra|].
  rewrite <- Rmult_assoc. apply Rmult_le_compat_r; [lra|].
  pose proof (Rabs_pos (IZR ns)) as P. set (n := Rabs (IZR ns)) in *.
  pose proof (Rmult_le_compat_l u _ _ S0 R2) as Q1. pose proof (Rmult_le_compat_l (u * n) _ _ (Rmult_le_pos _ _ S0 P) S1) as Q2. pose proof (Rmult_le_pos _ _ S0 P) as Q3. lra.
Qed.
(** numbers of at most 2^53 are not rounded first *)
Lemma quotient_small ns k : (Z.abs ns < 2 ^ 52)%Z -> (1 <= k <= 2 ^ 30)%Z -> is_finite (quotient ns k) = true /\ B2R (quotient ns k) = rnd64 (IZR ns / IZR k).
Proof. intros H K. destruct (quotient_spec ns k ltac:(lia) K) as [F E]. rewrite int_exact in E by lia. auto. Qed.
Lemma quotient_lt a b k (e : float64) : (1 <= k <= 2 ^ 30)%Z -> (Z.abs a < 2 ^ 52)%Z -> (Z.abs b < 2 ^ 52)%Z -> is_finite e = true -> B2R e = rnd64 (IZR b / IZR k) ->
  f64_lt (quotient a k) e = (a <? b)%Z.
Proof.
  intros K A B F E. destruct (quotient_small a k A K) as [Fa Ea]. rewrite f64_lt_key by (apply fin_notnan; assumption).
  assert (forall x : float64, is_finite x = true -> f64_key x = B2R x) as Key by (intros [| | |]; easy). rewrite !Key, Ea, E by assumption.
  destruct (Z.ltb_spec a b) as [L|G].
  - apply Rlt_bool_true. now apply strict.
  - apply Rlt_bool_false. destruct (Z.eq_dec a b) as [->|N]; [lra|]. apply Rlt_le. apply strict; lia.
Qed.
