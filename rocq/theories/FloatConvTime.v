(** Times as float64 seconds. *)
From Coq Require Import ZArith Znumtheory Zpow_facts Reals Lra Lia Psatz Bool String List.
From Flocq Require Import Core.Core IEEE754.BinarySingleNaN.
From Verif Require Import GoBase UnitsModel DurationModel DurationSpec DurationProofs GoVal TypesModel FloatBase FloatLemmas FloatConvModel FloatConvSpec FloatConvProofs.
Local Open Scope R_scope.

(** a multiple of 1/10^9 that is a float64 is a multiple of 1/512 *)
Lemma fmt_divides N : fmt64 (IZR N / IZR 1000000000) -> exists k, N = (1953125 * k)%Z.
Proof.
  intros F. apply FLT_format_generic in F as [[m e] E _ _]; [|reflexivity]. unfold F2R in E. cbn [Fnum Fexp] in E. pose proof e9_pos as P9.
  assert (IZR N = IZR 1000000000 * IZR m * bpow radix2 e) as E1 by (rewrite Rmult_assoc, <- E; field; lra). clear E.
  destruct (Z_le_gt_dec 0 e) as [G|G].
  - rewrite <- (IZR_Zpower radix2) in E1 by lia. rewrite <- !mult_IZR in E1. apply eq_IZR in E1. exists (512 * m * radix2 ^ e)%Z. rewrite E1. ring.
  - assert (N * 2 ^ (- e) = 1953125 * (512 * m))%Z as E2.
    { apply eq_IZR. rewrite mult_IZR, E1. change 2%Z with (radix_val radix2). rewrite (IZR_Zpower radix2) by lia. rewrite Rmult_assoc, <- bpow_plus.
      replace (e + - e)%Z with 0%Z by ring. cbn [bpow]. rewrite Rmult_1_r, <- !mult_IZR. f_equal. ring. }
    assert (1953125 | N * 2 ^ (- e))%Z as D by (exists (512 * m)%Z; lia).
    rewrite Z.mul_comm in D. apply Gauss in D as [k Hk].
    + exists k. lia.
    + apply rel_prime_Zpower_r; [lia|]. now apply Zgcd_1_rel_prime.
Qed.

Lemma em9_val : is_finite f64_1em9 = true /\ B2R f64_1em9 = IZR 4835703278458517 * bpow radix2 (-82).
Proof. now split. Qed.
Lemma em9_err : Rabs (IZR 1000000000 * B2R f64_1em9 - 1) <= IZR 1000000000 * bpow radix2 (-83).
Proof.
  destruct em9_val as (_ & ->). assert (bpow radix2 (-83) = / IZR (2 ^ 83)) as -> by reflexivity. assert (bpow radix2 (-82) = 2 * / IZR (2 ^ 83)) as ->.
  { change (bpow radix2 (-82)) with (bpow radix2 (1 + -83)). rewrite bpow_plus. reflexivity. }
  assert (0 < IZR (2 ^ 83)) as P by (apply IZR_lt; reflexivity).
  replace (IZR 1000000000 * (IZR 4835703278458517 * (2 * / IZR (2 ^ 83))) - 1) with ((IZR (2 * 1000000000 * 4835703278458517 - 2 ^ 83)) * / IZR (2 ^ 83)).
  - rewrite Rabs_mult, (Rabs_pos_eq (/ _)) by (apply Rlt_le, Rinv_0_lt_compat, P). apply Rmult_le_compat_r; [apply Rlt_le, Rinv_0_lt_compat, P|].
    rewrite <- abs_IZR. apply IZR_le. vm_compute. discriminate.
  - rewrite minus_IZR, !mult_IZR. field. lra.
Qed.
Lemma k_fmt k : (Z.abs k < 512)%Z -> fmt64 (IZR k / 512).
Proof. intros H. apply (fmt_dyadic k 9); lia. Qed.
Lemma k_bound k : (Z.abs k < 512)%Z -> -1 < IZR k / 512 < 1.
Proof. intros H. assert (IZR (-511) <= IZR k <= IZR 511) as B by (split; apply IZR_le; lia). lra. Qed.
Lemma one_big x : Rabs x <= 2 -> Rabs x <= big.
Proof. intros H. eapply Rle_trans; [exact H|]. change 2 with (bpow radix2 1). apply bpow_le. lia. Qed.

(** ** At least two seconds away from the epoch the sum is exact *)
Lemma rnd_near r e : fmt64 r -> 2 <= r -> (forall z, r <> IZR z) -> Rabs e < bpow radix2 (-52) -> rnd64 (r + e) = r.
Proof.
  intros F P NI E. apply Rabs_def2 in E. assert (2 <= mag radix2 r)%Z as M by (apply mag_ge_bpow; rewrite Rabs_pos_eq by lra; exact P).
  assert (2 * bpow radix2 (-52) <= ulp radix2 (FLT_exp (-1074) 53) r) as U.
  { rewrite ulp_neq_0 by lra. change 2 with (bpow radix2 1). rewrite <- bpow_plus. apply bpow_le. unfold cexp, FLT_exp. lia. }
  apply Rle_antisym.
  - apply round_N_le_midp; [typeclasses eauto|exact F|]. rewrite succ_eq_pos by lra. lra.
  - apply round_N_ge_midp; [typeclasses eauto|exact F|]. rewrite pred_eq_pos by lra. unfold pred_pos. rewrite Req_bool_false; [lra|].
    intros Q. rewrite <- (IZR_Zpower radix2) in Q by lia. exact (NI _ Q).
Qed.
Lemma not_integer s k : (0 < Z.abs k < 512)%Z -> forall z, IZR s + IZR k / 512 <> IZR z.
Proof.
  intros K z E. assert (512 * s + k = 512 * z)%Z; [|lia]. apply eq_IZR. rewrite plus_IZR, !mult_IZR. lra.
Qed.
Lemma rnd_near_k s k e : (2 <= Z.abs s)%Z -> (0 < Z.abs k < 512)%Z -> ((0 <= s /\ 0 <= k) \/ (s <= 0 /\ k <= 0))%Z -> fmt64 (IZR s + IZR k / 512) ->
  Rabs e < bpow radix2 (-52) -> rnd64 (IZR s + IZR k / 512 + e) = IZR s + IZR k / 512.
Proof.
  intros S K [(S0 & K0)|(S0 & K0)] F E.
  - apply rnd_near; [exact F| |now apply not_integer|exact E]. assert (2 <= IZR s) by (apply IZR_le; lia). assert (0 <= IZR k) by (apply IZR_le; lia). lra.
  - replace (IZR s + IZR k / 512 + e) with (- ((IZR (- s) + IZR (- k) / 512) + - e)) by (rewrite !opp_IZR; lra).
    rewrite round_NE_opp, rnd_near; [rewrite !opp_IZR; lra| | |apply not_integer; lia|now rewrite Rabs_Ropp].
    + replace (IZR (- s) + IZR (- k) / 512) with (- (IZR s + IZR k / 512)) by (rewrite !opp_IZR; lra). now apply generic_format_opp.
    + assert (2 <= IZR (- s)) by (apply IZR_le; lia). assert (0 <= IZR (- k)) by (apply IZR_le; lia). lra.
Qed.
Lemma nano_err k : (Z.abs k < 512)%Z -> Rabs (IZR (1953125 * k) * B2R f64_1em9 - IZR k / 512) <= IZR 1000000000 * bpow radix2 (-83).
Proof.
  intros H. pose proof e9_pos as P9. replace (IZR (1953125 * k) * B2R f64_1em9 - IZR k / 512) with (IZR k / 512 * (IZR 1000000000 * B2R f64_1em9 - 1)).
  - rewrite Rabs_mult. pose proof em9_err as E. pose proof (k_bound k H) as B.
    assert (Rabs (IZR k / 512) <= 1) as A by (apply Rabs_le; lra). pose proof (Rabs_pos (IZR 1000000000 * B2R f64_1em9 - 1)). nra.
  - change 1000000000%Z with (1953125 * 512)%Z. rewrite !mult_IZR. field.
Qed.
Lemma small_83 : IZR 1000000000 * bpow radix2 (-83) <= 94 / 100 * bpow radix2 (-53).
Proof.
  change (bpow radix2 (-83)) with (bpow radix2 (-30 + -53)). rewrite bpow_plus. change (bpow radix2 (-30)) with (/ IZR (2 ^ 30)).
  rewrite <- Rmult_assoc. apply Rmult_le_compat_r; [apply bpow_ge_0|]. assert (0 < IZR (2 ^ 30)) as P by (apply IZR_lt; reflexivity).
  apply Rmult_le_reg_r with (IZR (2 ^ 30)); [exact P|]. rewrite Rmult_assoc, Rinv_l by lra. rewrite Rmult_1_r.
  change (2 ^ 30)%Z with 1073741824%Z. lra.
Qed.
Lemma bp5253 : bpow radix2 (-52) = 2 * bpow radix2 (-53).
Proof. change (bpow radix2 (-52)) with (bpow radix2 (1 + -53)). rewrite bpow_plus. reflexivity. Qed.
Lemma bp53_small : 0 < bpow radix2 (-53) <= / 1000.
Proof. split; [apply bpow_gt_0|]. change (bpow radix2 (-53)) with (/ IZR (2 ^ 53)). apply Rinv_le; [lra|]. apply IZR_le. vm_compute. discriminate. Qed.
Lemma nano_err2 k : (0 < Z.abs k < 512)%Z -> Rabs (rnd64 (IZR (1953125 * k) * B2R f64_1em9) - IZR k / 512) < bpow radix2 (-52).
Proof.
  intros H. set (x := IZR (1953125 * k) * B2R f64_1em9). pose proof (nano_err k ltac:(lia)) as E. fold x in E. pose proof small_83 as S. pose proof bp53_small as P. rewrite bp5253.
  pose proof (k_bound k ltac:(lia)) as B. assert (Rabs x <= 101 / 100) as X.
  { apply Rabs_le_inv in E. apply Rabs_le. lra. }
  assert (Rabs (rnd64 x - x) <= bpow radix2 (-53) * Rabs x) as R.
  { apply err_rel. right. assert (/ 512 <= Rabs (IZR k / 512)) as L.
    { unfold Rdiv. rewrite Rabs_mult, <- abs_IZR, (Rabs_pos_eq (/ 512)) by lra. assert (1 <= IZR (Z.abs k)) by (apply IZR_le; lia). lra. }
    apply Rle_trans with (bpow radix2 (-10)); [apply bpow_le; lia|]. change (bpow radix2 (-10)) with (/ 1024).
    pose proof (Rabs_triang_inv (IZR k / 512) x) as T. rewrite <- (Rabs_Ropp (IZR k / 512 - x)) in T. replace (- (IZR k / 512 - x)) with (x - IZR k / 512) in T by ring.
    destruct em9_val as (_ & Ec). revert E S. change (bpow radix2 (-53)) with (/ IZR (2 ^ 53)). assert (/ IZR (2 ^ 53) <= / 2048) by (apply Rinv_le; [lra|apply IZR_le; vm_compute; discriminate]). lra. }
  replace (rnd64 x - IZR k / 512) with ((rnd64 x - x) + (x - IZR k / 512)) by ring. eapply Rle_lt_trans; [apply Rabs_triang|]. nra.
Qed.
Lemma asFloat_exact fused s k : (2 <= Z.abs s <= 2 ^ 63)%Z -> (Z.abs k < 512)%Z -> ((0 <= s /\ 0 <= k) \/ (s <= 0 /\ k <= 0))%Z ->
  fmt64 (IZR s) -> fmt64 (IZR s + IZR k / 512) ->
  is_finite (asFloat fused (MkDur s (1953125 * k))) = true /\ B2R (asFloat fused (MkDur s (1953125 * k))) = IZR s + IZR k / 512.
Proof.
  intros S K SK Fs Fr. destruct (of_Z_rnd s ltac:(lia)) as (F1 & E1). rewrite (rnd_fmt _ Fs) in E1.
  destruct (f64_of_Z_exact (1953125 * k) ltac:(lia)) as (En & Fn). destruct em9_val as (Fc & _). pose proof bp53_small as P53.
  pose proof (nano_err k K) as N1. pose proof small_83 as S83. pose proof (k_bound k K) as KB. apply Rabs_le_inv in N1.
  set (x := IZR (1953125 * k) * B2R f64_1em9) in *.
  assert (forall e, Rabs e < bpow radix2 (-52) -> (k = 0%Z -> e = 0) -> rnd64 (IZR s + (IZR k / 512 + e)) = IZR s + IZR k / 512) as RN.
  { intros e He H0. rewrite <- Rplus_assoc. destruct (Z.eq_dec k 0) as [->|NK].
    - rewrite (H0 eq_refl), Rplus_0_r. now apply rnd_fmt.
    - apply rnd_near_k; try assumption; lia. }
  assert (k = 0%Z -> x = 0) as X0 by (intros ->; unfold x; rewrite Z.mul_0_r; apply Rmult_0_l).
  assert (Rabs x <= 2) as XB by (apply Rabs_le; lra).
  assert (forall p, Rabs p <= 2 -> Rabs (IZR s + p) <= big) as SB.
  { intros p Hp. apply (big_ge s); [lia|]. now replace (IZR s + p - IZR s) with p by ring. }
  unfold asFloat. cbn [Seconds Nanoseconds]. destruct fused.
  - destruct (fma_round (f64_of_Z (1953125 * k)) f64_1em9 (f64_of_Z s) Fn Fc F1) as (F & E).
    + rewrite En, E1. fold x. rewrite Rplus_comm. now apply SB.
    + split; [exact F|]. rewrite E, En, E1. fold x. rewrite Rplus_comm. replace x with (IZR k / 512 + (x - IZR k / 512)) by ring. apply RN.
      * apply Rle_lt_trans with (94 / 100 * bpow radix2 (-53)); [apply Rabs_le; lra|]. rewrite bp5253. lra.
      * intros Z0. rewrite (X0 Z0), Z0. lra.
  - destruct (mul_round (f64_of_Z (1953125 * k)) f64_1em9 Fn Fc) as (Fm & Em); [rewrite En; fold x; now apply one_big|]. rewrite En in Em. fold x in Em.
    assert (Rabs (rnd64 x) <= 2) as XR by (apply abs_rnd; [apply (fmt_pow 1); lia|exact XB]).
    destruct (add_round (f64_of_Z s) (f64_mul (f64_of_Z (1953125 * k)) f64_1em9) F1 Fm) as (F & E); [rewrite E1, Em; now apply SB|].
    split; [exact F|]. rewrite E, E1, Em. replace (rnd64 x) with (IZR k / 512 + (rnd64 x - IZR k / 512)) by ring. apply RN.
    + destruct (Z.eq_dec k 0) as [->|NK]; [|apply nano_err2; lia]. rewrite (X0 eq_refl), round_0 by typeclasses eauto.
      replace (0 - 0 / 512) with 0 by lra. rewrite Rabs_R0. apply bpow_gt_0.
    + intros Z0. rewrite (X0 Z0), Z0, round_0 by typeclasses eauto. lra.
Qed.
Lemma since_exact (f : float64) s k : is_finite f = true -> B2R f = IZR s + IZR k / 512 -> (- 2 ^ 63 <= s < 2 ^ 63)%Z -> (Z.abs k < 512)%Z -> ((0 <= s /\ 0 <= k) \/ (s <= 0 /\ k <= 0))%Z ->
  sinceEpochFloat f = ConvOk (MkDur s (1953125 * k)).
Proof.
  intros F E S K SK. pose proof (k_bound k K) as KB. unfold sinceEpochFloat, modf.
  destruct (Bnearbyint_correct 53 1024 eq_refl mode_ZR f) as (Ei & Fi & _). assert (is_finite (Bnearbyint mode_ZR f) = true) as Fi' by (etransitivity; [exact Fi|exact F]). clear Fi; rename Fi' into Fi.
  assert (Ztrunc (B2R f) = s) as T.
  { rewrite E. destruct SK as [(A & B)|(A & B)]; apply IZR_le in A as A', B as B'; [apply trunc_pos|apply trunc_neg]; try assumption; lra. }
  assert (B2R (Bnearbyint mode_ZR f) = IZR s) as Ei'.
  { etransitivity; [exact Ei|]. unfold round, scaled_mantissa, cexp, FIX_exp, F2R. cbn [Fnum Fexp Z.opp bpow round_mode]. now rewrite !Rmult_1_r, T. }
  clear Ei. set (i := Bnearbyint mode_ZR f) in *.
  destruct (sub_round f i F Fi) as (Fd & Ed); [rewrite E, Ei'; apply one_big, Rabs_le; lra|].
  rewrite E, Ei' in Ed. replace (IZR s + IZR k / 512 - IZR s) with (IZR k / 512) in Ed by ring. rewrite (rnd_fmt _ (k_fmt k K)) in Ed.
  destruct e9_val as (F9 & E9). assert (IZR k / 512 * IZR 1000000000 = IZR (1953125 * k)) as EM by (change 1000000000%Z with (1953125 * 512)%Z; rewrite !mult_IZR; field).
  destruct (mul_round (f64_sub f i) f64_1e9 Fd F9) as (Fm & Em).
  { rewrite Ed, E9, EM, <- abs_IZR. change big with (IZR (2 ^ 100)). apply IZR_le. lia. }
  rewrite Ed, E9, EM, rnd_Z in Em by lia.
  unfold f64_to_int64, f64_to_int32. rewrite (to_int_spec _ _ i s Fi); [|rewrite Ei'; apply Ztrunc_IZR|lia].
  rewrite (to_int_spec _ _ (f64_mul (f64_sub f i) f64_1e9) (1953125 * k) Fm); [reflexivity|rewrite Em; apply Ztrunc_IZR|lia].
Qed.
(** ** Closer to the epoch the sum may be off in the last bit, and is still read back correctly *)
Definition conv_is (c : conv Duration) (s n : Z) : bool := match c with ConvOk d => Z.eqb (Seconds d) s && Z.eqb (Nanoseconds d) n | _ => false end.
Definition check_one (s k : Z) : bool :=
  negb ((0 <=? s)%Z && (0 <=? k)%Z || (s <=? 0)%Z && (k <=? 0)%Z) ||
  (conv_is (sinceEpochFloat (asFloat false (MkDur s (1953125 * k)))) s (1953125 * k) && conv_is (sinceEpochFloat (asFloat true (MkDur s (1953125 * k)))) s (1953125 * k)).
Lemma check_all : forallb (fun s => forallb (fun i => check_one s (Z.of_nat i - 511)) (seq 0 1023)) (cons (-1) (cons 0 (cons 1 nil)))%Z = true.
Proof. vm_compute. reflexivity. Qed.
Lemma near_epoch fused s k : (Z.abs s <= 1)%Z -> (Z.abs k < 512)%Z -> ((0 <= s /\ 0 <= k) \/ (s <= 0 /\ k <= 0))%Z ->
  sinceEpochFloat (asFloat fused (MkDur s (1953125 * k))) = ConvOk (MkDur s (1953125 * k)).
Proof.
  intros S K SK. assert (check_one s k = true) as C.
  { pose proof check_all as A. rewrite forallb_forall in A. specialize (A s). cbv beta in A. rewrite forallb_forall in A. specialize (A ltac:(cbn; lia)). specialize (A (Z.to_nat (k + 511))).
    cbv beta in A. rewrite Z2Nat.id in A by lia. replace (k + 511 - 511)%Z with k in A by ring. apply A. apply in_seq. lia. }
  unfold check_one in C. assert (((0 <=? s)%Z && (0 <=? k)%Z || (s <=? 0)%Z && (k <=? 0)%Z)%bool = true) as X by lia. rewrite X in C. cbn [negb orb] in C. clear X.
  apply andb_prop in C as (C1 & C2).
  assert (forall c, conv_is c s (1953125 * k) = true -> c = ConvOk (MkDur s (1953125 * k))) as Y.
  { intros [[a b]| |] Q; try discriminate. cbn [conv_is Seconds Nanoseconds] in Q. apply andb_prop in Q as (Q1 & Q2). apply Z.eqb_eq in Q1, Q2. now subst. }
  destruct fused; apply Y; assumption.
Qed.
Lemma dur_epoch fused d : dnorm d -> in64 (Seconds d) -> representable (IZR (dvalue d) / IZR 1000000000) ->
  sinceEpochFloat (asFloat fused d) = ConvOk d.
Proof.
  intros N I (f & Ff & Ef). pose proof (fmt_B2R f) as F. rewrite Ef in F. destruct d as [s n]. unfold dnorm, normalised, dvalue, in64, billion in *. cbn [Seconds Nanoseconds] in *.
  destruct (fmt_divides _ F) as (m & Hm). assert (exists k, n = 1953125 * k)%Z as (k & ->).
  { exists (m - 512 * s)%Z. lia. }
  assert (Z.abs k < 512)%Z as K by lia. assert ((0 <= s /\ 0 <= k) \/ (s <= 0 /\ k <= 0))%Z as SK by lia.
  assert (IZR (s * 1000000000 + 1953125 * k) / IZR 1000000000 = IZR s + IZR k / 512) as E.
  { change 1000000000%Z with (1953125 * 512)%Z. rewrite plus_IZR, !mult_IZR. field. }
  rewrite E in F, Ef. destruct (Z_le_gt_dec (Z.abs s) 1) as [L|G]; [now apply near_epoch|].
  assert (fmt64 (IZR s)) as Fs.
  { pose proof (fmt_B2R (Bnearbyint mode_ZR f)) as Q. destruct (Bnearbyint_correct 53 1024 eq_refl mode_ZR f) as (Ei & _). change (B2R (Bnearbyint mode_ZR f) = round radix2 (FIX_exp 0) (round_mode mode_ZR) (B2R f)) in Ei. rewrite Ei in Q.
    revert Q. unfold round at 1, scaled_mantissa, cexp, FIX_exp, F2R. cbn [Fnum Fexp Z.opp bpow round_mode]. rewrite !Rmult_1_r, Ef.
    pose proof (k_bound k K) as KB. replace (Ztrunc (IZR s + IZR k / 512)) with s; [auto|]. symmetry.
    destruct SK as [(A & B)|(A & B)]; apply IZR_le in A as A', B as B'; [apply trunc_pos|apply trunc_neg]; try assumption; lra. }
  destruct (asFloat_exact fused s k ltac:(lia) K SK Fs F) as (F1 & E1). apply since_exact; assumption || lia.
Qed.
Lemma time_round_trip fused t : valid_time t -> representable (IZR (ns_of_time t) / IZR 1000000000) -> FloatToTime (TimeToFloat fused t) = ConvOk t.
Proof.
  intros V R. destruct (sinceEpoch_spec t V) as (N & E & I). unfold FloatToTime, TimeToFloat. rewrite (dur_epoch fused (sinceEpoch t) N I).
  - now rewrite sinceEpoch_roundtrip.
  - rewrite E. exact R.
Qed.
