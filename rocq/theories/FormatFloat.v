(** The compact forms: the loop ends in time and the number shown is close. *)
From Coq Require Import ZArith Reals Lra Lia Psatz.
From Verif Require Import GoBase StrLemmas TextSpec FloatBase GoVal.
From Flocq Require Import Core BinarySingleNaN Relative.
From Verif Require Import FloatLemmas FormatModel FormatSpec FormatProofs.
Local Open Scope R_scope.
Local Arguments append : simpl nomatch.

Notation ulp52 := (bpow radix2 (-52)).
Lemma ulp52_val : ulp52 = / IZR (2 ^ 52).
Proof. reflexivity. Qed.
Lemma of_Z_round (z : Z) : (Z.abs z <= 2 ^ 64)%Z -> is_finite (f64_of_Z z) = true /\ B2R (f64_of_Z z) = rnd64 (IZR z).
Proof.
  intros H. unfold f64_of_Z. pose proof (binary_normalize_correct 53 1024 eq_refl eq_refl mode_NE z 0 false) as C. cbv zeta in C.
  replace (F2R (Float radix2 z 0)) with (IZR z) in C by (unfold F2R; cbn; ring). change (round_mode mode_NE) with ZnearestE in C.
  change (round radix2 (SpecFloat.fexp 53 1024) ZnearestE (IZR z)) with (rnd64 (IZR z)) in C.
  assert (Rabs (rnd64 (IZR z)) <= bpow radix2 64) as B.
  { apply abs_round_le_generic; [typeclasses eauto..|apply generic_format_bpow; vm_compute; discriminate|]. rewrite <- abs_IZR, <- (IZR_Zpower radix2) by lia. now apply IZR_le. }
  rewrite Rlt_bool_true in C; [now destruct C as (C1 & C2 & _)|]. eapply Rle_lt_trans; [exact B|]. now apply bpow_lt.
Qed.
Lemma rel_err x : 1 <= Rabs x -> Rabs (rnd64 x - x) <= / 2 * ulp52 * Rabs x.
Proof.
  intros H. apply (relative_error_N_FLT radix2 (-1074) 53 eq_refl (fun n => negb (Z.even n))).
  eapply Rle_trans; [|exact H]. change 1 with (bpow radix2 0). apply bpow_le. lia.
Qed.
Lemma div_round (x y : float64) u : is_finite x = true -> B2R y <> 0 -> fmt64 u -> u < top -> Rabs (B2R x / B2R y) <= u ->
  is_finite (f64_div x y) = true /\ B2R (f64_div x y) = rnd64 (B2R x / B2R y) /\ Rabs (B2R (f64_div x y)) <= u.
Proof.
  intros F N Fu Tu L. pose proof (Bdiv_correct 53 1024 eq_refl eq_refl mode_NE x y N) as C. change (round_mode mode_NE) with ZnearestE in C.
  change (round radix2 (SpecFloat.fexp 53 1024) ZnearestE (B2R x / B2R y)) with (rnd64 (B2R x / B2R y)) in C.
  assert (Rabs (rnd64 (B2R x / B2R y)) <= u) as B by (apply abs_round_le_generic; [typeclasses eauto..|exact Fu|exact L]).
  rewrite Rlt_bool_true in C by lra. destruct C as (C1 & C2 & _).
  assert (is_finite (f64_div x y) = true) as Fin by (etransitivity; [exact C2|exact F]).
  assert (B2R (f64_div x y) = rnd64 (B2R x / B2R y)) as E by exact C1. rewrite E. auto.
Qed.
Lemma opp_fin (x : float64) : is_finite x = true -> is_finite (f64_opp x) = true /\ B2R (f64_opp x) = - B2R x.
Proof. intros F. unfold f64_opp. rewrite is_finite_Bopp, B2R_Bopp. auto. Qed.
Lemma fin_nan (x : float64) : is_finite x = true -> is_nan x = false.
Proof. now destruct x. Qed.
Lemma lt_fin (x y : float64) : is_finite x = true -> is_finite y = true -> f64_lt x y = Rlt_bool (B2R x) (B2R y).
Proof. intros X Y. rewrite f64_lt_key by now apply fin_nan. now rewrite !key_finite. Qed.
Lemma le_fin (x y : float64) : is_finite x = true -> is_finite y = true -> f64_le x y = Rle_bool (B2R x) (B2R y).
Proof. intros X Y. rewrite f64_le_lt by now apply fin_nan. rewrite lt_fin by assumption. now rewrite <- negb_Rlt_bool, negb_involutive. Qed.

Section Loop.
  Variables (r : Z) (Bd : nat -> R) (x : Z).
  Hypothesis r_big : (2 <= r <= 2 ^ 53)%Z.
  Hypothesis Bd_fmt : forall k, (k <= 6)%nat -> fmt64 (Bd k) /\ Bd k < top.
  Hypothesis Bd_step : forall k, (k < 6)%nat -> Bd k / IZR r <= Bd (S k).
  Hypothesis Bd_last : Bd 6 < IZR r.
  Hypothesis Bd_first : bpow radix2 64 <= Bd 0.
  Hypothesis x_64 : (Z.abs x <= 2 ^ 64)%Z.
  Hypothesis x_big : (r <= Z.abs x)%Z.
  Let fr : float64 := f64_of_Z r.
  Let fr_val : B2R fr = IZR r /\ is_finite fr = true.
  Proof. apply f64_of_Z_exact. lia. Qed.
  Let r_pos : 2 <= IZR r.
  Proof. apply IZR_le. lia. Qed.
  Definition inv (k : nat) (fx : float64) : Prop :=
    is_finite fx = true /\ Rabs (B2R fx) <= Bd k /\ Rabs (B2R fx * IZR r ^ k - IZR x) <= INR (k + 1) * ulp52 * Rabs (IZR x).
  Lemma test_true fx : is_finite fx = true -> (f64_le fr fx || f64_le fx (f64_opp fr))%bool = true <-> IZR r <= Rabs (B2R fx).
  Proof.
    intros F. destruct fr_val as [V Fr]. destruct (opp_fin fr Fr) as [Fo Vo]. rewrite !le_fin by assumption. rewrite Vo, V, orb_true_iff.
    split.
    - intros [H|H]; [destruct (Rle_bool_spec (IZR r) (B2R fx)) as [L|L]|destruct (Rle_bool_spec (B2R fx) (- IZR r)) as [L|L]]; try discriminate; unfold Rabs; destruct (Rcase_abs (B2R fx)); lra.
    - unfold Rabs. destruct (Rcase_abs (B2R fx)); intros H; [right|left]; apply Rle_bool_true; lra.
  Qed.
  Lemma x_abs : 2 <= Rabs (IZR x).
  Proof. rewrite <- abs_IZR. apply IZR_le. lia. Qed.
  Lemma inv_0 : inv 0 (f64_of_Z x) /\ IZR r <= Rabs (B2R (f64_of_Z x)).
  Proof.
    destruct (of_Z_round x x_64) as [F V]. unfold inv. rewrite V. cbn [pow Nat.add INR]. pose proof x_abs as X. split; [split; [exact F|split]|].
    - eapply Rle_trans; [|exact Bd_first]. apply abs_round_le_generic; [typeclasses eauto..|apply generic_format_bpow; vm_compute; discriminate|].
      rewrite <- abs_IZR, <- (IZR_Zpower radix2) by lia. now apply IZR_le.
    - rewrite Rmult_1_r. eapply Rle_trans; [apply rel_err; lra|]. pose proof (bpow_gt_0 radix2 (-52)). nra.
    - apply abs_round_ge_generic; [typeclasses eauto..|apply fmt_Z; lia|]. rewrite <- abs_IZR. now apply IZR_le.
  Qed.
  Lemma inv_step k fx : (k < 6)%nat -> inv k fx -> IZR r <= Rabs (B2R fx) -> inv (S k) (f64_div fx fr) /\ 1 <= Rabs (B2R (f64_div fx fr)).
  Proof.
    intros K (F & B & E) L. destruct fr_val as [V Fr]. destruct (Bd_fmt (S k) ltac:(lia)) as [Fm Tp].
    assert (Rabs (B2R fx / IZR r) = Rabs (B2R fx) / IZR r) as A. { unfold Rdiv. rewrite Rabs_mult, (Rabs_pos_eq (/ _)); [reflexivity|]. apply Rlt_le, Rinv_0_lt_compat. lra. }
    assert (1 <= Rabs (B2R fx / IZR r)) as One. { rewrite A. apply Rmult_le_reg_r with (IZR r); [lra|]. unfold Rdiv. rewrite Rmult_assoc, Rinv_l by lra. lra. }
    destruct (div_round fx fr (Bd (S k)) F) as (Fd & Vd & Bdd); [rewrite V; lra|exact Fm|exact Tp| |].
    { rewrite V, A. eapply Rle_trans; [|apply Bd_step; exact K]. unfold Rdiv. apply Rmult_le_compat_r; [|exact B]. apply Rlt_le, Rinv_0_lt_compat. lra. }
    rewrite V in Vd. split; [split; [exact Fd|split; [exact Bdd|]]|].
    - rewrite Vd. pose proof (rel_err _ One) as RE. set (q := B2R fx / IZR r) in *.
      assert (B2R fx = q * IZR r) as Q by (unfold q; field; lra). rewrite Q in E. pose proof (pow_lt (IZR r) k ltac:(lra)) as P.
      replace (rnd64 q * IZR r ^ S k - IZR x) with ((rnd64 q - q) * (IZR r * IZR r ^ k) + (q * IZR r * IZR r ^ k - IZR x)) by (cbn [pow]; ring).
      eapply Rle_trans; [apply Rabs_triang|]. rewrite Rabs_mult, (Rabs_pos_eq (IZR r * _)) by (apply Rmult_le_pos; lra).
      assert (Rabs q * (IZR r * IZR r ^ k) = Rabs (q * IZR r * IZR r ^ k)) as AQ. { rewrite Rmult_assoc, Rabs_mult, (Rabs_pos_eq (IZR r * IZR r ^ k)); [reflexivity|]. apply Rmult_le_pos; lra. }
      assert (Rabs (q * IZR r * IZR r ^ k) <= Rabs (IZR x) + INR (k + 1) * ulp52 * Rabs (IZR x)) as Up.
      { replace (q * IZR r * IZR r ^ k) with (IZR x + (q * IZR r * IZR r ^ k - IZR x)) by ring. eapply Rle_trans; [apply Rabs_triang|]. lra. }
      assert (INR (k + 1) <= 6) as I6. { replace 6 with (INR 6) by (cbn; lra). apply le_INR. lia. }
      assert (0 <= INR (k + 1)) as I0 by apply pos_INR.
      assert (ulp52 <= / 8) as U8. { change (/ 8) with (bpow radix2 (-3)). apply bpow_le. lia. }
      pose proof (bpow_gt_0 radix2 (-52)) as U0. pose proof (Rabs_pos (IZR x)) as X0.
      assert (Rabs (q * IZR r * IZR r ^ k) <= 2 * Rabs (IZR x)) as Up2.
      { eapply Rle_trans; [exact Up|]. assert (INR (k + 1) * ulp52 <= 6 * / 8) by (apply Rmult_le_compat; lra).
        assert (INR (k + 1) * ulp52 * Rabs (IZR x) <= 6 * / 8 * Rabs (IZR x)) by (apply Rmult_le_compat_r; lra). lra. }
      assert (Rabs (rnd64 q - q) * (IZR r * IZR r ^ k) <= / 2 * ulp52 * (2 * Rabs (IZR x))) as S1.
      { eapply Rle_trans; [apply Rmult_le_compat_r; [apply Rmult_le_pos; lra|exact RE]|]. rewrite Rmult_assoc, AQ. apply Rmult_le_compat_l; [lra|exact Up2]. }
      replace (S k + 1)%nat with (S (k + 1)) by lia. rewrite S_INR. lra.
    - rewrite Vd. apply abs_round_ge_generic; [typeclasses eauto..|change 1 with (bpow radix2 0); apply generic_format_bpow; vm_compute; discriminate|exact One].
  Qed.
  Lemma loop_ends : forall fuel k fx, (7 <= fuel + k)%nat -> (k <= 6)%nat -> inv k fx -> (k = 0%nat -> IZR r <= Rabs (B2R fx)) -> (k <> 0%nat -> 1 <= Rabs (B2R fx)) ->
    exists j fy, i_loop fuel fr fx (Z.of_nat k - 1) = Some (fy, (Z.of_nat j - 1)%Z) /\ (1 <= j <= 6)%nat /\ inv j fy /\ 1 <= Rabs (B2R fy) < IZR r.
  Proof.
    induction fuel as [|fuel IH]; intros k fx Fu K I Z0 NZ; [lia|]. cbn [i_loop]. pose proof I as (F & B & _).
    destruct (f64_le fr fx || f64_le fx (f64_opp fr))%bool eqn:T.
    - apply (test_true fx F) in T. assert (k < 6)%nat as K6.
      { destruct (Nat.eq_dec k 6) as [->|]; [|lia]. exfalso. lra. }
      destruct (inv_step k fx K6 I T) as [I' One]. replace (Z.of_nat k - 1 + 1)%Z with (Z.of_nat (S k) - 1)%Z by lia.
      apply IH; [lia|lia|exact I'|lia|auto].
    - assert (~ IZR r <= Rabs (B2R fx)) as NT by (intros X; apply (test_true fx F) in X; congruence).
      assert (k <> 0)%nat as Kn by (intros X; apply NT; auto). exists k, fx. split; [reflexivity|]. split; [lia|]. split; [exact I|]. split; [auto|lra].
  Qed.
  Lemma compact_loop : exists j fy, i_loop compact_fuel fr (f64_of_Z x) (-1) = Some (fy, (Z.of_nat j - 1)%Z) /\ (1 <= j <= 6)%nat /\ is_finite fy = true /\
    1 <= Rabs (B2R fy) < IZR r /\ Rabs (B2R fy * IZR r ^ j - IZR x) <= 7 * ulp52 * Rabs (IZR x).
  Proof.
    destruct inv_0 as [I L]. destruct (loop_ends compact_fuel 0 (f64_of_Z x)) as (j & fy & E & J & (F & _ & C) & B); [unfold compact_fuel; lia|lia|exact I|auto|congruence|].
    exists j, fy. split; [exact E|]. split; [exact J|]. split; [exact F|]. split; [exact B|]. eapply Rle_trans; [exact C|].
    apply Rmult_le_compat_r; [apply Rabs_pos|]. apply Rmult_le_compat_r; [apply bpow_ge_0|]. replace 7 with (INR 7) by (cbn; lra). apply le_INR. lia.
  Qed.
End Loop.

(** *** decimals *)
Lemma half_even num den : (0 < den)%Z -> (Z.abs (2 * (den * round_half_even num den - num)) <= den)%Z.
Proof.
  intros D. unfold round_half_even. pose proof (Z.div_mod num den ltac:(lia)) as E. pose proof (Z.mod_pos_bound num den D) as B.
  set (q := (num / den)%Z) in *. set (m := (num mod den)%Z) in *.
  destruct (Z.ltb_spec (2 * m) den); [|destruct (Z.ltb_spec den (2 * m)); [|destruct (Z.even q)]]; lia.
Qed.
Definition fmt_digits (p : nat) (x : float64) : Z :=
  match x with
  | B754_finite s m e _ =>
      let scaled := (Zpos m * 10 ^ Z.of_nat p)%Z in
      let n := (if (0 <=? e)%Z then scaled * 2 ^ e else round_half_even scaled (2 ^ (- e)))%Z in if s then (- n)%Z else n
  | _ => 0%Z
  end.
Lemma fixed_digits_spec p n : (0 <= n)%Z -> exists ip fp ipn, fixed_digits p n = (ip ++ (match p with O => "" | _ => "." ++ fp end))%string /\
  canonical_dec ip ipn /\ String.length fp = p /\ str_all is_digit fp = true /\ n = (Z.of_N ipn * 10 ^ Z.of_nat p + Z.of_N (digits_value fp))%Z.
Proof.
  intros N. unfold fixed_digits. set (ten := (10 ^ Z.of_nat p)%Z). assert (0 < ten)%Z as T by (apply Z.pow_pos_nonneg; lia).
  pose proof (Z.div_mod n ten ltac:(lia)) as E. pose proof (Z.mod_pos_bound n ten T) as B. pose proof (Z.div_pos n ten N T) as Q.
  assert (forall z, (0 <= z)%Z -> canonical_dec (fmt_d z) (Z.to_N z)) as Can.
  { intros z Hz. unfold fmt_d. destruct (Z.ltb_spec z 0); [lia|]. apply dec_of_N_canonical. }
  destruct p as [|p].
  - exists (fmt_d (n / ten)), ""%string, (Z.to_N (n / ten)). split; [reflexivity|]. split; [now apply Can|]. split; [reflexivity|]. split; [reflexivity|].
    change ten with 1%Z in *. cbn [digits_value dval]. rewrite Z2N.id by exact Q. lia.
  - exists (fmt_d (n / ten)), (fmt_0d (S p) (n mod ten)), (Z.to_N (n / ten)). split; [reflexivity|]. split; [now apply Can|].
    unfold fmt_0d. destruct (Z.ltb_spec (n mod ten) 0); [lia|].
    destruct (pad0_spec (S p) (Z.to_N (n mod ten))) as (L & D & V); [|lia|].
    { apply N2Z.inj_lt. rewrite Z2N.id by lia. rewrite N2Z.inj_pow, nat_N_Z. exact (proj2 B). }
    split; [exact L|]. split; [exact D|]. rewrite V, !Z2N.id by lia. lia.
Qed.
Lemma fmt_f_spec p (x : float64) : is_finite x = true -> 1 <= Rabs (B2R x) ->
  decimal_text (fmt_f p x) (fmt_digits p x) p /\ Rabs (IZR (fmt_digits p x) - B2R x * IZR (10 ^ Z.of_nat p)) <= / 2.
Proof.
  destruct x as [s|s| |s m e H]; cbn [is_finite]; try discriminate; intros _ One.
  { cbn in One. rewrite Rabs_R0 in One. lra. }
  cbn [fmt_f fmt_digits]. set (scaled := (Zpos m * 10 ^ Z.of_nat p)%Z). set (n := (if (0 <=? e)%Z then scaled * 2 ^ e else round_half_even scaled (2 ^ (- e)))%Z).
  assert (0 < 10 ^ Z.of_nat p)%Z as T by (apply Z.pow_pos_nonneg; lia).
  assert (Rabs (IZR n - IZR (Zpos m) * bpow radix2 e * IZR (10 ^ Z.of_nat p)) <= / 2) as C.
  { unfold n. destruct (Z.leb_spec 0 e) as [Le|Le].
    - rewrite mult_IZR, <- (IZR_Zpower radix2) by exact Le. unfold scaled. rewrite mult_IZR. change (IZR (radix2 ^ e)) with (IZR (2 ^ e)).
      match goal with |- Rabs ?a <= _ => replace a with 0 by ring end. rewrite Rabs_R0. lra.
    - assert (0 < 2 ^ (- e))%Z as P by (apply Z.pow_pos_nonneg; lia). pose proof (half_even scaled (2 ^ (- e)) P) as HE.
      set (q := round_half_even scaled (2 ^ (- e))) in *. apply IZR_le in HE. rewrite abs_IZR, mult_IZR, minus_IZR, mult_IZR in HE.
      assert (bpow radix2 e * IZR (2 ^ (- e)) = 1) as I. { change (IZR (2 ^ (- e))) with (IZR (radix2 ^ (- e))). rewrite (IZR_Zpower radix2) by lia. rewrite <- bpow_plus. replace (e + - e)%Z with 0%Z by lia. reflexivity. }
      apply IZR_lt in P. unfold scaled in HE. rewrite mult_IZR in HE.
      replace (IZR q - IZR (Zpos m) * bpow radix2 e * IZR (10 ^ Z.of_nat p)) with (bpow radix2 e * (IZR (2 ^ (- e)) * IZR q - IZR (Zpos m) * IZR (10 ^ Z.of_nat p))).
      2:{ rewrite Rmult_minus_distr_l, <- Rmult_assoc, I. ring. }
      pose proof (bpow_gt_0 radix2 e) as Bp. rewrite Rabs_mult, (Rabs_pos_eq (bpow radix2 e)) by lra. rewrite Rabs_mult, (Rabs_pos_eq 2) in HE by lra.
      apply Rmult_le_reg_l with 2; [lra|]. rewrite Rinv_r by lra. apply (Rmult_le_compat_l (bpow radix2 e)) in HE; [|lra]. rewrite I in HE. lra. }
  assert (B2R (B754_finite s m e H) = (if s then -1 else 1) * (IZR (Zpos m) * bpow radix2 e)) as V.
  { cbn [B2R]. unfold F2R. cbn [Fnum Fexp]. destruct s; cbn [cond_Zopp]; [rewrite opp_IZR|]; ring. }
  pose proof (bpow_gt_0 radix2 e) as Bp. assert (0 < IZR (Zpos m)) as Mp by (apply IZR_lt; lia).
  assert (0 < IZR (Zpos m) * bpow radix2 e) as MB by now apply Rmult_lt_0_compat.
  assert (1 <= IZR (Zpos m) * bpow radix2 e) as One'. { rewrite V, Rabs_mult, (Rabs_pos_eq (_ * _)) in One by lra. destruct s; [rewrite (Rabs_left (-1)) in One by lra|rewrite Rabs_R1 in One]; lra. }
  assert (1 <= IZR (10 ^ Z.of_nat p)) as T1 by (apply IZR_le; lia).
  assert (1 <= n)%Z as N1. { apply Z.lt_pred_le, lt_IZR. apply Rabs_le_inv in C. change (IZR (Z.pred 1)) with 0. assert (1 <= IZR (Zpos m) * bpow radix2 e * IZR (10 ^ Z.of_nat p)) by (apply Rle_trans with (IZR (Zpos m) * bpow radix2 e * 1); [lra|apply Rmult_le_compat_l; lra]). lra. }
  destruct (fixed_digits_spec p n ltac:(lia)) as (ip & fp & ipn & E & Ca & L & D & Vn).
  split.
  - exists ip, fp, ipn. rewrite E. split; [destruct s; [destruct (Z.ltb_spec (- n) 0); [reflexivity|lia]|destruct (Z.ltb_spec n 0); [lia|reflexivity]]|].
    split; [exact Ca|]. split; [exact L|]. split; [exact D|]. rewrite <- Vn. destruct s; lia.
  - rewrite V. destruct s; [|rewrite Rmult_1_l; exact C]. rewrite opp_IZR. rewrite <- Rabs_Ropp.
    match goal with |- Rabs ?a <= _ => replace a with (IZR n - IZR (Zpos m) * bpow radix2 e * IZR (10 ^ Z.of_nat p)) by ring end. exact C.
Qed.

(** *** the whole of iCompactForm *)
Lemma c9995 : is_finite f9995 = true /\ 999 / 100 < B2R f9995 < 9996 / 1000.
Proof.
  assert (B2SF f9995 = SpecFloat.S754_finite false 5626684784446013 (-49)) as E by (vm_compute; reflexivity).
  rewrite <- is_finite_SF_B2SF, E. split; [reflexivity|]. rewrite <- SF2R_B2SF, E. unfold SF2R, F2R. cbn [Fnum Fexp cond_Zopp].
  change (bpow radix2 (-49)) with (/ 562949953421312). lra.
Qed.
Lemma c9995x10 : is_finite f9995x10 = true /\ 999 / 10 < B2R f9995x10 < 9996 / 100.
Proof.
  assert (B2SF f9995x10 = SpecFloat.S754_finite false 7033355980557517 (-46)) as E by (vm_compute; reflexivity).
  rewrite <- is_finite_SF_B2SF, E. split; [reflexivity|]. rewrite <- SF2R_B2SF, E. unfold SF2R, F2R. cbn [Fnum Fexp cond_Zopp].
  change (bpow radix2 (-46)) with (/ 70368744177664). lra.
Qed.
Lemma between_iff (c x : float64) : is_finite c = true -> is_finite x = true -> (f64_lt (f64_opp c) x && f64_lt x c)%bool = true <-> Rabs (B2R x) < B2R c.
Proof.
  intros Fc Fx. destruct (opp_fin c Fc) as [Fo Vo]. rewrite !lt_fin by assumption. rewrite Vo, andb_true_iff. split.
  - intros [A B]. destruct (Rlt_bool_spec (- B2R c) (B2R x)); [|discriminate]. destruct (Rlt_bool_spec (B2R x) (B2R c)); [|discriminate]. apply Rabs_def1; lra.
  - intros A. apply Rabs_def2 in A. rewrite !Rlt_bool_true by lra. auto.
Qed.
(** the number of decimals chosen, with the bounds it implies *)
Lemma shown (x : float64) : is_finite x = true -> 1 <= Rabs (B2R x) -> exists p,
  (forall sfx idx, (if (f64_lt (f64_opp f9995) x && f64_lt x f9995)%bool then with_suffix (fmt_f 2 x) sfx idx
           else if (f64_lt (f64_opp f9995x10) x && f64_lt x f9995x10)%bool then with_suffix (fmt_f 1 x) sfx idx
           else with_suffix (fmt_f 0 x) sfx idx) = with_suffix (fmt_f p x) sfx idx) /\ (p <= 2)%nat /\
  999 / 10 <= Rabs (B2R x) * IZR (10 ^ Z.of_nat p) /\ (Rabs (B2R x) * IZR (10 ^ Z.of_nat p) < 9996 / 10 \/ p = 0%nat).
Proof.
  intros F One. destruct c9995 as [F1 B1], c9995x10 as [F2 B2].
  destruct (f64_lt (f64_opp f9995) x && f64_lt x f9995)%bool eqn:T1.
  - exists 2%nat. apply between_iff in T1; [|assumption..]. change (IZR (10 ^ Z.of_nat 2)) with 100. split; [reflexivity|]. split; [lia|]. split; [lra|]. left. lra.
  - assert (~ Rabs (B2R x) < B2R f9995) as N1 by (intros X; apply between_iff in X; [congruence|assumption..]).
    destruct (f64_lt (f64_opp f9995x10) x && f64_lt x f9995x10)%bool eqn:T2.
    + exists 1%nat. apply between_iff in T2; [|assumption..]. change (IZR (10 ^ Z.of_nat 1)) with 10. split; [reflexivity|]. split; [lia|]. split; [lra|]. left. lra.
    + assert (~ Rabs (B2R x) < B2R f9995x10) as N2 by (intros X; apply between_iff in X; [congruence|assumption..]).
      exists 0%nat. change (IZR (10 ^ Z.of_nat 0)) with 1. split; [reflexivity|]. split; [lia|]. split; [lra|]. now right.
Qed.
Section Form.
  Variables (r : Z) (Bd : nat -> R) (sfx : list string) (mult : string -> Z -> Prop).
  Hypothesis r_big : (1000 <= r <= 1024)%Z.
  Hypothesis Bd_fmt : forall k, (k <= 6)%nat -> fmt64 (Bd k) /\ Bd k < top.
  Hypothesis Bd_step : forall k, (k < 6)%nat -> Bd k / IZR r <= Bd (S k).
  Hypothesis Bd_last : Bd 6 < IZR r.
  Hypothesis Bd_first : bpow radix2 64 <= Bd 0.
  Hypothesis sfx_ok : forall j, (1 <= j <= 6)%nat -> exists s, suffix_at sfx (Z.of_nat j - 1) = Some s /\ mult s (r ^ Z.of_nat j).
  Lemma i_compact x : (Z.abs x <= 2 ^ 64)%Z -> (r <= Z.abs x)%Z -> exists s, iCompactForm x r sfx = FmtOk s /\ shows_compact mult x s.
  Proof.
    intros X64 Xr. unfold iCompactForm. destruct (Z.ltb_spec (- r) x); [destruct (Z.ltb_spec x r); [lia|]|]; cbn [andb].
    all: destruct (compact_loop r Bd x) as (j & fy & E & J & F & B & C); [lia|assumption..|]; rewrite E; clear E.
    all: destruct (shown fy F (proj1 B)) as (p & S & P & Lo & Hi); rewrite S; clear S.
    all: destruct (fmt_f_spec p fy F (proj1 B)) as [D R]; set (n := fmt_digits p fy) in *.
    all: destruct (sfx_ok j J) as (s & Es & Ms); unfold with_suffix; rewrite Es; (eexists; split; [reflexivity|]).
    all: exists (fmt_f p fy), s, n, p, (r ^ Z.of_nat j)%Z.
    all: split; [reflexivity|]; split; [exact Ms|]; split; [exact P|]; split; [exact D|].
    all: assert (IZR (r ^ Z.of_nat j) = IZR r ^ j) as Pw by (rewrite pow_IZR; reflexivity).
    all: set (t := (10 ^ Z.of_nat p)%Z) in *; assert (1 <= IZR t) as T by (apply IZR_le; unfold t; pose proof (Z.pow_pos_nonneg 10 (Z.of_nat p)); lia).
    all: assert (0 < IZR r ^ j) as Rj by (apply pow_lt, IZR_lt; lia); set (k := IZR r ^ j) in *.
    all: assert (Rabs (B2R fy * IZR t) = Rabs (B2R fy) * IZR t) as Ab by (rewrite Rabs_mult, (Rabs_pos_eq (IZR t)); [reflexivity|lra]).
    all: assert (Rabs (IZR n) <= Rabs (B2R fy) * IZR t + / 2) as Nu by (replace (IZR n) with (B2R fy * IZR t + (IZR n - B2R fy * IZR t)) by ring; eapply Rle_trans; [apply Rabs_triang|]; lra).
    all: assert (Rabs (B2R fy) * IZR t - / 2 <= Rabs (IZR n)) as Nl by (rewrite <- Ab; pose proof (Rabs_triang_inv (B2R fy * IZR t) (IZR n)) as Q; rewrite Rabs_minus_sym in Q; lra).
    all: assert (99 < Z.abs n)%Z by (apply lt_IZR; rewrite abs_IZR; lra).
    all: assert (Z.abs n < 1025)%Z by
      (apply lt_IZR; rewrite abs_IZR; destruct Hi as [Hi| ->]; [lra|]; assert (IZR r <= 1024) by (apply IZR_le; lia); assert (IZR t = 1) by reflexivity; nra).
    all: split; [lia|].
    all: assert (ulp52 <= / 1000000000000) as U by (change ulp52 with (/ 4503599627370496); lra); pose proof (bpow_gt_0 radix2 (-52)) as U0; pose proof (Rabs_pos (IZR x)) as X0.
    all: assert (Rabs (B2R fy * k - IZR x) <= 7 / 1000000000000 * Rabs (IZR x)) as C' by (eapply Rle_trans; [exact C|]; apply Rmult_le_compat_r; lra).
    all: assert (Rabs (B2R fy) * k <= (1 + 7 / 1000000000000) * Rabs (IZR x)) as Up by
      (replace (Rabs (B2R fy) * k) with (Rabs (B2R fy * k)) by (rewrite Rabs_mult, (Rabs_pos_eq k) by lra; reflexivity); replace (B2R fy * k) with (IZR x + (B2R fy * k - IZR x)) by ring; eapply Rle_trans; [apply Rabs_triang|]; lra).
    all: assert (999 / 10 * k <= (1 + 7 / 1000000000000) * Rabs (IZR x) * IZR t) as Kx by
      (eapply Rle_trans; [apply Rmult_le_compat_r; [lra|exact Lo]|]; replace (Rabs (B2R fy) * IZR t * k) with (Rabs (B2R fy) * k * IZR t) by ring; apply Rmult_le_compat_r; lra).
    all: apply le_IZR; rewrite !mult_IZR, !abs_IZR, minus_IZR, !mult_IZR, Pw.
    all: assert (Rabs (IZR n * k - IZR x * IZR t) <= / 2 * k + 7 / 1000000000000 * Rabs (IZR x) * IZR t) as Fin by
      (replace (IZR n * k - IZR x * IZR t) with ((IZR n - B2R fy * IZR t) * k + (B2R fy * k - IZR x) * IZR t) by ring; eapply Rle_trans; [apply Rabs_triang|];
       rewrite !Rabs_mult, (Rabs_pos_eq k), (Rabs_pos_eq (IZR t)) by lra; apply Rplus_le_compat; apply Rmult_le_compat_r; lra).
    all: set (y := Rabs (IZR x) * IZR t) in *; assert (0 <= y) by (apply Rmult_le_pos; lra); rewrite !Rmult_assoc in *; fold y in Kx, Fin; lra.
  Qed.
End Form.
