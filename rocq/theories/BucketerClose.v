(** The geometric bucketer in float64, continued: how far the end points are from the 1-2-5 series. *)
From Coq Require Import ZArith Reals Lra Lia Psatz.
From Verif Require Import GoBase GoVal FloatBase.
From stdpp Require Import list.
From Flocq Require Import Core BinarySingleNaN Relative.
From Verif Require Import DistModel DistSpec FloatLemmas BucketerModel BucketerSpec BucketerProofs BucketerGeo BucketerEmit.
Local Open Scope R_scope.

Notation P10 j := (powerRZ 10 j).
Lemma P10_pos j : 0 < P10 j.
Proof. apply powerRZ_lt. lra. Qed.
Lemma P10_succ j : P10 (j + 1) = P10 j * 10.
Proof. rewrite powerRZ_add by lra. by rewrite powerRZ_1. Qed.
Lemma P10_pred j : P10 (j - 1) = P10 j / 10.
Proof. pose proof (P10_succ (j - 1)) as H. replace (j - 1 + 1)%Z with j in H by lia. rewrite H. field. Qed.
Definition coefR (o : nat) : R := match o with O => 1 | S O => 2 | _ => 5 end.
Lemma seriesR_split j o : (o < 3)%nat → seriesR (3 * j + Z.of_nat o) = coefR o * P10 j.
Proof.
  intros H. unfold seriesR, leading. replace ((3 * j + Z.of_nat o) mod 3)%Z with (Z.of_nat o) by (Z.to_euclidean_division_equations; lia).
  replace ((3 * j + Z.of_nat o) / 3)%Z with j by (Z.to_euclidean_division_equations; lia). by destruct o as [|[|[|o]]]; [| | |lia].
Qed.
Lemma seriesR_next j o : (o < 3)%nat → seriesR (3 * j + Z.of_nat o + 1) = if Nat.eqb (S o) 3 then P10 (j + 1) else coefR (S o) * P10 j.
Proof.
  intros H. destruct o as [|[|[|o]]]; [| | |lia]; cbn [Nat.eqb].
  - replace (3 * j + Z.of_nat 0 + 1)%Z with (3 * j + Z.of_nat 1)%Z by lia. by rewrite seriesR_split by lia.
  - replace (3 * j + Z.of_nat 1 + 1)%Z with (3 * j + Z.of_nat 2)%Z by lia. by rewrite seriesR_split by lia.
  - replace (3 * j + Z.of_nat 2 + 1)%Z with (3 * (j + 1) + Z.of_nat 0)%Z by lia. rewrite seriesR_split by lia. unfold coefR. lra.
Qed.
Lemma seriesR_pos i : 0 < seriesR i.
Proof. apply Rmult_lt_0_compat; [|apply P10_pos]. apply IZR_lt. unfold leading. destruct (i mod 3)%Z as [|[]|]; lia. Qed.
Lemma seriesR_half i : seriesR i * 2 <= seriesR (i + 1).
Proof.
  assert (∃ j o, (o < 3)%nat ∧ i = (3 * j + Z.of_nat o)%Z) as (j & o & O & ->) by (exists (i / 3)%Z, (Z.to_nat (i mod 3)); Z.to_euclidean_division_equations; lia).
  rewrite seriesR_next, seriesR_split by done. pose proof (P10_pos j). rewrite P10_succ. destruct o as [|[|[|o]]]; [| | |lia]; unfold coefR; cbn [Nat.eqb]; lra.
Qed.

Notation eps := (bpow radix2 (-52)).
Lemma eps_val : eps = / IZR (2 ^ 52).
Proof. reflexivity. Qed.
Definition near (n : Z) (a r : R) : Prop := 0 < r ∧ Rabs (a - r) <= IZR n * eps * r.
Lemma near_bounds n a r : near n a r → (0 <= n <= 2 ^ 51)%Z → r / 2 <= a <= r * (3 / 2).
Proof.
  intros [P H] B. assert (IZR n * eps <= / 2) as E.
  { rewrite eps_val. assert (IZR n <= IZR (2 ^ 51)) by (apply IZR_le; lia). replace (/ 2) with (IZR (2 ^ 51) * / IZR (2 ^ 52)); [apply Rmult_le_compat_r; [|done]; apply Rlt_le, Rinv_0_lt_compat, IZR_lt; lia|].
    change (2 ^ 52)%Z with (2 ^ 51 * 2)%Z. rewrite mult_IZR. field. apply not_0_IZR. lia. }
  assert (IZR n * eps * r <= r / 2) by (rewrite (Rmult_comm r) || idtac; unfold Rdiv; rewrite (Rmult_comm r (/ 2)); apply Rmult_le_compat_r; lra).
  apply Rabs_le_inv in H. lra.
Qed.
Lemma near_le n m a r : near n a r → (n <= m)%Z → near m a r.
Proof. intros [P H] L. split; [done|]. eapply Rle_trans; [exact H|]. pose proof (bpow_gt_0 radix2 (-52)). apply IZR_le in L. apply Rmult_le_compat_r; [lra|]. apply Rmult_le_compat_r; lra. Qed.
Lemma near_mul n a r c : near n a r → 0 < c → near n (a * c) (r * c).
Proof.
  intros [P H] C. split; [by apply Rmult_lt_0_compat|]. replace (a * c - r * c) with ((a - r) * c) by ring. rewrite Rabs_mult, (Rabs_pos_eq c) by lra.
  rewrite <- (Rmult_assoc _ r c). apply Rmult_le_compat_r; lra.
Qed.
Lemma near_rnd n y r : near n y r → (0 <= n <= 2 ^ 50)%Z → bpow radix2 (-1022) <= y → near (n + 1) (rnd64 y) r.
Proof.
  intros Hn B L. pose proof (near_bounds n y r Hn ltac:(lia)) as Y. destruct Hn as [P H]. split; [done|]. pose proof (bpow_gt_0 radix2 (-1022)) as P'.
  pose proof (relative_error_N_FLT radix2 (-1074) 53 eq_refl (λ z, negb (Z.even z)) y) as E. change (-1074 + 53 - 1)%Z with (-1022)%Z in E. rewrite (Rabs_pos_eq y) in E by lra. specialize (E L).
  change (-53 + 1)%Z with (-52)%Z in E. replace (rnd64 y - r) with ((rnd64 y - y) + (y - r)) by ring. eapply Rle_trans; [apply Rabs_triang|]. rewrite plus_IZR. pose proof (bpow_gt_0 radix2 (-52)) as Pe.
  assert (/ 2 * eps * y <= eps * r) as Hh. { rewrite (Rmult_comm (/ 2)), Rmult_assoc. apply Rmult_le_compat_l; lra. }
  replace ((IZR n + 1) * eps * r) with (eps * r + IZR n * eps * r) by ring. apply Rplus_le_compat; [|exact H]. eapply Rle_trans; [exact E|exact Hh].
Qed.
(** a float64 product or quotient in the normal range *)
Lemma near_rounds n z y r : rounds z y → near n y r → (0 <= n <= 2 ^ 50)%Z → bpow radix2 (-1020) <= r → r <= bpow radix2 1020 → is_finite z = true ∧ near (n + 1) (B2R z) r.
Proof.
  intros Q N B L U. pose proof (near_bounds n y r N ltac:(lia)) as Y.
  assert (bpow radix2 (-1020) = bpow radix2 (-1022) * 4) as E1 by (change (-1020)%Z with (-1022 + 2)%Z; rewrite bpow_plus; reflexivity).
  assert (bpow radix2 1022 = bpow radix2 1020 * 4) as E2 by (change 1022%Z with (1020 + 2)%Z; rewrite bpow_plus; reflexivity).
  pose proof (bpow_gt_0 radix2 (-1022)). destruct (rounds_le _ _ (bpow radix2 1022) Q) as [F _]; [apply generic_format_bpow; vm_compute; discriminate|by apply bpow_lt|lra|].
  split; [done|]. destruct Q as [[_ ->]|[-> _]]; [|done]. apply near_rnd; [done|done|lra].
Qed.
Lemma bp (i j : Z) : (i <= j)%Z → bpow radix2 i <= bpow radix2 j.
Proof. apply bpow_le. Qed.
Lemma bp4 i k : k = (i + 2)%Z → bpow radix2 k = bpow radix2 i * 4.
Proof. intros ->. rewrite bpow_plus. reflexivity. Qed.
Section Near.
  Context (l : R) (Hl : bpow radix2 (-960) <= l <= bpow radix2 960).
  Lemma down_near f : ∀ (x b x' b' : num64) n j, is_finite (b : float64) = true → near n (B2R (x : float64)) (l / P10 j) → near n (B2R (b : float64)) (P10 j) → 1 <= P10 j → (0 <= n)%Z → (n + Z.of_nat f <= 2 ^ 20)%Z →
    down_loop f x b = Some (x', b') → ∃ n' j', (n' <= n + Z.of_nat f)%Z ∧ (0 <= n')%Z ∧ is_finite (b' : float64) = true ∧ near n' (B2R (x' : float64)) (l / P10 j') ∧ near n' (B2R (b' : float64)) (P10 j').
  Proof.
    induction f as [|f IH]; intros x b x' b' n j Fb X B J N0 N1 H; [done|]. cbn [down_loop] in H. change (nle (nofN 10) x) with (f64_le ten x) in H. pose proof (near_bounds _ _ _ X ltac:(lia)) as Xb. pose proof (near_bounds _ _ _ B ltac:(lia)) as Bb.
    destruct (f64_le ten x) eqn:E; [|injection H as <- <-; exists n, j; split_and!; try done; lia].
    assert (0 < B2R x) as Px by (destruct X; lra). apply le10_spec in E; [|by apply finite_pos]. pose proof (P10_pos j) as PJ. destruct (div10 x E) as (Q & _ & _). pose proof (bpow_gt_0 radix2 960) as P960.
    assert (l / P10 j <= l) as LJ. { rewrite <- (Rmult_1_r l) at 2. unfold Rdiv. apply Rmult_le_compat_l; [destruct Hl; pose proof (bpow_gt_0 radix2 (-960)); lra|]. rewrite <- Rinv_1. apply Rinv_le; lra. }
    assert (P10 j * 6 <= l) as PL. { assert (l = l / P10 j * P10 j) as -> by (field; lra). rewrite (Rmult_comm (P10 j)). apply Rmult_le_compat_r; lra. }
    pose proof (bp 960 1018 ltac:(lia)) as B1. pose proof (bp4 1018 1020 eq_refl) as B2. pose proof (bpow_gt_0 radix2 1018) as B1018. pose proof (bp (-1020) (-1) ltac:(lia)) as B3. change (bpow radix2 (-1)) with (/ 2) in B3.
    destruct (near_rounds n _ _ (l / P10 j / 10) Q) as [F1 N2]; [apply (near_mul _ _ _ (/ 10) X); lra|lia|lra|lra|].
    pose proof (mul_pos b ten ltac:(lra) ltac:(rewrite (proj2 key_10); lra)) as Q2. rewrite (proj2 key_10) in Q2.
    destruct (near_rounds n _ _ (P10 j * 10) Q2) as [F2 N3]; [apply (near_mul _ _ _ 10 B); lra|lia|lra|lra|].
    destruct (IH (ndiv x (nofN 10)) (nmul b (nofN 10)) x' b' (n + 1)%Z (j + 1)%Z) as (n' & j' & G1 & G2 & G3); [exact F2| | | |lia|lia|exact H|exists n', j'; split_and!; [lia|done|apply G3|apply G3|apply G3]].
    - rewrite P10_succ. replace (l / (P10 j * 10)) with (l / P10 j / 10) by (field; lra). exact N2.
    - rewrite P10_succ. exact N3.
    - rewrite P10_succ. lra.
  Qed.
  Lemma up_near f : ∀ (x b x' b' : num64) n j, is_finite (b : float64) = true → near n (B2R (x : float64)) (l / P10 j) → near n (B2R (b : float64)) (P10 j) → P10 j <= 1 → (0 <= n)%Z → (n + Z.of_nat f <= 2 ^ 20)%Z →
    up_loop f x b = Some (x', b') → ∃ n' j', (n' <= n + Z.of_nat f)%Z ∧ (0 <= n')%Z ∧ is_finite (b' : float64) = true ∧ near n' (B2R (x' : float64)) (l / P10 j') ∧ near n' (B2R (b' : float64)) (P10 j').
  Proof.
    induction f as [|f IH]; intros x b x' b' n j Fb X B J N0 N1 H; [done|]. cbn [up_loop] in H. change (nlt x (nofN 1)) with (f64_lt x (f64_of_N 1)) in H. pose proof (near_bounds _ _ _ X ltac:(lia)) as Xb. pose proof (near_bounds _ _ _ B ltac:(lia)) as Bb.
    destruct (f64_lt x (f64_of_N 1)) eqn:E; [|injection H as <- <-; exists n, j; split_and!; try done; lia].
    assert (0 < B2R x) as Px by (destruct X; lra). apply lt1_spec in E; [|by apply finite_pos]. pose proof (P10_pos j) as PJ. destruct (mul10 x ltac:(lra)) as (Q & _ & _).
    assert (l <= l / P10 j) as LJ. { rewrite <- (Rmult_1_r l) at 1. unfold Rdiv. apply Rmult_le_compat_l; [destruct Hl; pose proof (bpow_gt_0 radix2 (-960)); lra|]. rewrite <- Rinv_1. apply Rinv_le; lra. }
    assert (l <= P10 j * 2) as PL. { assert (l = l / P10 j * P10 j) as -> by (field; lra). rewrite (Rmult_comm (P10 j)). apply Rmult_le_compat_r; lra. }
    pose proof (bp (-1012) (-960) ltac:(lia)) as B1. pose proof (bp4 (-1014) (-1012) eq_refl) as B2. pose proof (bp4 (-1016) (-1014) eq_refl) as B2'. pose proof (bp4 (-1018) (-1016) eq_refl) as B2''. pose proof (bp4 (-1020) (-1018) eq_refl) as B2'''. pose proof (bp 5 1020 ltac:(lia)) as B3. change (bpow radix2 5) with (IZR 32) in B3. pose proof (bpow_gt_0 radix2 (-1020)) as P1020.
    destruct (near_rounds n _ _ (l / P10 j * 10) Q) as [F1 N2]; [apply (near_mul _ _ _ 10 X); lra|lia|lra|lra|].
    pose proof (div_pos b ten ltac:(lra) ltac:(rewrite (proj2 key_10); lra)) as Q2. rewrite (proj2 key_10) in Q2.
    destruct (near_rounds n _ _ (P10 j / 10) Q2) as [F2 N3]; [apply (near_mul _ _ _ (/ 10) B); lra|lia|lra|lra|].
    destruct (IH (nmul x (nofN 10)) (ndiv b (nofN 10)) x' b' (n + 1)%Z (j - 1)%Z) as (n' & j' & G1 & G2 & G3); [exact F2| | | |lia|lia|exact H|exists n', j'; split_and!; [lia|done|apply G3|apply G3|apply G3]].
    - rewrite P10_pred. replace (l / (P10 j / 10)) with (l / P10 j * 10) by (field; lra). exact N2.
    - rewrite P10_pred. exact N3.
    - rewrite P10_pred. lra.
  Qed.
End Near.
Lemma P10_le i j : (i <= j)%Z → P10 i <= P10 j.
Proof.
  intros L. replace j with (i + (j - i))%Z by lia. rewrite powerRZ_add by lra. rewrite <- (Rmult_1_r (P10 i)) at 1. apply Rmult_le_compat_l; [apply Rlt_le, P10_pos|].
  assert (∀ n : nat, 1 <= P10 (Z.of_nat n)) as G. { induction n as [|n IH]; [simpl; lra|]. replace (Z.of_nat (S n)) with (Z.of_nat n + 1)%Z by lia. rewrite P10_succ. lra. }
  replace (j - i)%Z with (Z.of_nat (Z.to_nat (j - i))) by lia. apply G.
Qed.
Lemma P10_IZR n : P10 (Z.of_nat n) = IZR (10 ^ Z.of_nat n).
Proof. induction n as [|n IH]; [done|]. replace (Z.of_nat (S n)) with (Z.of_nat n + 1)%Z by lia. rewrite P10_succ, IH, Z.pow_add_r, mult_IZR by lia. done. Qed.
Lemma bpow_IZR n : bpow radix2 (Z.of_nat n) = IZR (2 ^ Z.of_nat n).
Proof. rewrite <- IZR_Zpower by lia. done. Qed.
Lemma decade_high j : P10 j <= bpow radix2 966 → (j <= 291)%Z.
Proof.
  intros H. destruct (Z.le_gt_cases j 291) as [L|L]; [done|exfalso]. pose proof (P10_le 291 j ltac:(lia)) as G. change 291%Z with (Z.of_nat 291) in G. change 966%Z with (Z.of_nat 966) in H. rewrite P10_IZR in G. rewrite bpow_IZR in H.
  assert (IZR (10 ^ Z.of_nat 291) <= IZR (2 ^ Z.of_nat 966)) as X by lra. apply le_IZR in X. vm_compute in X. by apply X.
Qed.
Lemma decade_low j : bpow radix2 (-970) <= P10 j → (-300 <= j)%Z.
Proof.
  intros H. destruct (Z.le_gt_cases (-300) j) as [L|L]; [done|exfalso]. pose proof (P10_le j (-300) ltac:(lia)) as G. change (-300)%Z with (- Z.of_nat 300)%Z in G. change (-970)%Z with (- Z.of_nat 970)%Z in H.
  rewrite powerRZ_neg' in G. rewrite bpow_opp in H. rewrite P10_IZR in G. rewrite bpow_IZR in H.
  assert (/ IZR (2 ^ Z.of_nat 970) <= / IZR (10 ^ Z.of_nat 300)) as X by lra.
  apply Rinv_le_contravar in X; [|apply Rinv_0_lt_compat, IZR_lt; lia]. rewrite !Rinv_inv in X. apply le_IZR in X. vm_compute in X. by apply X.
Qed.
Lemma emit_near (u : num64) f : f64_key u <= bpow radix2 960 → ∀ (b : num64) o es n j, near n (B2R (b : float64)) (P10 j) → (o < 3)%nat → (0 <= n)%Z → (n <= 1030 + j)%Z → bpow radix2 (-970) <= P10 j → P10 j <= bpow radix2 966 →
  emit_loop f b o u = Some es → ∀ i e, es !! i = Some e → near 2000 (B2R (e : float64)) (seriesR (3 * j + Z.of_nat o + Z.of_nat i)).
Proof.
  intros U. induction f as [|f IH]; intros b o es n j B O N0 N1 J1 J2 H; [done|]. cbn [emit_loop] in H. pose proof (decade_high j J2) as Jh. pose proof (near_bounds _ _ _ B ltac:(lia)) as Bb. pose proof (P10_pos j) as PJ.
  pose proof (coefficient_R o) as CR. set (c := coefficient (A := num64) o) in *. change (match o with O => 1 | S O => 2 | _ => 5 end) with (coefR o) in CR.
  pose proof (bp (-1020) (-970) ltac:(lia)) as B1. pose proof (bp 974 1020 ltac:(lia)) as B3. pose proof (bp4 972 974 eq_refl) as B4. pose proof (bp4 970 972 eq_refl) as B5. pose proof (bp4 968 970 eq_refl) as B6. pose proof (bp4 966 968 eq_refl) as B7.
  assert (1 <= coefR o <= 5) as C by (destruct o as [|[|]]; simpl; lra). assert (P10 j <= coefR o * P10 j) as C1 by (rewrite <- (Rmult_1_l (P10 j)) at 1; apply Rmult_le_compat_r; lra). assert (coefR o * P10 j <= 5 * P10 j) as C2 by (apply Rmult_le_compat_r; lra).
  pose proof (mul_pos b c ltac:(lra) ltac:(lra)) as Q. rewrite CR in Q. pose proof (near_mul _ _ _ (coefR o) B ltac:(lra)) as Nc.
  destruct (near_rounds n _ _ (P10 j * coefR o) Q Nc) as [F V]; [lia|lra|lra|]. change (f64_mul b c) with (nmul b c) in *. set (v := nmul b c) in *.
  assert (near 2000 (B2R (v : float64)) (seriesR (3 * j + Z.of_nat o + Z.of_nat 0))) as V0.
  { replace (3 * j + Z.of_nat o + Z.of_nat 0)%Z with (3 * j + Z.of_nat o)%Z by lia. rewrite seriesR_split, Rmult_comm by done. eapply near_le; [exact V|lia]. }
  destruct (nlt v u) eqn:E; [|injection H as <-; intros [|i] e X; [by injection X as <-|done]].
  apply f64_lt_true in E as (_ & _ & E). rewrite (key_finite v) in E by done. pose proof (near_bounds _ _ _ V ltac:(lia)) as Vb.
  destruct (Nat.eqb_spec (S o) 3) as [->%Nat.succ_inj|Ho].
  - destruct (emit_loop f (nmul b (nofN 10)) 0 u) as [es'|] eqn:E'; [|done]. injection H as <-. intros [|i] e X; [by injection X as <-|]. change (es' !! i = Some e) in X.
    pose proof (mul_pos b ten ltac:(lra) ltac:(rewrite (proj2 key_10); lra)) as Q2. rewrite (proj2 key_10) in Q2. change (f64_mul b ten) with (nmul b (nofN 10)) in Q2.
    destruct (near_rounds n _ _ (P10 j * 10) Q2) as [_ N3]; [apply (near_mul _ _ _ 10 B); lra|lia|lra|lra|].
    replace (3 * j + Z.of_nat 2 + Z.of_nat (S i))%Z with (3 * (j + 1) + Z.of_nat 0 + Z.of_nat i)%Z by lia. simpl coefR in Vb. pose proof (bp 960 964 ltac:(lia)) as B8. pose proof (bp4 964 966 eq_refl) as B9.
    eapply (IH _ 0%nat es' (n + 1)%Z (j + 1)%Z); [rewrite P10_succ; exact N3|lia|lia|lia|rewrite P10_succ; lra|rewrite P10_succ; lra|exact E'|exact X].
  - destruct (emit_loop f b (S o) u) as [es'|] eqn:E'; [|done]. injection H as <-. intros [|i] e X; [by injection X as <-|]. change (es' !! i = Some e) in X.
    replace (3 * j + Z.of_nat o + Z.of_nat (S i))%Z with (3 * j + Z.of_nat (S o) + Z.of_nat i)%Z by lia. eapply (IH b (S o) es' n j); [done|lia|done|done|done|done|exact E'|exact X].
Qed.
Definition delta : R := bpow radix2 (-41).
Lemma near_delta n a r : near n a r → (n <= 2000)%Z → Rabs (a - r) <= delta * r.
Proof.
  intros [P H] L. eapply Rle_trans; [exact H|]. apply Rmult_le_compat_r; [lra|]. unfold delta. change (-41)%Z with (11 + -52)%Z. rewrite bpow_plus. apply Rmult_le_compat_r; [apply Rlt_le, bpow_gt_0|].
  change (bpow radix2 11) with (IZR 2048). apply IZR_le. lia.
Qed.
Lemma delta_val : 0 < delta < / 4.
Proof. unfold delta. split; [apply bpow_gt_0|]. change (/ 4) with (bpow radix2 (-2)). by apply bpow_lt. Qed.
Lemma geometric_close (lower upper : num64) : bpow radix2 (-960) <= f64_key lower → f64_key lower <= f64_key upper → f64_key upper <= bpow radix2 960 →
  ∃ n k m es, (∀ fuel, (n ≤ fuel)%nat → newGeometricBucketerStream fuel lower upper = Finished es) ∧ length es = S m ∧
    (∀ i e, es !! i = Some e → Rabs (f64_key e - seriesR (k + Z.of_nat i)) <= delta * seriesR (k + Z.of_nat i)) ∧
    seriesR k <= (1 + delta) * f64_key lower ∧ (1 - delta) * f64_key lower <= seriesR (k + 1) ∧
    (1 - delta) * seriesR (k + Z.of_nat m - 1) < f64_key upper ∧ f64_key upper <= (1 + delta) * seriesR (k + Z.of_nat m).
Proof.
  intros L1 L2 L3. pose proof (bpow_gt_0 radix2 (-960)) as P960. pose proof (bp 960 1023 ltac:(lia)) as B1. assert (bpow radix2 1023 < top) as B2 by by apply bpow_lt.
  assert (∀ x : num64, bpow radix2 (-960) <= f64_key x → f64_key x <= bpow radix2 960 → is_finite (x : float64) = true) as FF.
  { intros x X1 X2. destruct x as [s|[]| |s m e Hb]; cbv beta iota delta [f64_key B2R] in X1, X2; try done; lra. }
  pose proof (FF lower ltac:(lra) ltac:(lra)) as F1. pose proof (FF upper ltac:(lra) ltac:(lra)) as F2. rewrite !key_finite in L2 by done. rewrite key_finite in L1 by done. rewrite key_finite in L3 by done. pose proof (fin_notnan _ F1) as N1. pose proof (fin_notnan _ F2) as N2.
  assert (B2R f64_third <= B2R lower) as T.
  { eapply Rle_trans; [|exact L1]. rewrite <- SF2R_B2SF. assert (B2SF f64_third = SpecFloat.S754_finite false 3 (-1074)) as -> by by vm_compute. unfold SF2R, cond_Zopp, F2R. simpl Fnum. simpl Fexp.
    apply Rle_trans with (bpow radix2 (-1072)); [rewrite (bp4 (-1074) (-1072) eq_refl); pose proof (bpow_gt_0 radix2 (-1074)); lra|by apply bp]. }
  destruct (find_works lower T) as (x2 & b & o & (x1 & b1 & D & U) & Hf & O & Pb & X2 & Xo). set (l := B2R lower) in *.
  assert (bpow radix2 (-960) <= l <= bpow radix2 960) as Hl by lra.
  assert (∃ n j, (0 <= n <= 648)%Z ∧ near n (B2R x2) (l / P10 j) ∧ near n (B2R b) (P10 j)) as (n & j & Nn & NX & NB).
  { assert (near 0 (B2R lower) (l / P10 0)) as A1. { assert (l / P10 0 = l) as -> by (unfold Rdiv; simpl; field). split; [lra|]. change (B2R lower) with l. rewrite Rminus_eq_0, Rabs_R0, !Rmult_0_l. apply Rle_refl. }
    assert (near 0 (B2R (nofN 1 : num64)) (P10 0)) as A2. { rewrite (proj2 key_1 : B2R (nofN 1 : num64) = 1). split; simpl; [lra|]. rewrite Rminus_eq_0, Rabs_R0, !Rmult_0_l. apply Rle_refl. }
    assert (is_finite (nofN 1 : num64) = true) as A3 by by vm_compute. assert (P10 0 = 1) as A4 by done.
    destruct (down_result _ lower _ _ _ ltac:(unfold l in *; lra) D) as (R1 & R2 & _). destruct R2 as [[-> ->]|R2].
    - destruct (up_near l Hl 324 _ _ _ _ 0%Z 0%Z A3 A1 A2 ltac:(lra) ltac:(lia) ltac:(lia) U) as (n & j & ? & ? & ? & ? & ?). exists n, j. split_and!; [lia|lia|done|done].
    - rewrite (up_done 323 x1 b1 R2) in U. injection U as <- <-. destruct (down_near l Hl 324 _ _ _ _ 0%Z 0%Z A3 A1 A2 ltac:(lra) ltac:(lia) ltac:(lia) D) as (n & j & ? & ? & ? & ? & ?). exists n, j. split_and!; [lia|lia|done|done]. }
  pose proof (P10_pos j) as PJ. pose proof (near_bounds _ _ _ NX ltac:(lia)) as XB.
  assert (l = l / P10 j * P10 j) as LE by (field; lra).
  assert (P10 j <= l * 2) as J1. { rewrite LE at 1. replace (P10 j) with (1 * P10 j) at 1 by ring. replace (l / P10 j * P10 j * 2) with (l / P10 j * 2 * P10 j) by ring. apply Rmult_le_compat_r; lra. }
  assert (l <= P10 j * 20) as J2. { rewrite LE. rewrite (Rmult_comm (P10 j) 20). apply Rmult_le_compat_r; lra. }
  assert (bpow radix2 (-970) <= P10 j) as J3. { pose proof (bp4 (-966) (-964) eq_refl) as Q1. pose proof (bp4 (-964) (-962) eq_refl) as Q2. pose proof (bp4 (-962) (-960) eq_refl) as Q3. pose proof (bp (-970) (-966) ltac:(lia)). pose proof (bpow_gt_0 radix2 (-966)). lra. }
  assert (P10 j <= bpow radix2 966) as J4. { pose proof (bp4 960 962 eq_refl) as Q1. pose proof (bp 962 966 ltac:(lia)). pose proof (bpow_gt_0 radix2 960). lra. }
  pose proof (decade_low j J3) as J5. pose proof (finite_pos b Pb) as Fb. assert (notNaN b) as Nb by by apply fin_notnan. assert (0 < f64_key b) as Kb by by rewrite key_finite.
  destruct (emit_term 640 b o upper O Nb Kb (decades_top b Nb Kb)) as [es E].
  destruct (emit_shape _ b o upper es O Nb Kb E) as (S1 & S2 & S3 & S4).
  assert (∀ i e, es !! i = Some e → near 2000 (B2R (e : float64)) (seriesR (3 * j + Z.of_nat o + Z.of_nat i))) as EN.
  { eapply (emit_near upper); [rewrite key_finite by done; lra|exact NB|done|lia|lia|done|done|exact E]. }
  assert (∃ m, length es = S m) as [m Lm]. { destruct es as [|e es]; [done|]. by exists (length es). }
  assert (f64_lt upper lower = false) as UL. { destruct (f64_lt upper lower) eqn:X; [|done]. apply f64_lt_true in X as (_ & _ & X). rewrite !key_finite in X by done. unfold l in *; lra. }
  assert (f64_le lower (f64_of_Z 0) = false) as LP. { destruct (f64_le lower (f64_of_Z 0)) eqn:X; [|done]. apply f64_le_true in X as (_ & _ & X). rewrite (key_finite lower) in X by done. change (f64_of_Z 0) with (f64_of_N 0) in X. rewrite (proj1 key_0) in X. unfold l in *; lra. }
  assert (∀ i e, es !! i = Some e → Rabs (f64_key e - seriesR (3 * j + Z.of_nat o + Z.of_nat i)) <= delta * seriesR (3 * j + Z.of_nat o + Z.of_nat i)) as ED.
  { intros i e X. pose proof (EN i e X) as Y. rewrite key_finite; [eapply near_delta; [exact Y|lia]|]. apply finite_pos. pose proof (near_bounds _ _ _ Y ltac:(lia)). destruct Y. lra. }
  pose proof delta_val as DV. pose proof (near_delta _ _ _ NX ltac:(lia)) as XD. apply Rabs_le_inv in XD.
  assert (coefR o * P10 j <= (1 + delta) * l) as K1.
  { rewrite LE. rewrite <- Rmult_assoc. apply Rmult_le_compat_r; [lra|]. assert (coefR o <= B2R x2) by (destruct o as [|[|]]; simpl coefR; lra). lra. }
  exists 2000%nat, (3 * j + Z.of_nat o)%Z, m, es. rewrite !key_finite by done. fold l. split_and!.
  - intros fuel G. unfold newGeometricBucketerStream. change (nle lower (nofN 0)) with (f64_le lower (f64_of_Z 0)). change (nlt upper lower) with (f64_lt upper lower). rewrite LP, UL. simpl orb. cbv iota.
    rewrite (find_stable _ _ _ fuel Hf) by lia. rewrite (emit_stable _ _ _ _ _ fuel E) by lia. done.
  - done.
  - exact ED.
  - by rewrite seriesR_split.
  - rewrite seriesR_next by done. rewrite LE at 1. rewrite <- Rmult_assoc.
    assert ((1 - delta) * (l / P10 j) <= B2R x2) as Y by lra. destruct o as [|[|[|o]]]; [| | |lia]; cbn [Nat.eqb coefR] in *; rewrite ?P10_succ, ?(Rmult_comm (P10 j) 10); apply Rmult_le_compat_r; lra.
  - assert ((0 < m)%nat ∨ m = 0%nat) as [M| ->] by lia.
    + assert (is_Some (es !! (m - 1)%nat)) as [e Ee] by (apply lookup_lt_is_Some; rewrite Lm; lia). pose proof (S4 _ _ Ee) as Se. rewrite bool_decide_eq_true_2 in Se by (rewrite Lm; lia). apply f64_lt_true in Se as (_ & _ & Se).
      rewrite (key_finite upper) in Se by done. pose proof (ED _ _ Ee) as Y. apply Rabs_le_inv in Y. replace (3 * j + Z.of_nat o + Z.of_nat m - 1)%Z with (3 * j + Z.of_nat o + Z.of_nat (m - 1))%Z by lia. lra.
    + replace (3 * j + Z.of_nat o + Z.of_nat 0 - 1)%Z with (3 * j + Z.of_nat o - 1)%Z by lia. pose proof (seriesR_half (3 * j + Z.of_nat o - 1)) as Hh. replace (3 * j + Z.of_nat o - 1 + 1)%Z with (3 * j + Z.of_nat o)%Z in Hh by lia.
      rewrite seriesR_split in Hh by done. pose proof (seriesR_pos (3 * j + Z.of_nat o - 1)) as Ps. assert (delta * l <= / 4 * l) by (apply Rmult_le_compat_r; lra). assert (0 < delta * seriesR (3 * j + Z.of_nat o - 1)) by (apply Rmult_lt_0_compat; lra). lra.
  - assert (is_Some (es !! m)) as [e Ee] by (apply lookup_lt_is_Some; rewrite Lm; lia). pose proof (S4 _ _ Ee) as Se. rewrite bool_decide_eq_false_2 in Se by (rewrite Lm; lia). rewrite Forall_lookup in S1. apply f64_lt_false in Se; [|exact (S1 _ _ Ee)|done].
    rewrite (key_finite upper) in Se by done. pose proof (ED _ _ Ee) as Y. apply Rabs_le_inv in Y. lra.
Qed.
