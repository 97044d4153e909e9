(** The geometric bucketer in exact arithmetic. *)
From Coq Require Import ZArith QArith Qpower Qfield Lqa Lia.
From Verif Require Import GoBase GoVal FloatBase.
From stdpp Require Import list.
From Verif Require Import DistModel DistSpec BucketerModel BucketerSpec.
Local Open Scope Q_scope.

Definition p10 (j : Z) : Q := Qpower 10 j.
Lemma p10_succ j : p10 (j + 1) == p10 j * 10.
Proof. unfold p10. rewrite Qpower_plus by done. by rewrite (Qpower_1_r 10) || reflexivity. Qed.
Lemma p10_pred j : p10 (j - 1) == p10 j / 10.
Proof. pose proof (p10_succ (j - 1)) as H. replace (j - 1 + 1)%Z with j in H by lia. rewrite H. field. Qed.
Lemma p10_pos j : 0 < p10 j.
Proof. apply Qpower_0_lt. reflexivity. Qed.
Definition coef (o : nat) : Q := inject_Z (match o with O => 1 | S O => 2 | _ => 5 end).
Lemma series_split j o : (o < 3)%nat → seriesQ (3 * j + Z.of_nat o) = coef o * p10 j.
Proof.
  intros H. unfold seriesQ, leading. replace ((3 * j + Z.of_nat o) mod 3)%Z with (Z.of_nat o) by (Z.to_euclidean_division_equations; lia).
  replace ((3 * j + Z.of_nat o) / 3)%Z with j by (Z.to_euclidean_division_equations; lia). by destruct o as [|[|[|o]]]; [| | |lia].
Qed.
Lemma index_split i : ∃ j o, (o < 3)%nat ∧ i = (3 * j + Z.of_nat o)%Z.
Proof. exists (i / 3)%Z, (Z.to_nat (i mod 3)). Z.to_euclidean_division_equations; lia. Qed.
Lemma series_next j o : (o < 3)%nat → seriesQ (3 * j + Z.of_nat o + 1) == (if Nat.eqb (S o) 3 then p10 (j + 1) else coef (S o) * p10 j).
Proof.
  intros H. destruct o as [|[|[|o]]]; [| | |lia].
  - replace (3 * j + Z.of_nat 0 + 1)%Z with (3 * j + Z.of_nat 1)%Z by lia. by rewrite series_split by lia.
  - replace (3 * j + Z.of_nat 1 + 1)%Z with (3 * j + Z.of_nat 2)%Z by lia. by rewrite series_split by lia.
  - replace (3 * j + Z.of_nat 2 + 1)%Z with (3 * (j + 1) + Z.of_nat 0)%Z by lia. rewrite series_split by lia. cbn [Nat.eqb]. apply Qmult_1_l.
Qed.
Lemma series_lt i : seriesQ i < seriesQ (i + 1).
Proof.
  destruct (index_split i) as (j & o & H & ->). rewrite series_next by done. rewrite series_split by done. pose proof (p10_pos j). pose proof (p10_succ j) as S.
  destruct o as [|[|[|o]]]; [| | |lia]; cbn [Nat.eqb]; [change (coef 0) with 1; change (coef 1) with 2|change (coef 1) with 2; change (coef 2) with 5|change (coef 2) with 5]; lra.
Qed.
Lemma series_mono i n : seriesQ i <= seriesQ (i + Z.of_nat n).
Proof.
  induction n as [|n IH]; [replace (i + Z.of_nat 0)%Z with i by lia; lra|]. pose proof (series_lt (i + Z.of_nat n)) as L.
  replace (i + Z.of_nat (S n))%Z with (i + Z.of_nat n + 1)%Z by lia. lra.
Qed.
(** the series is unbounded *)
Lemma p10_big (x : Q) : ∃ n : nat, x < p10 (Z.of_nat n).
Proof.
  assert (∀ n, inject_Z (Z.of_nat n) < p10 (Z.of_nat n)) as G.
  { induction n as [|n IH]; [reflexivity|]. replace (Z.of_nat (S n)) with (Z.of_nat n + 1)%Z by lia. rewrite p10_succ. rewrite inject_Z_plus.
    change (inject_Z 1) with 1. assert (1 <= p10 (Z.of_nat n)). { clear IH. induction n as [|n IH]; [discriminate|]. replace (Z.of_nat (S n)) with (Z.of_nat n + 1)%Z by lia. rewrite p10_succ. lra. } lra. }
  exists (Z.to_nat (Z.abs (Qnum x))). eapply Qle_lt_trans; [|apply G]. rewrite Z2Nat.id by lia. unfold Qle, inject_Z. simpl. nia.
Qed.
Lemma nle_Q (a b : Q) : nle (a : numQ) b = true ↔ a <= b.
Proof. apply Qle_bool_iff. Qed.
Lemma nlt_Q (a b : Q) : nlt (a : numQ) b = true ↔ a < b.
Proof.
  simpl. destruct (Qle_bool b a) eqn:E; simpl.
  - apply Qle_bool_iff in E. split; [done|]. intros. lra.
  - split; [|done]. intros _. apply Qnot_le_lt. intros H. apply Qle_bool_iff in H. congruence.
Qed.
Lemma nle_QF (a b : Q) : nle (a : numQ) b = false ↔ b < a.
Proof. rewrite <- not_true_iff_false, nle_Q. split; intros; [by apply Qnot_le_lt|lra]. Qed.
Lemma nlt_QF (a b : Q) : nlt (a : numQ) b = false ↔ b <= a.
Proof. rewrite <- not_true_iff_false, nlt_Q. split; intros; [by apply Qnot_lt_le|lra]. Qed.

Lemma emit_Q (upper : numQ) n : ∀ (base : numQ) o j, (base : Q) == p10 j → (o < 3)%nat → (upper : Q) <= seriesQ (3 * j + Z.of_nat o + Z.of_nat n) →
  ∃ es m, (∀ f, (n < f)%nat → emit_loop f base o upper = Some es) ∧ length es = S m ∧
    (∀ i e, es !! i = Some e → e == seriesQ (3 * j + Z.of_nat o + Z.of_nat i)) ∧
    (upper : Q) <= seriesQ (3 * j + Z.of_nat o + Z.of_nat m) ∧ (m = 0%nat ∨ seriesQ (3 * j + Z.of_nat o + Z.of_nat m - 1) < upper).
Proof.
  induction n as [|n IH]; intros base o j B O U.
  - set (v := nmul base (coefficient o)). assert (v == seriesQ (3 * j + Z.of_nat o)) as V.
    { rewrite series_split by done. unfold v. change (nmul base (coefficient o)) with (Qmult base (coefficient (A := numQ) o)). rewrite B. destruct o as [|[|[|o]]]; [| | |lia]; unfold coefficient, coef; simpl; ring. }
    exists [v], 0%nat. split_and!; [|done| |by replace (3 * j + Z.of_nat o + Z.of_nat 0)%Z with (3 * j + Z.of_nat o + Z.of_nat 0)%Z|by left].
    + intros f F. destruct f as [|f]; [lia|]. cbn [emit_loop]. fold v. assert (nlt v upper = false) as ->; [|done]. apply nlt_QF. rewrite V. by replace (3 * j + Z.of_nat o)%Z with (3 * j + Z.of_nat o + Z.of_nat 0)%Z by lia.
    + intros i e. destruct i as [|i]; [|done]. intros [= <-]. by replace (3 * j + Z.of_nat o + Z.of_nat 0)%Z with (3 * j + Z.of_nat o)%Z by lia.
  - set (v := nmul base (coefficient o)). assert (v == seriesQ (3 * j + Z.of_nat o)) as V.
    { rewrite series_split by done. unfold v. change (nmul base (coefficient o)) with (Qmult base (coefficient (A := numQ) o)). rewrite B. destruct o as [|[|[|o]]]; [| | |lia]; unfold coefficient, coef; simpl; ring. }
    destruct (nlt v upper) eqn:E.
    2:{ apply nlt_QF in E. exists [v], 0%nat. rewrite V in E. split_and!; [|done| |by replace (3 * j + Z.of_nat o + Z.of_nat 0)%Z with (3 * j + Z.of_nat o)%Z by lia|by left].
        - intros f F. destruct f as [|f]; [lia|]. cbn [emit_loop]. fold v. assert (nlt v upper = false) as ->; [|done]. apply nlt_QF. by rewrite V.
        - intros i e. destruct i as [|i]; [|done]. intros [= <-]. by replace (3 * j + Z.of_nat o + Z.of_nat 0)%Z with (3 * j + Z.of_nat o)%Z by lia. }
    pose proof E as E'. apply nlt_Q in E'. rewrite V in E'.
    assert (∃ (base' : numQ) o' j', (base' : Q) == p10 j' ∧ (o' < 3)%nat ∧ (3 * j' + Z.of_nat o' = 3 * j + Z.of_nat o + 1)%Z ∧
      ∀ f, emit_loop (S f) base o upper = option_map (cons v) (emit_loop f base' o' upper)) as (base' & o' & j' & B' & O' & I' & R).
    { destruct (decide (o = 2%nat)) as [->|N].
      - exists (nmul base (nofN 10)), 0%nat, (j + 1)%Z. split_and!; [|lia|lia|].
        + change (Qmult base 10 == p10 (j + 1)). rewrite B. by rewrite p10_succ.
        + intros f. cbn [emit_loop]. fold v. by rewrite E.
      - exists base, (S o), j. split_and!; [done|lia|lia|]. intros f. cbn [emit_loop]. fold v. rewrite E. by destruct o as [|[|[|o]]]; [| |done|lia]. }
    destruct (IH base' o' j' B' O') as (es & m & H1 & H2 & H3 & H4 & H5); [by replace (3 * j' + Z.of_nat o' + Z.of_nat n)%Z with (3 * j + Z.of_nat o + Z.of_nat (S n))%Z by lia|].
    exists (v :: es), (S m). split_and!.
    + intros f F. destruct f as [|f]; [lia|]. rewrite R, H1 by lia. done.
    + exact (f_equal S H2).
    + intros [|i] e; [intros [= <-]; by replace (3 * j + Z.of_nat o + Z.of_nat 0)%Z with (3 * j + Z.of_nat o)%Z by lia|]. simpl. intros L. rewrite (H3 i e L). by replace (3 * j' + Z.of_nat o' + Z.of_nat i)%Z with (3 * j + Z.of_nat o + Z.of_nat (S i))%Z by lia.
    + by replace (3 * j + Z.of_nat o + Z.of_nat (S m))%Z with (3 * j' + Z.of_nat o' + Z.of_nat m)%Z by lia.
    + right. destruct H5 as [->|H5]; [by replace (3 * j + Z.of_nat o + Z.of_nat 1 - 1)%Z with (3 * j + Z.of_nat o)%Z by lia|].
      by replace (3 * j + Z.of_nat o + Z.of_nat (S m) - 1)%Z with (3 * j' + Z.of_nat o' + Z.of_nat m - 1)%Z by lia.
Qed.
Lemma down_Q n : ∀ (x base : numQ) j, (base : Q) == p10 j → (x : Q) < p10 (Z.of_nat n + 1) → 0 < (x : Q) →
  ∃ (x' base' : numQ) j', (∀ f, (n < f)%nat → down_loop f x base = Some (x', base')) ∧ (base' : Q) == p10 j' ∧ x' * p10 j' == x * p10 j ∧ (x' : Q) < 10 ∧ 0 < (x' : Q).
Proof.
  induction n as [|n IH]; intros x base j B X P.
  - exists x, base, j. split_and!; [|done|reflexivity|exact X|done]. intros f F. destruct f as [|f]; [lia|]. cbn [down_loop].
    assert (nle (nofN 10) x = false) as ->; [|done]. apply nle_QF. exact X.
  - destruct (nle (nofN 10) x) eqn:E.
    + destruct (IH (ndiv x (nofN 10)) (nmul base (nofN 10)) (j + 1)%Z) as (x' & base' & j' & H1 & H2 & H3 & H4 & H5).
      * change (Qmult base 10 == p10 (j + 1)). rewrite B. by rewrite p10_succ.
      * change (Qdiv x 10 < p10 (Z.of_nat n + 1)). replace (Z.of_nat (S n) + 1)%Z with (Z.of_nat n + 1 + 1)%Z in X by lia. rewrite p10_succ in X. apply Qlt_shift_div_r; [done|exact X].
      * change (0 < Qdiv x 10). apply Qlt_shift_div_l; [done|]. lra.
      * exists x', base', j'. split_and!; [|done| |done|done].
        -- intros f F. destruct f as [|f]; [lia|]. cbn [down_loop]. rewrite E. apply H1. lia.
        -- rewrite H3. change (Qdiv x 10 * p10 (j + 1) == x * p10 j). rewrite p10_succ. field.
    + exists x, base, j. split_and!; [|done|reflexivity|by apply nle_QF in E|done]. intros f F. destruct f as [|f]; [lia|]. cbn [down_loop]. by rewrite E.
Qed.
Lemma up_Q n : ∀ (x base : numQ) j, (base : Q) == p10 j → p10 (- Z.of_nat n) <= (x : Q) → (x : Q) < 10 →
  ∃ (x' base' : numQ) j', (∀ f, (n < f)%nat → up_loop f x base = Some (x', base')) ∧ (base' : Q) == p10 j' ∧ x' * p10 j' == x * p10 j ∧ 1 <= (x' : Q) < 10.
Proof.
  induction n as [|n IH]; intros x base j B X T.
  - exists x, base, j. split_and!; [|done|reflexivity|exact X|done]. intros f F. destruct f as [|f]; [lia|]. cbn [up_loop].
    assert (nlt x (nofN 1) = false) as ->; [|done]. apply nlt_QF. exact X.
  - destruct (nlt x (nofN 1)) eqn:E.
    + apply nlt_Q in E as E'. change ((x : Q) < 1) in E'.
      destruct (IH (nmul x (nofN 10)) (ndiv base (nofN 10)) (j - 1)%Z) as (x' & base' & j' & H1 & H2 & H3 & H4 & H5).
      * change (Qdiv base 10 == p10 (j - 1)). rewrite B. by rewrite p10_pred.
      * change (p10 (- Z.of_nat n) <= Qmult x 10). replace (- Z.of_nat n)%Z with (- Z.of_nat (S n) + 1)%Z by lia. rewrite p10_succ. lra.
      * change (Qmult x 10 < 10). lra.
      * exists x', base', j'. split_and!; [|done| |done|done].
        -- intros f F. destruct f as [|f]; [lia|]. cbn [up_loop]. rewrite E. apply H1. lia.
        -- rewrite H3. change (Qmult x 10 * p10 (j - 1) == x * p10 j). rewrite p10_pred. field.
    + exists x, base, j. split_and!; [|done|reflexivity|by apply nlt_QF in E|done]. intros f F. destruct f as [|f]; [lia|]. cbn [up_loop]. by rewrite E.
Qed.
Lemma find_Q (x : numQ) : 0 < (x : Q) → ∃ n (base : numQ) o j, (∀ f, (n < f)%nat → findGeometricBaseAndOffset f x = Some (base, o)) ∧ (o < 3)%nat ∧ (base : Q) == p10 j ∧
  seriesQ (3 * j + Z.of_nat o) <= x ∧ (x : Q) < seriesQ (3 * j + Z.of_nat o + 1).
Proof.
  intros P. destruct (p10_big x) as [n1 N1]. assert ((x : Q) < p10 (Z.of_nat n1 + 1)) as N1' by (rewrite p10_succ; pose proof (p10_pos (Z.of_nat n1)); lra).
  destruct (down_Q n1 x (nofN 1) 0%Z ltac:(reflexivity) N1' P) as (x1 & b1 & j1 & D1 & D2 & D3 & D4 & D5).
  destruct (p10_big (/ x1)) as [n2 N2]. assert (p10 (- Z.of_nat n2) <= x1) as N2'.
  { unfold p10. rewrite Qpower_opp. fold (p10 (Z.of_nat n2)). pose proof (p10_pos (Z.of_nat n2)). apply Qle_shift_inv_r; [done|].
    assert (1 == / x1 * x1) as E by (field; lra). rewrite E, (Qmult_comm x1). apply Qmult_le_compat_r; lra. }
  destruct (up_Q n2 x1 b1 j1 D2 N2' D4) as (x2 & b2 & j2 & U1 & U2 & U3 & U4 & U5).
  assert (x2 * p10 j2 == x) as X. { rewrite U3, D3. change (x * p10 0 == x). unfold p10. rewrite Qpower_0_r || simpl. ring. }
  pose proof (p10_pos j2) as PP. pose proof (p10_succ j2) as PS.
  assert (∀ c, c <= x2 → c * p10 j2 <= x) as L1. { intros c C. rewrite <- X. apply Qmult_le_compat_r; lra. }
  assert (∀ c, (x2 : Q) < c → (x : Q) < c * p10 j2) as L2. { intros c C. rewrite <- X. apply Qmult_lt_compat_r; lra. }
  assert (∀ f, (n1 + n2 < f)%nat → findGeometricBaseAndOffset f x = Some (if nle (coefficient 2) x2 then (b2, 2%nat) else if nle (coefficient 1) x2 then (b2, 1%nat) else (b2, 0%nat))) as F.
  { intros f F. unfold findGeometricBaseAndOffset. rewrite D1 by lia. cbv beta iota. rewrite U1 by lia. cbv beta iota. destruct (nle (coefficient 2) x2); [done|]. destruct (nle (coefficient 1) x2); [done|].
    assert (nle (coefficient 0) x2 = true) as ->; [|done]. apply nle_Q. exact U4. }
  destruct (nle (coefficient 2) x2) eqn:E2; [|destruct (nle (coefficient 1) x2) eqn:E1].
  - exists (n1 + n2)%nat, b2, 2%nat, j2. split_and!; [done|lia|done|rewrite series_split by lia; apply L1; by apply nle_Q in E2|].
    rewrite series_next by lia. simpl. rewrite PS. rewrite Qmult_comm. by apply L2.
  - exists (n1 + n2)%nat, b2, 1%nat, j2. split_and!; [done|lia|done|rewrite series_split by lia; apply L1; by apply nle_Q in E1|].
    rewrite series_next by lia. simpl. apply L2. by apply nle_QF in E2.
  - exists (n1 + n2)%nat, b2, 0%nat, j2. split_and!; [done|lia|done|rewrite series_split by lia; apply L1; exact U4|].
    rewrite series_next by lia. simpl. apply L2. by apply nle_QF in E1.
Qed.
Lemma series_big (u : Q) i : ∃ n : nat, u <= seriesQ (i + Z.of_nat n).
Proof.
  destruct (p10_big u) as [n N]. exists (Z.to_nat (Z.max 0 (3 * Z.of_nat n - i))). pose proof (series_mono (3 * Z.of_nat n) (Z.to_nat (i + Z.max 0 (3 * Z.of_nat n - i) - 3 * Z.of_nat n))) as M.
  replace (3 * Z.of_nat n + Z.of_nat (Z.to_nat (i + Z.max 0 (3 * Z.of_nat n - i) - 3 * Z.of_nat n)))%Z with (i + Z.of_nat (Z.to_nat (Z.max 0 (3 * Z.of_nat n - i))))%Z in M by lia.
  pose proof (series_split (Z.of_nat n) 0 ltac:(lia)) as S. replace (3 * Z.of_nat n + Z.of_nat 0)%Z with (3 * Z.of_nat n)%Z in S by lia. rewrite S in M. unfold coef in M. change (inject_Z 1) with 1 in M. lra.
Qed.
Lemma geometric_Q (lower upper : numQ) :
  ((lower : Q) <= 0 ∨ (upper : Q) < lower → ∀ fuel, newGeometricBucketerStream fuel lower upper = Panicked) ∧
  (0 < (lower : Q) → (lower : Q) <= upper → ∃ n k m es, (∀ fuel, (n < fuel)%nat → newGeometricBucketerStream fuel lower upper = Finished es) ∧
    length es = S m ∧ (∀ i e, es !! i = Some e → e == seriesQ (k + Z.of_nat i)) ∧
    seriesQ k <= lower ∧ (lower : Q) < seriesQ (k + 1) ∧ seriesQ (k + Z.of_nat m - 1) < upper ∧ (upper : Q) <= seriesQ (k + Z.of_nat m)).
Proof.
  unfold newGeometricBucketerStream. split.
  - intros [H|H] fuel.
    + assert (nle lower (nofN 0) = true) as -> by by apply (nle_Q lower 0). done.
    + apply nlt_Q in H. by rewrite H, orb_true_r.
  - intros P L. assert (nle lower (nofN 0) = false) as -> by by apply nle_QF. assert (nlt upper lower = false) as -> by by apply nlt_QF. simpl orb. cbv iota.
    destruct (find_Q lower P) as (n1 & base & o & j & F1 & F2 & F3 & F4 & F5). destruct (series_big upper (3 * j + Z.of_nat o)) as [n2 N2].
    destruct (emit_Q upper n2 base o j F3 F2 N2) as (es & m & E1 & E2 & E3 & E4 & E5). exists (n1 + n2)%nat, (3 * j + Z.of_nat o)%Z, m, es.
    split_and!; [|done|done|done|done| |done].
    + intros fuel F. rewrite F1 by lia. cbv beta iota. rewrite E1 by lia. done.
    + destruct E5 as [->|E5]; [|done]. replace (3 * j + Z.of_nat o + Z.of_nat 0 - 1)%Z with (3 * j + Z.of_nat o - 1)%Z by lia. pose proof (series_lt (3 * j + Z.of_nat o - 1)) as S.
      replace (3 * j + Z.of_nat o - 1 + 1)%Z with (3 * j + Z.of_nat o)%Z in S by lia. lra.
Qed.
