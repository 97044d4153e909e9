(** The geometric bucketer in float64: when it terminates and what its end points look like. *)
From Coq Require Import ZArith Reals Lra Lia.
From Verif Require Import GoBase GoVal FloatBase.
From stdpp Require Import list.
From Flocq Require Import Core BinarySingleNaN.
From Verif Require Import DistModel DistSpec FloatLemmas BucketerModel BucketerSpec BucketerProofs.
Local Open Scope R_scope.

Lemma rounds_mono z z' r r' : rounds z r → rounds z' r' → r <= r' → f64_key z <= f64_key z'.
Proof.
  intros A B L. pose proof (rnd_le _ _ L) as M. destruct A as [[F E]|[-> E]], B as [[F' E']|[-> E']].
  - rewrite !key_finite by done. lra.
  - rewrite key_pinf. apply key_top.
  - exfalso. pose proof (key_bound z' F'). lra.
  - lra.
Qed.
Notation ten := (f64_of_N 10).
Lemma key_10 : f64_key ten = 10 ∧ B2R ten = 10.
Proof. destruct (key_N 10 ltac:(lia)) as (_ & A & B). done. Qed.
Lemma key_1 : f64_key (f64_of_N 1) = 1 ∧ B2R (f64_of_N 1) = 1.
Proof. destruct (key_N 1 ltac:(lia)) as (_ & A & B). done. Qed.
Lemma key_0 : f64_key (f64_of_N 0) = 0 ∧ B2R (f64_of_N 0) = 0.
Proof. destruct (key_N 0 ltac:(lia)) as (_ & A & B). done. Qed.
Lemma fmt_10 : fmt64 10. Proof. apply fmt_Z. lia. Qed.
Lemma fmt_1 : fmt64 1. Proof. apply fmt_Z. lia. Qed.
Lemma top_big : 10 < top.
Proof. apply Rlt_trans with (bpow radix2 4); [change (bpow radix2 4) with (IZR 16); lra|]. by apply bpow_lt. Qed.
Lemma fin_notnan (x : float64) : is_finite x = true → is_nan x = false.
Proof. by destruct x. Qed.
Lemma le10_spec (x : float64) : is_finite x = true → f64_le ten x = true ↔ 10 <= B2R x.
Proof.
  intros F. pose proof (fin_notnan x F) as N. destruct key_10 as [K _]. split.
  - intros H. apply f64_le_true in H as (_ & _ & H). rewrite K, key_finite in H by done. done.
  - intros H. destruct (f64_le ten x) eqn:E; [done|]. apply f64_le_false in E; [|done|done]. rewrite K, key_finite in E by done. lra.
Qed.
Lemma lt1_spec (x : float64) : is_finite x = true → f64_lt x (f64_of_N 1) = true ↔ B2R x < 1.
Proof.
  intros F. pose proof (fin_notnan x F) as N. destruct key_1 as [K _]. split.
  - intros H. apply f64_lt_true in H as (_ & _ & H). rewrite K, key_finite in H by done. done.
  - intros H. destruct (f64_lt x (f64_of_N 1)) eqn:E; [done|]. apply f64_lt_false in E; [|done|done]. rewrite K, key_finite in E by done. lra.
Qed.
(** x / 10 for x >= 10 *)
Lemma div10 (x : float64) : 10 <= B2R x → let z := f64_div x ten in rounds z (B2R x / 10) ∧ is_finite z = true ∧ 1 <= B2R z.
Proof.
  intros H. pose proof (finite_pos x ltac:(lra)) as F. destruct key_10 as [_ K]. pose proof (div_pos x ten ltac:(lra) ltac:(lra)) as Q. rewrite K in Q. cbv zeta. split; [done|].
  destruct (rounds_le _ _ (B2R x) Q (fmt_B2R x) (proj2 (key_bound x F)) ltac:(lra)) as [Fz _]. split; [done|].
  pose proof (rounds_ge _ _ 1 Q fmt_1 ltac:(pose proof top_big; lra) ltac:(lra)) as G. by rewrite key_finite in G.
Qed.
(** x * 10 for x < 1 *)
Lemma mul10 (x : float64) : 0 < B2R x < 1 → let z := f64_mul x ten in rounds z (B2R x * 10) ∧ is_finite z = true ∧ 0 < B2R z <= 10.
Proof.
  intros H. pose proof (finite_pos x ltac:(lra)) as F. destruct key_10 as [K1 K]. pose proof (mul_pos x ten ltac:(lra) ltac:(lra)) as Q. rewrite K in Q. cbv zeta. split; [done|].
  destruct (rounds_le _ _ 10 Q fmt_10 top_big ltac:(lra)) as [Fz U]. split; [done|]. split; [|done].
  pose proof (rounds_ge _ _ (B2R x) Q (fmt_B2R x) ltac:(pose proof (key_bound x F); lra) ltac:(lra)) as G. rewrite key_finite in G by done. lra.
Qed.
Lemma down_term f : ∀ x y bx by' : num64, 0 < B2R x <= B2R y → is_Some (down_loop f y by') → is_Some (down_loop f x bx).
Proof.
  induction f as [|f IH]; intros x y bx by' L H; [done|]. cbn [down_loop] in *. change (nle (nofN 10) x) with (f64_le ten x). change (nle (nofN 10) y) with (f64_le ten y) in H.
  destruct (f64_le ten x) eqn:E; [|done]. apply le10_spec in E; [|apply finite_pos; lra]. assert (f64_le ten y = true) as E' by (apply le10_spec; [apply finite_pos|]; lra).
  rewrite E' in H. destruct (div10 x E) as (A1 & A2 & A3), (div10 y ltac:(lra)) as (B1 & B2 & B3). eapply IH; [|exact H]. split; [change (0 < B2R (f64_div x ten)); lra|].
  pose proof (rounds_mono _ _ _ _ A1 B1 ltac:(lra)) as M. rewrite !key_finite in M by done. exact M.
Qed.
Definition mul_ten (b : num64) : num64 := f64_mul b ten.
Definition div_ten (b : num64) : num64 := f64_div b ten.
Lemma down_result f : ∀ x b x' b' : num64, 0 < B2R x → down_loop f x b = Some (x', b') →
  0 < B2R x' < 10 ∧ ((x' = x ∧ b' = b) ∨ 1 <= B2R x') ∧ ∃ k, (k < f)%nat ∧ b' = Nat.iter k mul_ten b.
Proof.
  induction f as [|f IH]; intros x b x' b' P H; [done|]. cbn [down_loop] in *. change (nle (nofN 10) x) with (f64_le ten x) in H. destruct (f64_le ten x) eqn:E.
  - apply le10_spec in E; [|apply finite_pos; lra]. destruct (div10 x E) as (_ & A2 & A3). apply IH in H as (H1 & H2 & k & H3 & H4); [|change (0 < B2R (f64_div x ten)); lra].
    split_and!; [lra|lra| |].
    + right. destruct H2 as [[-> _]|H2]; [exact A3|exact H2].
    + exists (S k). split; [lia|]. by rewrite Nat.iter_succ_r.
  - injection H as <- <-. split_and!; [lra| |by left|exists 0%nat; split; [lia|done]].
    apply Rnot_le_lt. intros G. apply le10_spec in G; [congruence|]. by apply finite_pos.
Qed.
Lemma up_term f : ∀ x y bx by' : num64, 0 < B2R y <= B2R x → is_Some (up_loop f y by') → is_Some (up_loop f x bx).
Proof.
  induction f as [|f IH]; intros x y bx by' L H; [done|]. cbn [up_loop] in *. change (nlt x (nofN 1)) with (f64_lt x (f64_of_N 1)). change (nlt y (nofN 1)) with (f64_lt y (f64_of_N 1)) in H.
  destruct (f64_lt x (f64_of_N 1)) eqn:E; [|done]. apply lt1_spec in E; [|apply finite_pos; lra]. assert (f64_lt y (f64_of_N 1) = true) as E' by (apply lt1_spec; [apply finite_pos|]; lra).
  rewrite E' in H. destruct (mul10 x ltac:(lra)) as (A1 & A2 & A3), (mul10 y ltac:(lra)) as (B1 & B2 & B3). eapply IH; [|exact H]. split; [change (0 < B2R (f64_mul y ten)); lra|].
  pose proof (rounds_mono _ _ _ _ B1 A1 ltac:(lra)) as M. rewrite !key_finite in M by done. exact M.
Qed.
Lemma up_result f : ∀ x b x' b' : num64, 0 < B2R x <= 10 → up_loop f x b = Some (x', b') →
  1 <= B2R x' <= 10 ∧ (1 <= B2R x → x' = x ∧ b' = b) ∧ ∃ k, (k < f)%nat ∧ b' = Nat.iter k div_ten b.
Proof.
  induction f as [|f IH]; intros x b x' b' P H; [done|]. cbn [up_loop] in *. change (nlt x (nofN 1)) with (f64_lt x (f64_of_N 1)) in H. destruct (f64_lt x (f64_of_N 1)) eqn:E.
  - apply lt1_spec in E; [|apply finite_pos; lra]. destruct (mul10 x ltac:(lra)) as (_ & A2 & A3). apply IH in H as (H1 & H2 & k & H3 & H4); [|exact A3].
    split_and!; [lra|lra|lra|]. exists (S k). split; [lia|]. by rewrite Nat.iter_succ_r.
  - injection H as <- <-. split_and!; [|lra|done|exists 0%nat; split; [lia|done]].
    apply Rnot_lt_le. intros G. apply lt1_spec in G; [congruence|]. apply finite_pos. lra.
Qed.
(** the largest float64, the smallest for which the bucketer works, and the smallest positive one *)
Definition f64_max_value : float64 := f64_lit (2 ^ 53 - 1) 971.
Definition f64_third : float64 := f64_lit 3 (-1074).
Definition f64_smallest : float64 := f64_lit 1 (-1074).
Definition isSome {X} (o : option X) : bool := match o with Some _ => true | None => false end.
Lemma isSome_spec {X} (o : option X) : isSome o = true → is_Some o.
Proof. by destruct o; intros; [eexists|]. Qed.
Definition positive (x : num64) : bool := f64_lt (f64_of_N 0) x && is_finite (x : float64).
Lemma positive_spec (x : num64) : positive x = true → 0 < B2R (x : float64).
Proof. intros H. apply andb_true_iff in H as [H F]. apply f64_lt_true in H as (_ & _ & H). rewrite (proj1 key_0), key_finite in H by done. done. Qed.
Lemma down_max : isSome (down_loop 309 (f64_max_value : num64) (nofN 1)) = true.
Proof. vm_compute. reflexivity. Qed.
Lemma up_third : isSome (up_loop 324 (f64_third : num64) (nofN 1)) = true.
Proof. vm_compute. reflexivity. Qed.
Fixpoint all_iter (p : num64 → bool) (f : num64 → num64) (n : nat) (x : num64) : bool := match n with O => true | S n => p x && all_iter p f n (f x) end.
Lemma all_iter_spec p f n k x : all_iter p f n x = true → (k < n)%nat → p (Nat.iter k f x) = true.
Proof.
  revert k x. induction n as [|n IH]; intros k x H L; [lia|]. simpl in H. apply andb_true_iff in H as [H1 H2]. destruct k as [|k]; [done|]. rewrite Nat.iter_succ_r. apply IH; [done|lia].
Qed.
Lemma down_bases : all_iter positive mul_ten 309 (f64_of_N 1) = true.
Proof. vm_compute. reflexivity. Qed.
Lemma up_bases : all_iter positive div_ten 324 (f64_of_N 1) = true.
Proof. vm_compute. reflexivity. Qed.
Lemma decades_inf : f64_eq (Nat.iter 640 mul_ten f64_smallest) f64_pinf = true.
Proof. vm_compute. reflexivity. Qed.
Lemma max_value_R : B2R f64_max_value = top - bpow radix2 971.
Proof.
  rewrite <- SF2R_B2SF. assert (B2SF f64_max_value = SpecFloat.S754_finite false 9007199254740991 971) as -> by by vm_compute. unfold SF2R, cond_Zopp.
  change 1024%Z with (53 + 971)%Z. rewrite bpow_plus. change (bpow radix2 53) with (IZR 9007199254740992). unfold F2R. simpl Fnum. simpl Fexp. rewrite <- (Rmult_1_l (bpow radix2 971)) at 3. rewrite <- Rmult_minus_distr_r.
  f_equal. rewrite <- minus_IZR. done.
Qed.
Lemma max_value_key (x : float64) : is_finite x = true → B2R x <= B2R f64_max_value.
Proof. intros F. pose proof (abs_B2R_le_emax_minus_prec 53 1024 prec53 x) as H. apply Rabs_le_inv in H. rewrite max_value_R. apply H. Qed.

(** *** the search for the first end point *)
Lemma down_stable f (x b : num64) r f' : down_loop f x b = Some r → (f <= f')%nat → down_loop f' x b = Some r.
Proof.
  revert x b f'. induction f as [|f IH]; intros x b f' H L; [done|]. destruct f' as [|f']; [lia|]. cbn [down_loop] in *. destruct (nle (nofN 10) x); [|done]. apply IH; [done|lia].
Qed.
Lemma up_stable f (x b : num64) r f' : up_loop f x b = Some r → (f <= f')%nat → up_loop f' x b = Some r.
Proof.
  revert x b f'. induction f as [|f IH]; intros x b f' H L; [done|]. destruct f' as [|f']; [lia|]. cbn [up_loop] in *. destruct (nlt x (nofN 1)); [|done]. apply IH; [done|lia].
Qed.
Lemma find_stable f (x : num64) r f' : findGeometricBaseAndOffset f x = Some r → (f <= f')%nat → findGeometricBaseAndOffset f' x = Some r.
Proof.
  unfold findGeometricBaseAndOffset. intros H L. destruct (down_loop f x (nofN 1)) as [[x1 b1]|] eqn:E1; [|done]. rewrite (down_stable _ _ _ _ f' E1 L).
  destruct (up_loop f x1 b1) as [[x2 b2]|] eqn:E2; [|done]. by rewrite (up_stable _ _ _ _ f' E2 L).
Qed.
Lemma emit_stable f (b : num64) o u es f' : emit_loop f b o u = Some es → (f <= f')%nat → emit_loop f' b o u = Some es.
Proof.
  revert b o es f'. induction f as [|f IH]; intros b o es f' H L; [done|]. destruct f' as [|f']; [lia|]. cbn [emit_loop] in *. destruct (nlt (nmul b (coefficient o)) u); [|done].
  destruct (Nat.eqb (S o) 3).
  - destruct (emit_loop f (nmul b (nofN 10)) 0 u) as [l|] eqn:E; [|done]. by rewrite (IH _ _ _ f' E ltac:(lia)).
  - destruct (emit_loop f b (S o) u) as [l|] eqn:E; [|done]. by rewrite (IH _ _ _ f' E ltac:(lia)).
Qed.
Lemma third_R : 0 < B2R f64_third.
Proof. apply positive_spec. by vm_compute. Qed.
Lemma coefficient_R o : B2R (coefficient (A := num64) o : float64) = match o with O => 1 | S O => 2 | _ => 5 end.
Proof. destruct o as [|[|o]]; unfold coefficient; [exact (proj2 (proj2 (key_N 1 ltac:(lia))))|exact (proj2 (proj2 (key_N 2 ltac:(lia))))|exact (proj2 (proj2 (key_N 5 ltac:(lia))))]. Qed.
Lemma coefficient_le o (x : num64) : 0 < B2R x → nle (coefficient o) x = true ↔ match o with O => 1 | S O => 2 | _ => 5 end <= B2R x.
Proof.
  intros P. pose proof (finite_pos x P) as F. pose proof (coefficient_R o) as C. change (nle (coefficient o) x) with (f64_le (coefficient (A := num64) o) x). set (c := coefficient (A := num64) o) in *.
  assert (is_finite (c : float64) = true) as Fc by (apply finite_pos; rewrite C; destruct o as [|[|]]; lra).
  rewrite <- C. split.
  - intros H. apply f64_le_true in H as (_ & _ & H). rewrite !key_finite in H by done. done.
  - intros H. destruct (f64_le c x) eqn:E; [done|]. apply f64_le_false in E; [|by apply fin_notnan|by apply fin_notnan]. rewrite !key_finite in E by done. lra.
Qed.
Lemma up_done f (x b : num64) : 1 <= B2R x → up_loop (S f) x b = Some (x, b).
Proof.
  intros H. cbn [up_loop]. change (nlt x (nofN 1)) with (f64_lt x (f64_of_N 1)). destruct (f64_lt x (f64_of_N 1)) eqn:E; [|done].
  apply lt1_spec in E; [lra|apply finite_pos; lra].
Qed.
(** the loops up to the choice of the offset, for lower >= 3 * 2^-1074 *)
Lemma find_works (x : num64) : B2R f64_third <= B2R x → ∃ x2 b : num64, ∃ o,
  (∃ x1 b1, down_loop 324 x (nofN 1) = Some (x1, b1) ∧ up_loop 324 x1 b1 = Some (x2, b)) ∧
  findGeometricBaseAndOffset 324 x = Some (b, o) ∧ (o < 3)%nat ∧ 0 < B2R b ∧ 1 <= B2R x2 <= 10 ∧
  match o with O => 1 <= B2R x2 < 2 | S O => 2 <= B2R x2 < 5 | _ => 5 <= B2R x2 end.
Proof.
  intros H. pose proof third_R as T. pose proof (finite_pos x ltac:(lra)) as F.
  destruct (down_term 309 x f64_max_value (nofN 1) (nofN 1)) as [[x1 b1] D]; [split; [lra|by apply max_value_key]|by apply isSome_spec, down_max|].
  destruct (down_result _ x _ _ _ ltac:(lra) D) as (R1 & R2 & k1 & K1 & B1).
  assert (∃ x2 b, up_loop 324 x1 b1 = Some (x2, b) ∧ 0 < B2R b ∧ 1 <= B2R x2 <= 10) as (x2 & b & U & PB & R3).
  { destruct R2 as [[-> ->]|R2].
    - destruct (up_term 324 x f64_third (nofN 1) (nofN 1)) as [[x2 b] U]; [split; [done|lra]|by apply isSome_spec, up_third|]. exists x2, b.
      destruct (up_result _ x _ _ _ ltac:(lra) U) as (R3 & _ & k2 & K2 & ->). split_and!; [done| |lra|lra]. apply positive_spec. by apply (all_iter_spec positive div_ten 324 k2 _ up_bases).
    - exists x1, b1. rewrite (up_done 323 x1 b1) by done.
      split_and!; [done| |lra|lra]. rewrite B1. apply positive_spec. by apply (all_iter_spec positive mul_ten 309 k1 _ down_bases). }
  pose proof (down_stable _ _ _ _ 324 D ltac:(lia)) as D'. 
  assert (findGeometricBaseAndOffset 324 x = Some (if nle (coefficient 2) x2 then (b, 2%nat) else if nle (coefficient 1) x2 then (b, 1%nat)
    else if nle (coefficient 0) x2 then (b, 0%nat) else (ndiv b (nofN 10), 2%nat))) as -> by (unfold findGeometricBaseAndOffset; rewrite D', U; reflexivity).
  pose proof (coefficient_le 2 x2 ltac:(lra)) as C2. pose proof (coefficient_le 1 x2 ltac:(lra)) as C1. pose proof (coefficient_le 0 x2 ltac:(lra)) as C0. cbv iota in C0, C1, C2.
  assert (∃ x1 b1 : num64, down_loop 324 x (nofN 1) = Some (x1, b1) ∧ up_loop 324 x1 b1 = Some (x2, b)) as L by eauto.
  destruct (nle (coefficient 2) x2).
  { exists x2, b, 2%nat. assert (5 <= B2R x2) by by apply C2. split; [exact L|]. split; [reflexivity|]. split; [lia|]. lra. }
  assert (B2R x2 < 5) by (apply Rnot_le_lt; intros G; by apply C2 in G). destruct (nle (coefficient 1) x2).
  { exists x2, b, 1%nat. assert (2 <= B2R x2) by by apply C1. split; [exact L|]. split; [reflexivity|]. split; [lia|]. lra. }
  assert (B2R x2 < 2) by (apply Rnot_le_lt; intros G; by apply C1 in G). destruct (nle (coefficient 0) x2).
  { exists x2, b, 0%nat. split; [exact L|]. split; [reflexivity|]. split; [lia|]. lra. }
  exfalso. assert (1 <= B2R x2) as G by lra. apply C0 in G. done.
Qed.
