(** Property theorems C41 (see also PropDist.v): how close the float64 median is. *)
From Coq Require Import ZArith Reals Lra Lia.
From Flocq Require Import Core BinarySingleNaN.
From Verif Require Import GoBase GoVal UnitsModel DurationModel FloatBase FloatLemmas FloatConvProofs.
From stdpp Require Import list.
From Verif Require Import DistModel DistSpec MedianSpec MedianProofs PropDist.
Local Open Scope R_scope.

(** The full property is refuted for float64 by c41_refuted.  But rounding is all that goes wrong: with more than two values the median
    is at most [slack] away from a number that is between the minimum and the maximum and in the bucket of the middle value
    (in the middle of two numbers in the buckets of the two middle values); [srt] are the values present in ascending order. *)
Theorem c41_close_partial : ∀ (es : list num64) ps nc ts h rs d l srt, newBucketerFromEndpoints es = Some ps → ascending es → Forall notNaN es → all_values moderate h →
  present nc h l → (length l > 2)%nat → performs h (newDistributionWithTimeStamp ps nc ts) = (rs, d) → (N.of_nat (length h) + 1 < 2^64)%N → srt ≡ₚ l → ascending srt →
  ∃ s (r : R), Snapshot d = Some s ∧ is_finite (s_median s : float64) = true ∧ Rabs (B2R (s_median s : float64) - r) <= slack (s_min s) (s_max s) ∧
    B2R (s_min s : float64) <= r <= B2R (s_max s : float64) ∧
    (Nat.odd (length l) = true → ∀ x i, srt !! (length l / 2)%nat = Some x → (i ≤ length es)%nat → in_bucket es i x = true → real_in_bucket es i r) ∧
    (Nat.odd (length l) = false → ∃ a b : R, r = (a + b) / 2 ∧
      (∀ x i, srt !! (length l / 2 - 1)%nat = Some x → (i ≤ length es)%nat → in_bucket es i x = true → real_in_bucket es i a) ∧
      (∀ x i, srt !! (length l / 2)%nat = Some x → (i ≤ length es)%nat → in_bucket es i x = true → real_in_bucket es i b)).
Proof. exact snapshot_medianF. Qed.
(** One or two values in a cumulative distribution: the median is between the minimum and the maximum. *)
Theorem c41_few_partial : ∀ (es : list num64) ps ts (vs : list (num64 * gotime)) rs d, newBucketerFromEndpoints es = Some ps → Forall (λ x, moderate (fst x)) vs →
  (length vs = 1 ∨ length vs = 2)%nat → performs ((λ x, Add (fst x) (snd x)) <$> vs) (newDistributionWithTimeStamp ps false ts) = (rs, d) →
  ∃ s, Snapshot d = Some s ∧ is_finite (s_median s : float64) = true ∧ B2R (s_min s : float64) <= B2R (s_median s : float64) <= B2R (s_max s : float64).
Proof. exact snapshot_median_few. Qed.

(** the history of PropDist.v, which leaves 20, 15 and 10 *)
Lemma fz_moderate z : (Z.abs z <= 2 ^ 53)%Z → moderate (fz z).
Proof.
  intros L. destruct (f64_of_Z_exact z L) as [B F]. split; [exact F|]. unfold fz. rewrite B, <- abs_IZR. apply Rle_trans with (IZR (2 ^ 53)); [by apply IZR_le|]. rewrite <- bp53. apply bpow_le. lia.
Qed.
Example c41_close_nonvacuous : all_values moderate ex_h ∧ present true ex_h [fz 20; fz 15; fz 10] ∧ [fz 10; fz 15; fz 20] ≡ₚ [fz 20; fz 15; fz 10] ∧ ascending [fz 10; fz 15; fz 20] ∧
  in_bucket ex_es 1 (fz 15) = true ∧ Forall (λ x, moderate (fst x)) [(fz 3, tm 1); (fz 10, tm 2)].
Proof.
  split_and!; [|exact ex_present| | |reflexivity|constructor; [apply fz_moderate; lia|constructor; [apply fz_moderate; lia|constructor]]].
  - intros o v Ho Hv. unfold ex_h in Ho. repeat (apply elem_of_cons in Ho as [->|Ho]; [cbn [op_values] in Hv; repeat (apply elem_of_cons in Hv as [->|Hv]; [apply fz_moderate; lia|]); by apply elem_of_nil in Hv|]).
    by apply elem_of_nil in Ho.
  - rewrite (Permutation_app_comm [fz 20] [fz 15; fz 10] : [fz 20; fz 15; fz 10] ≡ₚ _). apply (Permutation_swap (fz 15) (fz 10)).
  - intros i j a b L X Y. destruct i as [|[|[|i]]], j as [|[|[|j]]]; try lia; cbn in X, Y; try discriminate; injection X as <-; injection Y as <-; vm_compute; reflexivity.
Qed.
Print Assumptions c41_close_partial.
Print Assumptions c41_few_partial.
