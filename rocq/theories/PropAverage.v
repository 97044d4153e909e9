(** Property theorems C86: the average is the mean of the values present, between the minimum and the maximum. *)
From Coq Require Import ZArith Reals Lra Lia.
From Flocq Require Import Core BinarySingleNaN.
From Verif Require Import GoBase GoVal UnitsModel DurationModel FloatBase FloatLemmas FloatConvProofs.
From stdpp Require Import list.
From Verif Require Import DistModel DistSpec MedianSpec AverageSpec MedianProofs AverageProofs PropDist.
Local Open Scope R_scope.

(** The full property. *)
Definition average_between (kinds : bool → Prop) : Prop := ∀ (es : list num64) ps nc ts h rs d l, kinds nc → newBucketerFromEndpoints es = Some ps → ascending es → Forall notNaN es →
  present nc h l → l ≠ [] → all_values moderate h → (N.of_nat (length h) ≤ 2^52)%N → performs h (newDistributionWithTimeStamp ps nc ts) = (rs, d) →
  ∃ s, Snapshot d = Some s ∧ le_num (s_min s) (s_average s) ∧ le_num (s_average s) (s_max s).

(** It holds for whole numbers whose sizes add up to at most 2^53: the sum is exact and the average the float64 number nearest to the mean. *)
Theorem c86_whole_partial : ∀ (es : list num64) ps nc ts h rs d l, newBucketerFromEndpoints es = Some ps → ascending es → Forall notNaN es → present nc h l → l ≠ [] →
  all_values whole h → size_R (mentioned h) <= IZR (2 ^ 53) → (N.of_nat (length h) ≤ 2^52)%N → performs h (newDistributionWithTimeStamp ps nc ts) = (rs, d) →
  ∃ s, Snapshot d = Some s ∧ B2R (Sum d : float64) = sum_R l ∧ B2R (s_sum s : float64) = sum_R l ∧ is_finite (s_average s : float64) = true ∧
    B2R (s_average s : float64) = round radix2 (FLT_exp (-1074) 53) ZnearestE (mean_R l) ∧ B2R (s_min s : float64) <= B2R (s_average s : float64) <= B2R (s_max s : float64).
Proof. exact snapshot_average_whole. Qed.
(** For a cumulative distribution of up to 2^52 finite values of any kind, the errors grow with the number of values only:
    the sum is off by no more than count * 2^-52 times the sum of the sizes, the average accordingly. *)
Theorem c86_close_partial : ∀ (es : list num64) ps ts (vs : list (num64 * gotime)) rs d, newBucketerFromEndpoints es = Some ps → vs ≠ [] → (N.of_nat (length vs) ≤ 2^52)%N →
  Forall (λ v : num64, is_finite (v : float64) = true) (fst <$> vs) → size_R (fst <$> vs) <= bpow radix2 1022 →
  performs ((λ x, Add (fst x) (snd x)) <$> vs) (newDistributionWithTimeStamp ps false ts) = (rs, d) →
  ∃ s, Snapshot d = Some s ∧ is_finite (s_sum s : float64) = true ∧ is_finite (s_average s : float64) = true ∧
    Rabs (B2R (s_sum s : float64) - sum_R (fst <$> vs)) <= INR (length vs) * bpow radix2 (-52) * size_R (fst <$> vs) ∧
    Rabs (B2R (s_average s : float64) - mean_R (fst <$> vs)) <= INR (length vs + 1) * bpow radix2 (-52) * (size_R (fst <$> vs) / INR (length vs)) + bpow radix2 (-1075).
Proof. exact snapshot_average_close. Qed.

(** The average of 0.1, 0.1 and 0.1 is above the maximum. *)
Definition point1 : num64 := f64_lit 7205759403792794 (-56).
Lemma point1_moderate : moderate point1.
Proof.
  split; [reflexivity|]. apply Rle_trans with (bpow radix2 0); [|apply bpow_le; lia]. change (bpow radix2 0) with 1. rewrite <- (proj1 (f64_of_Z_exact 1 ltac:(lia))).
  rewrite Rabs_pos_eq; [apply (leF point1 (f64_of_Z 1)); reflexivity|]. rewrite <- (proj1 (f64_of_Z_exact 0 ltac:(lia))). apply (leF (f64_of_Z 0) point1); reflexivity.
Qed.
Lemma tested {X} (f : X → bool) o s : match o with Some x => f x | None => false end = true → o = Some s → f s = true.
Proof. intros T ->. exact T. Qed.
Definition thrice : list (op num64) := [Add point1 (tm 1); Add point1 (tm 1); Add point1 (tm 1)].
Theorem c86_refuted : ¬ average_between (λ nc, nc = false).
Proof.
  intros T. assert (present (A := num64) false thrice [point1; point1; point1]) as P. { change thrice with ([] ++ [Add point1 (tm 1)] ++ [Add point1 (tm 1)] ++ [Add point1 (tm 1)]). rewrite !app_assoc. do 3 constructor. constructor. }
  destruct (T ex_es ex_ps false (tm 0) thrice _ _ _ eq_refl ex_bucketer ex_ascending ex_notNaN P ltac:(discriminate)
    ltac:(intros o v Ho Hv; unfold thrice in Ho; repeat (apply elem_of_cons in Ho as [->|Ho]; [apply elem_of_list_singleton in Hv as ->; exact point1_moderate|]); by apply elem_of_nil in Ho)
    ltac:(cbn [length thrice]; lia) (surjective_pairing (performs thrice (newDistributionWithTimeStamp ex_ps false (tm 0))))) as (s & S & _ & K).
  pose proof (tested (λ s : snapshot num64, nlt (s_max s) (s_average s)) (Snapshot (snd (performs thrice (newDistributionWithTimeStamp ex_ps false (tm 0))))) s ltac:(vm_compute; reflexivity) S) as Q.
  unfold le_num in K. cbv beta in Q. congruence.
Qed.
(** Values that leave a distribution that is not cumulative can take smaller ones with them, whatever the number of values: after 10^20 came and
    went, the sum and the average of the remaining 1 are 0. *)
Definition came_and_went : list (op num64) := [Add (fz 1) (tm 1); Add (fz (10 ^ 20)) (tm 2); Remove (fz (10 ^ 20)) (tm 3)].
Theorem c86_removed_refuted : present (A := num64) true came_and_went [fz 1] ∧
  option_map (λ s : snapshot num64, (s_count s, f64_eq (s_sum s) (f64_of_Z 0), f64_eq (s_average s) (f64_of_Z 0), f64_eq (s_min s) (f64_of_Z 1)))
    (Snapshot (snd (performs came_and_went (newDistributionWithTimeStamp ex_ps true (tm 0))))) = Some (1%N, true, true, true).
Proof.
  split; [|vm_compute; reflexivity]. change came_and_went with (([] ++ [Add (fz 1) (tm 1)] ++ [Add (fz (10 ^ 20)) (tm 2)]) ++ [Remove (fz (10 ^ 20)) (tm 3)]).
  eapply (present_remove _ _ [fz (10 ^ 20); fz 1] _ (fz (10 ^ 20))); [|done|reflexivity|split; vm_compute; reflexivity]. rewrite app_assoc. constructor. constructor. constructor.
Qed.

Lemma fz_whole z : (Z.abs z <= 2 ^ 53)%Z → whole (fz z).
Proof. intros L. destruct (f64_of_Z_exact z L) as [B F]. split; [exact F|]. by exists z. Qed.
Lemma fz_val z : (Z.abs z <= 2 ^ 53)%Z → B2R (fz z : float64) = IZR z.
Proof. intros L. apply (f64_of_Z_exact z L). Qed.
(** the history of PropDist.v: the values mentioned add up to 3 + 10 + 15 + 70 + (3 + 20) + 70 *)
Example c86_nonvacuous : present true ex_h [fz 20; fz 15; fz 10] ∧ all_values whole ex_h ∧ size_R (mentioned ex_h) <= IZR (2 ^ 53) ∧
  option_map (λ s : snapshot num64, (f64_eq (s_sum s) (fz 45), f64_eq (s_average s) (fz 15))) (Snapshot (snd (performs ex_h (newDistributionWithTimeStamp ex_ps true (tm 0))))) = Some (true, true) ∧
  size_R [point1; point1; point1] <= bpow radix2 1022.
Proof.
  split_and!; [exact ex_present| | |vm_compute; reflexivity|].
  - intros o v Ho Hv. unfold ex_h in Ho. repeat (apply elem_of_cons in Ho as [->|Ho]; [cbn [op_values] in Hv; repeat (apply elem_of_cons in Hv as [->|Hv]; [apply fz_whole; lia|]); by apply elem_of_nil in Hv|]).
    by apply elem_of_nil in Ho.
  - change (mentioned ex_h) with [fz 3; fz 10; fz 15; fz 70; fz 3; fz 20; fz 70]. rewrite !size_cons, size_nil, !fz_val by lia. rewrite <- !abs_IZR. rewrite Rplus_0_r, <- !plus_IZR. apply IZR_le. vm_compute. discriminate.
  - rewrite !size_cons, size_nil. destruct point1_moderate as [_ M]. assert (4 * bpow radix2 1020 = bpow radix2 1022) as Q by (change 1022%Z with (2 + 1020)%Z; rewrite bpow_plus; reflexivity). pose proof (bpow_gt_0 radix2 1020). lra.
Qed.
Print Assumptions c86_whole_partial.
Print Assumptions c86_close_partial.
Print Assumptions c86_refuted.
Print Assumptions c86_removed_refuted.
