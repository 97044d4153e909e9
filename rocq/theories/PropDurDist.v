(** Property theorems C81: durations in distributions. *)
From Coq Require Import ZArith Reals Lia Sorted.
From Verif Require Import GoBase GoVal UnitsModel DurationModel FloatBase.
From Flocq Require Import Core.Core IEEE754.BinarySingleNaN.
From Verif Require Import FloatLemmas FloatConvProofs DurDistFloat.
From stdpp Require Import list.
From Verif Require Import DistModel DistSpec DurDistSpec DurDistProofs.

(** The full property: in a distribution whose unit is u and whose end points stand for the durations ds, a duration is
    counted in the bucket that the comparison of durations gives. *)
Definition durations_counted (range : Z → Prop) : Prop := ∀ u k ds es ps nc ts0 cs rs d ns ts,
  unit_ns u = Some k → StronglySorted Z.le ds → endpoints_of k ds es → Forall range ds → newBucketerFromEndpoints es = Some ps →
  callsf cs (newDistributionWithTimeStamp ps nc ts0) = (rs, d) → first_unit cs = Some u → (N.of_nat (length cs) + 1 < 2 ^ 64)%N → range ns →
  ∃ d', AddWithTs (DDuration ns) ts d = (OK, d') ∧ d_counts d' = alter (N.add 1) (bucket_of ds ns) (d_counts d).
(** It holds for durations and end points below 2^52 ns, 52 days.  Missing: longer ones. *)
Theorem c81_bucket_partial : durations_counted (λ x, (Z.abs x < 2 ^ 52)%Z).
Proof. exact duration_bucket. Qed.
(** Not for all durations: with an end point at 2^62 ns, 2^62 - 1 ns is counted above it. *)
Theorem c81_refuted : ¬ durations_counted (λ x, (- 2 ^ 63 ≤ x < 2 ^ 63)%Z).
Proof.
  intros H. set (e := quotient (2 ^ 62) 1000000000 : num64). assert (endpoints_of 1000000000 [2 ^ 62]%Z [e]) as E.
  { constructor; [|constructor]. destruct (quotient_spec (2 ^ 62) 1000000000 ltac:(lia) ltac:(lia)) as [F B]. split; [exact F|]. unfold e. rewrite B. f_equal. f_equal.
    apply round_generic; [typeclasses eauto|]. exact (fmt_pow 62 ltac:(lia)). }
  destruct (H USecond 1000000000%Z [2 ^ 62]%Z [e] _ false (MkTime 0 0) [CSetUnit USecond] _ _ (2 ^ 62 - 1)%Z (MkTime 1 0) eq_refl ltac:(repeat constructor) E ltac:(apply Forall_singleton; cbv beta; lia) eq_refl eq_refl eq_refl ltac:(done) ltac:(cbv beta; lia))
    as (d' & A & C).
  apply (f_equal (λ x, d_counts (snd x))) in A. cbn [snd] in A. rewrite C in A. vm_compute in A. discriminate A.
Qed.
(** For every duration and every call: it is used as a float64 that differs from it by a factor of at most 1 + 2^-51. *)
Theorem c81_value : ∀ ps nc ts0 cs rs d u k ns, callsf cs (newDistributionWithTimeStamp ps nc ts0) = (rs, d) → first_unit cs = Some u → unit_ns u = Some k → (Z.abs ns ≤ 2 ^ 63)%Z →
  ∃ f : float64, is_finite f = true ∧ (Rabs (B2R f - IZR ns / IZR k) <= bpow radix2 (-51) * Rabs (IZR ns / IZR k))%R ∧
    (∀ ts, AddWithTs (DDuration ns) ts d = AddWithTs (DFloat64 f) ts d) ∧ (∀ ts, RemoveWithTs (DDuration ns) ts d = RemoveWithTs (DFloat64 f) ts d) ∧
    (∀ v ts, UpdateWithTs (DDuration ns) v ts d = UpdateWithTs (DFloat64 f) v ts d) ∧ (∀ v ts, UpdateWithTs v (DDuration ns) ts d = UpdateWithTs v (DFloat64 f) ts d).
Proof. exact duration_as_float. Qed.

(** End points at 0.1 s and 0.3 s, written 100 and 300 with unit milliseconds: 99.999999 ms, 100 ms and 300 ms. *)
Definition ex_ds : list Z := [100000000; 300000000]%Z.
Definition ex_es : list num64 := [f64_of_Z 100; f64_of_Z 300].
Definition ex_counts (ns : Z) : list N :=
  match newBucketerFromEndpoints ex_es with
  | Some ps => d_counts (snd (callsf [CSetUnit UMillisecond; CAdd (DDuration ns) (MkTime 1 0)] (newDistributionWithTimeStamp ps false (MkTime 0 0))))
  | None => []
  end.
Example c81_nonvacuous : endpoints_of 1000000 ex_ds ex_es ∧ StronglySorted Z.le ex_ds ∧ unit_ns UMillisecond = Some 1000000%Z ∧
  bucket_of ex_ds 99999999 = 0%nat ∧ bucket_of ex_ds 100000000 = 1%nat ∧ bucket_of ex_ds 300000000 = 2%nat ∧
  ex_counts 99999999 = [1; 0; 0]%N ∧ ex_counts 100000000 = [0; 1; 0]%N ∧ ex_counts 300000000 = [0; 0; 1]%N.
Proof.
  split.
  - assert (∀ n, (Z.abs n ≤ 2 ^ 53)%Z → nearest (f64_of_Z n : num64) (IZR (n * 1000000) / IZR 1000000)) as L.
    { intros n N. destruct (of_Z_rnd n ltac:(lia)) as [F B]. split; [exact F|]. rewrite B. f_equal. rewrite mult_IZR. field. }
    constructor; [|constructor; [|constructor]]; [apply (L 100%Z)|apply (L 300%Z)]; lia.
  - split; [repeat constructor; lia|]. vm_compute. done.
Qed.
Print Assumptions c81_bucket_partial.
Print Assumptions c81_refuted.
Print Assumptions c81_value.
