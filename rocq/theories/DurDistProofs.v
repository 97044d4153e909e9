From Coq Require Import ZArith Reals Lra Lia Sorted.
From Verif Require Import GoBase GoVal UnitsModel DurationModel FloatBase.
From Flocq Require Import Core.Core IEEE754.BinarySingleNaN.
From Verif Require Import FloatLemmas FloatConvProofs DurDistFloat.
From stdpp Require Import list.
From Verif Require Import DistModel DistSpec DistProofs DistThms DistApi DurDistSpec.

Lemma unit_ns_range u k : unit_ns u = Some k → (1 ≤ k ≤ 2 ^ 30)%Z.
Proof. unfold unit_ns. repeat case_match; intros [= <-]; lia. Qed.
Lemma bucket_of_spec ds ns : StronglySorted Z.le ds → ∀ j d, ds !! j = Some d → ((j < bucket_of ds ns)%nat ↔ (d ≤ ns)%Z).
Proof.
  unfold bucket_of. induction 1 as [|x l S IH F]; intros j d L; [done|]. rewrite filter_cons. destruct (decide (x ≤ ns)%Z) as [Le|N].
  - destruct j as [|j]; simpl in L |- *; [injection L as <-; split; [done|lia]|]. rewrite <- (IH j d L). lia.
  - assert (filter (λ d, (d ≤ ns)%Z) l = []) as E.
    { apply length_zero_iff_nil. destruct (filter _ l) as [|y k] eqn:Q; [done|exfalso]. assert (y ∈ filter (λ d, (d ≤ ns)%Z) l) as I by (rewrite Q; constructor).
      apply elem_of_list_filter in I as [I1 I2]. rewrite List.Forall_forall in F. specialize (F y ltac:(by apply elem_of_list_In)). lia. }
    rewrite E. simpl. split; [lia|]. destruct j as [|j]; simpl in L; [injection L as <-; lia|]. rewrite List.Forall_forall in F.
    specialize (F d ltac:(apply elem_of_list_In; by eapply elem_of_list_lookup_2)). lia.
Qed.
Lemma key_finite (x : float64) : is_finite x = true → f64_key x = B2R x.
Proof. by destruct x. Qed.
Section Buckets.
  Context (k : Z) (ds : list Z) (es : list num64) (K : (1 ≤ k ≤ 2 ^ 30)%Z) (So : StronglySorted Z.le ds) (E : endpoints_of k ds es) (Sm : Forall (λ d, Z.abs d < 2 ^ 52)%Z ds).
  Lemma ends_notNaN : Forall notNaN es.
  Proof using E. apply Forall_forall. intros e I. apply elem_of_list_lookup in I as [i L]. destruct (Forall2_lookup_r _ _ _ _ _ E L) as (d & _ & F & _). by apply fin_notnan. Qed.
  Lemma ends_ascending : ascending es.
  Proof using K So E.
    intros i j a b L A B. destruct (Forall2_lookup_r _ _ _ _ _ E A) as (x & X & Fa & Ea). destruct (Forall2_lookup_r _ _ _ _ _ E B) as (y & Y & Fb & Eb).
    unfold le_num. change (f64_lt b a = false). rewrite f64_lt_key by (by apply fin_notnan). rewrite !key_finite, Ea, Eb by done. apply Rlt_bool_false.
    apply round_le; [typeclasses eauto..|]. assert (1 <= IZR k)%R by (apply IZR_le; lia). apply Rmult_le_compat_r; [apply Rlt_le, Rinv_0_lt_compat; lra|]. apply IZR_le.
    assert (x ≤ y)%Z; [|done]. pose proof (bucket_of_spec ds y So) as Bs. apply (Bs i x X). enough (j < bucket_of ds y)%nat by lia. apply (Bs j y Y). lia.
  Qed.
  Lemma bucket_right ns : (Z.abs ns < 2 ^ 52)%Z → in_bucket es (bucket_of ds ns) (quotient ns k : num64) = true ∧ (bucket_of ds ns ≤ length es)%nat.
  Proof using K So E Sm.
    intros N. pose proof (Forall2_length _ _ _ E) as Len. split; [|rewrite <- Len; apply filter_length].
    assert (∀ i e, es !! i = Some e → nlt (quotient ns k : num64) e = negb (bool_decide (i < bucket_of ds ns)%nat)) as Cmp.
    { intros i e L. destruct (Forall2_lookup_r _ _ _ _ _ E L) as (d & Ld & F & Eq). change (f64_lt (quotient ns k) e = negb (bool_decide (i < bucket_of ds ns)%nat)).
      rewrite (quotient_lt ns d k e K N); [|exact (Forall_lookup_1 _ _ _ _ Sm Ld)|done|done]. pose proof (bucket_of_spec ds ns So i d Ld) as H.
      case_bool_decide as Q; simpl; [apply Z.ltb_ge; by apply H|apply Z.ltb_lt]. destruct (Z.lt_ge_cases ns d) as [|G]; [done|]. destruct Q. by apply H. }
    unfold in_bucket. apply andb_true_iff. split.
    - destruct (bucket_of ds ns) as [|j] eqn:B; [done|]. assert (is_Some (es !! j)) as [e Le].
      { apply lookup_lt_is_Some. rewrite <- Len. assert (bucket_of ds ns ≤ length ds)%nat by apply filter_length. lia. }
      rewrite Le, (Cmp j e Le), bool_decide_true by lia. done.
    - destruct (es !! bucket_of ds ns) as [e|] eqn:Le; [|done]. rewrite (Cmp _ e Le), bool_decide_false by lia. done.
  Qed.
End Buckets.
Lemma duration_value ps nc ts0 cs rs d u k ns : callsf cs (newDistributionWithTimeStamp ps nc ts0) = (rs, d) → first_unit cs = Some u → unit_ns u = Some k →
  valueToFloat d (DDuration ns) = inr (quotient ns k).
Proof.
  intros C U N. apply calls_new_unit in C. rewrite U in C. unfold unit_of in C. unfold valueToFloat, goDurationToFloat, unit_ns in *. destruct (d_unitSet d); [|done]. injection C as ->. simpl.
  destruct (String.eqb u USecond); [by injection N as <-|]. destruct (String.eqb u UMillisecond); [by injection N as <-|done].
Qed.
Lemma converted_length cs : ∀ u, (length (converted u cs) ≤ length cs)%nat.
Proof. induction cs as [|c cs IH]; intros u; [done|]. destruct c; simpl; repeat case_match; simpl; eauto using le_S, le_n_S. Qed.
Lemma duration_bucket u k ds es ps nc ts0 cs rs d ns ts : unit_ns u = Some k → StronglySorted Z.le ds → endpoints_of k ds es → Forall (λ x, Z.abs x < 2 ^ 52)%Z ds → newBucketerFromEndpoints es = Some ps →
  callsf cs (newDistributionWithTimeStamp ps nc ts0) = (rs, d) → first_unit cs = Some u → (N.of_nat (length cs) + 1 < 2 ^ 64)%N → (Z.abs ns < 2 ^ 52)%Z →
  ∃ d', AddWithTs (DDuration ns) ts d = (OK, d') ∧ d_counts d' = alter (N.add 1) (bucket_of ds ns) (d_counts d).
Proof.
  intros Un So E Sm B C U Len Ns. pose proof (unit_ns_range _ _ Un) as K. pose proof (ends_notNaN k ds es E) as Nn. pose proof (ends_ascending k ds es K So E) as As.
  destruct (quotient_small ns k Ns K) as [Fq _]. pose proof (converted_length cs None) as CL.
  destruct (add_bucket64 es ps nc ts0 (converted None cs) (quotient ns k) ts B As Nn) as (i & Li & Bi & Uniq & H); [by apply fin_notnan|lia|].
  destruct (bucket_right k ds es K So E Sm ns Ns) as [Br Lr]. specialize (Uniq _ Lr Br). subst i.
  unfold AddWithTs. rewrite (duration_value _ _ _ _ _ _ _ _ ns C U Un). eexists. split; [reflexivity|].
  pose proof (api_same cs (newDistributionWithTimeStamp ps nc ts0) (newDistributionWithTimeStamp ps nc ts0) eq_refl) as S1. rewrite C in S1. cbn [snd] in S1.
  change (unit_of (newDistributionWithTimeStamp ps nc ts0)) with (@None unit_t) in S1.
  pose proof (same_perform (Add (quotient ns k : num64) ts) _ _ S1) as S2. cbn [perform snd] in S2.
  fold (final (converted None cs ++ [Add (quotient ns k : num64) ts]) (newDistributionWithTimeStamp ps nc ts0)) in H. rewrite final_snoc in H. cbn [perform snd] in H. unfold final in H.
  unfold same_stats in S1, S2. apply (f_equal d_counts) in S1, S2. cbn [d_counts] in S1, S2. rewrite S2, S1. exact H.
Qed.
Lemma duration_as_float ps nc ts0 cs rs d u k ns : callsf cs (newDistributionWithTimeStamp ps nc ts0) = (rs, d) → first_unit cs = Some u → unit_ns u = Some k → (Z.abs ns ≤ 2 ^ 63)%Z →
  ∃ f : float64, is_finite f = true ∧ (Rabs (B2R f - IZR ns / IZR k) <= bpow radix2 (-51) * Rabs (IZR ns / IZR k))%R ∧
    (∀ ts, AddWithTs (DDuration ns) ts d = AddWithTs (DFloat64 f) ts d) ∧ (∀ ts, RemoveWithTs (DDuration ns) ts d = RemoveWithTs (DFloat64 f) ts d) ∧
    (∀ v ts, UpdateWithTs (DDuration ns) v ts d = UpdateWithTs (DFloat64 f) v ts d) ∧ (∀ v ts, UpdateWithTs v (DDuration ns) ts d = UpdateWithTs v (DFloat64 f) ts d).
Proof.
  intros C U Un N. pose proof (unit_ns_range _ _ Un) as K. exists (quotient ns k). pose proof (duration_value _ _ _ _ _ _ _ _ ns C U Un) as V.
  assert (valueToFloat d (DFloat64 (quotient ns k)) = inr (quotient ns k)) as W.
  { unfold valueToFloat in V |- *. destruct (negb (d_unitSet d)); done. }
  split; [by apply quotient_spec|]. split; [by apply quotient_close|]. unfold AddWithTs, RemoveWithTs, UpdateWithTs. rewrite V, W. split_and!; intros; by repeat case_match.
Qed.
