(** Property theorems C37-C44: distributions. *)
From Coq Require Import QArith Qminmax Lqa Lia.
From Verif Require Import GoBase GoVal UnitsModel DurationModel FloatBase.
From stdpp Require Import list.
From Verif Require Import DistModel DistSpec DistProofs DistThms DistQ DistApi.
From Flocq Require Import IEEE754.BinarySingleNaN.
Local Open Scope N_scope.

(** *** Concrete float64 histories *)
Definition fz (z : Z) : num64 := f64_of_Z z.
Definition q (x : Q) : numQ := x.
Definition tm (s : Z) : gotime := MkTime s 0.
Definition ex_es : list num64 := [fz 10; fz 20; fz 50].
(** a value below, on an end point, inside and above; then one moves, one leaves *)
Definition ex_h : list (op num64) := [Add (fz 3) (tm 1); Add (fz 10) (tm 2); Add (fz 15) (tm 3); Add (fz 70) (tm 4); Update (fz 3) (fz 20) (tm 5); Remove (fz 70) (tm 6)].
Definition ex_ps : list (piece num64) := match newBucketerFromEndpoints ex_es with Some ps => ps | None => [] end.
Lemma ex_bucketer : newBucketerFromEndpoints ex_es = Some ex_ps.
Proof. reflexivity. Qed.
Lemma ex_ascending : ascending ex_es.
Proof.
  intros i j a b L X Y. destruct i as [|[|[|i]]], j as [|[|[|j]]]; try lia; simpl in X, Y; try discriminate; injection X as <-; injection Y as <-; vm_compute; reflexivity.
Qed.
Lemma ex_notNaN : Forall notNaN ex_es.
Proof. repeat constructor. Qed.
Lemma ex_values : all_values notNaN ex_h.
Proof.
  intros o v Ho Hv. unfold ex_h in Ho. repeat (apply elem_of_cons in Ho as [->|Ho]; [cbn in Hv; repeat (apply elem_of_cons in Hv as [->|Hv]; [reflexivity|]); by apply elem_of_nil in Hv|]).
  by apply elem_of_nil in Ho.
Qed.
Lemma ex_present : present true ex_h [fz 20; fz 15; fz 10].
Proof.
  change ex_h with ([] ++ [Add (fz 3) (tm 1)] ++ [Add (fz 10) (tm 2)] ++ [Add (fz 15) (tm 3)] ++ [Add (fz 70) (tm 4)] ++ [Update (fz 3) (fz 20) (tm 5)] ++ [Remove (fz 70) (tm 6)]).
  rewrite !app_assoc. eapply (present_remove _ _ [fz 20; fz 70; fz 15; fz 10] _ (fz 70)); [|done| |by vm_compute].
  - eapply (present_update _ _ [fz 70; fz 15; fz 10; fz 3] _ (fz 3)); [|done| |by vm_compute].
    + do 4 constructor. constructor.
    + rewrite (Permutation_app_comm [fz 70; fz 15; fz 10] [fz 3] : [fz 70; fz 15; fz 10; fz 3] ≡ₚ _). done.
  - apply (Permutation_swap (fz 70) (fz 20)).
Qed.
Definition Z_of_f64 (f : num64) : Z := match (f : float64) with B754_finite s m e _ => (if s then -1 else 1) * (Zpos m * 2 ^ Z.max e 0 / 2 ^ Z.max (- e) 0) | _ => 0 end%Z.

(** C37 (float64).  The bucket that counts v is described by the end points alone. *)
Theorem c37_bucket : ∀ (es : list num64) ps nc ts0 h v ts, newBucketerFromEndpoints es = Some ps → ascending es → Forall notNaN es → notNaN v →
  N.of_nat (length h) + 1 < 2^64 → ∃ i, (i ≤ length es)%nat ∧ in_bucket es i v = true ∧ (∀ j, (j ≤ length es)%nat → in_bucket es j v = true → j = i) ∧
    d_counts (snd (performs (h ++ [Add v ts]) (newDistributionWithTimeStamp ps nc ts0))) =
    alter (N.add 1) i (d_counts (snd (performs h (newDistributionWithTimeStamp ps nc ts0)))).
Proof. exact add_bucket64. Qed.
(** the ranges that snapshots report for the buckets *)
Theorem c37_ranges : ∀ (es : list num64) ps, newBucketerFromEndpoints es = Some ps → length ps = S (length es) ∧
  ∀ i p, ps !! i = Some p → p_first p = bool_decide (i = 0%nat) ∧ p_last p = bool_decide (i = length es) ∧
    (p_first p = false → es !! (i - 1)%nat = Some (p_start p)) ∧ (p_last p = false → es !! i = Some (p_end p)).
Proof. exact reported_ranges. Qed.
Example c37_nonvacuous : ascending ex_es ∧ Forall notNaN ex_es ∧ in_bucket ex_es 1 (fz 10) = true ∧ in_bucket ex_es 0 (fz 10) = false ∧ in_bucket ex_es 3 f64_pinf = true.
Proof. split; [exact ex_ascending|]. split; [exact ex_notNaN|]. vm_compute. done. Qed.
Print Assumptions c37_bucket.
Print Assumptions c37_ranges.

(** C38 (float64) *)
Theorem c38_sum : ∀ (es : list num64) ps nc ts h rs d, newBucketerFromEndpoints es = Some ps → performs h (newDistributionWithTimeStamp ps nc ts) = (rs, d) →
  N.of_nat (length h) < 2^64 → no_bad_update h rs → ∃ s, Snapshot d = Some s ∧ s_count s = sumN (snd <$> s_breakdown s).
Proof. exact snapshot_sum. Qed.
Theorem c38_live : ∀ (es : list num64) ps nc ts h rs d l, newBucketerFromEndpoints es = Some ps → ascending es → Forall notNaN es → all_values notNaN h →
  present nc h l → performs h (newDistributionWithTimeStamp ps nc ts) = (rs, d) → N.of_nat (length h) < 2^64 →
  Forall (λ r, r = OK) rs ∧ ∃ s, Snapshot d = Some s ∧ s_count s = N.of_nat (length l) ∧ length (s_breakdown s) = S (length es) ∧
    ∀ i p c, s_breakdown s !! i = Some (p, c) → c = N.of_nat (length (filter (λ v, in_bucket es i v = true) l)).
Proof. exact snapshot_live. Qed.
Example c38_nonvacuous : present true ex_h [fz 20; fz 15; fz 10] ∧ all_values notNaN ex_h ∧
  option_map (λ s, (s_count s, snd <$> s_breakdown s)) (Snapshot (snd (performs ex_h (newDistributionWithTimeStamp ex_ps true (tm 0))))) = Some (3, [0; 2; 1; 0]).
Proof. split; [exact ex_present|]. split; [exact ex_values|]. vm_compute. reflexivity. Qed.
Print Assumptions c38_sum.
Print Assumptions c38_live.

(** C39 *)
Theorem c39_exact : ∀ (es : list numQ) ps nc ts h rs d l, newBucketerFromEndpoints es = Some ps → ascending es → present nc h l → l ≠ [] →
  performs h (newDistributionWithTimeStamp ps nc ts) = (rs, d) → N.of_nat (length h) + 1 < 2^64 →
  ∃ s, Snapshot d = Some s ∧ (Sum d == sumQ l)%Q ∧ (s_sum s == sumQ l)%Q ∧ (s_average s == sumQ l / inject_Z (Z.of_nat (length l)))%Q.
Proof. exact snapshot_sumQ. Qed.
Theorem c39_float : ∀ (es : list num64) ps nc ts h rs d, newBucketerFromEndpoints es = Some ps → performs h (newDistributionWithTimeStamp ps nc ts) = (rs, d) →
  N.of_nat (length h) < 2^64 → Sum d = total_of (succeeded h rs) ∧
  ∃ s, Snapshot d = Some s ∧ (s_count s ≠ 0 → s_sum s = total_of (succeeded h rs) ∧ s_average s = f64_div (total_of (succeeded h rs)) (f64_of_N (s_count s))).
Proof. exact snapshot_total64. Qed.
Example c39_nonvacuous : present (A := numQ) true ([] ++ [Add (q (1 # 10)) (tm 1)] ++ [Add (q (2 # 10)) (tm 2)]) [q (2 # 10); q (1 # 10)] ∧
  option_map (λ s : snapshot num64, (Z_of_f64 (s_sum s), Z_of_f64 (s_average s))) (Snapshot (snd (performs ex_h (newDistributionWithTimeStamp ex_ps true (tm 0))))) = Some (45, 15)%Z.
Proof. split; [|vm_compute; reflexivity]. rewrite app_assoc. constructor. constructor. constructor. Qed.
Print Assumptions c39_exact.
Print Assumptions c39_float.

(** C40 (float64) *)
Theorem c40_extremes : ∀ (es : list num64) ps nc ts h rs d, newBucketerFromEndpoints es = Some ps → all_values notNaN h →
  performs h (newDistributionWithTimeStamp ps nc ts) = (rs, d) → N.of_nat (length h) < 2^64 →
  ∃ s, Snapshot d = Some s ∧ (s_count s ≠ 0 → least (s_min s) (since_empty (succeeded h rs)) ∧ greatest (s_max s) (since_empty (succeeded h rs))).
Proof. exact snapshot_minmax. Qed.
(** a cumulative distribution is never empty again: all values ever added *)
Theorem c40_cumulative : ∀ (es : list num64) ps ts (vs : list (num64 * gotime)) rs d, newBucketerFromEndpoints es = Some ps → Forall (λ x, notNaN (fst x)) vs → vs ≠ [] →
  performs ((λ x, Add (fst x) (snd x)) <$> vs) (newDistributionWithTimeStamp ps false ts) = (rs, d) → N.of_nat (length vs) < 2^64 →
  ∃ s, Snapshot d = Some s ∧ least (s_min s) (fst <$> vs) ∧ greatest (s_max s) (fst <$> vs).
Proof. exact snapshot_minmax_cumulative. Qed.
Example c40_nonvacuous : all_values notNaN ex_h ∧
  option_map (λ s, (Z_of_f64 (s_min s), Z_of_f64 (s_max s))) (Snapshot (snd (performs ex_h (newDistributionWithTimeStamp ex_ps true (tm 0))))) = Some (3, 70)%Z ∧
  since_empty ex_h = [fz 20; fz 70; fz 15; fz 10; fz 3].
Proof. split; [exact ex_values|]. split; [vm_compute; reflexivity|reflexivity]. Qed.
Print Assumptions c40_extremes.
Print Assumptions c40_cumulative.

(** C41.  In exact arithmetic; [srt] are the values present in ascending order. *)
Theorem c41_exact_partial : ∀ (es : list numQ) ps nc ts h rs d l srt, newBucketerFromEndpoints es = Some ps → ascending es → present nc h l → l ≠ [] →
  performs h (newDistributionWithTimeStamp ps nc ts) = (rs, d) → N.of_nat (length h) + 1 < 2^64 → srt ≡ₚ l → ascending srt →
  ∃ s, Snapshot d = Some s ∧ (s_min s <= s_median s <= s_max s)%Q ∧
    ((length l > 2)%nat → Nat.odd (length l) = true → ∀ x i, srt !! (length l / 2)%nat = Some x → (i ≤ length es)%nat → in_bucket es i x = true →
       in_closed_bucket es i (s_median s)) ∧
    ((length l > 2)%nat → Nat.odd (length l) = false → ∃ a b : Q, (s_median s == (a + b) / 2)%Q ∧
       (∀ x i, srt !! (length l / 2 - 1)%nat = Some x → (i ≤ length es)%nat → in_bucket es i x = true → in_closed_bucket es i a) ∧
       (∀ x i, srt !! (length l / 2)%nat = Some x → (i ≤ length es)%nat → in_bucket es i x = true → in_closed_bucket es i b)).
Proof. exact snapshot_medianQ. Qed.
(** For float64, after every history, also with panicking calls: Snapshot does not run past the buckets *)
Theorem c41_never_past_partial : ∀ (es : list num64) ps nc ts h rs d, newBucketerFromEndpoints es = Some ps →
  performs h (newDistributionWithTimeStamp ps nc ts) = (rs, d) → N.of_nat (length h) < 2^64 → ∃ s, Snapshot d = Some s.
Proof. exact snapshot_total. Qed.
(** but in float64 the median can exceed the greatest value: 0.9 added four times to a cumulative distribution *)
Definition point9 : num64 := f64_lit 8106479329266893 (-53).
Theorem c41_refuted :
  option_map (λ s, nlt (s_max s) (s_median s)) (Snapshot (snd (performs (replicate 4 (Add point9 (tm 1))) (newDistributionWithTimeStamp ex_ps false (tm 0))))) = Some true.
Proof. vm_compute. reflexivity. Qed.
Example c41_nonvacuous : ∃ l srt, present (A := numQ) false ([] ++ [Add (q (7 # 1)) (tm 1)] ++ [Add (q (2 # 1)) (tm 2)] ++ [Add (q (30 # 1)) (tm 2)]) l ∧ srt ≡ₚ l ∧ ascending srt ∧ srt !! 1%nat = Some (q (7 # 1)).
Proof.
  exists [(q (30 # 1)); (q (2 # 1)); (q (7 # 1))], [(q (2 # 1)); (q (7 # 1)); (q (30 # 1))]. rewrite !app_assoc. split_and!; [do 3 constructor; constructor| | |done].
  - apply (Permutation_app_comm [(q (2 # 1)); (q (7 # 1))] [(q (30 # 1))]).
  - intros i j a b L X Y. destruct i as [|[|[|i]]], j as [|[|[|j]]]; try lia; simpl in X, Y; try discriminate; injection X as <-; injection Y as <-; reflexivity.
Qed.
Print Assumptions c41_exact_partial.
Print Assumptions c41_never_past_partial.
Print Assumptions c41_refuted.

(** C42.  True while the distribution is not empty... *)
Theorem c42_generation_partial : ∀ (es : list num64) ps nc ts h rs d, newBucketerFromEndpoints es = Some ps →
  performs h (newDistributionWithTimeStamp ps nc ts) = (rs, d) → N.of_nat (length h) < 2^64 →
  ∃ s, Snapshot d = Some s ∧ (s_count s ≠ 0 → s_generation s = N.of_nat (length (succeeded h rs))).
Proof. exact snapshot_generation. Qed.
(** ... but an empty distribution reports 0 whatever happened before *)
Theorem c42_refuted :
  fst (performs [Add (fz 1) (tm 1); Remove (fz 1) (tm 2)] (newDistributionWithTimeStamp ex_ps true (tm 0))) = [OK; OK] ∧
  option_map s_generation (Snapshot (snd (performs [Add (fz 1) (tm 1)] (newDistributionWithTimeStamp ex_ps true (tm 0))))) = Some 1 ∧
  option_map s_generation (Snapshot (snd (performs [Add (fz 1) (tm 1); Remove (fz 1) (tm 2)] (newDistributionWithTimeStamp ex_ps true (tm 0))))) = Some 0.
Proof. split_and!; vm_compute; reflexivity. Qed.
Example c42_nonvacuous : option_map s_generation (Snapshot (snd (performs ex_h (newDistributionWithTimeStamp ex_ps true (tm 0))))) = Some 6.
Proof. vm_compute. reflexivity. Qed.
Print Assumptions c42_generation_partial.
Print Assumptions c42_refuted.

(** C43.  [calls] are registrations and other calls, in any order. *)
Theorem c43_registration : ∀ ps nc ts calls rs d u, callsf calls (newDistributionWithTimeStamp ps nc ts) = (rs, d) →
  newValueForDist u d = (match first_unit calls with None => true | Some u0 => String.eqb u u0 end, snd (newValueForDist u d)) ∧
  (d_unitSet d = true → first_unit calls = Some (d_unit d)) ∧ (d_unitSet d = false → first_unit calls = None) ∧
  d_unit (snd (newValueForDist u d)) = match first_unit calls with None => u | Some u0 => u0 end.
Proof. exact registration. Qed.
Theorem c43_add : ∀ ps nc ts calls rs d v t, callsf calls (newDistributionWithTimeStamp ps nc ts) = (rs, d) →
  (fst (AddWithTs v t d) = OK ↔ accepted (first_unit calls) v).
Proof. exact add_panics. Qed.
(** Update and Remove panic likewise, and otherwise do what they do with the converted numbers *)
Theorem c43_update_remove : ∀ ps nc ts calls rs d o v t, callsf calls (newDistributionWithTimeStamp ps nc ts) = (rs, d) →
  (¬ (accepted (first_unit calls) o ∧ accepted (first_unit calls) v) → ∃ e, UpdateWithTs o v t d = (PANIC e, d)) ∧
  (¬ accepted (first_unit calls) v → ∃ e, RemoveWithTs v t d = (PANIC e, d)) ∧
  (accepted (first_unit calls) o ∧ accepted (first_unit calls) v → ∃ fo fv, UpdateWithTs o v t d = update (A := num64) fo fv t d) ∧
  (accepted (first_unit calls) v → ∃ fv, RemoveWithTs v t d = remove (A := num64) fv t d).
Proof. exact update_remove_panics. Qed.
(** The exported methods do to the statistics what add, update and remove do with the converted numbers: C37-C42 apply to them. *)
Theorem c43_api : ∀ ps nc ts calls rs d, callsf calls (newDistributionWithTimeStamp ps nc ts) = (rs, d) →
  Snapshot d = Snapshot (snd (performs (converted None calls) (newDistributionWithTimeStamp ps nc ts))).
Proof. exact api_snapshot. Qed.
Example c43_nonvacuous :
  fst (callsf [CAdd (DFloat64 (fz 3)) (tm 1); CSetUnit UMillisecond; CAdd (DDuration 3000000) (tm 2); CSetUnit USecond; CSetUnit UMillisecond; CAdd DOther (tm 3)]
    (newDistributionWithTimeStamp ex_ps false (tm 0))) =
  [inl (PANIC panicNoAssignedUnit); inr true; inl OK; inr false; inr true; inl (PANIC panicTypeMismatch)].
Proof. vm_compute. reflexivity. Qed.
Print Assumptions c43_registration.
Print Assumptions c43_add.
Print Assumptions c43_update_remove.
Print Assumptions c43_api.

(** C44.  Every panic except "Value does not exist" leaves everything as it was; that one changes the time stamp, and
    for Update also one bucket count. *)
Theorem c44_unchanged_partial : ∀ (d d' : dist num64) o e, perform o d = (PANIC e, d') → e ≠ panicBadValue → d' = d.
Proof. exact panic_unchanged. Qed.
Theorem c44_api_partial : ∀ (d d' : dist num64) c e, callf c d = (inl (PANIC e), d') → e ≠ panicBadValue → d' = d.
Proof. exact api_panic_unchanged. Qed.
Theorem c44_remove_partial : ∀ (d d' : dist num64) v ts, perform (Remove v ts) d = (PANIC panicBadValue, d') → d' = set_ts ts d.
Proof. exact remove_bad_value. Qed.
Theorem c44_update_partial : ∀ (d d' : dist num64) o v ts, perform (Update o v ts) d = (PANIC panicBadValue, d') →
  d' = set_counts (alter (λ c, uwrap64 (c + 1)) (findDistributionIndex (d_pieces d) v) (d_counts d)) (set_ts ts d).
Proof. exact update_bad_value. Qed.
Definition ex_one (nc : bool) : dist num64 := snd (performs [Add (fz 1) (tm 1)] (newDistributionWithTimeStamp ex_ps nc (tm 0))).
Theorem c44_refuted :
  fst (perform (Update (fz 30) (fz 3) (tm 9)) (ex_one true)) = PANIC panicBadValue ∧
  option_map (λ s, (s_count s, snd <$> s_breakdown s, s_ts s)) (Snapshot (ex_one true)) = Some (1, [1; 0; 0; 0], tm 1) ∧
  option_map (λ s, (s_count s, snd <$> s_breakdown s, s_ts s)) (Snapshot (snd (perform (Update (fz 30) (fz 3) (tm 9)) (ex_one true)))) = Some (1, [2; 0; 0; 0], tm 9).
Proof. split_and!; vm_compute; reflexivity. Qed.
Example c44_nonvacuous : ∃ e, fst (perform (Update (fz 1) (fz 3) (tm 9)) (ex_one false)) = PANIC e ∧ e ≠ panicBadValue.
Proof. eexists. split; [vm_compute; reflexivity|done]. Qed.
Print Assumptions c44_unchanged_partial.
Print Assumptions c44_api_partial.
Print Assumptions c44_remove_partial.
Print Assumptions c44_update_partial.
Print Assumptions c44_refuted.
