(** The exported methods of distributions, and statements about snapshots derived from DistThms.v and DistQ.v. *)
From Coq Require Import QArith Qminmax Lqa Lia.
From Verif Require Import GoBase GoVal UnitsModel DurationModel FloatBase.
From stdpp Require Import list.
From Verif Require Import DistModel DistSpec DistProofs DistThms DistQ.
From Flocq Require Import IEEE754.BinarySingleNaN.
Local Open Scope N_scope.

Definition unit_of (d : dist num64) : option unit_t := if d_unitSet d then Some (d_unit d) else None.
Lemma valueToFloat_number d v : match valueToFloat d v with inl _ => to_number (unit_of d) v = None | inr f => to_number (unit_of d) v = Some f end.
Proof.
  unfold valueToFloat, to_number, unit_of, goDurationToFloat. destruct (d_unitSet d); cbn [negb]; [|by destruct v].
  destruct v; try done. destruct (String.eqb (d_unit d) USecond); [done|]. by destruct (String.eqb (d_unit d) UMillisecond).
Qed.
Lemma accepted_number u v : accepted u v ↔ is_Some (to_number u v).
Proof.
  unfold accepted, to_number. destruct u as [u|], v; split; try done; try (by intros [? [=]]); try (by eauto).
  - intros [->| ->]; [by rewrite String.eqb_refl; eauto|]. change (String.eqb UMillisecond USecond) with false. rewrite String.eqb_refl. by eauto.
  - intros [f H]. destruct (String.eqb_spec u USecond); [auto|]. destruct (String.eqb_spec u UMillisecond); [auto|done].
Qed.
Lemma unit_frame (d d' : dist num64) : frame d d' → unit_of d' = unit_of d.
Proof. unfold unit_of. by intros (_ & _ & -> & ->). Qed.
Lemma call_unit c d : unit_of (snd (callf c d)) = match c with CSetUnit u => Some (default u (unit_of d)) | _ => unit_of d end.
Proof.
  destruct c as [u|v t|o v t|v t]; simpl.
  - unfold newValueForDist, SetUnit, unit_of. destruct (d_unitSet d) eqn:E; simpl; by rewrite ?E.
  - unfold AddWithTs. destruct (valueToFloat d v) as [|f]; [done|]. apply unit_frame, (perform_frame (A := num64) (Add (A := num64) f t) d).
  - unfold UpdateWithTs. destruct (valueToFloat d o) as [|fo]; [done|]. destruct (valueToFloat d v) as [|fv]; [done|]. pose proof (perform_frame (A := num64) (Update (A := num64) fo fv t) d) as F. simpl in F.
    destruct (update _ _ _ _) as [r d']. by apply unit_frame.
  - unfold RemoveWithTs. destruct (valueToFloat d v) as [|f]; [done|]. pose proof (perform_frame (A := num64) (Remove (A := num64) f t) d) as F. simpl in F.
    destruct (remove _ _ _) as [r d']. by apply unit_frame.
Qed.
Lemma calls_unit cs d : unit_of (snd (callsf cs d)) = match unit_of d with None => first_unit cs | Some u => Some u end.
Proof.
  revert d. induction cs as [|c cs IH]; intros d; simpl; [by destruct (unit_of d)|].
  pose proof (call_unit c d) as C. destruct (callf c d) as [r d1]. specialize (IH d1). destruct (callsf cs d1) as [rs d2]. simpl in *. rewrite IH, C.
  destruct c, (unit_of d); done.
Qed.
Lemma calls_new_unit ps nc ts cs rs d : callsf cs (newDistributionWithTimeStamp ps nc ts) = (rs, d) → unit_of d = first_unit cs.
Proof. intros E. pose proof (calls_unit cs (newDistributionWithTimeStamp ps nc ts)) as H. by rewrite E in H. Qed.
Lemma registration ps nc ts calls rs d u : callsf calls (newDistributionWithTimeStamp ps nc ts) = (rs, d) →
  newValueForDist u d = (match first_unit calls with None => true | Some u0 => String.eqb u u0 end, snd (newValueForDist u d)) ∧
  (d_unitSet d = true → first_unit calls = Some (d_unit d)) ∧ (d_unitSet d = false → first_unit calls = None) ∧
  d_unit (snd (newValueForDist u d)) = match first_unit calls with None => u | Some u0 => u0 end.
Proof.
  intros E. apply calls_new_unit in E. rewrite <- E. unfold unit_of, newValueForDist, SetUnit. destruct (d_unitSet d); by split_and!.
Qed.
Lemma add_panics ps nc ts calls rs d v t : callsf calls (newDistributionWithTimeStamp ps nc ts) = (rs, d) →
  (fst (AddWithTs v t d) = OK ↔ accepted (first_unit calls) v).
Proof.
  intros E. apply calls_new_unit in E. rewrite accepted_number, <- E. pose proof (valueToFloat_number d v) as H. unfold AddWithTs.
  destruct (valueToFloat d v); rewrite H; cbn [fst]; split; try done; try (by intros [? ?]); by eauto.
Qed.
Lemma update_remove_panics ps nc ts calls rs d o v t : callsf calls (newDistributionWithTimeStamp ps nc ts) = (rs, d) →
  (¬ (accepted (first_unit calls) o ∧ accepted (first_unit calls) v) → ∃ e, UpdateWithTs o v t d = (PANIC e, d)) ∧
  (¬ accepted (first_unit calls) v → ∃ e, RemoveWithTs v t d = (PANIC e, d)) ∧
  (accepted (first_unit calls) o ∧ accepted (first_unit calls) v → ∃ fo fv, UpdateWithTs o v t d = update (A := num64) fo fv t d) ∧
  (accepted (first_unit calls) v → ∃ fv, RemoveWithTs v t d = remove (A := num64) fv t d).
Proof.
  intros E. apply calls_new_unit in E. rewrite !accepted_number, <- E. pose proof (valueToFloat_number d v) as H. pose proof (valueToFloat_number d o) as H'. unfold UpdateWithTs, RemoveWithTs.
  destruct (valueToFloat d o); rewrite H'; destruct (valueToFloat d v); rewrite H; split_and!; eauto; try (by intros [? ?]); try (by intros [[? ?] [? ?]]); intros []; eauto.
Qed.
(** the statistics do not depend on the unit *)
Definition same_stats (d d' : dist num64) : Prop :=
  d' = MkDistr (d_pieces d) (d_notcum d) (d_unit d') (d_unitSet d') (d_counts d) (d_total d) (d_min d) (d_max d) (d_count d) (d_gen d) (d_ts d).
Lemma same_snapshot d d' : same_stats d d' → Snapshot d' = Snapshot d.
Proof. intros ->. reflexivity. Qed.
Lemma same_perform o d d' : same_stats d d' → same_stats (snd (perform o d)) (snd (perform o d')).
Proof.
  unfold same_stats. intros H. destruct d', d; simpl in H; injection H as -> -> -> -> -> -> -> -> ->. destruct o; simpl.
  - unfold add; simpl. repeat case_match; reflexivity.
  - unfold update; simpl. repeat case_match; simpl; repeat case_match; reflexivity.
  - unfold remove; simpl. repeat case_match; reflexivity.
Qed.
Lemma api_same cs : ∀ d d', same_stats d d' → same_stats (snd (performs (converted (unit_of d') cs) d)) (snd (callsf cs d')).
Proof.
  induction cs as [|c cs IH]; intros d d' S; [done|]. pose proof (call_unit c d') as U. simpl callsf. destruct (callf c d') as [r d1] eqn:E. simpl in U.
  assert (∀ d0, same_stats d0 d1 → same_stats (snd (performs (converted (unit_of d1) cs) d0)) (snd (let '(rs, d2) := callsf cs d1 in (r :: rs, d2)))) as IH'.
  { intros d0 S0. specialize (IH d0 d1 S0). by destruct (callsf cs d1). }
  assert (∀ o d0, performs (o :: converted (unit_of d1) cs) d0 = (fst (perform o d0) :: fst (performs (converted (unit_of d1) cs) (snd (perform o d0))), snd (performs (converted (unit_of d1) cs) (snd (perform o d0))))) as PC.
  { intros o d0. simpl. destruct (perform o d0) as [r0 d0']. simpl. by destruct (performs (converted (unit_of d1) cs) d0'). }
  destruct c as [u|v t|o v t|v t]; simpl converted; simpl in E.
  - replace (match unit_of d' with Some _ => unit_of d' | None => Some u end) with (unit_of d1) by (rewrite U; by destruct (unit_of d')).
    apply IH'. revert E. unfold newValueForDist, SetUnit. destruct (negb (d_unitSet d')); cbv beta iota; intros E; [injection E as _ <-|injection E as _ <-; done]. rewrite S. reflexivity.
  - rewrite <- U. pose proof (valueToFloat_number d' v) as N. rewrite <- U in N. unfold AddWithTs in E. destruct (valueToFloat d' v); rewrite N.
    + injection E as <- <-. auto.
    + injection E as <- <-. rewrite PC. apply IH'. apply (same_perform (Add (A := num64) _ t) d d' S).
  - rewrite <- U. pose proof (valueToFloat_number d' o) as N1. pose proof (valueToFloat_number d' v) as N2. rewrite <- U in N1, N2. unfold UpdateWithTs in E.
    destruct (valueToFloat d' o) as [|fo]; rewrite N1; [injection E as <- <-; auto|]. destruct (valueToFloat d' v) as [|fv]; rewrite N2; [injection E as <- <-; auto|].
    rewrite PC. apply IH'. pose proof (same_perform (Update (A := num64) fo fv t) d d' S) as SP. simpl in SP. destruct (update _ _ _ d') as [r' d''] eqn:E2. injection E as <- <-. done.
  - rewrite <- U. pose proof (valueToFloat_number d' v) as N. rewrite <- U in N. unfold RemoveWithTs in E. destruct (valueToFloat d' v) as [|fv]; rewrite N; [injection E as <- <-; auto|].
    rewrite PC. apply IH'. pose proof (same_perform (Remove (A := num64) fv t) d d' S) as SP. simpl in SP. destruct (remove _ _ d') as [r' d''] eqn:E2. injection E as <- <-. done.
Qed.
Lemma api_snapshot ps nc ts calls rs d : callsf calls (newDistributionWithTimeStamp ps nc ts) = (rs, d) →
  Snapshot d = Snapshot (snd (performs (converted None calls) (newDistributionWithTimeStamp ps nc ts))).
Proof.
  intros E. pose proof (api_same calls (newDistributionWithTimeStamp ps nc ts) (newDistributionWithTimeStamp ps nc ts) eq_refl) as S. rewrite E in S.
  by apply same_snapshot.
Qed.

(** *** Panics *)
Lemma panic_unchanged (d d' : dist num64) o e : perform o d = (PANIC e, d') → e ≠ panicBadValue → d' = d.
Proof. destruct o; simpl; [done|unfold update|unfold remove]; repeat case_match; intros [= <- <-] N; done. Qed.
Lemma api_panic_unchanged (d d' : dist num64) c e : callf c d = (inl (PANIC e), d') → e ≠ panicBadValue → d' = d.
Proof.
  destruct c as [u|v t|o v t|v t]; simpl.
  - by destruct (newValueForDist u d).
  - unfold AddWithTs. destruct (valueToFloat d v); by intros [= ].
  - unfold UpdateWithTs. destruct (valueToFloat d o); [by intros [= ]|]. destruct (valueToFloat d v); [by intros [= ]|]. destruct (update _ _ _ d) as [r d1] eqn:E. intros [= -> <-].
    exact (panic_unchanged d d1 (Update (A := num64) f f0 t) e E).
  - unfold RemoveWithTs. destruct (valueToFloat d v); [by intros [= ]|]. destruct (remove _ _ d) as [r d1] eqn:E. intros [= -> <-].
    exact (panic_unchanged d d1 (Remove (A := num64) f t) e E).
Qed.
Lemma remove_bad_value (d d' : dist num64) v ts : perform (Remove v ts) d = (PANIC panicBadValue, d') → d' = set_ts ts d.
Proof. simpl. unfold remove. repeat case_match; by intros [= <-]. Qed.
Lemma update_bad_value (d d' : dist num64) o v ts : perform (Update o v ts) d = (PANIC panicBadValue, d') →
  d' = set_counts (alter (λ c, uwrap64 (c + 1)) (findDistributionIndex (d_pieces d) v) (d_counts d)) (set_ts ts d).
Proof. simpl. unfold update. repeat case_match; by intros [= <-]. Qed.

(** *** Snapshots *)
Lemma performs_final {A : num} (h : list (op A)) d rs d' : performs h d = (rs, d') → rs = outcomes h d ∧ d' = final h d.
Proof. unfold outcomes, final. by intros ->. Qed.
Lemma add_bucket64 (es : list num64) ps nc ts0 h v ts : newBucketerFromEndpoints es = Some ps → ascending es → Forall notNaN es → notNaN v →
  N.of_nat (length h) + 1 < 2^64 → ∃ i, (i ≤ length es)%nat ∧ in_bucket es i v = true ∧ (∀ j, (j ≤ length es)%nat → in_bucket es j v = true → j = i) ∧
    d_counts (snd (performs (h ++ [Add v ts]) (newDistributionWithTimeStamp ps nc ts0))) =
    alter (N.add 1) i (d_counts (snd (performs h (newDistributionWithTimeStamp ps nc ts0)))).
Proof.
  intros B As Ok V L. destruct (find_bucket ordered64 es ps v B As Ok V) as [F1 F2]. exists (findDistributionIndex ps v). split_and!; [done|done| |].
  - intros j Lj Bj. by apply (bucket_unique ordered64 es j (findDistributionIndex ps v) v).
  - fold (final (h ++ [Add v ts]) (newDistributionWithTimeStamp ps nc ts0)). fold (final h (newDistributionWithTimeStamp ps nc ts0)). rewrite final_snoc.
    pose proof (hist_inv es ps nc ts0 h B ltac:(lia)) as I. destruct (hist_frame ps nc ts0 h) as [Fp _]. set (d := final h _) in *. cbn [perform snd].
    destruct (add_fields v ts d _ I L) as (H & _). rewrite H, Fp. unfold incr. apply list_eq. intros j. destruct (decide (j = findDistributionIndex ps v)) as [->|N].
    + rewrite !list_lookup_alter. destruct (d_counts d !! findDistributionIndex ps v) as [c|] eqn:C; [|done]. simpl. f_equal.
      pose proof (sumN_lookup _ _ _ C). destruct I. rewrite uwrap_small; lia.
    + by rewrite !list_lookup_alter_ne.
Qed.
Lemma reported_ranges (es : list num64) ps : newBucketerFromEndpoints es = Some ps → length ps = S (length es) ∧
  ∀ i p, ps !! i = Some p → p_first p = bool_decide (i = 0%nat) ∧ p_last p = bool_decide (i = length es) ∧
    (p_first p = false → es !! (i - 1)%nat = Some (p_start p)) ∧ (p_last p = false → es !! i = Some (p_end p)).
Proof.
  intros B. pose proof (bucketer_length es ps B) as Lp. split; [done|]. intros i p P. pose proof (lookup_lt_Some _ _ _ P) as Li.
  destruct (bucketer_lookup es ps i p B P) as (H1 & H2 & H3 & H4). split_and!; [done|done| |].
  - rewrite H3. intros N. apply bool_decide_eq_false in N. destruct i as [|i]; [done|]. assert (is_Some (es !! i)) as [e E] by (apply lookup_lt_is_Some; lia).
    rewrite Nat.sub_succ, Nat.sub_0_r, E. by rewrite (H2 i e).
  - rewrite H4. intros N. apply bool_decide_eq_false in N. assert (is_Some (es !! i)) as [e E] by (apply lookup_lt_is_Some; lia). rewrite E. by rewrite (H1 e).
Qed.
Lemma zip_snd {X Y} (l : list X) (k : list Y) : length l = length k → snd <$> zip l k = k.
Proof. revert k. induction l as [|x l IH]; intros [|y k] H; try done. simpl in *. f_equal. apply IH. lia. Qed.
Section Snap.
  Context {A : num} (es : list A) (ps : list (piece A)) (nc : bool) (ts : gotime) (h : list (op A)) (rs : list outcome) (d : dist A).
  Context (B : newBucketerFromEndpoints es = Some ps) (E : performs h (newDistributionWithTimeStamp ps nc ts) = (rs, d)) (L : N.of_nat (length h) < 2^64).
  Lemma snap : ∃ s, Snapshot d = Some s.
  Proof using All.
    apply performs_final in E as [_ ->]. destruct (snapshot_some _ _ (hist_inv es ps nc ts h B L) L) as [s S]. eauto.
  Qed.
  Lemma snap_breakdown s : Snapshot d = Some s → s_breakdown s = zip ps (d_counts d) ∧ length (d_counts d) = length ps.
  Proof using All.
    intros S. destruct (snapshot_fields d s S) as (_ & H & _). apply performs_final in E as [_ ->]. destruct (hist_frame ps nc ts h) as [Fp _].
    pose proof (inv_len _ _ (hist_inv es ps nc ts h B L)) as Le. rewrite Fp in *. done.
  Qed.
  Lemma snap_generation : ∃ s, Snapshot d = Some s ∧ (s_count s ≠ 0 → s_generation s = N.of_nat (length (succeeded h rs))).
  Proof using All.
    destruct snap as [s S]. exists s. split; [done|]. destruct (snapshot_fields d s S) as (H1 & _ & _ & H). rewrite H1. intros N. destruct (H N) as (_&_&_&_&G&_).
    rewrite G. apply performs_final in E as [-> ->]. by eapply gen_succeeded.
  Qed.
  Lemma snap_total : Sum d = total_of (succeeded h rs) ∧ ∃ s, Snapshot d = Some s ∧ (s_count s ≠ 0 → s_sum s = total_of (succeeded h rs) ∧ s_average s = ndiv (total_of (succeeded h rs)) (nofN (s_count s))).
  Proof using All.
    assert (d_total d = total_of (succeeded h rs)) as T by (apply performs_final in E as [-> ->]; by eapply total_succeeded).
    split; [exact T|]. destruct snap as [s S]. exists s. split; [done|]. destruct (snapshot_fields d s S) as (H1 & _ & _ & H). rewrite H1. intros N. destruct (H N) as (_&_&U1&U2&_). rewrite U1, U2, T. done.
  Qed.
  Lemma snap_sum : no_bad_update h rs → ∃ s, Snapshot d = Some s ∧ s_count s = sumN (snd <$> s_breakdown s).
  Proof using All.
    intros NB. destruct snap as [s S]. exists s. split; [done|]. destruct (snap_breakdown s S) as [Bd Le]. rewrite Bd, zip_snd by done.
    destruct (snapshot_fields d s S) as (H1 & _). rewrite H1. apply performs_final in E as [-> ->]. symmetry. by eapply counts_sum.
  Qed.
  Lemma snap_minmax n_ok : ordered A n_ok → all_values n_ok h →
    ∃ s, Snapshot d = Some s ∧ (s_count s ≠ 0 → least (s_min s) (since_empty (succeeded h rs)) ∧ greatest (s_max s) (since_empty (succeeded h rs))).
  Proof using All.
    intros Ord V. destruct snap as [s S]. exists s. split; [done|]. destruct (snapshot_fields d s S) as (H1 & _ & _ & H). rewrite H1. intros N. destruct (H N) as (-> & -> & _).
    apply performs_final in E as [-> ->]. destruct (minmax_state Ord es ps nc ts h B V L) as (_ & _ & M & _). auto.
  Qed.
  Lemma snap_live n_ok l : ordered A n_ok → ascending es → Forall n_ok es → all_values n_ok h → present nc h l →
    Forall (λ r, r = OK) rs ∧ ∃ s, Snapshot d = Some s ∧ s_count s = N.of_nat (length l) ∧ length (s_breakdown s) = S (length es) ∧
      ∀ i p c, s_breakdown s !! i = Some (p, c) → c = N.of_nat (length (filter (λ v, in_bucket es i v = true) l)).
  Proof using All.
    intros Ord As Ok V P. destruct snap as [s S]. pose proof (snap_breakdown s S) as [Bd Le]. destruct (snapshot_fields d s S) as (H1 & _).
    apply performs_final in E as [-> ->]. destruct (present_state Ord es ps nc ts h l B As Ok V P L) as (P1 & P2 & P3). split; [done|].
    pose proof (bucketer_length es ps B) as Lp. exists s. split_and!; [done|congruence| |].
    - rewrite Bd, zip_with_length, Le, Lp. lia.
    - intros i p c H. rewrite Bd in H. apply lookup_zip_with_Some in H as (p' & c' & [= -> ->] & Hp & Hc). apply lookup_lt_Some in Hp. rewrite P3 in Hc by lia. by injection Hc as <-.
  Qed.
End Snap.
Lemma snapshot_total (es : list num64) ps nc ts h rs d : newBucketerFromEndpoints es = Some ps →
  performs h (newDistributionWithTimeStamp ps nc ts) = (rs, d) → N.of_nat (length h) < 2^64 → ∃ s, Snapshot d = Some s.
Proof. apply snap. Qed.
Lemma snapshot_generation (es : list num64) ps nc ts h rs d : newBucketerFromEndpoints es = Some ps →
  performs h (newDistributionWithTimeStamp ps nc ts) = (rs, d) → N.of_nat (length h) < 2^64 →
  ∃ s, Snapshot d = Some s ∧ (s_count s ≠ 0 → s_generation s = N.of_nat (length (succeeded h rs))).
Proof. apply snap_generation. Qed.
Lemma snapshot_total64 (es : list num64) ps nc ts h rs d : newBucketerFromEndpoints es = Some ps → performs h (newDistributionWithTimeStamp ps nc ts) = (rs, d) →
  N.of_nat (length h) < 2^64 → Sum d = total_of (succeeded h rs) ∧
  ∃ s, Snapshot d = Some s ∧ (s_count s ≠ 0 → s_sum s = total_of (succeeded h rs) ∧ s_average s = f64_div (total_of (succeeded h rs)) (f64_of_N (s_count s))).
Proof. exact (snap_total (A := num64) es ps nc ts h rs d). Qed.
Lemma snapshot_sum (es : list num64) ps nc ts h rs d : newBucketerFromEndpoints es = Some ps → performs h (newDistributionWithTimeStamp ps nc ts) = (rs, d) →
  N.of_nat (length h) < 2^64 → no_bad_update h rs → ∃ s, Snapshot d = Some s ∧ s_count s = sumN (snd <$> s_breakdown s).
Proof. apply snap_sum. Qed.
Lemma snapshot_live (es : list num64) ps nc ts h rs d l : newBucketerFromEndpoints es = Some ps → ascending es → Forall notNaN es → all_values notNaN h →
  present nc h l → performs h (newDistributionWithTimeStamp ps nc ts) = (rs, d) → N.of_nat (length h) < 2^64 →
  Forall (λ r, r = OK) rs ∧ ∃ s, Snapshot d = Some s ∧ s_count s = N.of_nat (length l) ∧ length (s_breakdown s) = S (length es) ∧
    ∀ i p c, s_breakdown s !! i = Some (p, c) → c = N.of_nat (length (filter (λ v, in_bucket es i v = true) l)).
Proof. intros B As Ok V P E L. by apply (snap_live es ps nc ts h rs d B E L notNaN l ordered64). Qed.
Lemma snapshot_minmax (es : list num64) ps nc ts h rs d : newBucketerFromEndpoints es = Some ps → all_values notNaN h →
  performs h (newDistributionWithTimeStamp ps nc ts) = (rs, d) → N.of_nat (length h) < 2^64 →
  ∃ s, Snapshot d = Some s ∧ (s_count s ≠ 0 → least (s_min s) (since_empty (succeeded h rs)) ∧ greatest (s_max s) (since_empty (succeeded h rs))).
Proof. intros B V E L. by apply (snap_minmax es ps nc ts h rs d B E L notNaN ordered64). Qed.
Lemma adds_outcomes {A : num} (vs : list (A * gotime)) d : outcomes ((λ x, Add (fst x) (snd x)) <$> vs) d = replicate (length vs) OK.
Proof.
  induction vs as [|x vs IH] using rev_ind; [done|]. rewrite fmap_app. simpl. rewrite outcomes_snoc, IH, app_length, replicate_add. done.
Qed.
Lemma adds_since {A : num} (vs : list (A * gotime)) : ∀ c s, foldl since_empty1 (c, s) ((λ x, Add (fst x) (snd x)) <$> vs) = (c + N.of_nat (length vs), reverse (fst <$> vs) ++ s).
Proof.
  induction vs as [|x vs IH]; intros c s; simpl; [f_equal; lia|]. rewrite IH. simpl. f_equal; [lia|]. rewrite reverse_cons, <- app_assoc. done.
Qed.
Lemma snapshot_minmax_cumulative (es : list num64) ps ts (vs : list (num64 * gotime)) rs d : newBucketerFromEndpoints es = Some ps → Forall (λ x, notNaN (fst x)) vs → vs ≠ [] →
  performs ((λ x, Add (fst x) (snd x)) <$> vs) (newDistributionWithTimeStamp ps false ts) = (rs, d) → N.of_nat (length vs) < 2^64 →
  ∃ s, Snapshot d = Some s ∧ least (s_min s) (fst <$> vs) ∧ greatest (s_max s) (fst <$> vs).
Proof.
  intros B Ok Ne E L. set (h := (λ x, Add (fst x) (snd x)) <$> vs) in *. assert (N.of_nat (length h) < 2^64) as Lh by (unfold h; by rewrite fmap_length).
  assert (all_values notNaN h) as V.
  { intros o v Ho Hv. apply elem_of_list_fmap in Ho as (x & -> & Hx). apply elem_of_list_singleton in Hv as ->. by eapply Forall_forall in Ok. }
  destruct (snapshot_minmax es ps false ts h rs d B V E Lh) as (s & S & M). exists s. split; [done|].
  apply performs_final in E as [-> ->].
  destruct (minmax_state ordered64 es ps false ts h B V Lh) as (C & _). rewrite (adds_outcomes vs) in C.
  rewrite (adds_outcomes vs) in M. rewrite succeeded_all in C, M by (unfold h; rewrite ?replicate_length, ?fmap_length; done || by apply Forall_replicate).
  unfold since_empty in M. unfold h in C, M. rewrite adds_since in C, M. cbn [fst snd] in C, M. rewrite app_nil_r in M.
  destruct (snapshot_fields _ s S) as (H1 & _). destruct M as [[M1 M2] [M3 M4]].
  - rewrite H1. unfold h. rewrite <- C. destruct vs; [done|]. cbn [length]. lia.
  - split; split; try (by apply elem_of_reverse); intros v W; [apply M2|apply M4]; by apply elem_of_reverse.
Qed.
Lemma snapshot_sumQ (es : list numQ) ps nc ts h rs d l : newBucketerFromEndpoints es = Some ps → ascending es → present nc h l → l ≠ [] →
  performs h (newDistributionWithTimeStamp ps nc ts) = (rs, d) → N.of_nat (length h) + 1 < 2^64 →
  ∃ s, Snapshot d = Some s ∧ (Sum d == sumQ l)%Q ∧ (s_sum s == sumQ l)%Q ∧ (s_average s == sumQ l / inject_Z (Z.of_nat (length l)))%Q.
Proof.
  intros B As P Ne E L. destruct (snap es ps nc ts h rs d B E ltac:(lia)) as [s S]. exists s. split; [done|]. destruct (snapshot_fields d s S) as (_ & _ & _ & H).
  apply performs_final in E as [_ ->]. destruct (stateQ es ps nc ts h l B As P L) as (_ & C & _). pose proof (totalQ es ps nc ts h l B As P L) as T.
  destruct H as (_ & _ & -> & -> & _); [rewrite C; destruct l; [done|]; simpl; lia|]. split_and!; [exact T|exact T|]. rewrite C. simpl. rewrite T, nat_N_Z. reflexivity.
Qed.
Lemma snapshot_medianQ (es : list numQ) ps nc ts h rs d l srt : newBucketerFromEndpoints es = Some ps → ascending es → present nc h l → l ≠ [] →
  performs h (newDistributionWithTimeStamp ps nc ts) = (rs, d) → N.of_nat (length h) + 1 < 2^64 → srt ≡ₚ l → ascending srt →
  ∃ s, Snapshot d = Some s ∧ (s_min s <= s_median s <= s_max s)%Q ∧
    ((length l > 2)%nat → Nat.odd (length l) = true → ∀ x i, srt !! (length l / 2)%nat = Some x → (i ≤ length es)%nat → in_bucket es i x = true →
       in_closed_bucket es i (s_median s)) ∧
    ((length l > 2)%nat → Nat.odd (length l) = false → ∃ a b : Q, (s_median s == (a + b) / 2)%Q ∧
       (∀ x i, srt !! (length l / 2 - 1)%nat = Some x → (i ≤ length es)%nat → in_bucket es i x = true → in_closed_bucket es i a) ∧
       (∀ x i, srt !! (length l / 2)%nat = Some x → (i ≤ length es)%nat → in_bucket es i x = true → in_closed_bucket es i b)).
Proof.
  intros B As P Ne E L Pm Srt. destruct (snap es ps nc ts h rs d B E ltac:(lia)) as [s S]. exists s. split; [done|]. destruct (snapshot_fields d s S) as (_ & _ & _ & H).
  apply performs_final in E as [_ ->]. destruct (stateQ es ps nc ts h l B As P L) as (_ & C & _).
  destruct (medianQ es ps nc ts h l B As P L srt Ne Pm Srt) as (m & M & M1 & M2 & M3).
  destruct H as (-> & -> & _ & _ & _ & _ & Me); [rewrite C; destruct l; [done|]; simpl; lia|]. rewrite M in Me. injection Me as <-. auto.
Qed.
