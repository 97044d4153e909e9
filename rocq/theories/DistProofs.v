(** Proofs about distributions that hold for every arithmetic. *)
From Coq Require Import QArith Qminmax Lia.
From Verif Require Import GoBase GoVal UnitsModel DurationModel FloatBase.
From stdpp Require Import list.
From Verif Require Import DistModel DistSpec.
From Flocq Require Import IEEE754.BinarySingleNaN.
Local Open Scope nat_scope.

Lemma ordered64 : ordered num64 notNaN.
Proof. split; [exact f64_lt_asym|exact f64_lt_negtrans]. Qed.
Lemma orderedQ : ordered numQ rational.
Proof.
  split; simpl.
  - intros a b _ _ H. apply negb_true_iff in H. apply negb_false_iff. apply Qle_bool_iff. destruct (Qlt_le_dec a b) as [L|L]; [by apply Qlt_le_weak|].
    apply Qle_bool_iff in L. congruence.
  - intros a b c _ _ _ H1 H2. apply negb_false_iff, Qle_bool_iff in H1, H2. apply negb_false_iff, Qle_bool_iff. by eapply Qle_trans.
Qed.

(** *** sort.Search *)
Lemma search_bounds fuel : ∀ f i j, i ≤ j → i ≤ search_loop fuel f i j ≤ j.
Proof.
  induction fuel as [|fuel IH]; simpl; intros f i j L; [lia|]. destruct (Nat.ltb_spec i j) as [L'|L']; [|lia].
  pose proof (Nat.div2_div (i + j)) as D. assert (i ≤ Nat.div2 (i + j) < j) as H by (rewrite D; split; [apply Nat.div_le_lower_bound; lia|apply Nat.div_lt_upper_bound; lia]).
  destruct (f _); [pose proof (IH f i (Nat.div2 (i + j)))|pose proof (IH f (S (Nat.div2 (i + j))) j)]; lia.
Qed.
Lemma search_correct fuel : ∀ f i j n, j - i ≤ fuel → i ≤ j → j ≤ n → (∀ a b, a < b → b < n → f a = true → f b = true) →
  (∀ k, k < i → f k = false) → (∀ k, j ≤ k → k < n → f k = true) →
  (∀ k, k < search_loop fuel f i j → f k = false) ∧ (∀ k, search_loop fuel f i j ≤ k → k < n → f k = true).
Proof.
  induction fuel as [|fuel IH]; simpl; intros f i j n Fu L Ln Mono Lo Hi; [assert (i = j) by lia; subst; by split|].
  destruct (Nat.ltb_spec i j) as [L'|L']; [|assert (i = j) by lia; subst; by split].
  pose proof (Nat.div2_div (i + j)) as D. assert (i ≤ Nat.div2 (i + j) < j) as H by (rewrite D; split; [apply Nat.div_le_lower_bound; lia|apply Nat.div_lt_upper_bound; lia]).
  destruct (f (Nat.div2 (i + j))) eqn:E.
  - apply IH; try done; try lia. intros k K1 K2. destruct (decide (k = Nat.div2 (i + j))) as [->|]; [done|]. eapply (Mono (Nat.div2 (i+j))); [lia|done|done].
  - apply IH; try done; try lia. intros k K. destruct (decide (k = Nat.div2 (i + j))) as [->|]; [done|].
    destruct (f k) eqn:Ek; [|done]. rewrite (Mono k (Nat.div2 (i + j))) in E; [done|lia|lia|done].
Qed.
Lemma sort_search_correct n f : (∀ a b, a < b → b < n → f a = true → f b = true) →
  sort_search n f ≤ n ∧ (∀ k, k < sort_search n f → f k = false) ∧ (∀ k, sort_search n f ≤ k → k < n → f k = true).
Proof.
  intros M. split; [pose proof (search_bounds n f 0 n); unfold sort_search; lia|].
  apply (search_correct n f 0 n n); try lia; try done; intros; lia.
Qed.

Section Proofs.
  Context {A : num} {n_ok : A → Prop} (Ord : ordered A n_ok).
  Implicit Types (d : dist A) (es : list A) (v : A) (h : list (op A)).

  (** *** Buckets *)
  Lemma pieces_from_length lower es : length (pieces_from lower es) = S (length es).
  Proof. revert lower. induction es; simpl; intros; [done|]. by rewrite IHes. Qed.
  Lemma bucketer_length es ps : newBucketerFromEndpoints es = Some ps → length ps = S (length es).
  Proof. destruct es as [|e es]; simpl; intros [= <-]. simpl. by rewrite pieces_from_length. Qed.
  Lemma pieces_from_lookup lower es i p : pieces_from lower es !! i = Some p →
    (lower :: es) !! i = Some (p_start p) ∧ (∀ e, es !! i = Some e → p_end p = e) ∧ p_first p = false ∧ p_last p = bool_decide (i = length es).
  Proof.
    revert lower i. induction es as [|e es IH]; simpl; intros lower i.
    - destruct i as [|i]; simpl; [|done]. intros [= <-]. simpl. split_and!; [done|by intros|done|done].
    - destruct i as [|i]; simpl; [intros [= <-]; simpl; split_and!; [done|by intros ? [= ->]|done|done]|].
      intros H. apply IH in H as (H1 & H2 & H3 & H4). split_and!; [done|done|done|]. rewrite H4. apply bool_decide_ext. lia.
  Qed.
  Lemma bucketer_lookup es ps i p : newBucketerFromEndpoints es = Some ps → ps !! i = Some p →
    (∀ e, es !! i = Some e → p_end p = e) ∧ (∀ j e, i = S j → es !! j = Some e → p_start p = e) ∧
    p_first p = bool_decide (i = 0) ∧ p_last p = bool_decide (i = length es).
  Proof.
    destruct es as [|e es]; simpl; intros [= <-]. destruct i as [|i]; simpl.
    - intros [= <-]. simpl. split_and!; [by intros ? [= ->]|done|done|done].
    - intros H. apply pieces_from_lookup in H as (H1 & H2 & H3 & H4). split_and!; [exact H2|intros j e' [= <-] E; congruence|done|].
      rewrite H4. apply bool_decide_ext. lia.
  Qed.

  Lemma find_lt ps v : ps ≠ [] → findDistributionIndex ps v < length ps.
  Proof.
    intros N. unfold findDistributionIndex, sort_search. destruct ps as [|p ps]; [done|]. cbn [length]. rewrite Nat.sub_succ, Nat.sub_0_r.
    match goal with |- search_loop ?a ?f _ _ < _ => pose proof (search_bounds a f 0 a) end. lia.
  Qed.
  Lemma find_bucket es ps v : newBucketerFromEndpoints es = Some ps → ascending es → Forall n_ok es → n_ok v →
    in_bucket es (findDistributionIndex ps v) v = true ∧ findDistributionIndex ps v ≤ length es.
  Proof using Ord.
    intros B As Ok V. pose proof (bucketer_length es ps B) as L.
    unfold findDistributionIndex. rewrite L, Nat.sub_succ, Nat.sub_0_r.
    assert (∀ i e, es !! i = Some e → match ps !! i with Some p => nlt v (p_end p) | None => false end = nlt v e) as F.
    { intros i e E. assert (is_Some (ps !! i)) as [p P] by (apply lookup_lt_is_Some; apply lookup_lt_Some in E; lia). rewrite P.
      destruct (bucketer_lookup _ _ _ _ B P) as (H & _). by rewrite (H e E). }
    set (f := λ i, match ps !! i with Some p => nlt v (p_end p) | None => false end) in *.
    destruct (sort_search_correct (length es) f) as (H1 & H2 & H3).
    { intros a b Lab Lb Ha. assert (is_Some (es !! a)) as [x X] by (apply lookup_lt_is_Some; lia). assert (is_Some (es !! b)) as [y Y] by (apply lookup_lt_is_Some; lia).
      unfold f in *. rewrite (F a x X) in Ha. rewrite (F b y Y). destruct (nlt v y) eqn:E; [done|].
      assert (nlt v x = false); [|congruence].
      eapply (ord_negtrans _ _ Ord); [done|eapply Forall_lookup_1; [exact Ok|exact Y]|eapply Forall_lookup_1; [exact Ok|exact X]|done|].
      exact (As a b x y Lab X Y). }
    split; [|done]. unfold in_bucket. apply andb_true_iff. split.
    - destruct (sort_search (length es) f) as [|j] eqn:E; [done|]. assert (is_Some (es !! j)) as [x X] by (apply lookup_lt_is_Some; lia).
      rewrite X. rewrite <- (F j x X). apply negb_true_iff. apply H2. lia.
    - destruct (es !! sort_search (length es) f) as [x|] eqn:X; [|done]. rewrite <- (F _ x X). apply H3; [lia|]. by eapply lookup_lt_Some.
  Qed.
  Lemma bucket_unique es i j v : ascending es → Forall n_ok es → n_ok v → i ≤ length es → j ≤ length es →
    in_bucket es i v = true → in_bucket es j v = true → i = j.
  Proof using Ord.
    intros As Ok V. revert i j. enough (∀ i j, i < j → j ≤ length es → in_bucket es i v = true → in_bucket es j v = true → False) as W.
    { intros i j Li Lj Hi Hj. destruct (Nat.lt_trichotomy i j) as [?|[?|?]]; [exfalso; eauto|done|exfalso; eauto]. }
    intros i j L Lj Hi Hj. apply andb_true_iff in Hi as [_ Hi]. apply andb_true_iff in Hj as [Hj _].
    destruct j as [|j]; [lia|]. assert (is_Some (es !! i)) as [x X] by (apply lookup_lt_is_Some; lia).
    assert (is_Some (es !! j)) as [y Y] by (apply lookup_lt_is_Some; lia). rewrite X in Hi. rewrite Y in Hj. apply negb_true_iff in Hj.
    assert (nlt v x = false); [|congruence].
    destruct (decide (i = j)) as [->|]; [congruence|]. pose proof (As i j x y ltac:(lia) X Y) as Le.
    eapply (ord_negtrans _ _ Ord); [done| | |exact Hj|exact Le]; eapply Forall_lookup_1; eauto.
  Qed.
  Lemma bucket_find es ps i v : newBucketerFromEndpoints es = Some ps → ascending es → Forall n_ok es → n_ok v → i ≤ length es →
    in_bucket es i v = true → i = findDistributionIndex ps v.
  Proof using Ord. intros B As Ok V L H. destruct (find_bucket es ps v B As Ok V). by eapply bucket_unique. Qed.
  Lemma nlt_same_l a b c : n_ok a → n_ok b → n_ok c → same_num a b → nlt a c = nlt b c.
  Proof using Ord.
    intros Oa Ob Oc [H1 H2]. destruct (nlt a c) eqn:E1, (nlt b c) eqn:E2; try done; exfalso.
    - assert (nlt a c = false); [|congruence]. eapply (ord_negtrans _ _ Ord a b c); done.
    - assert (nlt b c = false); [|congruence]. eapply (ord_negtrans _ _ Ord b a c); done.
  Qed.
  Lemma in_bucket_same es i a b : Forall n_ok es → n_ok a → n_ok b → same_num a b → in_bucket es i a = in_bucket es i b.
  Proof using Ord.
    intros Ok Oa Ob S. unfold in_bucket. f_equal.
    - destruct i as [|i]; [done|]. destruct (es !! i) as [e|] eqn:E; [|done]. f_equal. apply nlt_same_l; try done. by eapply Forall_lookup_1.
    - destruct (es !! i) as [e|] eqn:E; [|done]. apply nlt_same_l; try done. by eapply Forall_lookup_1.
  Qed.

  (** *** Counters *)
  Lemma uwrap_small n : (n < 2^64)%N → uwrap64 n = n.
  Proof. apply N.mod_small. Qed.
  Lemma usub_small a b : (b ≤ a)%N → (a < 2^64)%N → usub64 a b = (a - b)%N.
  Proof.
    intros L H. unfold usub64, uwrap64. replace (a + 2^64 - b)%N with ((a - b) + 1 * 2^64)%N by lia.
    rewrite N.mod_add by done. apply N.mod_small. lia.
  Qed.
  Lemma sumN_app l1 l2 : sumN (l1 ++ l2) = (sumN l1 + sumN l2)%N.
  Proof. induction l1 as [|x l1 IH]; [done|]. unfold sumN in *. simpl. rewrite IH. lia. Qed.
  Lemma sumN_insert i c c' l : l !! i = Some c → (sumN (<[i := c']> l) + c = sumN l + c')%N.
  Proof.
    revert i. induction l as [|x l IH]; intros i; [done|]. destruct i as [|i]; simpl; [intros [= ->]; unfold sumN; simpl; lia|].
    intros H. apply IH in H. unfold sumN in *. simpl. lia.
  Qed.
  Lemma sumN_lookup i c l : l !! i = Some c → (c ≤ sumN l)%N.
  Proof. intros H. pose proof (sumN_insert i c 0 l H). lia. Qed.
  Lemma sumN_replicate n : sumN (replicate n 0%N) = 0%N.
  Proof. by induction n. Qed.
  Lemma incr_small i cs c : cs !! i = Some c → (sumN cs + 1 < 2^64)%N → incr i cs = <[i := (c + 1)%N]> cs.
  Proof.
    intros H L. pose proof (sumN_lookup _ _ _ H). unfold incr. apply list_eq. intros j. destruct (decide (i = j)) as [<-|N].
    - rewrite list_lookup_alter, H, list_lookup_insert by (by eapply lookup_lt_Some). simpl. rewrite uwrap_small by lia. done.
    - by rewrite list_lookup_alter_ne, list_lookup_insert_ne.
  Qed.
  Lemma incr_length i cs : length (incr i cs) = length cs.
  Proof. apply alter_length. Qed.
  Lemma incr_sum i cs : i < length cs → (sumN cs + 1 < 2^64)%N → sumN (incr i cs) = (sumN cs + 1)%N.
  Proof.
    intros Li L. apply lookup_lt_is_Some in Li as [c C]. rewrite (incr_small _ _ _ C L). pose proof (sumN_insert i c (c + 1) cs C). lia.
  Qed.
  Lemma decr_some i cs cs' : (sumN cs < 2^64)%N → decr i cs = Some cs' → ∃ c, cs !! i = Some c ∧ c ≠ 0%N ∧ cs' = <[i := (c - 1)%N]> cs.
  Proof.
    unfold decr. destruct (cs !! i) as [c|] eqn:E; [|done]. intros L. pose proof (sumN_lookup _ _ _ E). destruct (N.eqb_spec c 0); [done|]. intros [= <-].
    exists c. split_and!; [done|done|]. by rewrite usub_small by lia.
  Qed.
  Lemma decr_length i cs cs' : decr i cs = Some cs' → length cs' = length cs.
  Proof. unfold decr. destruct (cs !! i); [|done]. case_match; [done|]. intros [= <-]. apply insert_length. Qed.
  Lemma decr_sum i cs cs' : (sumN cs < 2^64)%N → decr i cs = Some cs' → (sumN cs = sumN cs' + 1)%N.
  Proof. intros L D. apply decr_some in D as (c & E & N & ->); [|done]. pose proof (sumN_insert i c (c - 1) cs E). lia. Qed.

  (** *** Histories *)
  Definition final h d : dist A := snd (performs h d).
  Definition outcomes h d : list outcome := fst (performs h d).
  Lemma performs_eq h d : performs h d = (outcomes h d, final h d).
  Proof. unfold outcomes, final. by destruct (performs h d). Qed.
  Lemma performs_snoc h o d : outcomes (h ++ [o]) d = outcomes h d ++ [fst (perform o (final h d))] ∧ final (h ++ [o]) d = snd (perform o (final h d)).
  Proof.
    unfold outcomes, final. revert d. induction h as [|o' h IH]; intros d; simpl.
    - by destruct (perform o d).
    - destruct (perform o' d) as [r d1]. specialize (IH d1). destruct (performs (h ++ [o]) d1), (performs h d1). simpl in *. destruct IH as [-> ->]. done.
  Qed.
  Lemma outcomes_snoc h o d : outcomes (h ++ [o]) d = outcomes h d ++ [fst (perform o (final h d))].
  Proof. apply performs_snoc. Qed.
  Lemma final_snoc h o d : final (h ++ [o]) d = snd (perform o (final h d)).
  Proof. apply performs_snoc. Qed.
  Lemma outcomes_length h d : length (outcomes h d) = length h.
  Proof. induction h as [|o h IH] using rev_ind; [done|]. rewrite outcomes_snoc, !app_length, IH. done. Qed.
  Lemma succeeded_snoc h rs o r : length rs = length h → succeeded (h ++ [o]) (rs ++ [r]) = succeeded h rs ++ match r with OK => [o] | _ => [] end.
  Proof.
    revert rs. induction h as [|o' h IH]; intros [|r' rs]; simpl; intros L; try lia; [by destruct r|]. injection L as L.
    destruct r'; simpl; by rewrite IH.
  Qed.
  Lemma succeeded_snoc' h o d : succeeded (h ++ [o]) (outcomes (h ++ [o]) d) =
    succeeded h (outcomes h d) ++ match fst (perform o (final h d)) with OK => [o] | _ => [] end.
  Proof. rewrite outcomes_snoc. apply succeeded_snoc, outcomes_length. Qed.

  (** what a call does, with all counters small *)
  Record inv d (k : N) : Prop := {
    inv_len : length (d_counts d) = length (d_pieces d);
    inv_ne : d_pieces d ≠ [];
    inv_count : (d_count d ≤ sumN (d_counts d))%N;
    inv_sum : (sumN (d_counts d) ≤ k)%N;
    inv_gen : (d_gen d ≤ k)%N }.
  Definition frame d d' : Prop := d_pieces d' = d_pieces d ∧ d_notcum d' = d_notcum d ∧ d_unit d' = d_unit d ∧ d_unitSet d' = d_unitSet d.
  Lemma perform_frame o d : frame d (snd (perform o d)).
  Proof.
    destruct o; simpl; unfold add, update, remove; repeat case_match; simpl; repeat case_match; by repeat split.
  Qed.
  Lemma final_frame h d : frame d (final h d).
  Proof.
    induction h as [|o h IH] using rev_ind; [by repeat split|]. rewrite final_snoc.
    destruct IH as (?&?&?&?), (perform_frame o (final h d)) as (?&?&?&?). unfold frame. split_and!; congruence.
  Qed.
  (** the effect of a successful call on the fields, given room in the counters *)
  Lemma add_fields v ts d k : inv d k → (k + 1 < 2^64)%N →
    d_counts (add v ts d) = incr (findDistributionIndex (d_pieces d) v) (d_counts d) ∧
    d_total (add v ts d) = nadd (d_total d) v ∧ d_count (add v ts d) = (d_count d + 1)%N ∧ d_gen (add v ts d) = (d_gen d + 1)%N ∧
    d_ts (add v ts d) = ts ∧
    (d_min (add v ts d), d_max (add v ts d)) = if N.eqb (d_count d) 0 then (v, v) else if nlt v (d_min d) then (v, d_max d) else if nlt (d_max d) v then (d_min d, v) else (d_min d, d_max d).
  Proof.
    intros [? ? ? ? ?] K. unfold add. simpl. repeat case_match; simpl; rewrite !uwrap_small by lia; done.
  Qed.
  Lemma update_ok o v ts d d' k : inv d k → (k + 1 < 2^64)%N → update o v ts d = (OK, d') →
    d_notcum d = true ∧ d_count d ≠ 0%N ∧
    (∃ cs, decr (findDistributionIndex (d_pieces d) o) (incr (findDistributionIndex (d_pieces d) v) (d_counts d)) = Some cs ∧ d_counts d' = cs) ∧
    d_total d' = nadd (d_total d) (nsub v o) ∧ d_count d' = d_count d ∧ d_gen d' = (d_gen d + 1)%N ∧ d_ts d' = ts ∧
    (d_min d', d_max d') = if nlt v (d_min d) then (v, d_max d) else if nlt (d_max d) v then (d_min d, v) else (d_min d, d_max d).
  Proof.
    intros [? ? ? ? ?] K. unfold update. simpl. destruct (d_notcum d); simpl; [|done]. destruct (N.eqb_spec (d_count d) 0); [done|].
    destruct (decr _ _) as [cs|] eqn:D; [|done]. intros [= <-]. repeat case_match; simpl; rewrite !uwrap_small by lia; split_and!; eauto.
  Qed.
  Lemma remove_ok v ts d d' k : inv d k → (k + 1 < 2^64)%N → remove v ts d = (OK, d') →
    d_notcum d = true ∧ d_count d ≠ 0%N ∧
    (∃ cs, decr (findDistributionIndex (d_pieces d) v) (d_counts d) = Some cs ∧ d_counts d' = cs) ∧
    d_total d' = nsub (d_total d) v ∧ d_count d' = (d_count d - 1)%N ∧ d_gen d' = (d_gen d + 1)%N ∧ d_ts d' = ts ∧
    d_min d' = d_min d ∧ d_max d' = d_max d.
  Proof.
    intros [? ? ? ? ?] K. unfold remove. simpl. destruct (d_notcum d); simpl; [|done]. destruct (N.eqb_spec (d_count d) 0); [done|].
    destruct (decr _ _) as [cs|] eqn:D; [|done]. intros [= <-]. simpl. rewrite uwrap_small, usub_small by lia. split_and!; eauto.
  Qed.
  (** a panicking call changes at most the time stamp and, for Update, one bucket count *)
  Lemma perform_panic o d e d' : perform o d = (PANIC e, d') →
    d_total d' = d_total d ∧ d_min d' = d_min d ∧ d_max d' = d_max d ∧ d_count d' = d_count d ∧ d_gen d' = d_gen d ∧
    (d_counts d' = d_counts d ∨ is_update o = true ∧ e = panicBadValue ∧ ∃ v, v ∈ op_values o ∧ d_counts d' = incr (findDistributionIndex (d_pieces d) v) (d_counts d)).
  Proof.
    destruct o as [v ts|o v ts|v ts]; simpl; [done| |]; unfold update, remove; simpl.
    - repeat case_match; intros [= <- <-]; simpl; split_and!; auto. right. split_and!; [done|done|]. exists v. split; [by right; left|done].
    - repeat case_match; intros [= <- <-]; simpl; split_and!; auto.
  Qed.
  Lemma inv_step o d k : inv d k → (k + 1 < 2^64)%N → inv (snd (perform o d)) (k + 1).
  Proof.
    intros I K. pose proof (perform_frame o d) as (FP & _). destruct (perform o d) as [[|e] d'] eqn:E; simpl in *.
    - destruct o as [v ts|o v ts|v ts]; simpl in E.
      + injection E as <-. destruct (add_fields v ts d k I K) as (H1&_&H3&H4&_). destruct I as [I1 I2 I3 I4 I5].
        assert (findDistributionIndex (d_pieces d) v < length (d_counts d)) as Li by (rewrite I1; by apply find_lt).
        split; rewrite ?H1, ?H3, ?H4, ?FP, ?incr_length; try done; rewrite ?incr_sum; lia || done.
      + destruct (update_ok o v ts d d' k I K E) as (_&_&(cs&D&H1)&_&H3&H4&_). destruct I as [I1 I2 I3 I4 I5].
        assert (findDistributionIndex (d_pieces d) v < length (d_counts d)) as Li by (rewrite I1; by apply find_lt).
        pose proof (decr_length _ _ _ D) as DL. rewrite incr_length in DL. apply decr_sum in D; rewrite incr_sum in *; try lia.
        split; rewrite ?H1, ?H3, ?H4, ?FP; try lia; done.
      + destruct (remove_ok v ts d d' k I K E) as (_&N0&(cs&D&H1)&_&H3&H4&_). destruct I as [I1 I2 I3 I4 I5].
        pose proof (decr_length _ _ _ D) as DL. apply decr_sum in D; [|lia].
        split; rewrite ?H1, ?H3, ?H4, ?FP; try lia; done.
    - destruct (perform_panic o d e d' E) as (_&_&_&H4&H5&H6). destruct I as [I1 I2 I3 I4 I5].
      destruct H6 as [H6|(_&_&v&_&H6)]; [split; rewrite ?H4, ?H5, ?H6, ?FP; try lia; done|].
      assert (findDistributionIndex (d_pieces d) v < length (d_counts d)) as Li by (rewrite I1; by apply find_lt).
      split; rewrite ?H4, ?H5, ?H6, ?FP, ?incr_length; try done; rewrite ?incr_sum; lia || done.
  Qed.
  Lemma new_inv ps nc ts : ps ≠ [] → inv (newDistributionWithTimeStamp ps nc ts) 0.
  Proof. intros N. split; simpl; rewrite ?replicate_length, ?sumN_replicate; done || lia. Qed.
  Lemma final_inv h d : inv d 0 → (N.of_nat (length h) < 2^64)%N → inv (final h d) (N.of_nat (length h)).
  Proof.
    intros I. induction h as [|o h IH] using rev_ind; [done|]. rewrite app_length. simpl. intros L. rewrite final_snoc.
    replace (N.of_nat (length h + 1)) with (N.of_nat (length h) + 1)%N by lia. apply inv_step; [apply IH; lia|lia].
  Qed.
End Proofs.
