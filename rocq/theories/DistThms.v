(** Consequences for histories of a new distribution, for every arithmetic. *)
From Coq Require Import QArith Qminmax Lia.
From Verif Require Import GoBase GoVal UnitsModel DurationModel FloatBase.
From stdpp Require Import list.
From Verif Require Import DistModel DistSpec DistProofs.
From Flocq Require Import IEEE754.BinarySingleNaN.
Local Open Scope nat_scope.

Section Thms.
  Context {A : num} {n_ok : A → Prop} (Ord : ordered A n_ok).
  Implicit Types (d : dist A) (es : list A) (v : A) (h : list (op A)) (l : list A).
  Notation new := newDistributionWithTimeStamp.

  Lemma bucketer_ne es ps : newBucketerFromEndpoints es = Some ps → ps ≠ [].
  Proof. destruct es; [done|]. by intros [= <-]. Qed.
  Lemma hist_inv es ps nc ts h : newBucketerFromEndpoints es = Some ps → (N.of_nat (length h) < 2^64)%N →
    inv (final h (new ps nc ts)) (N.of_nat (length h)).
  Proof. intros B L. apply final_inv; [|done]. apply new_inv. by eapply bucketer_ne. Qed.
  Lemma hist_inv' es ps nc ts h o : newBucketerFromEndpoints es = Some ps → (N.of_nat (length (h ++ [o])) < 2^64)%N →
    inv (final h (new ps nc ts)) (N.of_nat (length h)) ∧ (N.of_nat (length h) + 1 < 2^64)%N.
  Proof. rewrite app_length; simpl. intros B L. split; [|lia]. eapply hist_inv; [done|lia]. Qed.
  Lemma hist_frame ps nc ts h : d_pieces (final h (new ps nc ts)) = ps ∧ d_notcum (final h (new ps nc ts)) = nc.
  Proof. destruct (final_frame h (new ps nc ts)) as (? & ? & _). done. Qed.

  (** *** Counts *)
  Lemma no_bad_snoc h o d : no_bad_update (h ++ [o]) (outcomes (h ++ [o]) d) →
    no_bad_update h (outcomes h d) ∧ (is_update o = true → fst (perform o (final h d)) ≠ PANIC panicBadValue).
  Proof.
    rewrite outcomes_snoc. intros H. split.
    - intros i o' E U. specialize (H i o'). rewrite lookup_app_l in H by (by eapply lookup_lt_Some). specialize (H E U).
      rewrite lookup_app_l in H; [done|]. rewrite outcomes_length. by eapply lookup_lt_Some.
    - intros U E. apply (H (length h) o); [|done|].
      + rewrite lookup_app_r, Nat.sub_diag by done. done.
      + rewrite lookup_app_r by (by rewrite outcomes_length). rewrite outcomes_length, Nat.sub_diag. simpl. by rewrite E.
  Qed.
  Lemma counts_sum es ps nc ts h : newBucketerFromEndpoints es = Some ps → (N.of_nat (length h) < 2^64)%N →
    no_bad_update h (outcomes h (new ps nc ts)) → sumN (d_counts (final h (new ps nc ts))) = d_count (final h (new ps nc ts)).
  Proof.
    intros B. induction h as [|o h IH] using rev_ind; intros L NB; [apply sumN_replicate|].
    destruct (no_bad_snoc _ _ _ NB) as [NB1 NB2]. destruct (hist_inv' es ps nc ts h o B L) as [I K].
    specialize (IH ltac:(lia) NB1). rewrite final_snoc. set (d := final h (new ps nc ts)) in *.
    destruct (perform o d) as [[|e] d'] eqn:E; simpl in *.
    - destruct o as [v t|o v t|v t]; simpl in E.
      + injection E as <-. destruct (add_fields v t d _ I K) as (H1&_&H3&_). destruct I as [I1 I2 I3 I4 I5].
        rewrite H1, H3, incr_sum; [lia| |lia]. rewrite I1. by apply find_lt.
      + destruct (update_ok o v t d d' _ I K E) as (_&_&(cs&D&H1)&_&H3&_). destruct I as [I1 I2 I3 I4 I5].
        assert (findDistributionIndex (d_pieces d) v < length (d_counts d)) as Li by (rewrite I1; by apply find_lt).
        apply decr_sum in D; rewrite incr_sum in *; try lia. rewrite H1, H3. lia.
      + destruct (remove_ok v t d d' _ I K E) as (_&_&(cs&D&H1)&_&H3&_). destruct I as [I1 I2 I3 I4 I5].
        apply decr_sum in D; [|lia]. rewrite H1, H3. lia.
    - destruct (perform_panic o d e d' E) as (_&_&_&H4&_&[H6|(U&->&_)]); [congruence|]. by destruct (NB2 U).
  Qed.

  (** *** Values present *)
  Definition cnt es i l : N := N.of_nat (length (filter (λ v, in_bucket es i v = true) l)).
  Lemma cnt_cons es i v l : cnt es i (v :: l) = ((if in_bucket es i v then 1 else 0) + cnt es i l)%N.
  Proof. unfold cnt. rewrite filter_cons. destruct (in_bucket es i v); simpl; repeat case_decide; simpl; try done; lia. Qed.
  Lemma cnt_perm es i l l' : l ≡ₚ l' → cnt es i l = cnt es i l'.
  Proof. intros P. unfold cnt. by rewrite P. Qed.
  Lemma bucket_idx es ps i v : newBucketerFromEndpoints es = Some ps → ascending es → Forall n_ok es → n_ok v → i ≤ length es →
    in_bucket es i v = bool_decide (i = findDistributionIndex ps v).
  Proof using Ord.
    intros B As Ok V L. destruct (find_bucket Ord es ps v B As Ok V) as [F1 F2]. case_bool_decide as D; [by subst|].
    destruct (in_bucket es i v) eqn:E; [|done]. destruct D. by eapply (bucket_find Ord).
  Qed.
  Lemma all_values_snoc (P : A → Prop) h o : all_values P (h ++ [o]) → all_values P h ∧ ∀ v, v ∈ op_values o → P v.
  Proof.
    intros H. split.
    - intros o' v E. apply H. apply elem_of_app. by left.
    - intros v. apply H. apply elem_of_app. right. by left.
  Qed.
  Lemma present_ok nc h l : present nc h l → all_values n_ok h → Forall n_ok l.
  Proof.
    induction 1 as [|h l v t P IH|h l o o' l' v t P IH E Pm S|h l o o' l' t P IH E Pm S]; intros V; [done|..]; apply all_values_snoc in V as [V1 V2].
    - constructor; [apply V2; by left|auto].
    - specialize (IH V1). rewrite Pm in IH. inversion IH; subst. constructor; [apply V2; by right; left|done].
    - specialize (IH V1). rewrite Pm in IH. by inversion IH.
  Qed.
  Lemma present_state es ps nc ts h l : newBucketerFromEndpoints es = Some ps → ascending es → Forall n_ok es → all_values n_ok h → present nc h l →
    (N.of_nat (length h) < 2^64)%N →
    Forall (λ r, r = OK) (outcomes h (new ps nc ts)) ∧
    d_count (final h (new ps nc ts)) = N.of_nat (length l) ∧
    ∀ i, i ≤ length es → d_counts (final h (new ps nc ts)) !! i = Some (cnt es i l).
  Proof using Ord.
    intros B As Ok V P. pose proof (bucketer_length es ps B) as Lp.
    assert (∀ i v, i ≤ length es → n_ok v → in_bucket es i v = bool_decide (i = findDistributionIndex ps v)) as BI by (intros; by apply bucket_idx).
    induction P as [|h l v t P IH|h l o o' l' v t P IH E Pm S|h l o o' l' t P IH E Pm S]; intros L.
    { split_and!; [constructor|done|]. intros i Li. simpl. apply lookup_replicate. split; [done|lia]. }
    all: apply all_values_snoc in V as [V1 V2].
    all: pose proof (present_ok _ _ _ P V1) as Ol.
    all: destruct (hist_inv' es ps nc ts h _ B L) as [I K]; destruct (hist_frame ps nc ts h) as [Fp Fn].
    all: destruct (IH V1 ltac:(lia)) as (IH1 & IH2 & IH3); rewrite final_snoc, outcomes_snoc, Forall_app.
    all: set (d := final h (new ps nc ts)) in *.
    all: assert (∀ v, findDistributionIndex ps v < length (d_counts d)) as FL by (intros; rewrite (inv_len _ _ I), Fp; apply find_lt; by eapply bucketer_ne).
    - cbn [perform fst snd]. destruct (add_fields v t d _ I K) as (H1&_&H3&_). rewrite H1, H3, Fp. split_and!; [done|by apply Forall_singleton|simpl; lia|].
      intros i Li. rewrite cnt_cons. rewrite (BI i v Li) by (apply V2; by left).
      assert (is_Some (d_counts d !! findDistributionIndex ps v)) as [c C] by (apply lookup_lt_is_Some; apply FL).
      destruct I as [I1 I2 I3 I4 I5]. rewrite (incr_small _ _ _ C) by lia. case_bool_decide as D.
      + subst i. rewrite list_lookup_insert by done. rewrite IH3 in C by done. injection C as <-. f_equal. lia.
      + rewrite list_lookup_insert_ne by done. rewrite IH3 by done. f_equal.
    - assert (n_ok o) as Oo by (apply V2; by left). assert (n_ok v) as Ov by (apply V2; right; by left).
      assert (n_ok o') as Oo' by (rewrite Pm in Ol; by inversion Ol).
      assert (in_bucket es (findDistributionIndex ps o) o' = true) as Bo.
      { rewrite (in_bucket_same Ord es _ o' o Ok Oo' Oo S). by apply (find_bucket Ord). }
      pose proof (proj2 (find_bucket Ord es ps o B As Ok Oo)) as Lo.
      assert (is_Some (d_counts d !! findDistributionIndex ps v)) as [cv Cv] by (apply lookup_lt_is_Some; apply FL).
      pose proof (proj2 (find_bucket Ord es ps v B As Ok Ov)) as Lv.
      pose proof I as [I1 I2 I3 I4 I5].
      assert (findDistributionIndex ps o = findDistributionIndex ps o') as Eo by (by apply (bucket_find Ord es ps _ o' B)).
      assert (∃ cs, decr (findDistributionIndex ps o) (incr (findDistributionIndex ps v) (d_counts d)) = Some cs) as [cs Cs].
      { rewrite (incr_small _ _ _ Cv) by lia. unfold decr. destruct (decide (findDistributionIndex ps v = findDistributionIndex ps o)) as [Eq|Ne].
        - rewrite <- Eq, list_lookup_insert by apply FL. destruct (N.eqb_spec (cv + 1) 0); [lia|eauto].
        - rewrite list_lookup_insert_ne, IH3 by done. rewrite (cnt_perm es _ _ _ Pm), cnt_cons, Bo. case_match eqn:Z; [apply N.eqb_eq in Z; lia|eauto]. }
      destruct (perform (Update o v t) d) as [r d'] eqn:Ep.
      assert (r = OK) as ->.
      { simpl in Ep. unfold update in Ep. rewrite Fn, E in Ep. simpl in Ep. assert (length l ≠ 0) by (rewrite Pm; simpl; lia).
        destruct (N.eqb_spec (d_count d) 0); [lia|]. rewrite Fp, Cs in Ep. by injection Ep as <- <-. }
      destruct (update_ok o v t d d' _ I K Ep) as (_&_&(cs'&D&H1)&_&H3&_). rewrite Fp, Cs in D. injection D as <-. cbn [fst snd].
      rewrite H1, H3, IH2. split_and!; [done|by apply Forall_singleton|rewrite Pm; cbn [length]; lia|].
      intros i Li. apply decr_some in Cs as (c & C1 & C2 & ->); [|rewrite incr_sum; [lia|apply FL|lia]].
      rewrite cnt_cons, (BI i v Li Ov). specialize (IH3 i Li) as IHi. rewrite (cnt_perm es _ _ _ Pm), cnt_cons, (BI i o' Li Oo'), <- Eo in IHi.
      rewrite (incr_small _ _ _ Cv) in C1 |- * by lia.
      destruct (decide (i = findDistributionIndex ps o)) as [->|N1].
      + rewrite list_lookup_insert by (rewrite insert_length; apply FL). rewrite bool_decide_true in IHi by done.
        destruct (decide (findDistributionIndex ps v = findDistributionIndex ps o)) as [Eq|Ne].
        * rewrite Eq, list_lookup_insert in C1 by apply FL. rewrite Eq, IHi in Cv. rewrite Eq. rewrite bool_decide_true by done. f_equal. injection C1 as <-. injection Cv as <-. lia.
        * rewrite list_lookup_insert_ne, IHi in C1 by done. rewrite bool_decide_false by done. f_equal. injection C1 as <-. lia.
      + rewrite list_lookup_insert_ne by done. rewrite bool_decide_false in IHi by done.
        destruct (decide (findDistributionIndex ps v = i)) as [Eq|Ne].
        * subst i. rewrite list_lookup_insert by apply FL. rewrite IHi in Cv. injection Cv as <-. rewrite bool_decide_true by done. f_equal. lia.
        * rewrite list_lookup_insert_ne, IHi by done. rewrite bool_decide_false by done. done.
    - assert (n_ok o) as Oo by (apply V2; by left).
      assert (n_ok o') as Oo' by (rewrite Pm in Ol; by inversion Ol).
      pose proof (proj2 (find_bucket Ord es ps o B As Ok Oo)) as Lo.
      assert (in_bucket es (findDistributionIndex ps o) o' = true) as Bo.
      { rewrite (in_bucket_same Ord es _ o' o Ok Oo' Oo S). by apply (find_bucket Ord). }
      assert (findDistributionIndex ps o = findDistributionIndex ps o') as Eo by (by apply (bucket_find Ord es ps _ o' B)).
      pose proof I as [I1 I2 I3 I4 I5].
      assert (∃ cs, decr (findDistributionIndex ps o) (d_counts d) = Some cs) as [cs Cs].
      { unfold decr. rewrite IH3 by done. rewrite (cnt_perm es _ _ _ Pm), cnt_cons, Bo. case_match eqn:Z; [apply N.eqb_eq in Z; lia|eauto]. }
      destruct (perform (Remove o t) d) as [r d'] eqn:Ep.
      assert (r = OK) as ->.
      { simpl in Ep. unfold remove in Ep. rewrite Fn, E in Ep. simpl in Ep. assert (length l ≠ 0) by (rewrite Pm; simpl; lia).
        destruct (N.eqb_spec (d_count d) 0); [lia|]. rewrite Fp, Cs in Ep. by injection Ep as <- <-. }
      destruct (remove_ok o t d d' _ I K Ep) as (_&_&(cs'&D&H1)&_&H3&_). rewrite Fp, Cs in D. injection D as <-. cbn [fst snd].
      rewrite H1, H3, IH2. split_and!; [done|by apply Forall_singleton|rewrite Pm; cbn [length]; lia|].
      intros i Li. apply decr_some in Cs as (c & C1 & C2 & ->); [|lia].
      specialize (IH3 i Li) as IHi. rewrite (cnt_perm es _ _ _ Pm), cnt_cons, (BI i o' Li Oo'), <- Eo in IHi.
      destruct (decide (i = findDistributionIndex ps o)) as [->|N1].
      + rewrite list_lookup_insert by apply FL. rewrite bool_decide_true, C1 in IHi by done. f_equal. injection IHi as ->. lia.
      + rewrite list_lookup_insert_ne by done. rewrite bool_decide_false in IHi by done. done.
  Qed.

  (** *** Generation, total, time stamp *)
  Lemma gen_succeeded es ps nc ts h : newBucketerFromEndpoints es = Some ps → (N.of_nat (length h) < 2^64)%N →
    d_gen (final h (new ps nc ts)) = N.of_nat (length (succeeded h (outcomes h (new ps nc ts)))).
  Proof.
    intros B. induction h as [|o h IH] using rev_ind; intros L; [done|]. destruct (hist_inv' es ps nc ts h o B L) as [I K].
    specialize (IH ltac:(lia)). rewrite succeeded_snoc', app_length, final_snoc. set (d := final h (new ps nc ts)) in *.
    destruct (perform o d) as [[|e] d'] eqn:E; simpl.
    - enough (d_gen d' = (d_gen d + 1)%N) by lia. destruct o as [v t|o v t|v t]; simpl in E.
      + injection E as <-. by destruct (add_fields v t d _ I K) as (_&_&_&H&_).
      + by destruct (update_ok o v t d d' _ I K E) as (_&_&_&_&_&H&_).
      + by destruct (remove_ok v t d d' _ I K E) as (_&_&_&_&_&H&_).
    - destruct (perform_panic o d e d' E) as (_&_&_&_&H&_). rewrite H. lia.
  Qed.
  Lemma total_succeeded es ps nc ts h : newBucketerFromEndpoints es = Some ps → (N.of_nat (length h) < 2^64)%N →
    d_total (final h (new ps nc ts)) = total_of (succeeded h (outcomes h (new ps nc ts))).
  Proof.
    intros B. induction h as [|o h IH] using rev_ind; intros L; [done|]. destruct (hist_inv' es ps nc ts h o B L) as [I K].
    specialize (IH ltac:(lia)). rewrite succeeded_snoc', final_snoc. unfold total_of in *. rewrite foldl_app. set (d := final h (new ps nc ts)) in *.
    destruct (perform o d) as [[|e] d'] eqn:E; simpl.
    - rewrite <- IH. destruct o as [v t|o v t|v t]; simpl in E |- *.
      + injection E as <-. by destruct (add_fields v t d _ I K) as (_&H&_).
      + by destruct (update_ok o v t d d' _ I K E) as (_&_&_&H&_).
      + by destruct (remove_ok v t d d' _ I K E) as (_&_&_&H&_).
    - destruct (perform_panic o d e d' E) as (H&_). by rewrite H.
  Qed.

  (** *** Min and Max *)
  Lemma le_refl' a : n_ok a → le_num a a.
  Proof using Ord. intros O. unfold le_num. destruct (nlt a a) eqn:E; [|done]. by rewrite (ord_asym _ _ Ord a a) in E. Qed.
  Lemma lt_le a b : n_ok a → n_ok b → nlt a b = true → le_num a b.
  Proof using Ord. intros. unfold le_num. by apply (ord_asym _ _ Ord). Qed.
  Lemma le_trans' a b c : n_ok a → n_ok b → n_ok c → le_num a b → le_num b c → le_num a c.
  Proof using Ord. unfold le_num. intros. by apply (ord_negtrans _ _ Ord c b a). Qed.
  Lemma least_ok m l : least m l → Forall n_ok l → n_ok m.
  Proof. intros [H _] F. rewrite Forall_forall in F. auto. Qed.
  Lemma greatest_ok m l : greatest m l → Forall n_ok l → n_ok m.
  Proof. intros [H _] F. rewrite Forall_forall in F. auto. Qed.
  Lemma minmax_push v mn mx l : n_ok v → Forall n_ok l → least mn l → greatest mx l →
    let '(mn', mx') := if nlt v mn then (v, mx) else if nlt mx v then (mn, v) else (mn, mx) in least mn' (v :: l) ∧ greatest mx' (v :: l).
  Proof using Ord.
    intros Ov Ol Le Gr. pose proof (least_ok _ _ Le Ol) as Omn. pose proof (greatest_ok _ _ Gr Ol) as Omx. rewrite Forall_forall in Ol.
    destruct Le as [Le1 Le2], Gr as [Gr1 Gr2]. pose proof (Le2 _ Gr1) as Lmm.
    destruct (nlt v mn) eqn:E1; [|destruct (nlt mx v) eqn:E2].
    - assert (le_num v mx) as Lvx by (eapply (le_trans' v mn mx); try done; by apply lt_le).
      split; (split; [first [by left|by right]|]); intros w W; apply elem_of_cons in W as [->|W]; try done.
      + by apply le_refl'. + eapply (le_trans' v mn w); auto. by apply lt_le. + auto.
    - split; (split; [first [by left|by right]|]); intros w W; apply elem_of_cons in W as [->|W]; try done.
      + auto. + by apply le_refl'. + eapply (le_trans' w mx v); auto. by apply lt_le.
    - split; (split; [by right|]); intros w W; apply elem_of_cons in W as [->|W]; try done; auto.
  Qed.
  Lemma minmax_state es ps nc ts h : newBucketerFromEndpoints es = Some ps → all_values n_ok h → (N.of_nat (length h) < 2^64)%N →
    let d := final h (new ps nc ts) in
    let s := foldl since_empty1 (0%N, []) (succeeded h (outcomes h (new ps nc ts))) in
    fst s = d_count d ∧ Forall n_ok (snd s) ∧ (d_count d ≠ 0%N → least (d_min d) (snd s) ∧ greatest (d_max d) (snd s)) ∧ (d_count d = 0%N → snd s = []).
  Proof using Ord.
    intros B. induction h as [|o h IH] using rev_ind; intros V L; [by cbn; split_and!|]. destruct (hist_inv' es ps nc ts h o B L) as [I K].
    apply all_values_snoc in V as [V1 V2]. specialize (IH V1 ltac:(lia)). cbv zeta. rewrite succeeded_snoc', final_snoc, foldl_app.
    set (d := final h (new ps nc ts)) in *. cbv zeta in IH.
    set (s := foldl since_empty1 _ _) in *. destruct IH as (IH1 & IH2 & IH3 & IH4).
    destruct (perform o d) as [[|e] d'] eqn:E; cbn [fst snd foldl].
    - destruct o as [v t|o v t|v t]; simpl in E; cbn [since_empty1].
      + injection E as E. destruct (add_fields v t d _ I K) as (_&_&H3&_&_&H6). rewrite E in H3, H6. rewrite H3. cbn [fst snd].
        assert (n_ok v) as Ov by (apply V2; by left).
        split_and!; [lia|by constructor| |lia]. intros _.
        destruct (N.eqb_spec (d_count d) 0) as [Z|Z].
        * injection H6 as H6 H7. rewrite H6, H7, IH4 by done. split; (split; [by left|]); intros w W; apply elem_of_list_singleton in W as ->; by apply le_refl'.
        * destruct (IH3 Z) as [Le Gr]. pose proof (minmax_push v _ _ _ Ov IH2 Le Gr) as MP. rewrite <- H6 in MP. done.
      + destruct (update_ok o v t d d' _ I K E) as (_&Z&_&_&H3&_&_&H6). rewrite H3. cbn [fst snd].
        assert (n_ok v) as Ov by (apply V2; right; by left).
        split_and!; [lia|by constructor| |done]. intros _. destruct (IH3 Z) as [Le Gr]. pose proof (minmax_push v _ _ _ Ov IH2 Le Gr) as MP. rewrite <- H6 in MP. done.
      + destruct (remove_ok v t d d' _ I K E) as (_&Z&_&_&H3&_&_&H6&H7). rewrite H3, H6, H7, IH1. destruct (N.eqb_spec (d_count d) 1) as [One|]; cbn [fst snd].
        * split_and!; [lia|done|lia|done].
        * split_and!; [done|done|auto|lia].
    - destruct (perform_panic o d e d' E) as (_&H2&H3&H4&_). rewrite H2, H3, H4. done.
  Qed.

  (** *** Snapshot never runs past the buckets *)
  Lemma find_piece_spec cs : ∀ idx start i, (start ≤ idx)%N → (idx < start + sumN cs)%N → (start + sumN cs < 2^64)%N →
    ∃ j c, find_piece cs idx start i = Some (i + j, (start + sumN (take j cs))%N, c) ∧ cs !! j = Some c ∧
      (start + sumN (take j cs) ≤ idx)%N ∧ (idx < start + sumN (take j cs) + c)%N.
  Proof.
    induction cs as [|c cs IH]; intros idx start i L1 L2 L3; [unfold sumN in L2; simpl in L2; lia|].
    assert (sumN (c :: cs) = (c + sumN cs)%N) as Sc by done. rewrite Sc in *. cbn [find_piece]. rewrite usub_small by lia.
    destruct (N.leb_spec c (idx - start)) as [Lc|Lc].
    - rewrite uwrap_small by lia. destruct (IH idx (start + c)%N (S i)) as (j & c' & E & C & B1 & B2); [lia..|].
      exists (S j), c'. cbn [take]. assert (sumN (c :: take j cs) = (c + sumN (take j cs))%N) as -> by done.
      split_and!; [|done|lia|lia]. rewrite E. do 2 f_equal. f_equal; lia.
    - exists 0, c. cbn [take]. unfold sumN at 1. simpl. split_and!; [|done|unfold sumN; simpl; lia|unfold sumN; simpl; lia]. do 2 f_equal. f_equal; lia.
  Qed.
  Lemma indexToValue_some d k idx : inv d k → (k < 2^64)%N → (idx < d_count d)%N → is_Some (indexToValue d idx).
  Proof.
    intros [I1 I2 I3 I4 I5] K L. unfold indexToValue. destruct (find_piece_spec (d_counts d) idx 0 0) as (j & c & E & C & _); [lia..|]. rewrite E.
    assert (is_Some (d_pieces d !! (0 + j))) as [p P] by (apply lookup_lt_is_Some; rewrite <- I1; by eapply lookup_lt_Some). rewrite P. eauto.
  Qed.
  Lemma median_some d k : inv d k → (k < 2^64)%N → d_count d ≠ 0%N → is_Some (calculateMedian d).
  Proof.
    intros I K Z. unfold calculateMedian. destruct (N.leb_spec (d_count d) 2) as [Lc|Lc]; [eauto|].
    assert (d_count d / 2 < d_count d)%N as Ld by (apply N.div_lt; lia). assert (1 ≤ d_count d / 2)%N by (apply N.div_le_lower_bound; lia).
    pose proof I as [I1 I2 I3 I4 I5].
    destruct (indexToValue_some d k (d_count d / 2) I K Ld) as [b Hb]. destruct (N.eqb_spec (d_count d mod 2) 0); [|eauto].
    rewrite usub_small by lia. destruct (indexToValue_some d k (d_count d / 2 - 1) I K ltac:(lia)) as [a Ha]. rewrite Ha, Hb. eauto.
  Qed.
  Lemma snapshot_some d k : inv d k → (k < 2^64)%N → is_Some (Snapshot d).
  Proof.
    intros I K. unfold Snapshot. destruct (N.eqb_spec (d_count d) 0) as [|Z]; [eauto|]. destruct (median_some d k I K Z) as [m M]. rewrite M. eauto.
  Qed.
  Lemma snapshot_fields d s : Snapshot d = Some s →
    s_count s = d_count d ∧ s_breakdown s = zip (d_pieces d) (d_counts d) ∧ s_ts s = d_ts d ∧
    (d_count d ≠ 0%N → s_min s = d_min d ∧ s_max s = d_max d ∧ s_sum s = d_total d ∧ s_average s = ndiv (d_total d) (nofN (d_count d)) ∧
       s_generation s = d_gen d ∧ s_notcum s = d_notcum d ∧ calculateMedian d = Some (s_median s)).
  Proof.
    unfold Snapshot. destruct (N.eqb_spec (d_count d) 0) as [Z|Z]; [intros [= <-]; by split_and!|].
    destruct (calculateMedian d) as [m|]; [|done]. intros [= <-]. by split_and!.
  Qed.
End Thms.
