(** Order statistics for every arithmetic; sums and median in exact arithmetic. *)
From Coq Require Import QArith Qminmax Lqa Lia.
From Verif Require Import GoBase GoVal UnitsModel DurationModel FloatBase.
From stdpp Require Import list sorting.
From Verif Require Import DistModel DistSpec DistProofs DistThms.
Local Open Scope nat_scope.
Notation new := newDistributionWithTimeStamp.

Section Gen.
  Context {A : num} {n_ok : A → Prop} (Ord : ordered A n_ok).
  Implicit Types (d : dist A) (es : list A) (v : A) (h : list (op A)) (l : list A).

  Lemma succeeded_all h rs : length rs = length h → Forall (λ r, r = OK) rs → succeeded h rs = h.
  Proof. revert rs. induction h as [|o h IH]; intros [|r rs] L F; try done. inversion F; subst. simpl. rewrite IH; auto. Qed.
  Lemma present_since nc h l : present nc h l → fst (foldl since_empty1 (0%N, []) h) = N.of_nat (length l) ∧ ∀ v, v ∈ l → v ∈ since_empty h.
  Proof.
    unfold since_empty. induction 1 as [|h l v t P [IH1 IH2]|h l o o' l' v t P [IH1 IH2] E Pm S|h l o o' l' t P [IH1 IH2] E Pm S]; [done|..]; rewrite foldl_app; cbn [foldl since_empty1].
    - cbn [fst snd length]. split; [lia|]. intros w W. apply elem_of_cons in W as [->|W]; [by left|right; auto].
    - cbn [fst snd length]. rewrite IH1. split; [by rewrite Pm|]. intros w W. apply elem_of_cons in W as [->|W]; [by left|right; apply IH2; rewrite Pm; by right].
    - rewrite IH1. pose proof (Permutation_length Pm) as PL. cbn [length] in PL. destruct (N.eqb_spec (N.of_nat (length l)) 1).
      + cbn [fst snd]. split; [lia|]. destruct l'; [|simpl in *; lia]. done.
      + cbn [fst snd]. split; [lia|]. intros w W. apply IH2. rewrite Pm. by right.
  Qed.
  Lemma present_bounds es ps nc ts h l v : newBucketerFromEndpoints es = Some ps → ascending es → Forall n_ok es → all_values n_ok h → present nc h l →
    (N.of_nat (length h) < 2^64)%N → v ∈ l → le_num (d_min (final h (new ps nc ts))) v ∧ le_num v (d_max (final h (new ps nc ts))).
  Proof using Ord.
    intros B As Ok V P L E. destruct (present_state Ord es ps nc ts h l B As Ok V P L) as (S1 & S2 & _).
    destruct (minmax_state Ord es ps nc ts h B V L) as (_ & _ & M & _). rewrite succeeded_all in M; [|apply outcomes_length|done].
    destruct (present_since nc h l P) as [_ Q]. destruct M as [[_ M1] [_ M2]]; [destruct l; [by apply elem_of_nil in E|]; simpl in *; lia|].
    specialize (Q v E). split; auto.
  Qed.

  (** the bucket index grows with the value *)
  Lemma find_mono es ps a b : newBucketerFromEndpoints es = Some ps → ascending es → Forall n_ok es → n_ok a → n_ok b → le_num a b →
    findDistributionIndex ps a ≤ findDistributionIndex ps b.
  Proof using Ord.
    intros B As Ok Oa Ob Le. destruct (find_bucket Ord es ps a B As Ok Oa) as [Ba La]. destruct (find_bucket Ord es ps b B As Ok Ob) as [Bb Lb].
    destruct (decide (findDistributionIndex ps a ≤ findDistributionIndex ps b)) as [|N]; [done|exfalso].
    apply andb_true_iff in Ba as [Ba _]. apply andb_true_iff in Bb as [_ Bb].
    destruct (findDistributionIndex ps a) as [|i] eqn:Ei; [lia|]. set (j := findDistributionIndex ps b) in *.
    assert (is_Some (es !! i)) as [x X] by (apply lookup_lt_is_Some; lia). assert (is_Some (es !! j)) as [y Y] by (apply lookup_lt_is_Some; lia).
    rewrite X in Ba. rewrite Y in Bb. apply negb_true_iff in Ba.
    assert (n_ok x) as Ox by (by eapply Forall_lookup_1). assert (n_ok y) as Oy by (by eapply Forall_lookup_1).
    assert (le_num y x) as Lyx by (destruct (decide (i = j)) as [->|]; [replace y with x by congruence; by apply (le_refl' Ord)|exact (As j i y x ltac:(lia) Y X)]).
    assert (nlt b y = false); [|congruence]. apply (ord_negtrans _ _ Ord b a y); try done. by apply (ord_negtrans _ _ Ord a x y).
  Qed.

  Definition below ps (j : nat) l : nat := length (filter (λ v, findDistributionIndex ps v < j) l).
  Lemma below_cons ps j v l : below ps j (v :: l) = (if decide (findDistributionIndex ps v < j) then 1 else 0) + below ps j l.
  Proof. unfold below. rewrite filter_cons. case_decide; simpl; done. Qed.
  Lemma below_S es ps j l : newBucketerFromEndpoints es = Some ps → ascending es → Forall n_ok es → Forall n_ok l → j ≤ length es →
    (N.of_nat (below ps (S j) l) = N.of_nat (below ps j l) + cnt es j l)%N.
  Proof using Ord.
    intros B As Ok Ol Lj. induction Ol as [|v l Ov Ol IH]; [done|]. rewrite !below_cons, cnt_cons, (bucket_idx Ord es ps j v) by done.
    case_bool_decide; repeat case_decide; lia.
  Qed.
  Lemma below_0 ps l : below ps 0 l = 0.
  Proof. induction l as [|v l IH]; [done|]. rewrite below_cons, IH. by case_decide; [lia|]. Qed.
  Lemma below_perm ps j l l' : l ≡ₚ l' → below ps j l = below ps j l'.
  Proof. intros P. unfold below. by rewrite P. Qed.
  Lemma sum_below es ps l cs j : newBucketerFromEndpoints es = Some ps → ascending es → Forall n_ok es → Forall n_ok l → j ≤ S (length es) →
    (∀ i, i ≤ length es → cs !! i = Some (cnt es i l)) → sumN (take j cs) = N.of_nat (below ps j l).
  Proof using Ord.
    intros B As Ok Ol Lj C. induction j as [|j IH]; [by rewrite below_0|].
    rewrite (take_S_r _ _ (cnt es j l)) by (apply C; lia). rewrite sumN_app, IH, (below_S es) by (done || lia). unfold sumN. simpl. lia.
  Qed.
  Lemma ascending_tail v l : ascending (v :: l) → ascending l.
  Proof. intros H i j a b L X Y. apply (H (S i) (S j)); [lia|done|done]. Qed.
  (** in sorted order, the values of lower buckets come first *)
  Lemma sorted_below es ps srt k x j : newBucketerFromEndpoints es = Some ps → ascending es → Forall n_ok es → Forall n_ok srt → ascending srt →
    srt !! k = Some x → (findDistributionIndex ps x < j → k < below ps j srt) ∧ (j ≤ findDistributionIndex ps x → below ps j srt ≤ k).
  Proof using Ord.
    intros B As Ok. revert k. induction srt as [|v srt IH]; intros k Os Srt E; [done|]. inversion Os as [|?? Ov Os']; subst. rewrite below_cons.
    destruct k as [|k]; simpl in E.
    - injection E as ->. split; intros L; case_decide; try lia.
      enough (below ps j srt = 0) by lia. assert (∀ w, w ∈ srt → j ≤ findDistributionIndex ps w) as All.
      { intros w W. apply elem_of_list_lookup in W as [i W]. etransitivity; [exact L|]. eapply find_mono; try done; [by eapply Forall_lookup_1|].
        apply (Srt 0 (S i)); [lia|done|done]. }
      clear -All. induction srt as [|w srt IH]; [done|]. rewrite below_cons, IH by (intros; apply All; by right).
      case_decide as D; [|done]. specialize (All w ltac:(left)). lia.
    - destruct (IH k Os' (ascending_tail _ _ Srt) E) as [IH1 IH2].
      assert (findDistributionIndex ps v ≤ findDistributionIndex ps x) as M.
      { eapply find_mono; try done; [by eapply Forall_lookup_1|]. apply (Srt 0 (S k)); [lia|done|done]. }
      split; intros L; case_decide; lia.
  Qed.
  Lemma index_bucket es ps l cs srt k x : newBucketerFromEndpoints es = Some ps → ascending es → Forall n_ok es → Forall n_ok l →
    (∀ i, i ≤ length es → cs !! i = Some (cnt es i l)) → length cs = S (length es) → (N.of_nat (length l) + 1 < 2^64)%N →
    srt ≡ₚ l → ascending srt → srt !! k = Some x →
    ∃ start c, find_piece cs (N.of_nat k) 0 0 = Some (findDistributionIndex ps x, start, c) ∧ (start ≤ N.of_nat k)%N ∧ (N.of_nat k < start + c)%N ∧ (start + c + 1 < 2^64)%N.
  Proof using Ord.
    intros B As Ok Ol C Lc L64 Pm Srt E.
    assert (n_ok x) as Ox by (rewrite <- Pm in Ol; by eapply Forall_lookup_1).
    assert (sumN cs = N.of_nat (length l)) as Sum.
    { rewrite <- (take_ge cs (S (length es))) by lia. rewrite (sum_below es ps l) by done. f_equal. unfold below. f_equal.
      clear -Ord Ol B As Ok. induction Ol as [|v l Ov Ol IH]; [done|]. rewrite filter_cons. destruct (find_bucket Ord es ps v B As Ok Ov).
      case_decide; [|lia]. by rewrite IH. }
    pose proof (lookup_lt_Some _ _ _ E) as Lk. pose proof (Permutation_length Pm) as PL.
    destruct (find_piece_spec cs (N.of_nat k) 0 0) as (j & c & F & Cj & B1 & B2); [lia|lia|lia|].
    assert (j ≤ length es) as Lj by (apply lookup_lt_Some in Cj; lia). rewrite N.add_0_l in *.
    rewrite (sum_below es ps l cs j) in * by (done || lia). rewrite C in Cj by done. injection Cj as <-.
    pose proof (below_S es ps j l B As Ok Ol Lj) as BS. rewrite <- (below_perm ps j srt l Pm) in BS, B1, B2, F. rewrite <- (below_perm ps (S j) srt l Pm) in BS.
    assert (Forall n_ok srt) as Os by (by rewrite Pm).
    destruct (sorted_below es ps srt k x j B As Ok Os Srt E) as [S1 S2]. destruct (sorted_below es ps srt k x (S j) B As Ok Os Srt E) as [S3 S4].
    assert (findDistributionIndex ps x = j) as -> by lia.
    exists (N.of_nat (below ps j srt)), (cnt es j l). split_and!; [|lia|lia|].
    - rewrite F. done.
    - rewrite <- BS. unfold below. pose proof (filter_length (λ v, findDistributionIndex ps v < S j) srt). lia.
  Qed.
End Gen.

(** *** Exact arithmetic *)
Local Open Scope Q_scope.
Lemma leQ (a b : Q) : le_num (A := numQ) a b ↔ a <= b.
Proof. unfold le_num. simpl. rewrite negb_false_iff. apply Qle_bool_iff. Qed.
Lemma sameQ (a b : Q) : same_num (A := numQ) a b ↔ a == b.
Proof. split; [intros [H1 H2]; apply leQ in H1, H2; by apply Qle_antisym|]. intros E. split; apply leQ; rewrite E; apply Qle_refl. Qed.
Lemma okQ (l : list numQ) : Forall rational l.
Proof. by apply Forall_true. Qed.
Lemma okhQ (h : list (op numQ)) : all_values rational h.
Proof. by intros ???. Qed.
Lemma sumQ_perm l l' : l ≡ₚ l' → sumQ l == sumQ l'.
Proof. induction 1; simpl; [done|by rewrite IHPermutation|ring|by etransitivity]. Qed.
Lemma total_present nc (h : list (op numQ)) l : present nc h l → (total_of h : Q) == sumQ l.
Proof.
  unfold total_of. induction 1 as [|h l v t P IH|h l o o' l' v t P IH E Pm S|h l o o' l' t P IH E Pm S]; [done|..]; rewrite foldl_app; cbn [foldl total1]; simpl nadd; simpl nsub.
  - rewrite IH. simpl. ring.
  - rewrite IH, (sumQ_perm _ _ Pm). simpl. apply sameQ in S. rewrite S. ring.
  - rewrite IH, (sumQ_perm _ _ Pm). simpl. apply sameQ in S. rewrite S. ring.
Qed.
Lemma sumQ_bounds mn mx l : (∀ v, v ∈ l → mn <= v <= mx) → inject_Z (Z.of_nat (length l)) * mn <= sumQ l <= inject_Z (Z.of_nat (length l)) * mx.
Proof.
  induction l as [|v l IH]; intros H; [change (0 * mn <= 0 <= 0 * mx); lra|]. destruct IH as [IH1 IH2]; [intros; apply H; by right|]. destruct (H v ltac:(left)) as [H1 H2].
  cbn [length sumQ foldr]. rewrite Nat2Z.inj_succ. unfold Z.succ. rewrite inject_Z_plus. fold (sumQ l). change (inject_Z 1) with 1. split; lra.
Qed.
Lemma mean_bounds mn mx l : l ≠ [] → (∀ v, v ∈ l → mn <= v <= mx) →
  mn <= sumQ l / inject_Z (Z.of_N (N.of_nat (length l))) <= mx.
Proof.
  intros N H. pose proof (sumQ_bounds mn mx l H) as [H1 H2]. rewrite nat_N_Z. assert (0 < inject_Z (Z.of_nat (length l))) as Pos.
  { change 0 with (inject_Z 0). rewrite <- Zlt_Qlt. destruct l; [done|]. simpl. lia. }
  split; [apply Qle_shift_div_l; [done|]; lra|apply Qle_shift_div_r; [done|]; lra].
Qed.
Lemma interpolate_bounds lo hi f : lo <= hi → 0 <= f <= 1 → lo <= interpolate (A := numQ) lo hi f <= hi.
Proof. intros L [F1 F2]. unfold interpolate. simpl. change (inject_Z 1) with 1. split; nra. Qed.

Lemma sorted_exists (l : list numQ) : ∃ srt, srt ≡ₚ l ∧ ascending srt.
Proof.
  pose (R := λ a b : Q, a <= b).
  assert (∀ a b, Decision (R a b)) as Dec by (intros a b; destruct (Qlt_le_dec b a); [right; by apply Qlt_not_le|by left]).
  assert (Total R) as Tot by (intros a b; destruct (Qlt_le_dec a b) as [H|H]; [left; by apply Qlt_le_weak|by right]).
  assert (Transitive R) as Tr by (intros ???; apply Qle_trans).
  exists (merge_sort R l). split; [apply merge_sort_Permutation|].
  assert (StronglySorted R (merge_sort R l)) as S by (apply (Sorted_StronglySorted R); apply (Sorted_merge_sort R)). induction S as [|v s S IH F]; [done|].
  intros i j a b L X Y. destruct j as [|j]; [lia|]. destruct i as [|i]; simpl in X, Y.
  - injection X as <-. apply leQ. rewrite Forall_forall in F. apply F. by eapply elem_of_list_lookup_2.
  - eapply (IH i j); [lia|done|done].
Qed.
Lemma closed_of_bounds (es : list numQ) i (y : Q) lo hi : lo <= y → y <= hi →
  (∀ e : numQ, (0 < i)%nat → es !! (i - 1)%nat = Some e → (e : Q) <= lo) → (∀ e : numQ, es !! i = Some e → hi <= (e : Q)) → in_closed_bucket es i y.
Proof. intros H1 H2 H3 H4. split; intros e; [intros L E; apply leQ; specialize (H3 e L E)|intros E; apply leQ; specialize (H4 e E)]; simpl in *; lra. Qed.
Lemma frac_bounds (k start c : N) : (start ≤ k)%N → (k < start + c)%N → (start + c + 1 < 2^64)%N →
  0 <= inject_Z (Z.of_N (uwrap64 (usub64 k start + 1))) / inject_Z (Z.of_N (uwrap64 (c + 1))) <= 1.
Proof.
  intros L1 L2 L3. rewrite usub_small by lia. rewrite (uwrap_small (k - start + 1)), (uwrap_small (c + 1)) by lia.
  assert (0 < inject_Z (Z.of_N (c + 1))) as Pos by (change 0 with (inject_Z 0); rewrite <- Zlt_Qlt; lia).
  split; [apply Qle_shift_div_l; [exact Pos|]|apply Qle_shift_div_r; [exact Pos|]].
  - rewrite Qmult_0_l. change 0 with (inject_Z 0). rewrite <- Zle_Qle. lia.
  - rewrite Qmult_1_l, <- Zle_Qle. lia.
Qed.
Section Q.
  Context (es : list numQ) (ps : list (piece numQ)) (nc : bool) (ts : gotime) (h : list (op numQ)) (l : list numQ).
  Context (B : newBucketerFromEndpoints es = Some ps) (As : ascending es) (P : present nc h l) (L1 : (N.of_nat (length h) + 1 < 2^64)%N).
  Local Notation d := (final h (new ps nc ts)).
  Lemma short : (N.of_nat (length h) < 2^64)%N.
  Proof using L1. lia. Qed.
  Local Notation L := short.
  Lemma stateQ : Forall (λ r, r = OK) (outcomes h (new ps nc ts)) ∧ d_count d = N.of_nat (length l) ∧ (∀ i, (i ≤ length es)%nat → d_counts d !! i = Some (cnt es i l)).
  Proof using All. apply (present_state orderedQ es ps nc ts h l B As (okQ es) (okhQ h) P L). Qed.
  Lemma boundsQ v : v ∈ l → (d_min d : Q) <= v <= d_max d.
  Proof using All.
    intros E. destruct (present_bounds orderedQ es ps nc ts h l v B As (okQ es) (okhQ h) P L E) as [H1 H2]. by apply leQ in H1, H2.
  Qed.
  Lemma totalQ : (d_total d : Q) == sumQ l.
  Proof using All.
    rewrite (total_succeeded es ps nc ts h B L). rewrite succeeded_all; [by eapply total_present|apply outcomes_length|apply stateQ].
  Qed.
  Lemma indexQ srt k x : srt ≡ₚ l → ascending srt → srt !! k = Some x →
    ∃ y, indexToValue d (N.of_nat k) = Some y ∧ (d_min d : Q) <= y <= d_max d ∧ in_closed_bucket es (findDistributionIndex ps x) y.
  Proof using All.
    intros Pm Srt E. destruct stateQ as (_ & Cn & Cs). pose proof (hist_inv es ps nc ts h B L) as I. destruct (hist_frame ps nc ts h) as [Fp _].
    pose proof (bucketer_length es ps B) as Lp.
    assert (N.of_nat (length l) + 1 < 2^64)%N as Ll by (destruct I; lia).
    destruct (index_bucket orderedQ es ps l (d_counts d) srt k x B As (okQ es) (okQ l) Cs) as (start & c & F & F1 & F2 & F3); try done.
    { rewrite (inv_len _ _ I), Fp. done. }
    unfold indexToValue. rewrite F, Fp. set (j := findDistributionIndex ps x) in *.
    destruct (find_bucket orderedQ es ps x B As (okQ es) Logic.I) as [Bx Lj]. fold j in Bx, Lj. unfold in_bucket in Bx. clearbody j.
    assert (is_Some (ps !! j)) as [p Pj] by (apply lookup_lt_is_Some; lia). rewrite Pj. eexists. split; [reflexivity|].
    destruct (bucketer_lookup es ps j p B Pj) as (Pe & Pst & _).
    pose proof (frac_bounds _ _ _ F1 F2 F3) as Fr. pose proof (boundsQ x) as [X1 X2]; [rewrite <- Pm; by eapply elem_of_list_lookup_2|].
    simpl ndiv. simpl nofN. set (f := _ / _) in *.
    assert (∀ e : numQ, es !! j = Some e → (x : Q) < e) as Xe.
    { intros e Ee. apply andb_true_iff in Bx as [_ Bx]. rewrite Ee in Bx. simpl in Bx. apply negb_true_iff in Bx. apply Qnot_le_lt. intros W. apply Qle_bool_iff in W. congruence. }
    assert (∀ (i : nat) (e : numQ), j = S i → es !! i = Some e → (e : Q) <= x) as Xs.
    { intros i e Ej Ee. apply andb_true_iff in Bx as [Bx _]. rewrite Ej, Ee in Bx. apply negb_true_iff in Bx. by apply leQ. }
    destruct (Nat.eqb_spec j 0) as [Z|Z]; [|destruct (Nat.eqb_spec j (length ps - 1)) as [Z'|Z']].
    - assert (is_Some (es !! j)) as [e Ee] by (apply lookup_lt_is_Some; destruct es; [done|]; simpl in *; lia).
      rewrite (Pe e Ee). specialize (Xe e Ee). simpl nmin. pose proof (Q.le_min_l e (d_max d)). pose proof (Q.le_min_r e (d_max d)).
      assert ((x : Q) <= Qmin e (d_max d)) by (apply Q.min_glb; simpl in *; lra).
      destruct (interpolate_bounds (d_min d) (Qmin e (d_max d)) f) as [I1 I2]; [simpl in *; lra|done|].
      split; [simpl in *; lra|]. eapply closed_of_bounds; [exact I1|exact I2|lia|]. intros e' Ee'. replace e' with e by congruence. done.
    - assert (is_Some (es !! (j - 1)%nat)) as [e Ee] by (apply lookup_lt_is_Some; lia).
      rewrite (Pst (j - 1)%nat e) by (done || lia). specialize (Xs (j - 1)%nat e ltac:(lia) Ee). simpl nmax. pose proof (Q.le_max_l e (d_min d)). pose proof (Q.le_max_r e (d_min d)).
      assert (Qmax e (d_min d) <= (x : Q)) by (apply Q.max_lub; simpl in *; lra).
      destruct (interpolate_bounds (Qmax e (d_min d)) (d_max d) f) as [I1 I2]; [simpl in *; lra|done|].
      split; [simpl in *; lra|]. eapply closed_of_bounds; [exact I1|exact I2| |].
      + intros e' _ Ee'. replace e' with e by congruence. done.
      + intros e' Ee'. apply lookup_lt_Some in Ee'. lia.
    - assert (is_Some (es !! (j - 1)%nat)) as [e Ee] by (apply lookup_lt_is_Some; lia). assert (is_Some (es !! j)) as [g Eg] by (apply lookup_lt_is_Some; lia).
      rewrite (Pst (j - 1)%nat e) by (done || lia). rewrite (Pe g Eg). specialize (Xs (j - 1)%nat e ltac:(lia) Ee). specialize (Xe g Eg). simpl nmax. simpl nmin.
      pose proof (Q.le_max_l e (d_min d)). pose proof (Q.le_max_r e (d_min d)). pose proof (Q.le_min_l g (d_max d)). pose proof (Q.le_min_r g (d_max d)).
      assert (Qmax e (d_min d) <= (x : Q)) by (apply Q.max_lub; simpl in *; lra).
      assert ((x : Q) <= Qmin g (d_max d)) by (apply Q.min_glb; simpl in *; lra).
      destruct (interpolate_bounds (Qmax e (d_min d)) (Qmin g (d_max d)) f) as [I1 I2]; [simpl in *; lra|done|].
      split; [simpl in *; lra|]. eapply closed_of_bounds; [exact I1|exact I2| |].
      + intros e' _ Ee'. replace e' with e by congruence. done.
      + intros e' Ee'. replace e' with g by congruence. done.
  Qed.
  (** the buckets of the middle values of the sorted values *)
  Lemma medianQ srt : l ≠ [] → srt ≡ₚ l → ascending srt → ∃ m, calculateMedian d = Some m ∧ (d_min d : Q) <= m <= d_max d ∧
    ((length l > 2)%nat → Nat.odd (length l) = true → ∀ x i, srt !! (length l / 2)%nat = Some x → (i ≤ length es)%nat → in_bucket es i x = true → in_closed_bucket es i m) ∧
    ((length l > 2)%nat → Nat.odd (length l) = false → ∃ a b : Q, m == (a + b) / 2 ∧
      (∀ x i, srt !! (length l / 2 - 1)%nat = Some x → (i ≤ length es)%nat → in_bucket es i x = true → in_closed_bucket es i a) ∧
      (∀ x i, srt !! (length l / 2)%nat = Some x → (i ≤ length es)%nat → in_bucket es i x = true → in_closed_bucket es i b)).
  Proof using All.
    intros Ne Pm Srt. destruct stateQ as (_ & Cn & _). unfold calculateMedian. rewrite Cn. pose proof (Permutation_length Pm) as PL.
    pose proof (hist_inv es ps nc ts h B L) as I.
    assert (∀ x i, (i ≤ length es)%nat → in_bucket es i x = true → i = findDistributionIndex ps x) as BF.
    { intros x i Li Bi. by apply (bucket_find orderedQ es ps i x B As (okQ es) Logic.I). }
    destruct (N.leb_spec (N.of_nat (length l)) 2) as [Le|Gt].
    { eexists. split; [reflexivity|]. split_and!; [| |lia|lia].
      all: simpl ndiv; simpl nofN; rewrite totalQ; apply (mean_bounds _ _ l Ne boundsQ). }
    assert (N.of_nat (length l) / 2 = N.of_nat (length l / 2))%N as D2 by (rewrite Nat2N.inj_div; done).
    assert (length l / 2 < length l)%nat as Lh by (apply Nat.div_lt; lia). assert (1 ≤ length l / 2)%nat as Lh1 by (apply Nat.div_le_lower_bound; lia).
    assert (is_Some (srt !! (length l / 2)%nat)) as [x X] by (apply lookup_lt_is_Some; lia).
    destruct (indexQ srt _ x Pm Srt X) as (b & Hb & Bb & Cb). rewrite D2.
    assert (N.of_nat (length l) mod 2 = N.of_nat (length l mod 2))%N as M2 by (rewrite Nat2N.inj_mod; done). rewrite M2.
    destruct (N.eqb_spec (N.of_nat (length l mod 2)) 0) as [Ev|Od].
    - assert (is_Some (srt !! (length l / 2 - 1)%nat)) as [w W] by (apply lookup_lt_is_Some; lia).
      destruct (indexQ srt _ w Pm Srt W) as (a & Ha & Ba & Ca).
      rewrite usub_small by (destruct I; lia). replace (N.of_nat (length l / 2) - 1)%N with (N.of_nat (length l / 2 - 1)) by lia.
      rewrite Ha, Hb. eexists. split; [reflexivity|]. simpl ndiv. simpl nadd. simpl nofN. change (inject_Z 2) with 2.
      assert ((d_min d : Q) <= (a + b) / 2 <= d_max d) as Bd by (split; [apply Qle_shift_div_l|apply Qle_shift_div_r]; simpl in *; lra).
      split; [exact Bd|]. split.
      + intros _ Od. exfalso. rewrite <- Nat.bit0_odd, Nat.bit0_eqb in Od. apply Nat.eqb_eq in Od. lia.
      + intros _ _. exists a, b. split_and!; [reflexivity| |]; intros x' i X' Li Bi; rewrite (BF _ _ Li Bi); [replace x' with w by congruence|replace x' with x by congruence]; done.
    - rewrite Hb. exists b. split; [done|]. split; [exact Bb|]. split.
      + intros _ _ x' i X' Li Bi. rewrite (BF _ _ Li Bi). replace x' with x by congruence. done.
      + intros _ Ev. exfalso. apply Od. rewrite <- Nat.bit0_odd, Nat.bit0_eqb in Ev. apply Nat.eqb_neq in Ev.
        pose proof (Nat.mod_upper_bound (length l) 2). lia.
  Qed.
End Q.
