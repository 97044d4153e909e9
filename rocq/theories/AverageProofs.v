(** Rounding errors of sums and averages. *)
From Coq Require Import ZArith Reals Lra Lia Psatz.
From Flocq Require Import Core BinarySingleNaN Plus_error Relative.
From Verif Require Import GoBase GoVal UnitsModel DurationModel FloatBase FloatLemmas FloatConvProofs.
From stdpp Require Import list sorting.
From Verif Require Import DistModel DistSpec DistProofs DistThms DistQ DistApi BucketerModel BucketerSpec BucketerProofs EndPointSpec EndPointProofs MedianSpec MedianProofs AverageSpec.
Local Open Scope R_scope.

Lemma sum_cons v l : sum_R (v :: l) = B2R (v : float64) + sum_R l. Proof. done. Qed.
Lemma size_cons v l : size_R (v :: l) = Rabs (B2R (v : float64)) + size_R l. Proof. done. Qed.
Lemma sum_nil : sum_R [] = 0. Proof. done. Qed.
Lemma size_nil : size_R [] = 0. Proof. done. Qed.
Lemma sum_app a b : sum_R (a ++ b) = sum_R a + sum_R b.
Proof. induction a as [|v a IH]; cbn [app]; [rewrite sum_nil; ring|]. rewrite !sum_cons, IH. ring. Qed.
Lemma size_app a b : size_R (a ++ b) = size_R a + size_R b.
Proof. induction a as [|v a IH]; cbn [app]; [rewrite size_nil; ring|]. rewrite !size_cons, IH. ring. Qed.
Lemma sum_perm a b : a ≡ₚ b → sum_R a = sum_R b.
Proof. unfold sum_R. induction 1; cbn [foldr]; [done|by rewrite IHPermutation|ring|by etransitivity]. Qed.
Lemma size_perm a b : a ≡ₚ b → size_R a = size_R b.
Proof. unfold size_R. induction 1; cbn [foldr]; [done|by rewrite IHPermutation|ring|by etransitivity]. Qed.
Lemma size_pos a : 0 <= size_R a.
Proof. unfold size_R. induction a as [|v a IH]; cbn [foldr]; [lra|]. pose proof (Rabs_pos (B2R (v : float64))). lra. Qed.
Lemma sum_size a : Rabs (sum_R a) <= size_R a.
Proof. unfold sum_R, size_R. induction a as [|v a IH]; cbn [foldr]; [rewrite Rabs_R0; lra|]. eapply Rle_trans; [apply Rabs_triang|]. lra. Qed.
Lemma sum_bounds mn mx l : (∀ v : num64, v ∈ l → mn <= B2R (v : float64) <= mx) → INR (length l) * mn <= sum_R l <= INR (length l) * mx.
Proof.
  unfold sum_R. induction l as [|v l IH]; intros K; cbn [foldr length]; [cbn [INR]; lra|]. destruct IH as [I1 I2]; [intros w W; apply K; by right|].
  destruct (K v ltac:(left)) as [K1 K2]. rewrite S_INR. split; lra.
Qed.
Lemma mean_between mn mx l : l ≠ [] → (∀ v : num64, v ∈ l → mn <= B2R (v : float64) <= mx) → mn <= mean_R l <= mx.
Proof.
  intros Ne K. destruct (sum_bounds mn mx l K) as [K1 K2]. assert (0 < INR (length l)) as P by (apply (lt_INR 0); destruct l; [done|cbn [length]; lia]).
  unfold mean_R. split; apply (Rmult_le_reg_r (INR (length l))); try exact P; unfold Rdiv; rewrite Rmult_assoc, Rinv_l by lra; lra.
Qed.

(** *** Sums of many numbers *)
Definition sum_64 (vs : list num64) : float64 := foldl (λ (s : float64) (v : num64), f64_add s v) (f64_of_Z 0) vs.
Lemma sum_close vs : Forall (λ v : num64, is_finite (v : float64) = true) vs → INR (length vs) <= bpow radix2 52 → size_R vs <= bpow radix2 1022 →
  is_finite (sum_64 vs) = true ∧ Rabs (B2R (sum_64 vs) - sum_R vs) <= INR (length vs) * u2 * size_R vs.
Proof.
  induction vs as [|v vs IH] using rev_ind; intros F L Z.
  - destruct zero_val as [F0 B0]. split; [exact F0|]. cbn [length INR]. unfold sum_64. cbn [foldl]. rewrite B0, sum_nil, size_nil, Rminus_0_r, Rabs_R0. lra.
  - apply Forall_app in F as [F Fv]. apply Forall_cons_1 in Fv as [Fv _]. rewrite app_length in *. cbn [length] in *. rewrite Nat.add_1_r, S_INR in *.
    rewrite size_app in Z |- *. rewrite sum_app, sum_cons, sum_nil, size_cons, size_nil. rewrite size_cons, size_nil in Z. rewrite !Rplus_0_r in *.
    pose proof (Rabs_pos (B2R (v : float64))) as Pv. pose proof (size_pos vs) as Ps. destruct (IH F) as [Fs Es]; [lra|lra|]. clear IH.
    unfold sum_64. rewrite foldl_app. cbn [foldl]. fold (sum_64 vs).
    set (s := sum_64 vs) in *. set (A := size_R vs) in *. set (r := sum_R vs) in *. set (n := INR (length vs)) in *. set (w := Rabs (B2R (v : float64))) in *.
    assert (n <= bpow radix2 52) as Ln by lra. assert (n * u2 <= 1) as Sm by (exact (small (length vs) Ln)). pose proof u_pos as Up. pose proof u12 as U12. assert (0 <= n) as Pn by (apply pos_INR).
    assert (Rabs r <= A) as Mr by apply sum_size.
    assert (n * u2 * A <= 1 * A) as Na by (apply Rmult_le_compat_r; [exact Ps|exact Sm]).
    assert (Rabs (B2R s + B2R (v : float64) - (r + B2R (v : float64))) <= n * u2 * A) as E1 by (replace (_ - _) with (B2R s - r) by ring; exact Es).
    assert (Rabs (B2R s + B2R (v : float64)) <= (A + w) + n * u2 * A) as M1.
    { replace (B2R s + B2R (v : float64)) with ((B2R s - r) + r + B2R (v : float64)) by ring. eapply Rle_trans; [apply Rabs_triang|]. eapply Rle_trans; [apply Rplus_le_compat_r, Rabs_triang|]. fold w. lra. }
    pose proof two1022 as T. destruct (add_huge s v Fs Fv) as [Fn Bn]; [lra|]. split; [exact Fn|].
    pose proof (add_err (B2R s) (B2R (v : float64)) (fmt_B2R s) (fmt_B2R v)) as E2. rewrite <- Bn in E2.
    assert (u1 * Rabs (B2R s + B2R (v : float64)) <= u1 * (2 * (A + w))) as E3 by (apply Rmult_le_compat_l; lra).
    assert (n * u2 * A <= n * u2 * (A + w)) as E4. { apply Rmult_le_compat_l; [apply Rmult_le_pos; [exact Pn|lra]|lra]. }
    replace (B2R (f64_add s v) - (r + B2R (v : float64))) with ((B2R (f64_add s v) - (B2R s + B2R (v : float64))) + (B2R s + B2R (v : float64) - (r + B2R (v : float64)))) by ring.
    eapply Rle_trans; [apply Rabs_triang|]. rewrite Rmult_plus_distr_r, Rmult_1_l, Rmult_plus_distr_r. rewrite U12 in *. lra.
Qed.
Lemma adds_total (vs : list (num64 * gotime)) : total_of (A := num64) ((λ x, Add (fst x) (snd x)) <$> vs) = sum_64 (fst <$> vs).
Proof.
  unfold total_of, sum_64. change (nofN (n := num64) 0) with (f64_of_Z 0). generalize (f64_of_Z 0). induction vs as [|x vs IH]; intros a; [done|].
  cbn [fmap list_fmap foldl total1 nadd num64]. apply IH.
Qed.
(** the state after adding values *)
Lemma adds_state (es : list num64) ps ts (vs : list (num64 * gotime)) rs d : newBucketerFromEndpoints es = Some ps → vs ≠ [] → (N.of_nat (length vs) < 2^64)%N → Forall (λ v : num64, is_finite (v : float64) = true) (fst <$> vs) →
  performs ((λ x, Add (fst x) (snd x)) <$> vs) (newDistributionWithTimeStamp ps false ts) = (rs, d) →
  ∃ s, Snapshot d = Some s ∧ s_count s = N.of_nat (length vs) ∧ (s_sum s : float64) = sum_64 (fst <$> vs) ∧ (s_average s : float64) = f64_div (sum_64 (fst <$> vs)) (f64_of_N (N.of_nat (length vs))).
Proof.
  intros B Ne L Fi E. destruct (snapshot_total64 es ps false ts _ rs d B E) as (_ & s & S & K); [rewrite fmap_length; exact L|]. exists s. split; [exact S|].
  destruct (snapshot_fields d s S) as (C & _). pose proof E as E'. apply performs_final in E' as [-> ->].
  assert (d_count (final ((λ x, Add (fst x) (snd x)) <$> vs) (new ps false ts)) = N.of_nat (length vs)) as Cn.
  { set (h := (λ x, Add (fst x) (snd x)) <$> vs). assert (N.of_nat (length h) < 2^64)%N as Lh by (unfold h; rewrite fmap_length; lia).
    assert (all_values notNaN h) as Vh. { intros o v Ho Hv. apply elem_of_list_fmap in Ho as (x & -> & Hx). apply elem_of_list_singleton in Hv as ->. apply fin_notnan. rewrite Forall_forall in Fi. apply Fi. apply elem_of_list_fmap. by exists x. }
    destruct (minmax_state ordered64 es ps false ts h B Vh Lh) as (Cc & _).
    assert (succeeded h (outcomes h (new ps false ts)) = h) as Sc. { unfold h. rewrite (adds_outcomes vs). apply succeeded_all; [by rewrite replicate_length, fmap_length|by apply Forall_replicate]. }
    rewrite Sc in Cc. rewrite <- Cc. unfold h. rewrite adds_since. cbn [fst]. lia. }
  rewrite Cn in C. split; [exact C|]. destruct K as [K1 K2]; [rewrite C; destruct vs; [done|cbn [length]; lia]|].
  rewrite (adds_outcomes vs), succeeded_all, adds_total in K1, K2; [|by rewrite replicate_length, fmap_length|by apply Forall_replicate|by rewrite replicate_length, fmap_length|by apply Forall_replicate].
  split; [exact K1|]. rewrite K2, C. done.
Qed.
Lemma count_val n : (N.of_nat n ≤ 2^52)%N → is_finite (f64_of_N (N.of_nat n)) = true ∧ B2R (f64_of_N (N.of_nat n)) = INR n.
Proof. intros L. unfold f64_of_N. rewrite nat_N_Z. destruct (f64_of_Z_exact (Z.of_nat n)) as [B F]; [lia|]. split; [exact F|]. by rewrite B, INR_IZR_INZ. Qed.
Lemma inr_52 n : (N.of_nat n ≤ 2^52)%N → INR n <= bpow radix2 52.
Proof. intros L. rewrite INR_IZR_INZ, bp52. apply IZR_le. lia. Qed.
Lemma snapshot_average_close (es : list num64) ps ts (vs : list (num64 * gotime)) rs d : newBucketerFromEndpoints es = Some ps → vs ≠ [] → (N.of_nat (length vs) ≤ 2^52)%N →
  Forall (λ v : num64, is_finite (v : float64) = true) (fst <$> vs) → size_R (fst <$> vs) <= bpow radix2 1022 →
  performs ((λ x, Add (fst x) (snd x)) <$> vs) (newDistributionWithTimeStamp ps false ts) = (rs, d) →
  ∃ s, Snapshot d = Some s ∧ is_finite (s_sum s : float64) = true ∧ is_finite (s_average s : float64) = true ∧
    Rabs (B2R (s_sum s : float64) - sum_R (fst <$> vs)) <= INR (length vs) * u2 * size_R (fst <$> vs) ∧
    Rabs (B2R (s_average s : float64) - mean_R (fst <$> vs)) <= INR (length vs + 1) * u2 * (size_R (fst <$> vs) / INR (length vs)) + eta.
Proof.
  intros B Ne L F Z E. destruct (adds_state es ps ts vs rs d B Ne ltac:(lia) F E) as (s & S & _ & Sm & Av). exists s. split; [exact S|]. rewrite Sm, Av.
  set (l := fst <$> vs) in *. assert (length l = length vs) as Ll by (unfold l; apply fmap_length). rewrite <- Ll in *.
  destruct (sum_close l F (inr_52 _ L) Z) as [Fs Es]. split; [exact Fs|]. destruct (count_val _ L) as [Fn Bn].
  assert (1 <= INR (length l)) as N1. { apply (le_INR 1). destruct vs; [done|]. rewrite Ll. cbn [length]. lia. }
  assert (INR (length l) * u2 <= 1) as Smm by (apply small, inr_52, L). pose proof (size_pos l) as Ps. pose proof (sum_size l) as Ms. pose proof u_pos as Up. pose proof u12 as U12.
  assert (Rabs (B2R (sum_64 l)) <= 2 * size_R l) as M.
  { replace (B2R (sum_64 l)) with ((B2R (sum_64 l) - sum_R l) + sum_R l) by ring. eapply Rle_trans; [apply Rabs_triang|].
    assert (INR (length l) * u2 * size_R l <= 1 * size_R l) by (apply Rmult_le_compat_r; assumption). lra. }
  set (n := INR (length l)) in *. assert (0 < / n <= 1) as In. { split; [apply Rinv_0_lt_compat; lra|]. rewrite <- Rinv_1. apply Rinv_le; lra. }
  assert (Rabs (B2R (sum_64 l) / n) <= 2 * size_R l * / n) as Mq. { unfold Rdiv. rewrite Rabs_mult, (Rabs_pos_eq (/ n)) by lra. apply Rmult_le_compat_r; lra. }
  pose proof two1022 as T.
  destruct (div_huge (sum_64 l) (f64_of_N (N.of_nat (length l))) Fs) as [Fa Ba]; [rewrite Bn; lra| |].
  { rewrite Bn. fold n. assert (2 * size_R l * / n <= 2 * size_R l * 1) by (apply Rmult_le_compat_l; lra). lra. }
  rewrite Bn in Ba. fold n in Ba. split; [exact Fa|]. split; [exact Es|]. rewrite Ba. unfold mean_R. fold n. pose proof (rnd_err (B2R (sum_64 l) / n)) as E1.
  assert (u1 * Rabs (B2R (sum_64 l) / n) <= u1 * (2 * size_R l * / n)) as E2 by (apply Rmult_le_compat_l; lra).
  replace (rnd64 (B2R (sum_64 l) / n) - sum_R l / n) with ((rnd64 (B2R (sum_64 l) / n) - B2R (sum_64 l) / n) + (B2R (sum_64 l) - sum_R l) * / n) by (unfold Rdiv; ring).
  eapply Rle_trans; [apply Rabs_triang|]. rewrite (Rabs_mult _ (/ n)), (Rabs_pos_eq (/ n)) by lra.
  assert (Rabs (B2R (sum_64 l) - sum_R l) * / n <= n * u2 * size_R l * / n) as E3 by (apply Rmult_le_compat_r; lra).
  rewrite plus_INR. cbn [INR]. fold n. unfold Rdiv. rewrite U12 in *. lra.
Qed.

(** *** Whole numbers *)
Lemma whole_add (a b : float64) (x y : Z) : is_finite a = true → is_finite b = true → B2R a = IZR x → B2R b = IZR y → (Z.abs (x + y) <= 2 ^ 53)%Z →
  is_finite (f64_add a b) = true ∧ B2R (f64_add a b) = IZR (x + y).
Proof.
  intros Fa Fb Ba Bb L. destruct (add_round a b Fa Fb) as [F B].
  - rewrite Ba, Bb, <- plus_IZR, <- abs_IZR. apply Rle_trans with (IZR (2 ^ 53)); [by apply IZR_le|]. rewrite <- bp53. apply bpow_le. lia.
  - split; [exact F|]. rewrite B, Ba, Bb, <- plus_IZR. by apply rnd_Z.
Qed.
Lemma whole_sub (a b : float64) (x y : Z) : is_finite a = true → is_finite b = true → B2R a = IZR x → B2R b = IZR y → (Z.abs (x - y) <= 2 ^ 53)%Z →
  is_finite (f64_sub a b) = true ∧ B2R (f64_sub a b) = IZR (x - y).
Proof.
  intros Fa Fb Ba Bb L. destruct (sub_round a b Fa Fb) as [F B].
  - rewrite Ba, Bb, <- minus_IZR, <- abs_IZR. apply Rle_trans with (IZR (2 ^ 53)); [by apply IZR_le|]. rewrite <- bp53. apply bpow_le. lia.
  - split; [exact F|]. rewrite B, Ba, Bb, <- minus_IZR. by apply rnd_Z.
Qed.
Lemma same_F (a b : num64) : is_finite (a : float64) = true → is_finite (b : float64) = true → same_num a b → B2R (a : float64) = B2R (b : float64).
Proof. intros Fa Fb [E1 E2]. apply Rle_antisym; apply leF; assumption. Qed.
Lemma mentioned_app a b : mentioned (a ++ b) = mentioned a ++ mentioned b.
Proof. unfold mentioned. by rewrite fmap_app, concat_app. Qed.
Lemma whole_total nc h l : present nc h l → all_values whole h → size_R (mentioned h) <= IZR (2 ^ 53) →
  size_R l <= size_R (mentioned h) ∧ is_finite (total_of h : float64) = true ∧ (∃ z, sum_R l = IZR z) ∧ B2R (total_of h : float64) = sum_R l.
Proof.
  induction 1 as [|h l v t P IH|h l o o' l' v t P IH E Pm Sa|h l o o' l' t P IH E Pm Sa]; intros V Z.
  - destruct zero_val as [F0 B0]. change (mentioned []) with (@nil num64). rewrite size_nil, sum_nil. unfold total_of. cbn [foldl]. split; [lra|]. split; [exact F0|]. split; [by exists 0%Z|exact B0].
  - pose proof V as V'. apply all_values_snoc in V' as [Vh Vo]. destruct (Vo v ltac:(left)) as [Fv (z & Bv)].
    rewrite mentioned_app, size_app in Z |- *. change (mentioned [_]) with (op_values (A := num64) (Add v t) ++ []) in Z |- *. cbn [op_values app] in *. rewrite ?size_cons, ?size_nil in *.
    pose proof (Rabs_pos (B2R (v : float64))). destruct IH as (I1 & I2 & (x & I3) & I4); [exact Vh|lra|]. split; [lra|]. unfold total_of. rewrite foldl_app. cbn [foldl total1 nadd num64]. fold (total_of h).
    pose proof (sum_size l) as Sl. assert (Rabs (B2R (total_of h : float64) + B2R (v : float64)) <= IZR (2 ^ 53)) as Q by (rewrite I4; eapply Rle_trans; [apply Rabs_triang|]; lra).
    rewrite I4, I3, Bv, <- plus_IZR, <- abs_IZR in Q. apply le_IZR in Q. rewrite I3 in I4.
    destruct (whole_add (total_of h) v x z I2 Fv I4 Bv Q) as [W1 W2]. split; [exact W1|]. rewrite sum_cons. rewrite I3, Bv. split; [exists (z + x)%Z; by rewrite plus_IZR|]. rewrite W2, plus_IZR. ring.
  - pose proof V as V'. apply all_values_snoc in V' as [Vh Vo]. destruct (Vo v ltac:(right; left)) as [Fv (z & Bv)]. destruct (Vo o ltac:(left)) as [Fo (y & Bo)].
    rewrite mentioned_app, size_app in Z |- *. change (mentioned [_]) with (op_values (A := num64) (Update o v t) ++ []) in Z |- *. cbn [op_values app] in *. rewrite ?size_cons, ?size_nil in *.
    pose proof (Rabs_pos (B2R (v : float64))). pose proof (Rabs_pos (B2R (o : float64))). destruct IH as (I1 & I2 & (x & I3) & I4); [exact Vh|lra|].
    assert (is_finite (o' : float64) = true) as Fo'. { pose proof (present_ok (n_ok := whole) nc h l P Vh) as K. rewrite Pm in K. apply Forall_cons in K as [K _]. apply K. }
    pose proof (same_F o' o Fo' Fo Sa) as Eo. rewrite (size_perm _ _ Pm) in I1. rewrite (sum_perm _ _ Pm) in I3, I4. rewrite size_cons in I1. rewrite sum_cons in I3, I4.
    pose proof (Rabs_pos (B2R (o' : float64))). split; [lra|]. unfold total_of. rewrite foldl_app. cbn [foldl total1 nadd nsub num64]. fold (total_of h).
    assert (Rabs (B2R (v : float64) - B2R (o : float64)) <= IZR (2 ^ 53)) as Q. { unfold Rminus. eapply Rle_trans; [apply Rabs_triang|]. rewrite Rabs_Ropp. pose proof (size_pos (mentioned h)). lra. }
    rewrite Bv, Bo, <- minus_IZR, <- abs_IZR in Q. apply le_IZR in Q. destruct (whole_sub v o z y Fv Fo Bv Bo Q) as [W1 W2].
    pose proof (sum_size l') as Sl. assert (sum_R l' = IZR (x - y)) as El by (rewrite minus_IZR, <- I3, <- Bo, Eo; ring).
    assert (Rabs (B2R (v : float64) + sum_R l') <= IZR (2 ^ 53)) as Q' by (eapply Rle_trans; [apply Rabs_triang|]; lra).
    rewrite Bv, El, <- plus_IZR, <- abs_IZR in Q'. apply le_IZR in Q'. rewrite I3 in I4. replace (z + (x - y))%Z with (x + (z - y))%Z in Q' by lia.
    destruct (whole_add (total_of h) (f64_sub v o) x (z - y) I2 W1 I4 W2 Q') as [W3 W4]. split; [exact W3|]. rewrite sum_cons. rewrite El, Bv.
    split; [exists (z + (x - y))%Z; by rewrite (plus_IZR z)|]. rewrite W4, <- plus_IZR. f_equal. lia.
  - pose proof V as V'. apply all_values_snoc in V' as [Vh Vo]. destruct (Vo o ltac:(left)) as [Fo (y & Bo)].
    rewrite mentioned_app, size_app in Z |- *. change (mentioned [_]) with (op_values (A := num64) (Remove o t) ++ []) in Z |- *. cbn [op_values app] in *. rewrite ?size_cons, ?size_nil in *.
    pose proof (Rabs_pos (B2R (o : float64))). destruct IH as (I1 & I2 & (x & I3) & I4); [exact Vh|lra|].
    assert (is_finite (o' : float64) = true) as Fo'. { pose proof (present_ok (n_ok := whole) nc h l P Vh) as K. rewrite Pm in K. apply Forall_cons in K as [K _]. apply K. }
    pose proof (same_F o' o Fo' Fo Sa) as Eo. rewrite (size_perm _ _ Pm) in I1. rewrite (sum_perm _ _ Pm) in I3, I4. rewrite size_cons in I1. rewrite sum_cons in I3, I4.
    pose proof (Rabs_pos (B2R (o' : float64))). split; [lra|]. unfold total_of. rewrite foldl_app. cbn [foldl total1 nadd nsub num64]. fold (total_of h).
    pose proof (sum_size l') as Sl. assert (sum_R l' = IZR (x - y)) as El by (rewrite minus_IZR, <- I3, <- Bo, Eo; ring).
    assert (Rabs (sum_R l') <= IZR (2 ^ 53)) as Q by lra. rewrite El, <- abs_IZR in Q. apply le_IZR in Q. rewrite I3 in I4.
    destruct (whole_sub (total_of h) o x y I2 Fo I4 Bo Q) as [W3 W4]. split; [exact W3|]. rewrite El. split; [by exists (x - y)%Z|exact W4].
Qed.
Lemma whole_ok (v : num64) : whole v → notNaN v.
Proof. intros [F _]. by apply fin_notnan. Qed.
Lemma snapshot_average_whole (es : list num64) ps nc ts h rs d l : newBucketerFromEndpoints es = Some ps → ascending es → Forall notNaN es → present nc h l → l ≠ [] →
  all_values whole h → size_R (mentioned h) <= IZR (2 ^ 53) → (N.of_nat (length h) ≤ 2^52)%N → performs h (newDistributionWithTimeStamp ps nc ts) = (rs, d) →
  ∃ s, Snapshot d = Some s ∧ B2R (Sum d : float64) = sum_R l ∧ B2R (s_sum s : float64) = sum_R l ∧ is_finite (s_average s : float64) = true ∧ B2R (s_average s : float64) = rnd64 (mean_R l) ∧
    B2R (s_min s : float64) <= B2R (s_average s : float64) <= B2R (s_max s : float64).
Proof.
  intros B As Ok P Ne V Z L E. assert (all_values notNaN h) as Vn by (intros o v O W; apply whole_ok; by apply (V o v)).
  destruct (snapshot_total64 es ps nc ts h rs d B E ltac:(lia)) as (Su & s & S & K). destruct (snapshot_fields d s S) as (C & _ & _ & H). exists s. split; [exact S|].
  apply performs_final in E as [-> ->]. destruct (present_state ordered64 es ps nc ts h l B As Ok Vn P ltac:(lia)) as (S1 & S2 & _).
  rewrite succeeded_all in Su, K; [|apply outcomes_length|exact S1|apply outcomes_length|exact S1]. rewrite S2 in C.
  assert (1 <= length l)%nat as N1 by (destruct l; [done|cbn [length]; lia]).
  assert (N.of_nat (length l) ≤ 2^52)%N as Ll. { destruct (present_since nc h l P) as [Q _]. assert (∀ h0 (s0 : N * list num64), (fst (foldl since_empty1 s0 h0) ≤ fst s0 + N.of_nat (length h0))%N) as G.
    { clear. induction h0 as [|o h0 IH]; intros s0; [cbn; lia|]. cbn [foldl length]. etransitivity; [apply IH|]. destruct o; cbn [since_empty1 fst]; [lia|lia|]. destruct (N.eqb_spec (fst s0) 1); cbn [fst]; lia. }
    specialize (G h (0%N, [])). cbn [fst] in G. rewrite Q in G. lia. }
  destruct K as [K1 K2]; [rewrite C; lia|]. destruct H as (Hn & Hx & _); [rewrite S2; lia|]. destruct (whole_total nc h l P V Z) as (W1 & W2 & _ & W3).
  rewrite Su, K1, K2, C. split; [exact W3|]. split; [exact W3|]. destruct (count_val _ Ll) as [Fn Bn]. assert (1 <= INR (length l)) as I1 by (apply (le_INR 1); lia).
  set (n := INR (length l)) in *. pose proof (sum_size l) as Ms.
  destruct (div_huge (total_of h) (f64_of_N (N.of_nat (length l))) W2) as [Fa Ba]; [rewrite Bn; fold n; lra| |].
  { rewrite Bn, W3. unfold Rdiv. rewrite Rabs_mult. assert (0 < / n <= 1) as In. { split; [apply Rinv_0_lt_compat; lra|]. rewrite <- Rinv_1. apply Rinv_le; lra. }
    rewrite (Rabs_pos_eq (/ n)) by lra. assert (Rabs (sum_R l) * / n <= Rabs (sum_R l) * 1) by (apply Rmult_le_compat_l; [apply Rabs_pos|lra]).
    assert (IZR (2 ^ 53) <= huge) by (rewrite <- bp53; apply bpow_le; lia). lra. }
  split; [exact Fa|]. rewrite Bn, W3 in Ba. change (sum_R l / n) with (mean_R l) in Ba. split; [exact Ba|]. rewrite Ba, Hn, Hx.
  assert (∀ v : num64, v ∈ l → whole v) as Wl. { pose proof (present_ok (n_ok := whole) nc h l P V) as F. by rewrite Forall_forall in F. }
  destruct (minmax_state ordered64 es ps nc ts h B Vn ltac:(lia)) as (_ & _ & M & _). rewrite succeeded_all in M; [|apply outcomes_length|exact S1].
  destruct M as [[M1 _] [M2 _]]; [rewrite S2; lia|]. pose proof (since_values whole h V) as F. rewrite Forall_forall in F. destruct (F _ M1) as [Fmn _]. destruct (F _ M2) as [Fmx _].
  apply rnd_between; [apply fmt_B2R|apply fmt_B2R|]. apply mean_between; [exact Ne|]. intros v W. destruct (Wl v W) as [Fv _].
  destruct (present_bounds ordered64 es ps nc ts h l v B As Ok Vn P ltac:(lia) W) as [B1 B2]. split; apply leF; assumption.
Qed.
