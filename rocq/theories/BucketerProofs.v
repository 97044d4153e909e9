(** Exponential and linear bucketers in float64. *)
From Coq Require Import ZArith Reals Lra Lia.
From Verif Require Import GoBase GoVal FloatBase.
From stdpp Require Import list.
From Flocq Require Import Core BinarySingleNaN.
From Verif Require Import DistModel DistSpec DistProofs DistApi FloatLemmas BucketerModel BucketerSpec.

Lemma buckets_of {A : num} (es : list A) ps : newBucketerFromEndpoints es = Some ps → buckets es ps.
Proof.
  intros B. pose proof (bucketer_length es ps B) as Lp. split; [done|]. intros i p P. pose proof (lookup_lt_Some _ _ _ P) as Li.
  destruct (bucketer_lookup es ps i p B P) as (H1 & H2 & H3 & H4). split_and!; [done|done| |].
  - rewrite H3. intros N. apply bool_decide_eq_false in N. destruct i as [|i]; [done|]. assert (is_Some (es !! i)) as [e E] by (apply lookup_lt_is_Some; lia).
    rewrite Nat.sub_succ, Nat.sub_0_r, E. by rewrite (H2 i e).
  - rewrite H4. intros N. apply bool_decide_eq_false in N. assert (is_Some (es !! i)) as [e E] by (apply lookup_lt_is_Some; lia). rewrite E. by rewrite (H1 e).
Qed.
Lemma arbitrary {A : num} (es : list A) : (NewArbitraryBucketer es = None ↔ es = []) ∧ ∀ ps, NewArbitraryBucketer es = Some ps → buckets es ps.
Proof. split; [|apply buckets_of]. by destruct es. Qed.

(** *** iterating a function that never decreases its argument *)
Fixpoint iterate {A : num} (f : A → A) (n : nat) (x : A) : list A := match n with O => [] | S n => x :: iterate f n (f x) end.
Lemma iterate_length {A : num} (f : A → A) n x : length (iterate f n x) = n.
Proof. revert x. induction n; intros; simpl; auto. Qed.
Lemma iterate_progression {A : num} (f : A → A) n x : n ≠ 0 → progression f x (iterate f n x).
Proof.
  intros N. split; [by destruct n|]. clear N. revert x. induction n as [|n IH]; intros x i a b; [done|]. destruct i as [|i]; simpl; [|apply IH].
  intros [= <-]. destruct n; [done|]. by intros [= <-].
Qed.
Lemma exponential_iterate {A : num} n (x s : A) : exponential_loop n x s = iterate (λ y, nmul y s) n x.
Proof. revert x. induction n; intros; simpl; f_equal; auto. Qed.
Lemma linear_iterate {A : num} n (x s : A) : linear_loop n x s = iterate (λ y, nadd y s) n x.
Proof. revert x. induction n; intros; simpl; f_equal; auto. Qed.
Lemma le_num_key (a b : num64) : notNaN a → notNaN b → le_num a b ↔ (f64_key a <= f64_key b)%R.
Proof.
  intros Na Nb. unfold le_num. change (nlt b a) with (f64_lt b a). rewrite f64_lt_key by done.
  destruct (Rlt_bool_spec (f64_key b) (f64_key a)); split; intros; try done; exfalso; lra.
Qed.
Lemma chain_ascending (es : list num64) : Forall notNaN es → (∀ i a b, es !! i = Some a → es !! S i = Some b → (f64_key a <= f64_key b)%R) → ascending es.
Proof.
  intros N H i j a b L Ha Hb. rewrite Forall_lookup in N. apply le_num_key; [by eapply N|by eapply N|].
  revert b Hb. induction L as [|j L IH]; intros b Hb; [by eapply H|]. assert (is_Some (es !! j)) as [c Hc] by (apply lookup_lt_is_Some; apply lookup_lt_Some in Hb; lia).
  specialize (IH c Hc). pose proof (H j c b Hc Hb). lra.
Qed.
Lemma iterate_grow (I : num64 → Prop) f n x : (∀ y, I y → notNaN y ∧ I (f y) ∧ (f64_key y <= f64_key (f y))%R) → I x →
  Forall notNaN (iterate f n x) ∧ ascending (iterate f n x).
Proof.
  intros H Hx. assert (Forall I (iterate f n x)) as Q. { revert x Hx. induction n; intros; simpl; constructor; [done|]. apply IHn. by apply H. }
  assert (Forall notNaN (iterate f n x)) as N by (eapply Forall_impl; [exact Q|]; intros y Hy; by apply H). split; [done|]. apply chain_ascending; [done|].
  intros i a b Ha Hb. destruct n as [|n]; [done|]. destruct (iterate_progression f (S n) x ltac:(lia)) as [_ P]. rewrite (P i a b Ha Hb). apply H. rewrite Forall_lookup in Q. by eapply Q.
Qed.

Local Open Scope R_scope.
Lemma pos_cases (x : float64) : is_nan x = false → 0 < f64_key x → x = f64_pinf ∨ (is_finite x = true ∧ 0 < B2R x).
Proof.
  intros N P. pose proof top_pos. destruct x as [s|[]| |s m e Hb]; cbv beta iota delta [f64_key B2R] in P; try discriminate; try lra; [by left|]. by right.
Qed.
Lemma mul_inf_l (y : float64) : is_nan y = false → 0 < f64_key y → f64_mul f64_pinf y = f64_pinf.
Proof.
  intros N P. destruct (pos_cases y N P) as [->|[F Q]]; [done|]. pose proof (sign_pos y Q) as S. destruct y as [|[]| |[]]; try done; cbn in Q; lra.
Qed.
Lemma mul_inf_r (y : float64) : is_nan y = false → 0 < f64_key y → f64_mul y f64_pinf = f64_pinf.
Proof.
  intros N P. destruct (pos_cases y N P) as [->|[F Q]]; [done|]. pose proof (sign_pos y Q) as S. destruct y as [|[]| |[]]; try done; cbn in Q; lra.
Qed.
Lemma key_pinf : f64_key f64_pinf = top.
Proof. reflexivity. Qed.
Lemma mul_growth (x s : float64) : is_nan x = false → is_nan s = false → 0 < f64_key x → 1 < f64_key s →
  is_nan (f64_mul x s) = false ∧ f64_key x <= f64_key (f64_mul x s).
Proof.
  intros Nx Ns Px Ps. destruct (pos_cases x Nx Px) as [->|[Fx Qx]]; [rewrite mul_inf_l by (done || lra); split; [done|lra]|].
  destruct (pos_cases s Ns ltac:(lra)) as [->|[Fs Qs]]; [rewrite mul_inf_r by done; split; [done|apply key_top]|].
  pose proof (mul_pos x s Qx Qs) as R. split; [by eapply rounds_notnan|]. rewrite (key_finite x) by done.
  eapply rounds_ge; [exact R|apply fmt_B2R|pose proof (key_bound x Fx); lra|]. rewrite (key_finite s) in Ps by done. rewrite <- (Rmult_1_r (B2R x)) at 1. apply Rmult_le_compat_l; lra.
Qed.
Lemma add_growth (x y : float64) : is_nan x = false → is_nan y = false → 0 < f64_key y → ¬ (x = f64_ninf ∧ y = f64_pinf) →
  is_nan (f64_add x y) = false ∧ f64_key x <= f64_key (f64_add x y).
Proof.
  intros Nx Ny Py H. destruct (pos_cases y Ny Py) as [->|[Fy Qy]].
  - assert (f64_add x f64_pinf = f64_pinf) as ->; [|split; [done|apply key_top]]. destruct x as [s|[]| |s m e Hb]; try done. exfalso. by apply H.
  - destruct (is_finite x) eqn:Fx.
    + pose proof (add_pos x y Fx Qy) as R. split; [by eapply rounds_notnan|]. rewrite (key_finite x) by done.
      eapply rounds_ge; [exact R|apply fmt_B2R|pose proof (key_bound x Fx); lra|lra].
    + destruct x as [|s| |]; try done. assert (f64_add (B754_infinity s) y = B754_infinity s) as -> by (destruct y as [| | |]; done). split; [done|lra].
Qed.
Lemma add_not_ninf (x y : float64) : is_nan x = false → is_nan y = false → 0 < f64_key y → ¬ (x = f64_ninf ∧ y = f64_pinf) → ¬ (f64_add x y = f64_ninf ∧ y = f64_pinf).
Proof.
  intros Nx Ny Py H [E ->]. assert (f64_add x f64_pinf = f64_pinf) as F; [|rewrite F in E; done]. destruct x as [s|[]| |s m e Hb]; try done; exfalso; by apply H.
Qed.
Lemma key_N n : (Z.of_N n <= 2 ^ 53)%Z → is_nan (f64_of_N n) = false ∧ f64_key (f64_of_N n) = IZR (Z.of_N n) ∧ B2R (f64_of_N n) = IZR (Z.of_N n).
Proof.
  intros H. destruct (f64_of_Z_exact (Z.of_N n) ltac:(lia)) as [E F]. unfold f64_of_N. split_and!; [|by rewrite key_finite|done].
  destruct (f64_of_Z (Z.of_N n)); done.
Qed.

Lemma stream_exponential (count : Z) (start scale : num64) : notNaN start → notNaN scale →
  (NewExponentialBucketer count start scale = None ↔ (count < 2)%Z ∨ f64_le start (f64_of_Z 0) = true ∨ f64_le scale (f64_of_Z 1) = true) ∧
  ∀ ps, NewExponentialBucketer count start scale = Some ps → Z.of_nat (length ps) = count ∧
    ∃ es, buckets es ps ∧ Forall notNaN es ∧ ascending es ∧ progression (λ e : num64, f64_mul e scale : num64) start es.
Proof.
  intros N1 N2. unfold NewExponentialBucketer, newExponentialBucketerStream. change (nle start (nofN 0)) with (f64_le start (f64_of_Z 0)).
  change (nle scale (nofN 1)) with (f64_le scale (f64_of_Z 1)). rewrite exponential_iterate.
  destruct (Z.ltb_spec count 2) as [C|C]; [simpl; split; [split; auto|done]|].
  destruct (f64_le start (f64_of_Z 0)) eqn:E1; [simpl; split; [split; auto|done]|]. destruct (f64_le scale (f64_of_Z 1)) eqn:E2; [simpl; split; [split; auto|done]|]. simpl orb.
  cbv iota. rewrite option_bind_Some_fmap || simpl mbind. set (es := iterate _ _ _).
  assert (length es = Z.to_nat (count - 1)) as L by apply iterate_length.
  assert (∃ ps, newBucketerFromEndpoints es = Some ps) as [ps E]. { destruct es; [simpl in L; lia|]. by eexists. }
  split; [rewrite E; split; [done|intros [?|[?|?]]; [lia|done|done]]|].
  intros ps' H. rewrite E in H. injection H as <-. split; [rewrite (bucketer_length es ps E); lia|]. exists es. split; [by apply buckets_of|].
  assert (1 < f64_key scale) as P2. { apply f64_le_false in E2; [|done|done]. destruct (key_N 1 ltac:(lia)) as (_ & K & _). unfold f64_of_N in K. simpl Z.of_N in K. by rewrite K in E2. }
  assert (0 < f64_key start) as P1. { apply f64_le_false in E1; [|done|done]. destruct (key_N 0 ltac:(lia)) as (_ & K & _). unfold f64_of_N in K. simpl Z.of_N in K. by rewrite K in E1. }
  destruct (iterate_grow (λ y, notNaN y ∧ 0 < f64_key y) (λ y, f64_mul y scale) (Z.to_nat (count - 1)) start) as [G1 G2]; [|done|].
  - intros y [Ny Py]. destruct (mul_growth y scale Ny N2 Py P2) as [M1 M2]. split_and!; [done|done|lra|done].
  - split_and!; [exact G1|exact G2|]. apply iterate_progression. lia.
Qed.
Lemma stream_linear (count : Z) (start increment : num64) : notNaN start → notNaN increment →
  (NewLinearBucketer count start increment = None ↔ (count < 2)%Z ∨ f64_le increment (f64_of_Z 0) = true) ∧
  ∀ ps, NewLinearBucketer count start increment = Some ps → Z.of_nat (length ps) = count ∧
    ∃ es, buckets es ps ∧ progression (λ e : num64, f64_add e increment : num64) start es ∧
      (¬ (start = f64_ninf ∧ increment = f64_pinf) → Forall notNaN es ∧ ascending es).
Proof.
  intros N1 N2. unfold NewLinearBucketer, newLinearBucketerStream. change (nle increment (nofN 0)) with (f64_le increment (f64_of_Z 0)). rewrite linear_iterate.
  destruct (Z.ltb_spec count 2) as [C|C]; [simpl; split; [split; auto|done]|].
  destruct (f64_le increment (f64_of_Z 0)) eqn:E1; [simpl; split; [split; auto|done]|]. simpl orb. cbv iota. simpl mbind. set (es := iterate _ _ _).
  assert (length es = Z.to_nat (count - 1)) as L by apply iterate_length.
  assert (∃ ps, newBucketerFromEndpoints es = Some ps) as [ps E]. { destruct es; [simpl in L; lia|]. by eexists. }
  split; [rewrite E; split; [done|intros [?|?]; [lia|done]]|].
  intros ps' H. rewrite E in H. injection H as <-. split; [rewrite (bucketer_length es ps E); lia|]. exists es. split; [by apply buckets_of|].
  split; [apply iterate_progression; lia|]. intros NI.
  assert (0 < f64_key increment) as P1. { apply f64_le_false in E1; [|done|done]. destruct (key_N 0 ltac:(lia)) as (_ & K & _). unfold f64_of_N in K. simpl Z.of_N in K. by rewrite K in E1. }
  apply (iterate_grow (λ y, notNaN y ∧ ¬ (y = f64_ninf ∧ increment = f64_pinf))); [|done].
  intros y [Ny Hy]. destruct (add_growth y increment Ny N2 P1 Hy) as [M1 M2]. split_and!; [done|done|by apply add_not_ninf|done].
Qed.
