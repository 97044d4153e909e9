(** The geometric bucketer in float64, continued: emitting the end points. *)
From Coq Require Import ZArith Reals Lra Lia.
From Verif Require Import GoBase GoVal FloatBase.
From stdpp Require Import list.
From Flocq Require Import Core BinarySingleNaN.
From Verif Require Import DistModel DistSpec FloatLemmas BucketerModel BucketerSpec BucketerProofs BucketerGeo.
Local Open Scope R_scope.

Lemma pinf_lt (u : float64) : f64_lt f64_pinf u = false.
Proof. by destruct u as [|[]| |[]]. Qed.
Lemma mul_mono (x y c d : float64) : is_nan x = false → is_nan y = false → 0 < f64_key x → f64_key x <= f64_key y → 0 < B2R c → B2R c <= B2R d →
  is_nan (f64_mul y d) = false ∧ f64_key (f64_mul x c) <= f64_key (f64_mul y d).
Proof.
  intros Nx Ny Px L Pc Lc. pose proof (finite_pos c Pc) as Fc. pose proof (finite_pos d ltac:(lra)) as Fd.
  destruct (pos_cases y Ny ltac:(lra)) as [->|[Fy Py]].
  - rewrite mul_inf_l; [split; [done|apply key_top]|by apply fin_notnan|rewrite key_finite by done; lra].
  - destruct (pos_cases x Nx Px) as [->|[Fx Qx]]; [rewrite key_pinf, key_finite in L by done; pose proof (key_bound y Fy); lra|]. rewrite !key_finite in L by done.
    pose proof (mul_pos x c Qx Pc) as R1. pose proof (mul_pos y d Py ltac:(lra)) as R2. split; [by eapply rounds_notnan|]. eapply rounds_mono; [exact R1|exact R2|].
    apply Rmult_le_compat; lra.
Qed.
Lemma mul_one (x c : float64) : is_nan x = false → 0 < f64_key x → B2R c = 1 → is_nan (f64_mul x c) = false ∧ f64_key (f64_mul x c) = f64_key x.
Proof.
  intros N P C. pose proof (finite_pos c ltac:(lra)) as Fc. destruct (pos_cases x N P) as [->|[F Q]].
  - rewrite mul_inf_l; [done|by apply fin_notnan|rewrite key_finite by done; lra].
  - pose proof (mul_pos x c Q ltac:(lra)) as R. rewrite C, Rmult_1_r in R. split; [by eapply rounds_notnan|]. destruct R as [[Fz E]|[_ E]].
    + rewrite !key_finite by done. rewrite E. apply rnd_fmt, fmt_B2R.
    + rewrite rnd_fmt in E by apply fmt_B2R. pose proof (key_bound x F). lra.
Qed.
Lemma ten_pos (b : num64) : notNaN b → 0 < f64_key b → notNaN (mul_ten b) ∧ f64_key b <= f64_key (mul_ten b).
Proof. intros N P. apply mul_growth; [done|by vm_compute|done|]. rewrite (proj1 key_10). lra. Qed.
Lemma decades_mono m (a b : num64) : notNaN a → notNaN b → 0 < f64_key a → f64_key a <= f64_key b → f64_key (Nat.iter m mul_ten a) <= f64_key (Nat.iter m mul_ten b).
Proof.
  revert a b. induction m as [|m IH]; intros a b Na Nb Pa L; [done|]. rewrite !Nat.iter_succ_r. destruct (ten_pos a Na Pa) as [A1 A2], (ten_pos b Nb ltac:(lra)) as [B1 B2].
  apply IH; [done|done|lra|]. apply mul_mono; try done; rewrite (proj2 key_10); lra.
Qed.
Lemma smallest_key (b : num64) : notNaN b → 0 < f64_key b → f64_key f64_smallest <= f64_key b.
Proof.
  intros N P. assert (f64_key f64_smallest = bpow radix2 (-1074)) as ->.
  { rewrite key_finite by by vm_compute. rewrite <- SF2R_B2SF. assert (B2SF f64_smallest = SpecFloat.S754_finite false 1 (-1074)) as -> by by vm_compute. unfold SF2R, cond_Zopp, F2R. simpl Fnum. simpl Fexp. lra. }
  destruct (pos_cases b N P) as [->|[F Q]]; [rewrite key_pinf; apply bpow_le; lia|]. rewrite key_finite by done.
  pose proof (abs_B2R_ge_emin 53 1024 b) as G. rewrite Rabs_pos_eq in G by lra. apply G. destruct b as [s|s| |s m e Hb]; try done. cbn in Q. lra.
Qed.
Lemma decades_top (b : num64) : notNaN b → 0 < f64_key b → f64_key (Nat.iter 640 mul_ten b) = top.
Proof.
  intros N P. pose proof (decades_mono 640 f64_smallest b ltac:(by vm_compute) N) as M. assert (0 < f64_key f64_smallest) as S.
  { rewrite key_finite by by vm_compute. apply positive_spec. by vm_compute. }
  specialize (M S (smallest_key b N P)). assert (f64_key (Nat.iter 640 mul_ten f64_smallest) = top) as T.
  { pose proof decades_inf as D. set (z := Nat.iter 640 mul_ten f64_smallest) in *. clearbody z. clear -D. destruct z as [|[]| |]; done. }
  rewrite T in M. pose proof (key_top (Nat.iter 640 mul_ten b)). lra.
Qed.
Lemma coefficient_pos o : 1 <= B2R (coefficient (A := num64) o : float64).
Proof. rewrite coefficient_R. destruct o as [|[|]]; lra. Qed.
Lemma emit_step f (b : num64) o (u : num64) : is_Some (if Nat.eqb (S o) 3 then emit_loop f (mul_ten b) 0 u else emit_loop f b (S o) u) → is_Some (emit_loop (S f) b o u).
Proof.
  intros H. cbn [emit_loop]. destruct (nlt (nmul b (coefficient o)) u); [|by eexists]. change (nmul b (nofN 10)) with (mul_ten b).
  destruct (if Nat.eqb (S o) 3 then _ else _); [by eexists|by destruct H].
Qed.
Lemma key_is_top (b : float64) : is_nan b = false → f64_key b = top → b = f64_pinf.
Proof.
  intros N K. pose proof top_pos. destruct (pos_cases b N ltac:(lra)) as [->|[F _]]; [done|]. rewrite key_finite in K by done. pose proof (key_bound b F). lra.
Qed.
Lemma emit_term m : ∀ (b : num64) o (u : num64), (o < 3)%nat → notNaN b → 0 < f64_key b → f64_key (Nat.iter m mul_ten b) = top → is_Some (emit_loop (3 * m + 1) b o u).
Proof.
  induction m as [|m IH]; intros b o u O N P T.
  - apply key_is_top in T; [|done]. change (b = f64_pinf) in T. subst b. change (3 * 0 + 1)%nat with 1%nat. cbn [emit_loop]. assert (nmul (f64_pinf : num64) (coefficient o) = f64_pinf) as ->.
    { apply mul_inf_l; [|pose proof (coefficient_pos o); rewrite key_finite; [lra|apply finite_pos; lra]]. apply fin_notnan, finite_pos. pose proof (coefficient_pos o). lra. }
    change (nlt (f64_pinf : num64) u) with (f64_lt f64_pinf u). rewrite pinf_lt. by eexists.
  - destruct (ten_pos b N P) as [N' P']. rewrite Nat.iter_succ_r in T.
    assert (∀ f, (3 * m + 1 <= f)%nat → is_Some (emit_loop f (mul_ten b) 0 u)) as H.
    { intros f F. destruct (IH (mul_ten b) 0%nat u ltac:(lia) N' ltac:(lra) T) as [es E]. exists es. by eapply emit_stable. }
    assert (∀ f, (3 * m + 2 <= f)%nat → is_Some (emit_loop f b 2 u)) as H2. { intros f F. destruct f as [|f]; [lia|]. apply emit_step. apply H. lia. }
    assert (∀ f, (3 * m + 3 <= f)%nat → is_Some (emit_loop f b 1 u)) as H1. { intros f F. destruct f as [|f]; [lia|]. apply emit_step. apply H2. lia. }
    replace (3 * S m + 1)%nat with (S (3 * m + 3)) by lia. destruct o as [|[|[|o]]]; [apply emit_step; apply H1; lia|apply H1; lia|apply H2; lia|lia].
Qed.
Lemma emit_shape f : ∀ (b : num64) o (u : num64) es, (o < 3)%nat → notNaN b → 0 < f64_key b → emit_loop f b o u = Some es →
  Forall notNaN es ∧ es !! 0%nat = Some (nmul b (coefficient o)) ∧ (∀ i x y, es !! i = Some x → es !! S i = Some y → f64_key x <= f64_key y) ∧
  ∀ i e, es !! i = Some e → nlt e u = bool_decide (S i < length es)%nat.
Proof.
  induction f as [|f IH]; intros b o u es O N P H; [done|]. cbn [emit_loop] in H. set (v := nmul b (coefficient o)) in *.
  assert (notNaN v ∧ 0 < f64_key v) as [Nv Pv].
  { destruct (mul_mono b b (f64_of_N 1) (coefficient (A := num64) o) N N P ltac:(lra)) as [M1 M2]; [rewrite (proj2 key_1); lra|rewrite (proj2 key_1); apply coefficient_pos|].
    destruct (mul_one b (f64_of_N 1) N P (proj2 key_1)) as [_ M3]. split; [exact M1|]. change v with (f64_mul b (coefficient (A := num64) o)). lra. }
  destruct (nlt v u) eqn:E.
  2:{ injection H as <-. split_and!; [by repeat constructor|done|by intros [|i] x y|]. intros [|i] e; [intros [= <-]; by rewrite E|done]. }
  assert (∃ (b' : num64) o' es', (o' < 3)%nat ∧ notNaN b' ∧ 0 < f64_key b' ∧ emit_loop f b' o' u = Some es' ∧ es = v :: es' ∧ f64_key v <= f64_key (nmul b' (coefficient o'))) as (b' & o' & es' & O' & N' & P' & H' & -> & L).
  { destruct (Nat.eqb_spec (S o) 3) as [->%Nat.succ_inj|Ho].
    - destruct (emit_loop f (nmul b (nofN 10)) 0 u) as [es'|] eqn:E'; [|done]. injection H as <-. exists (nmul b (nofN 10)), 0%nat, es'. destruct (ten_pos b N P) as [T1 T2].
      split_and!; [lia|exact T1| |done|done|].
      + change (nmul b (nofN 10)) with (mul_ten b). lra.
      + change (nmul b (nofN 10)) with (mul_ten b). destruct (mul_one (mul_ten b) (coefficient (A := num64) 0) T1 ltac:(lra) (coefficient_R 0)) as [_ M].
        change (nmul (mul_ten b) (coefficient 0)) with (f64_mul (mul_ten b) (coefficient (A := num64) 0)). rewrite M. apply mul_mono; try done; try lra; rewrite coefficient_R, ?(proj2 key_10); lra.
    - destruct (emit_loop f b (S o) u) as [es'|] eqn:E'; [|done]. injection H as <-. exists b, (S o), es'. split_and!; try done; [lia|].
      apply mul_mono; try done; try lra; rewrite !coefficient_R; destruct o as [|[|[|o]]]; try lra; lia. }
  destruct (IH b' o' u es' O' N' P' H') as (H1 & H2 & H3 & H4). split_and!; [by constructor|done| |].
  - intros [|i] x y X Y; [|exact (H3 i x y X Y)]. pose proof (eq_trans (eq_sym H2) Y) as Z. injection X as <-. injection Z as <-. exact L.
  - intros [|i] e X.
    + injection X as <-. etransitivity; [exact E|]. symmetry. apply bool_decide_eq_true. destruct es'; [done|]. cbn [length]. lia.
    + etransitivity; [exact (H4 i e X)|]. apply bool_decide_ext. cbn [length]. lia.
Qed.
Lemma geometric_works (lower upper : num64) : notNaN lower → notNaN upper →
  (f64_le lower (f64_of_Z 0) = true ∨ f64_lt upper lower = true → ∀ fuel, newGeometricBucketerStream fuel lower upper = Panicked) ∧
  (f64_le f64_third lower = true → lower ≠ f64_pinf → f64_lt upper lower = false →
   ∃ n es, (∀ fuel, (n ≤ fuel)%nat → newGeometricBucketerStream fuel lower upper = Finished es) ∧
     es ≠ [] ∧ Forall notNaN es ∧ ascending es ∧ (∀ i e, es !! i = Some e → f64_lt e upper = bool_decide (S i < length es)%nat)).
Proof.
  intros N1 N2. unfold newGeometricBucketerStream. change (nle lower (nofN 0)) with (f64_le lower (f64_of_Z 0)). change (nlt upper lower) with (f64_lt upper lower). split.
  - intros [->| ->] fuel; [done|by rewrite orb_true_r].
  - intros T I L. rewrite L. apply f64_le_true in T as (_ & _ & T). rewrite (key_finite f64_third) in T by by vm_compute. pose proof third_R as P3.
    destruct (pos_cases lower N1 ltac:(lra)) as [?|[F P]]; [done|]. rewrite key_finite in T by done.
    destruct (f64_le lower (f64_of_Z 0)) eqn:E0. { apply f64_le_true in E0 as (_ & _ & E0). rewrite key_finite in E0 by done. change (f64_of_Z 0) with (f64_of_N 0) in E0. rewrite (proj1 key_0) in E0. lra. }
    destruct (find_works lower T) as (x2 & b & o & _ & Hf & O & Pb & _). pose proof (finite_pos b Pb) as Fb. assert (notNaN b) as Nb by by apply fin_notnan. assert (0 < f64_key b) as Kb by by rewrite key_finite.
    destruct (emit_term 640 b o upper O Nb Kb (decades_top b Nb Kb)) as [es E]. exists 2000%nat, es.
    destruct (emit_shape _ b o upper es O Nb Kb E) as (S1 & S2 & S3 & S4). split_and!; [|by intros ->|done|by apply chain_ascending|done].
    intros fuel G. rewrite (find_stable _ _ _ fuel Hf) by lia. rewrite (emit_stable _ _ _ _ _ fuel E) by lia. done.
Qed.
(** *** where it does not terminate *)
Lemma down_inf f b : down_loop f (f64_pinf : num64) b = None.
Proof. revert b. induction f as [|f IH]; intros b; [done|]. cbn [down_loop]. assert (nle (nofN 10) (f64_pinf : num64) = true) as -> by by vm_compute. assert (ndiv (f64_pinf : num64) (nofN 10) = f64_pinf) as -> by done. apply IH. Qed.
Lemma emit_zero f o (u : num64) : f64_lt (f64_of_Z 0) u = true → emit_loop f (f64_of_Z 0 : num64) o u = None.
Proof.
  intros U. revert o. induction f as [|f IH]; intros o; [done|]. cbn [emit_loop]. assert (nmul (f64_of_Z 0 : num64) (coefficient o) = f64_of_Z 0) as -> by (destruct o as [|[|o]]; done).
  change (nlt (f64_of_Z 0 : num64) u) with (f64_lt (f64_of_Z 0) u). rewrite U. assert (nmul (f64_of_Z 0 : num64) (nofN 10) = f64_of_Z 0) as -> by done. destruct (Nat.eqb (S o) 3); by rewrite IH.
Qed.
Definition zero_base (r : option (num64 * nat)) : bool := match r with Some (b, _) => match (b : float64) with B754_zero false => true | _ => false end | None => false end.
Lemma tiny_base1 : zero_base (findGeometricBaseAndOffset 400 (f64_lit 1 (-1074) : num64)) = true.
Proof. vm_compute. reflexivity. Qed.
Lemma tiny_base2 : zero_base (findGeometricBaseAndOffset 400 (f64_lit 2 (-1074) : num64)) = true.
Proof. vm_compute. reflexivity. Qed.
Lemma geometric_hangs (lower upper : num64) : lower = f64_pinf ∨ lower = f64_lit 1 (-1074) ∨ lower = f64_lit 2 (-1074) → f64_lt upper lower = false → notNaN upper →
  ∀ fuel, newGeometricBucketerStream fuel lower upper = Running.
Proof.
  intros H L N fuel. unfold newGeometricBucketerStream. change (nle lower (nofN 0)) with (f64_le lower (f64_of_Z 0)). change (nlt upper lower) with (f64_lt upper lower). rewrite L.
  assert (f64_le lower (f64_of_Z 0) = false) as -> by (destruct H as [->|[->| ->]]; by vm_compute). simpl orb. cbv iota.
  destruct H as [->|H]; [unfold findGeometricBaseAndOffset; by rewrite down_inf|].
  assert (zero_base (findGeometricBaseAndOffset 400 lower) = true ∧ notNaN lower ∧ positive lower = true) as (Z & Nl & Pl) by (destruct H as [->| ->]; split_and!; [apply tiny_base1|by vm_compute|by vm_compute|apply tiny_base2|by vm_compute|by vm_compute]).
  apply positive_spec in Pl. assert (f64_lt (f64_of_Z 0) upper = true) as U.
  { apply f64_lt_false in L; [|done|done]. rewrite (key_finite lower) in L by by apply finite_pos. rewrite f64_lt_key by done. apply Rlt_bool_true. change (f64_of_Z 0) with (f64_of_N 0). rewrite (proj1 key_0). lra. }
  clear H. destruct (findGeometricBaseAndOffset 400 lower) as [[b o]|] eqn:E; [|done]. simpl in Z.
  assert (b = f64_of_Z 0) as ->. { clear -Z. destruct b as [[]|[]| |]; done. }
  destruct (findGeometricBaseAndOffset fuel lower) as [[b' o']|] eqn:E'; [|done].
  assert (Some (b', o') = Some (f64_of_Z 0 : num64, o)) as X. { destruct (Nat.le_ge_cases fuel 400) as [G|G]; [rewrite <- E; symmetry; by apply (find_stable fuel)|rewrite <- E'; by apply (find_stable 400)]. }
  injection X as -> ->. by rewrite emit_zero.
Qed.
