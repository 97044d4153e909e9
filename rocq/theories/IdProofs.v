(** Group ids: what the generator hands out. *)
From Coq Require Import ZArith Lia.
From Verif Require Import GoBase.
From stdpp Require Import list.
From Verif Require Import IdModel.
Local Open Scope Z_scope.
Lemma handed_app a b : somes (a ++ b) = somes a ++ somes b.
Proof. induction a as [|[z|] a IH]; simpl; by rewrite ?IH. Qed.
Lemma elem_of_somes l z : z ∈ somes l ↔ Some z ∈ l.
Proof. induction l as [|[y|] l IH]; simpl; rewrite ?elem_of_cons, ?IH, ?elem_of_nil; naive_solver. Qed.
Lemma insert_handed l t v : l !! t = Some None → somes (<[t := Some v]> l) ≡ₚ v :: somes l.
Proof.
  revert t. induction l as [|x l IH]; intros [|t]; simpl; [done|done|by intros [= ->]|]. intros E. specialize (IH t E). destruct x as [z|]; simpl; [|done].
  rewrite IH. apply Permutation_swap.
Qed.
Lemma wrap64_add a b : wrap64 (wrap64 a + b) = wrap64 (a + b).
Proof.
  unfold wrap64. f_equal. replace ((a + 2 ^ 63) mod 2 ^ 64 - 2 ^ 63 + b + 2 ^ 63) with ((a + 2 ^ 63) mod 2 ^ 64 + b) by lia.
  rewrite Z.add_mod_idemp_l by lia. f_equal. lia.
Qed.
Lemma ireach_inv s : ireach s →
  handed s ≡ₚ (λ n, wrap64 (Z.of_nat n)) <$> seq 0 (length (handed s)) ∧
  match i_gen s with GSending id => id = wrap64 (rank s) | GSent id => wrap64 (id + 1) = wrap64 (rank s) end.
Proof.
  induction 1 as [|s k s' R [IH1 IH2] St]; [done|]. destruct k as [|t|]; simpl in St.
  - injection St as <-. unfold rank, handed in *. simpl in *. rewrite !handed_app. simpl. rewrite !app_nil_r. done.
  - destruct (i_gen s) as [id|id] eqn:G; [|done]. destruct (i_creators s !! t) as [[|]|] eqn:C; try done. injection St as <-. subst id.
    unfold rank, handed in *. simpl. pose proof (insert_handed _ _ (wrap64 (Z.of_nat (length (somes (i_creators s))))) C) as P.
    pose proof (Permutation_length P) as L. simpl in L. rewrite L, P. split.
    + rewrite seq_S, fmap_app, <- IH1. simpl. apply Permutation_cons_append.
    + rewrite wrap64_add. f_equal. lia.
  - destruct (i_gen s) as [id|id] eqn:G; [done|]. injection St as <-. done.
Qed.
Lemma wrap64_inj a b : 0 ≤ a < 2 ^ 64 → 0 ≤ b < 2 ^ 64 → wrap64 a = wrap64 b → a = b.
Proof.
  unfold wrap64. intros A B E. assert ((a + 2 ^ 63) mod 2 ^ 64 = (b + 2 ^ 63) mod 2 ^ 64) as M by lia.
  pose proof (Z.div_mod (a + 2 ^ 63) (2 ^ 64) ltac:(lia)) as Da. pose proof (Z.div_mod (b + 2 ^ 63) (2 ^ 64) ltac:(lia)) as Db. rewrite M in Da.
  assert ((a + 2 ^ 63) / 2 ^ 64 = 0 ∨ (a + 2 ^ 63) / 2 ^ 64 = 1) as [Qa|Qa].
  { assert (0 ≤ (a + 2 ^ 63) / 2 ^ 64 < 2); [|lia]. split; [apply Z.div_pos; lia|apply Z.div_lt_upper_bound; lia]. }
  all: assert ((b + 2 ^ 63) / 2 ^ 64 = 0 ∨ (b + 2 ^ 63) / 2 ^ 64 = 1) as [Qb|Qb];
    [assert (0 ≤ (b + 2 ^ 63) / 2 ^ 64 < 2); [|lia]; split; [apply Z.div_pos; lia|apply Z.div_lt_upper_bound; lia]|..]; rewrite Qa, Qb in *; lia.
Qed.
Lemma wrap64_small a : 0 ≤ a < 2 ^ 63 → wrap64 a = a.
Proof. intros A. unfold wrap64. rewrite Z.mod_small; lia. Qed.
Lemma handed_nodup s : ireach s → rank s ≤ 2 ^ 64 → NoDup (handed s).
Proof.
  intros R L. destruct (ireach_inv s R) as [P _]. rewrite P. apply NoDup_fmap_2_strong; [|apply NoDup_ListNoDup, seq_NoDup].
  intros x y Hx Hy E. apply elem_of_list_In, in_seq in Hx, Hy. apply wrap64_inj in E; unfold rank in L; lia.
Qed.
Lemma omap_nodup_lookup (l : list (option Z)) t1 t2 a : NoDup (somes l) → l !! t1 = Some (Some a) → l !! t2 = Some (Some a) → t1 = t2.
Proof.
  revert t1 t2. induction l as [|x l IH]; intros [|t1] [|t2] N E1 E2; simpl in *; try done.
  - injection E1 as ->. simpl in N. apply NoDup_cons in N as [N _]. destruct N. apply elem_of_somes. by eapply elem_of_list_lookup_2.
  - injection E2 as ->. simpl in N. apply NoDup_cons in N as [N _]. destruct N. apply elem_of_somes. by eapply elem_of_list_lookup_2.
  - f_equal. eapply IH; [|done|done]. destruct x; simpl in N; [|done]. apply NoDup_cons in N as [_ N]. exact N.
Qed.
