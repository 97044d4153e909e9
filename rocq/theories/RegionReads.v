(** Two reads of a variable in one session see the same value. *)
From stdpp Require Import gmap list.
From Coq Require Import ZArith.
From Verif Require Import RegionModel RegionSpec RegionProofs RegionThms.
Local Notation run f0 v0 := (exec (init_config f0 v0)).

Lemma written_quiet v0 r tr x : (∀ l, l ∈ tr → updates r l = false) → written v0 r tr x = v0 x.
Proof.
  unfold written. revert v0. induction tr as [|l tr IH]; intros v0 H; simpl; [done|]. rewrite IH by (intros; apply H; by constructor).
  assert (U : updates r l = false) by (apply H; constructor). destruct l; simpl in *; try done. case_bool_decide; [done|]. by rewrite decide_False.
Qed.
Lemma written_app v0 r tr1 tr2 : written v0 r (tr1 ++ tr2) = written (written v0 r tr1) r tr2.
Proof. apply foldl_app. Qed.
Lemma reads_agree f0 v0 tr1 tr2 c t r x a b time : run f0 v0 (tr1 ++ [LRead t r x a] ++ tr2 ++ [LRead t r x b]) c → holds t r tr1 = Some time → LClose t ∉ tr2 → a = b.
Proof.
  intros R H N. assert (E : tr1 ++ [LRead t r x a] ++ tr2 ++ [LRead t r x b] = (tr1 ++ [LRead t r x a] ++ tr2) ++ [LRead t r x b]) by (by rewrite <- !app_assoc).
  rewrite E in R. pose proof (read_value _ _ _ _ _ _ _ _ R) as ->. apply exec_last in R as (c1 & k & R & _).
  destruct (held_span f0 v0 tr1 ([LRead t r x a] ++ tr2) c1 t r time R H) as [Q _]; [intros [?%elem_of_list_singleton|?]%elem_of_app; done|].
  rewrite app_assoc in R. apply exec_app in R as (c2 & R & _). etransitivity; [exact (read_value _ _ _ _ _ _ _ _ R)|]. symmetry. rewrite (written_app _ _ tr1). apply written_quiet. exact Q.
Qed.
