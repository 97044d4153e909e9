(** Property theorems C83: which kind of distribution readers are told it is. *)
From Verif Require Import GoBase GoVal UnitsModel DurationModel FloatBase.
From stdpp Require Import list.
From Verif Require Import DistModel DistSpec DistProofs DistThms DistApi DistMsgModel PropDist.
Local Open Scope N_scope.

(** The full property: the messages made of a distribution say whether values can be removed from it, as when it was created. *)
Definition kind_told (when : N → Prop) : Prop := ∀ (es : list num64) ps nc ts h rs d s, newBucketerFromEndpoints es = Some ps →
  performs h (newDistributionWithTimeStamp ps nc ts) = (rs, d) → Snapshot d = Some s → when (dm_count (distMessage s)) → dm_isNotCumulative (distMessage s) = nc.
(** Missing: empty distributions. *)
Theorem c83_kind_partial : kind_told (λ n, n ≠ 0).
Proof.
  intros es ps nc ts h rs d s B P Sn N. destruct (snapshot_fields d s Sn) as (H1 & _ & _ & H). apply performs_final in P as [_ ->]. destruct (hist_frame ps nc ts h) as [_ Fn].
  unfold distMessage, dm_count in N. rewrite H1 in N. destruct (H N) as (_&_&_&_&_&K&_). unfold distMessage, dm_isNotCumulative. by rewrite K.
Qed.
(** A new distribution, or one whose values have all been removed, is said to be cumulative. *)
Theorem c83_refuted : ¬ kind_told (λ _, True).
Proof. intros T. discriminate (T ex_es ex_ps true (tm 0) [] [] _ _ ex_bucketer eq_refl eq_refl I). Qed.
Example c83_nonvacuous : option_map (λ s, (dm_count (distMessage s), dm_isNotCumulative (distMessage s))) (Snapshot (snd (performs ex_h (newDistributionWithTimeStamp ex_ps true (tm 0))))) = Some (3, true).
Proof. vm_compute. reflexivity. Qed.
Print Assumptions c83_kind_partial.
Print Assumptions c83_refuted.
