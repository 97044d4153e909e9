(** Property theorems C45: distributions used concurrently. *)
From Coq Require Import Lia.
From Verif Require Import GoBase GoVal UnitsModel DurationModel FloatBase.
From stdpp Require Import list.
From Verif Require Import DistModel MonitorModel MonitorSpec MonitorProofs DistConc DistConcProofs.
Local Open Scope N_scope.

(** Any number of goroutines, any interleaving of their field accesses: the calls of SetUnit, Add, Update, Remove,
    Snapshot, Sum and Count have the results they have in some sequential order that respects real time. *)
Theorem c45_linearizable : ∀ (pieces : list (piece num64)) nc ts tr c,
  exec dist_monitor (start dist_monitor (newDistributionWithTimeStamp pieces nc ts)) tr c →
  linearizable dist_monitor dist_seq (newDistributionWithTimeStamp pieces nc ts) tr.
Proof. intros pieces nc ts tr c. exact (dist_linearizable _ tr c). Qed.
(** In particular a snapshot is that of the distribution after some of the other calls, one after the other. *)
Theorem c45_snapshot : ∀ (pieces : list (piece num64)) nc ts tr c t o,
  exec dist_monitor (start dist_monitor (newDistributionWithTimeStamp pieces nc ts)) tr c → LRet (M := dist_monitor) t (RSnapshot o) ∈ tr →
  ∃ before after, linearization dist_monitor dist_seq (newDistributionWithTimeStamp pieces nc ts) tr (before ++ (t, KSnapshot, RSnapshot o) :: after) ∧
    o = Snapshot (snd (callsf (changes before) (newDistributionWithTimeStamp pieces nc ts))).
Proof. intros pieces nc ts tr c t o. exact (dist_snapshot _ tr c t o). Qed.
(** No deadlock: some call can go on, unless all have returned. *)
Theorem c45_progress : ∀ (pieces : list (piece num64)) nc ts tr c,
  exec dist_monitor (start dist_monitor (newDistributionWithTimeStamp pieces nc ts)) tr c →
  (∀ ph, ph ∈ c_threads c → ∃ x, ph = Returned x) ∨ (∃ l c', step dist_monitor c l c' ∧ ∀ t x, l ≠ LCall t x).
Proof. intros pieces nc ts tr c. exact (monitor_progress dist_monitor dist_seq dist_body dist_readonly _ tr c). Qed.

(** A snapshot called before an Add and another one returned, between them: it counts one of the two. *)
Definition ex_pieces : list (piece num64) := match newBucketerFromEndpoints (A := num64) [f64_of_Z 10] with Some ps => ps | None => [] end.
Definition ex_dist : dist num64 := newDistributionWithTimeStamp ex_pieces false (MkTime 0 0).
Definition ex_run : list (cmd dist_monitor) :=
  [Call (KCall (CSetUnit UNone) : m_call dist_monitor)] ++ replicate 5 (Do 0%nat) ++ [Call (KSnapshot : m_call dist_monitor); Call (KCall (CAdd (DFloat64 (f64_of_Z 3)) (MkTime 1 0)) : m_call dist_monitor)] ++
  replicate 16 (Do 2%nat) ++ [Call (KCall (CAdd (DFloat64 (f64_of_Z 4)) (MkTime 2 0)) : m_call dist_monitor)] ++ replicate 8 (Do 1%nat) ++ [Call (KSnapshot : m_call dist_monitor)] ++ replicate 8 (Do 4%nat) ++ replicate 10 (Do 1%nat).
Example c45_nonvacuous : ∃ tr c, exec dist_monitor (start dist_monitor ex_dist) tr c ∧
  existsb (λ l : label dist_monitor, match l with LRet 1%nat (RSnapshot (Some s)) => N.eqb (s_count s) 1 | _ => false end) tr = true ∧ length (c_threads c) = 5%nat.
Proof.
  destruct (go_check dist_monitor ex_dist ex_run (λ tr c, existsb (λ l : label dist_monitor, match l with LRet 1%nat (RSnapshot (Some s)) => N.eqb (s_count s) 1 | _ => false end) tr && Nat.eqb (length (c_threads c)) 5))
    as (tr & c & E & P); [vm_compute; reflexivity|].
  apply andb_true_iff in P as [P1 P2]. apply Nat.eqb_eq in P2. by exists tr, c.
Qed.
Print Assumptions c45_linearizable.
Print Assumptions c45_snapshot.
Print Assumptions c45_progress.
