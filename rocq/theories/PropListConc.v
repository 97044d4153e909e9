(** Property theorems C59: lists used concurrently. *)
From Verif Require Import GoBase GoVal UnitsModel DurationModel TypesModel.
From stdpp Require Import list.
From Verif Require Import ReflectModel ListModel MonitorModel MonitorSpec MonitorProofs ListConc ListConcProofs.

(** C59. The slice and the time stamp that a reader gets are those of one call, the last before it in an order that
    respects real time. *)
Theorem c59_together : ∀ l0 tr c t s ts, exec list_monitor (start list_monitor l0) tr c → LRet (M := list_monitor) t (RGot s ts) ∈ tr →
  ∃ before after, linearization list_monitor list_seq l0 tr (before ++ (t, KGet, RGot s ts) :: after) ∧
    (((s, ts) = AsSlice l0 ∧ ∀ t' s' ts' r', (t', KChange s' ts', r') ∉ before) ∨
     ∃ b1 t' r' b2, before = b1 ++ (t', KChange s ts, r') :: b2 ∧ ∀ t'' s' ts' r', (t'', KChange s' ts', r') ∉ b2).
Proof. exact list_get. Qed.
Theorem c59_linearizable : ∀ l0 tr c, exec list_monitor (start list_monitor l0) tr c → linearizable list_monitor list_seq l0 tr.
Proof. exact list_linearizable. Qed.

Definition win (off len : nat) : slice := MkSlice None (RBasic KString None) 1 off len.
Definition T (n : Z) : gotime := MkTime n 0.
(** a reader between two changes, that started before the first *)
Example c59_nonvacuous : ∃ tr c, exec list_monitor (start list_monitor (MkList TString (win 0 2) (T 1))) tr c ∧
  existsb (λ l : label list_monitor, match l with LRet 0 (RGot s ts) => Nat.eqb (s_off s) 1 && Z.eqb (t_sec ts) 2 | _ => false end) tr = true ∧ length (c_threads c) = 3.
Proof.
  destruct (go_check list_monitor (MkList TString (win 0 2) (T 1))
    ([Call (KGet : m_call list_monitor); Call (KChange (win 1 1) (T 2) : m_call list_monitor)] ++ replicate 4 (Do 1) ++ replicate 2 (Do 0) ++ [Call (KChange (win 0 0) (T 3) : m_call list_monitor)] ++ replicate 2 (Do 0))
    (λ tr c, existsb (λ l : label list_monitor, match l with LRet 0 (RGot s ts) => Nat.eqb (s_off s) 1 && Z.eqb (t_sec ts) 2 | _ => false end) tr && Nat.eqb (length (c_threads c)) 3))
    as (tr & c & E & P); [vm_compute; reflexivity|].
  apply andb_true_iff in P as [P1 P2]. apply Nat.eqb_eq in P2. by exists tr, c.
Qed.
Print Assumptions c59_together.
Print Assumptions c59_linearizable.
