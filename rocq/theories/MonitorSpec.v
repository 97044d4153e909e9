(** Linearizability (Herlihy and Wing), stated for traces of MonitorModel.v and a sequential object. *)
From stdpp Require Import list.
From Verif Require Import MonitorModel.

(** a completed or pending call in the sequential order: goroutine, call, result *)
Definition entry (M : monitor) : Type := nat * m_call M * m_res M.

Section Spec.
  Context (M : monitor) (seq : m_call M → m_state M → m_state M * m_res M).
  (** the calls made one after the other, with these results, lead from s to s' *)
  Inductive sequential (s : m_state M) : list (entry M) → m_state M → Prop :=
    | seq_nil : sequential s [] s
    | seq_snoc l s1 t c s2 r : sequential s l s1 → seq c s1 = (s2, r) → sequential s (l ++ [(t, c, r)]) s2.
  (** e comes before e' in l *)
  Definition precedes {X} (l : list X) (e e' : X) : Prop := ∃ l1 l2 l3, l = l1 ++ e :: l2 ++ e' :: l3.
  Definition linearization (s0 : m_state M) (tr : list (label M)) (lin : list (entry M)) : Prop :=
    NoDup (fst ∘ fst <$> lin) ∧
    (∃ s, sequential s0 lin s) ∧
    (∀ t c r, (t, c, r) ∈ lin → LCall t c ∈ tr) ∧
    (∀ t r, LRet t r ∈ tr → ∃ c, (t, c, r) ∈ lin) ∧
    (∀ t r t' c, precedes tr (LRet t r) (LCall t' c) → ∀ e e', e ∈ lin → e' ∈ lin → fst (fst e) = t → fst (fst e') = t' → precedes lin e e').
  Definition linearizable (s0 : m_state M) (tr : list (label M)) : Prop := ∃ lin, linearization s0 tr lin.
End Spec.
