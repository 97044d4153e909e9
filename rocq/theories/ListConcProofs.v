From Verif Require Import GoBase GoVal UnitsModel DurationModel TypesModel.
From stdpp Require Import list.
From Verif Require Import ReflectModel ListModel MonitorModel MonitorSpec MonitorProofs ListConc.

Lemma list_body c l : eval (lbody c) l = list_seq c l.
Proof. by destruct c. Qed.
Lemma list_readonly c : lmode c = Rd → readonly (lbody c).
Proof. destruct c; [done|]. intros _. apply readonly_rd. intros s. apply readonly_rd. intros ts. constructor. Qed.
Lemma list_linearizable l0 tr c : exec list_monitor (start list_monitor l0) tr c → linearizable list_monitor list_seq l0 tr.
Proof. apply monitor_linearizable; [exact list_body|exact list_readonly]. Qed.
(** the last change decides *)
Lemma sequential_last l0 lin l : sequential list_monitor list_seq l0 lin l →
  (l = l0 ∧ ∀ t s ts r, (t, KChange s ts, r) ∉ lin) ∨
  ∃ l1 t s ts r l2, lin = l1 ++ (t, KChange s ts, r) :: l2 ∧ AsSlice l = (s, ts) ∧ ∀ t s ts r, (t, KChange s ts, r) ∉ l2.
Proof.
  induction 1 as [|lin l1 t c l2 r S IH E].
  - left. split; [done|]. intros ???? []%elem_of_nil.
  - destruct c as [s ts|]; simpl in E; injection E as <- <-.
    + right. exists lin, t, s, ts, RChanged, []. split_and!; [done|done|]. intros ???? []%elem_of_nil.
    + destruct IH as [[-> N]|(k1 & t' & s & ts & r' & k2 & -> & A & N)].
      * left. split; [done|]. intros t0 s ts r [H|[= ]%elem_of_list_singleton]%elem_of_app. by eapply N.
      * right. exists k1, t', s, ts, r', (k2 ++ [(t, KGet, RGot (fst (AsSlice l1)) (snd (AsSlice l1)))]). split_and!.
        -- by rewrite <- app_assoc.
        -- done.
        -- intros t0 s0 ts0 r0 [H|[= ]%elem_of_list_singleton]%elem_of_app. by eapply N.
Qed.
Lemma list_get l0 tr c t s ts : exec list_monitor (start list_monitor l0) tr c → LRet (M := list_monitor) t (RGot s ts) ∈ tr →
  ∃ before after, linearization list_monitor list_seq l0 tr (before ++ (t, KGet, RGot s ts) :: after) ∧
    (((s, ts) = AsSlice l0 ∧ ∀ t' s' ts' r', (t', KChange s' ts', r') ∉ before) ∨
     ∃ b1 t' r' b2, before = b1 ++ (t', KChange s ts, r') :: b2 ∧ ∀ t'' s' ts' r', (t'', KChange s' ts', r') ∉ b2).
Proof.
  intros E H. destruct (list_linearizable l0 tr c E) as [lin L]. pose proof L as (_ & [l S] & _ & R & _). destruct (R _ _ H) as [c0 I].
  apply elem_of_list_split in I as (l1 & l2 & ->). destruct (sequential_split _ _ _ _ _ _ _ _ _ S) as (s1 & s2 & S1 & S2).
  destruct c0 as [s0 ts0|]; simpl in S2; [done|]. injection S2 as <- <- <-. exists l1, l2. split; [done|].
  destruct (sequential_last _ _ _ S1) as [[-> N]|(b1 & t' & s & ts & r & b2 & -> & A & N)]; [by left|]. right. exists b1, t', r, b2. injection A as <- <-. done.
Qed.
