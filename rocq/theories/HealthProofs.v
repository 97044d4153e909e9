From Verif Require Import GoBase.
From stdpp Require Import list strings sets.
From Verif Require Import MonitorModel MonitorSpec MonitorProofs HealthModel HealthSpec.
Local Open Scope string_scope.
Local Open Scope list_scope.

Lemma common_spec s : commonHandler s = if decide (s = "") then ok_response else bad_response s.
Proof. unfold commonHandler. destruct (String.eqb_spec s ""); by case_decide. Qed.
Lemma health_body c h : eval (hbody c) h = health_seq c h.
Proof. destruct c; try done; simpl; by rewrite common_spec. Qed.
Lemma health_linearizable tr c : exec health_monitor (start health_monitor health_init) tr c → linearizable health_monitor health_seq health_init tr.
Proof. apply monitor_linearizable; [exact health_body|by intros []]. Qed.

Lemma last_health h0 lin h : sequential health_monitor health_seq h0 lin h →
  (healthStatus h = healthStatus h0 ∧ no_health lin) ∨
  ∃ l1 t s r l2, lin = l1 ++ (t, HSetHealth s, r) :: l2 ∧ healthStatus h = s ∧ no_health l2.
Proof.
  induction 1 as [|lin h1 t c h2 r S IH E]; [left; split; [done|]; intros ??? []%elem_of_nil|].
  assert (∀ h', healthStatus h' = healthStatus h1 → (∀ s, c ≠ HSetHealth s) → (healthStatus h' = healthStatus h0 ∧ no_health (lin ++ [(t, c, r)])) ∨
    ∃ l1 t' s r' l2, lin ++ [(t, c, r)] = l1 ++ (t', HSetHealth s, r') :: l2 ∧ healthStatus h' = s ∧ no_health l2) as K.
  { intros h' Eh N. destruct IH as [[Hh Hn]|(l1 & t' & s & r' & l2 & -> & Hs & Hn)].
    - left. rewrite Eh. split; [done|]. intros t0 s0 r0 [H|[= _ X _]%elem_of_list_singleton]%elem_of_app; [by eapply Hn|by eapply N].
    - right. exists l1, t', s, r', (l2 ++ [(t, c, r)]). rewrite Eh. split_and!; [by rewrite <- app_assoc|done|].
      intros t0 s0 r0 [H|[= _ X _]%elem_of_list_singleton]%elem_of_app; [by eapply Hn|by eapply N]. }
  destruct c as [s|s| |]; simpl in E; injection E as <- <-; try (by apply K).
  right. exists lin, t, s, RSet, []. split_and!; [done|done|]. intros ??? []%elem_of_nil.
Qed.
Lemma last_ready h0 lin h : sequential health_monitor health_seq h0 lin h →
  (readyStatus h = readyStatus h0 ∧ no_ready lin) ∨
  ∃ l1 t s r l2, lin = l1 ++ (t, HSetReady s, r) :: l2 ∧ readyStatus h = s ∧ no_ready l2.
Proof.
  induction 1 as [|lin h1 t c h2 r S IH E]; [left; split; [done|]; intros ??? []%elem_of_nil|].
  assert (∀ h', readyStatus h' = readyStatus h1 → (∀ s, c ≠ HSetReady s) → (readyStatus h' = readyStatus h0 ∧ no_ready (lin ++ [(t, c, r)])) ∨
    ∃ l1 t' s r' l2, lin ++ [(t, c, r)] = l1 ++ (t', HSetReady s, r') :: l2 ∧ readyStatus h' = s ∧ no_ready l2) as K.
  { intros h' Eh N. destruct IH as [[Hh Hn]|(l1 & t' & s & r' & l2 & -> & Hs & Hn)].
    - left. rewrite Eh. split; [done|]. intros t0 s0 r0 [H|[= _ X _]%elem_of_list_singleton]%elem_of_app; [by eapply Hn|by eapply N].
    - right. exists l1, t', s, r', (l2 ++ [(t, c, r)]). rewrite Eh. split_and!; [by rewrite <- app_assoc|done|].
      intros t0 s0 r0 [H|[= _ X _]%elem_of_list_singleton]%elem_of_app; [by eapply Hn|by eapply N]. }
  destruct c as [s|s| |]; simpl in E; injection E as <- <-; try (by apply K).
  right. exists lin, t, s, RSet, []. split_and!; [done|done|]. intros ??? []%elem_of_nil.
Qed.
Lemma api_health a s : api_call a = Some (HSetHealth s) → health_answer a (if decide (s = "") then ok_response else bad_response s).
Proof.
  destruct a; simpl; try done.
  - intros [= <-]. by left.
  - destruct (String.eqb_spec status ""), (String.eqb_spec status "OK"); simpl; try done. intros [= ->]. right. exists s. rewrite decide_False by done. done.
  - by destruct (_ || _).
Qed.
Lemma api_ready a s : api_call a = Some (HSetReady s) → ready_answer a (if decide (s = "") then ok_response else bad_response s).
Proof.
  destruct a; simpl; try done.
  - by destruct (_ || _).
  - intros [= <-]. by left.
  - destruct (String.eqb_spec status ""), (String.eqb_spec status "OK"); simpl; try done. intros [= ->]. right. exists s. rewrite decide_False by done. done.
Qed.
Lemma call_unique tr c t x y : exec health_monitor (start health_monitor health_init) tr c → LCall (M := health_monitor) t x ∈ tr → LCall (M := health_monitor) t y ∈ tr → x = y.
Proof.
  assert (∀ tr c, exec health_monitor (start health_monitor health_init) tr c →
    (∀ t x, LCall (M := health_monitor) t x ∈ tr → ∃ ph, c_threads c !! t = Some ph ∧ (ph = Waiting x ∨ (∃ p, ph = Inside x p) ∨ ph = Returned x))) as K.
  { clear. induction 1 as [|tr c l c' E IH St]; [intros t x []%elem_of_nil|]. intros t x [H|H]%elem_of_app.
    - destruct (IH t x H) as (ph & L & P). destruct St as [c y|c t' y w n L' A|c t' y f s1 p L' F|c t' y r w n L' A]; simpl.
      + exists ph. split; [|done]. by apply lookup_app_l_Some.
      + destruct (decide (t' = t)) as [->|N]; [|exists ph; rewrite list_lookup_insert_ne by done; done].
        rewrite L in L'. injection L' as ->. rewrite list_lookup_insert by (by eapply lookup_lt_Some). eexists. split; [done|].
        destruct P as [[= ->]|[[p [= ]]|[= ]]]. eauto.
      + destruct (decide (t' = t)) as [->|N]; [|exists ph; rewrite list_lookup_insert_ne by done; done].
        rewrite L in L'. injection L' as ->. rewrite list_lookup_insert by (by eapply lookup_lt_Some). eexists. split; [done|].
        destruct P as [[= ]|[[p' [= -> _]]|[= ]]]. eauto.
      + destruct (decide (t' = t)) as [->|N]; [|exists ph; rewrite list_lookup_insert_ne by done; done].
        rewrite L in L'. injection L' as ->. rewrite list_lookup_insert by (by eapply lookup_lt_Some). eexists. split; [done|].
        destruct P as [[= ]|[[p' [= -> _]]|[= ]]]. eauto.
    - apply elem_of_list_singleton in H. destruct St as [c y| | |]; try done. injection H as -> ->. simpl. eexists. rewrite list_lookup_middle by done. eauto. }
  intros E Hx Hy. destruct (K _ _ E _ _ Hx) as (ph & L & P). destruct (K _ _ E _ _ Hy) as (ph' & L' & P'). rewrite L in L'. injection L' as <-. naive_solver.
Qed.
Lemma health_get tr c t r : exec health_monitor (start health_monitor health_init) tr c → from_api tr → LCall (M := health_monitor) t HHealthz ∈ tr → LRet (M := health_monitor) t r ∈ tr →
  ∃ before after resp, r = RResponse resp ∧ linearization health_monitor health_seq health_init tr (before ++ (t, HHealthz, r) :: after) ∧
    ((resp = ok_response ∧ no_health before) ∨
     ∃ b1 t' x r' b2 a, before = b1 ++ (t', x, r') :: b2 ∧ api_call a = Some x ∧ LCall (M := health_monitor) t' x ∈ tr ∧ health_answer a resp ∧ no_health b2).
Proof.
  intros E A Hc H. destruct (health_linearizable tr c E) as [lin L]. pose proof L as (_ & [l S] & LC & R & _). destruct (R _ _ H) as [c0 I].
  assert (c0 = HHealthz) as ->. { apply LC in I. eapply call_unique; eauto. }
  apply elem_of_list_split in I as (l1 & l2 & ->). destruct (sequential_split _ _ _ _ _ _ _ _ _ S) as (s1 & s2 & S1 & S2).
  simpl in S2. injection S2 as <- <-. eexists l1, l2, _. split; [done|]. split; [done|].
  destruct (last_health _ _ _ S1) as [[Hs N]|(b1 & t' & s & r & b2 & -> & Hs & N)].
  - left. rewrite Hs. done.
  - right. destruct (A t' (HSetHealth s)) as [a Ha]. { apply (LC _ _ r). set_solver. }
    exists b1, t', (HSetHealth s), r, b2, a. split_and!; [done|done| | |done]. { apply (LC _ _ r). set_solver. } rewrite Hs. by apply api_health.
Qed.
Lemma ready_get tr c t r : exec health_monitor (start health_monitor health_init) tr c → from_api tr → LCall (M := health_monitor) t HReadiness ∈ tr → LRet (M := health_monitor) t r ∈ tr →
  ∃ before after resp, r = RResponse resp ∧ linearization health_monitor health_seq health_init tr (before ++ (t, HReadiness, r) :: after) ∧
    ((resp = bad_response "not ready" ∧ no_ready before) ∨
     ∃ b1 t' x r' b2 a, before = b1 ++ (t', x, r') :: b2 ∧ api_call a = Some x ∧ LCall (M := health_monitor) t' x ∈ tr ∧ ready_answer a resp ∧ no_ready b2).
Proof.
  intros E A Hc H. destruct (health_linearizable tr c E) as [lin L]. pose proof L as (_ & [l S] & LC & R & _). destruct (R _ _ H) as [c0 I].
  assert (c0 = HReadiness) as ->. { apply LC in I. eapply call_unique; eauto. }
  apply elem_of_list_split in I as (l1 & l2 & ->). destruct (sequential_split _ _ _ _ _ _ _ _ _ S) as (s1 & s2 & S1 & S2).
  simpl in S2. injection S2 as <- <-. eexists l1, l2, _. split; [done|]. split; [done|].
  destruct (last_ready _ _ _ S1) as [[Hs N]|(b1 & t' & s & r & b2 & -> & Hs & N)].
  - left. rewrite Hs. done.
  - right. destruct (A t' (HSetReady s)) as [a Ha]. { apply (LC _ _ r). set_solver. }
    exists b1, t', (HSetReady s), r, b2, a. split_and!; [done|done| | |done]. { apply (LC _ _ r). set_solver. } rewrite Hs. by apply api_ready.
Qed.
Lemma api_panics a : api_call a = None ↔ a ∈ [SetNotHealthy ""; SetNotHealthy "OK"; SetNotReady ""; SetNotReady "OK"].
Proof.
  split.
  - destruct a as [|s| |s| |]; simpl; try done.
    + destruct (String.eqb_spec s "") as [->|]; [set_solver|]. destruct (String.eqb_spec s "OK") as [->|]; [set_solver|done].
    + destruct (String.eqb_spec s "") as [->|]; [set_solver|]. destruct (String.eqb_spec s "OK") as [->|]; [set_solver|done].
  - set_unfold. intros [->|[->|[->|[->|[]]]]]; done.
Qed.
