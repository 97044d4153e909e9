(** Property theorems C54: the health server. *)
From Verif Require Import GoBase.
From stdpp Require Import list strings.
From Verif Require Import MonitorModel MonitorSpec MonitorProofs HealthModel HealthSpec HealthProofs.
Local Open Scope string_scope.
Local Open Scope list_scope.

(** C54. A request to /healthz is answered according to the last call before it that set the health, in an order of all
    calls that respects real time; with OK if there is none.  Calls about readiness may come in between. *)
Theorem c54_healthz : ∀ tr c t r, exec health_monitor (start health_monitor health_init) tr c → from_api tr →
  LCall (M := health_monitor) t HHealthz ∈ tr → LRet (M := health_monitor) t r ∈ tr →
  ∃ before after resp, r = RResponse resp ∧ linearization health_monitor health_seq health_init tr (before ++ (t, HHealthz, r) :: after) ∧
    ((resp = ok_response ∧ no_health before) ∨
     ∃ b1 t' x r' b2 a, before = b1 ++ (t', x, r') :: b2 ∧ api_call a = Some x ∧ LCall (M := health_monitor) t' x ∈ tr ∧ health_answer a resp ∧ no_health b2).
Proof. exact health_get. Qed.
Theorem c54_readiness : ∀ tr c t r, exec health_monitor (start health_monitor health_init) tr c → from_api tr →
  LCall (M := health_monitor) t HReadiness ∈ tr → LRet (M := health_monitor) t r ∈ tr →
  ∃ before after resp, r = RResponse resp ∧ linearization health_monitor health_seq health_init tr (before ++ (t, HReadiness, r) :: after) ∧
    ((resp = bad_response "not ready" ∧ no_ready before) ∨
     ∃ b1 t' x r' b2 a, before = b1 ++ (t', x, r') :: b2 ∧ api_call a = Some x ∧ LCall (M := health_monitor) t' x ∈ tr ∧ ready_answer a resp ∧ no_ready b2).
Proof. exact ready_get. Qed.
(** Exactly the four forbidden calls panic, before they change anything. *)
Theorem c54_panics : ∀ a, api_call a = None ↔ a ∈ [SetNotHealthy ""; SetNotHealthy "OK"; SetNotReady ""; SetNotReady "OK"].
Proof. exact api_panics. Qed.
(** No call waits for ever: as long as some call has not returned, some call can take a step. *)
Theorem c54_progress : ∀ tr c, exec health_monitor (start health_monitor health_init) tr c →
  (∀ ph, ph ∈ c_threads c → ∃ x, ph = Returned x) ∨ (∃ l c', step health_monitor c l c' ∧ ∀ t x, l ≠ LCall t x).
Proof. intros tr c. apply (monitor_progress health_monitor health_seq); [exact health_body|by intros []]. Qed.

(** a health request that starts before SetNotHealthy and SetReady and ends after them *)
Definition the_calls : list hcall := [HHealthz; HSetHealth "disk full"; HSetReady ""; HReadiness].
Definition is_resp (n : nat) (z : Z) (s : string) (l : label health_monitor) : bool :=
  match l with LRet t (RResponse r) => Nat.eqb t n && Z.eqb (code r) z && String.eqb (body r) s | _ => false end.
Example c54_nonvacuous : ∃ tr c, exec health_monitor (start health_monitor health_init) tr c ∧ from_api tr ∧
  existsb (is_resp 0 503 ("disk full" ++ newline)%string) tr = true ∧ existsb (is_resp 3 200 "OK") tr = true.
Proof.
  destruct (go_check health_monitor health_init
    (((Call (M := health_monitor)) <$> the_calls) ++ replicate 3 (Do 1) ++ replicate 3 (Do 2) ++ replicate 3 (Do 0) ++ replicate 3 (Do 3))
    (λ tr c, existsb (is_resp 0 503 ("disk full" ++ newline)%string) tr && existsb (is_resp 3 200 "OK") tr &&
       forallb (λ l : label health_monitor, match l with LCall _ x => match x with HSetHealth s | HSetReady s => negb (String.eqb s "OK") | _ => true end | _ => true end) tr))
    as (tr & c & E & P); [vm_compute; reflexivity|].
  apply andb_true_iff in P as [P P3]. apply andb_true_iff in P as [P1 P2]. exists tr, c. split; [done|]. split; [|done].
  intros t x H. rewrite forallb_forall in P3. apply elem_of_list_In in H. specialize (P3 _ H). simpl in P3. destruct x as [s|s| |].
  - destruct (String.eqb_spec s "") as [->|N]; [by exists SetHealthy|]. exists (SetNotHealthy s). simpl. destruct (String.eqb_spec s ""); [done|]. by destruct (String.eqb s "OK").
  - destruct (String.eqb_spec s "") as [->|N]; [by exists SetReady|]. exists (SetNotReady s). simpl. destruct (String.eqb_spec s ""); [done|]. by destruct (String.eqb s "OK").
  - by exists GetHealthz.
  - by exists GetReadiness.
Qed.
Print Assumptions c54_healthz.
Print Assumptions c54_readiness.
Print Assumptions c54_panics.
Print Assumptions c54_progress.
