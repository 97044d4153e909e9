(** What the health server should answer. *)
From Verif Require Import GoBase.
From stdpp Require Import list strings.
From Verif Require Import MonitorModel MonitorSpec HealthModel.
Local Open Scope string_scope.

(** Every call in the trace comes from one of the functions of the package or from an HTTP request. *)
Definition from_api (tr : list (label health_monitor)) : Prop := ∀ t c, LCall (M := health_monitor) t c ∈ tr → ∃ a, api_call a = Some c.
(** One at a time: what is set last is what is reported. *)
Definition ok_response : response := MkResp 200 "OK".
Definition bad_response (s : string) : response := MkResp 503 (s ++ String "010" "").
Definition health_seq (c : hcall) (h : health) : health * hres :=
  match c with
  | HSetHealth s => (MkHealth s (readyStatus h), RSet)
  | HSetReady s => (MkHealth (healthStatus h) s, RSet)
  | HHealthz => (h, RResponse (if decide (healthStatus h = "") then ok_response else bad_response (healthStatus h)))
  | HReadiness => (h, RResponse (if decide (readyStatus h = "") then ok_response else bad_response (readyStatus h)))
  end.
(** [a] is the call that decided, and [r] is the answer that belongs to it *)
Definition health_answer (a : api) (r : response) : Prop :=
  (a = SetHealthy ∧ r = ok_response) ∨ ∃ s, a = SetNotHealthy s ∧ s ≠ "" ∧ s ≠ "OK" ∧ r = bad_response s.
Definition ready_answer (a : api) (r : response) : Prop :=
  (a = SetReady ∧ r = ok_response) ∨ ∃ s, a = SetNotReady s ∧ s ≠ "" ∧ s ≠ "OK" ∧ r = bad_response s.
(** no call in l sets the health (readiness) *)
Definition no_health (l : list (entry health_monitor)) : Prop := ∀ t s r, (t, HSetHealth s, r) ∉ l.
Definition no_ready (l : list (entry health_monitor)) : Prop := ∀ t s r, (t, HSetReady s, r) ∉ l.
