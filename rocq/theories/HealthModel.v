(** The health server: go/healthserver/api.go and impl.go, for MonitorModel.v.

    sync.Mutex is a lock that is only taken for writing.  The handlers read the status under the lock and write the
    response after releasing it; the response depends on the status only, so it is computed with it here.  Which handler
    net/http calls for a path (impl.go:16-17) is not modelled. *)
From Verif Require Import GoBase.
From stdpp Require Import list strings.
From Verif Require Import MonitorModel.
Local Open Scope string_scope.

(** impl.go:11-12 *)
Record health := MkHealth { healthStatus : string; readyStatus : string }.
Definition health_init : health := MkHealth "" "not ready".

(** what a client of the HTTP server gets: status code and body *)
Record response := MkResp { code : Z; body : string }.
Definition newline : string := String "010" "".
(** impl.go:20-26 commonHandler; Write without WriteHeader sends 200, http.Error (net/http/server.go) sends the text and a newline *)
Definition commonHandler (status : string) : response :=
  if String.eqb status "" then MkResp 200 "OK" else MkResp 503 (status ++ newline).

(** the parts that hold the mutex *)
Inductive hcall := HSetHealth (status : string) | HSetReady (status : string) | HHealthz | HReadiness.
Inductive hres := RSet | RResponse (r : response).
Definition hbody (c : hcall) : prog health hres :=
  match c with
  (** impl.go:42-46 setHealth *)
  | HSetHealth s => wr (λ h, MkHealth s (readyStatus h)) (Done RSet)
  (** impl.go:48-52 setReady *)
  | HSetReady s => wr (λ h, MkHealth (healthStatus h) s) (Done RSet)
  (** impl.go:28-33 healthzHandler *)
  | HHealthz => rd healthStatus (λ s, Done (RResponse (commonHandler s)))
  (** impl.go:35-40 readinessHandler *)
  | HReadiness => rd readyStatus (λ s, Done (RResponse (commonHandler s)))
  end.
Definition health_monitor : monitor := MkMonitor health hcall hres (λ _, Wr) hbody.

(** api.go: None = panic, before anything is touched *)
Inductive api := SetHealthy | SetNotHealthy (status : string) | SetReady | SetNotReady (status : string) | GetHealthz | GetReadiness.
Definition api_call (a : api) : option hcall :=
  match a with
  | SetHealthy => Some (HSetHealth "")                                                      (* api.go:17-19 *)
  | SetNotHealthy s => if String.eqb s "" || String.eqb s "OK" then None else Some (HSetHealth s)   (* api.go:24-29 *)
  | SetNotReady s => if String.eqb s "" || String.eqb s "OK" then None else Some (HSetReady s)      (* api.go:34-39 *)
  | SetReady => Some (HSetReady "")                                                         (* api.go:42-44 *)
  | GetHealthz => Some HHealthz
  | GetReadiness => Some HReadiness
  end.
