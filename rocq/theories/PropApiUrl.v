(** Property theorems C85: whoever asks for a metric by the path that was reported gets the metric. *)
From Verif Require Import GoBase.
From stdpp Require Import gmap strings.
From Verif Require Import PathModel PathSpec RegistryModel RegistrySpec RegistryConc RegistryConcSpec RegistryWitness HttpModel HttpSpec HttpWitness UrlModel WireModel WireSpec ApiUrlModel ApiUrlSpec ApiUrlProofs.
Local Open Scope string_scope.
Local Open Scope list_scope.

(** The path as Go RPC reports it, requested below /metricsapi or /metrics: it leads to the metric exactly when no name in it is
    "." or "..". What is missing: paths with these names, for which the property does not hold. *)
Theorem c85_rpc_partial : ∀ url h a e u, url ∈ ["/metricsapi"; "/metrics"] → reachable_heap h → answer h a = Some (NMetric e) → percent_encoded (url +:+ absPath e) u →
  (found url h u = Some (NMetric e) ↔ Forall (λ n, n ≠ "." ∧ n ≠ "..") a).
Proof. exact found_registered. Qed.
(** The path as a client reads it in JSON: if and only if the names are valid UTF-8, too. *)
Theorem c85_json_partial : ∀ url h a e u, url ∈ ["/metricsapi"; "/metrics"] → reachable_heap h → answer h a = Some (NMetric e) → percent_encoded (url +:+ json_text (absPath e)) u →
  (found url h u = Some (NMetric e) ↔ Forall (λ n, utf8 n ∧ n ≠ "." ∧ n ≠ "..") a).
Proof. exact found_json. Qed.
(** Every path can be requested. *)
Theorem c85_encodable : ∀ s, ∃ u, percent_encoded s u.
Proof. exact encodable. Qed.

(** The metrics with odd names; the third name is one byte that is no UTF-8. *)
Definition steps_heap : heap := the_heap (reg 1 "/disk/../free" 0 4 ++ reg 2 "/a b/100%?x" 1 3 ++ reg 3 (String "/" (String "255" "")) 2 2 ++ reg 4 "/free" 3 2).
Lemma steps_reachable : reachable_heap steps_heap.
Proof. unfold steps_heap, the_heap. destruct (exec _ init_config) as [[l c]|] eqn:E; [exists c; split; [exists l; by eapply exec_sound|done]|exists init_config; split; [|done]; eexists; constructor]. Qed.
Theorem c85_refuted : ¬ ∀ url h a e u, url ∈ ["/metricsapi"; "/metrics"] → reachable_heap h → answer h a = Some (NMetric e) → percent_encoded (url +:+ absPath e) u → found url h u = Some (NMetric e).
Proof.
  intros T. assert (∃ e, answer steps_heap ["disk"; ".."; "free"] = Some (NMetric e)) as [e A] by (eexists; vm_compute; reflexivity).
  destruct (c85_encodable ("/metricsapi" +:+ absPath e)) as [u P]. pose proof (T "/metricsapi" steps_heap _ e u ltac:(left) steps_reachable A P) as F.
  apply (c85_rpc_partial "/metricsapi" steps_heap _ e u ltac:(left) steps_reachable A P) in F. inversion F as [|? ? _ F']; subst. inversion F' as [|? ? [_ B] _]; subst. by apply B.
Qed.
Theorem c85_json_refuted : ¬ ∀ url h a e u, url ∈ ["/metricsapi"; "/metrics"] → reachable_heap h → answer h a = Some (NMetric e) → Forall (λ n, n ≠ "." ∧ n ≠ "..") a →
  percent_encoded (url +:+ json_text (absPath e)) u → found url h u = Some (NMetric e).
Proof.
  intros T. assert (∃ e, answer steps_heap [String "255" ""] = Some (NMetric e)) as [e A] by (eexists; vm_compute; reflexivity).
  destruct (c85_encodable ("/metricsapi" +:+ json_text (absPath e))) as [u P]. pose proof (T "/metricsapi" steps_heap _ e u ltac:(left) steps_reachable A ltac:(repeat constructor; discriminate) P) as F.
  apply (c85_json_partial "/metricsapi" steps_heap _ e u ltac:(left) steps_reachable A P) in F. inversion F as [|? ? [U _] _]; subst. clear - U.
  inversion U as [|x r I|x b r I|x b c r I|x b c d r I]; subst; unfold in_range in I; vm_compute in I; destruct I as [_ I]; by apply I.
Qed.
(** /a%20b/100%25%3Fx leads to its metric; /disk/../free leads to another one, /free. *)
Definition name_of (n : option node) : string := match n with Some (NMetric e) => absPath e | Some (NDir _) => "directory" | None => "nothing" end.
Example c85_nonvacuous :
  reachable_heap steps_heap ∧ (∃ e, answer steps_heap ["a b"; "100%?x"] = Some (NMetric e) ∧ absPath e = "/a b/100%?x") ∧
  percent_encoded ("/metricsapi" +:+ "/a b/100%?x") "/metricsapi/a%20b/100%25%3Fx" ∧
  name_of (found "/metricsapi" steps_heap "/metricsapi/a%20b/100%25%3Fx") = "/a b/100%?x" ∧ name_of (found "/metrics" steps_heap "/metrics/a%20b/100%25%3fx") = "/a b/100%?x" ∧
  name_of (found "/metricsapi" steps_heap "/metricsapi/disk/../free") = "/free" ∧ name_of (found "/metricsapi" steps_heap "/metricsapi/disk/%2E%2E/free") = "/free" ∧
  name_of (found "/metricsapi" steps_heap "/metricsapi/%ff") = String "/" (String "255" "") ∧ name_of (found "/metricsapi" steps_heap "/metricsapi/%ef%bf%bd") = "nothing".
Proof.
  split; [exact steps_reachable|]. split; [eexists; split; vm_compute; reflexivity|]. split; [|split_and!; vm_compute; reflexivity].
  cbn. repeat first [apply pe_end|apply pe_same; [unfold unreserved; cbn [list_ascii_of_string In]; tauto|]|eapply pe_byte; [unfold hex_value; cbn [list_ascii_of_string combine In]; tauto|unfold hex_value; cbn [list_ascii_of_string combine In]; tauto|reflexivity|]].
Qed.
Print Assumptions c85_rpc_partial.
Print Assumptions c85_json_partial.
Print Assumptions c85_encodable.
Print Assumptions c85_refuted.
Print Assumptions c85_json_refuted.
