(** Property theorems C79: update functions that call the library. *)
From Coq Require Import ZArith.
From Verif Require Import GoBase.
From stdpp Require Import gmap list.
From Verif Require Import RegionModel RegionSpec RegionProofs RegionThms RegionLive PropRegion RegionNestModel RegionNestSpec RegionNestProofs.
Local Open Scope Z_scope.
Local Notation run f0 v0 := (nexec (ninit f0 v0)).

(** C79.  What update functions call runs like any other goroutine, so the theorems about executions carry over ... *)
Theorem c79_projection : ∀ f0 v0 tr s, run f0 v0 tr s → exec (init_config f0 v0) (tr ≫= plain) (n_c s).
Proof. intros f0 v0 tr s X. exact (nexec_plain _ _ _ X). Qed.
(** ... for instance: no update function does anything while a request relies on its group. *)
Theorem c79_stable : ∀ f0 v0 tr l s t r, run f0 v0 (tr ++ [NL l]) s → updates r l = true → holds t r (tr ≫= plain) = None.
Proof.
  intros f0 v0 tr l s t r X U. apply nexec_plain in X. rewrite bind_app in X. eapply no_update_while_held; [exact X|exact U].
Qed.
(** If the calls go downwards in some order of the groups, then after finitely many steps all requests have finished
    and all update functions have got their answers; nobody waits forever. *)
Theorem c79_finishes_partial : ∀ f0 v0 level tr s, run f0 v0 tr s → downwards level tr → ∃ n, ∀ tr2 s2, nexec s tr2 s2 → (∀ l, l ∈ tr2 → quiet l) →
  (length (filter (λ l, nwrite l = false) tr2) ≤ n)%nat ∧
  ((∀ k, ninternal k → ¬ nenabled s2 k) → (∀ t th, c_pool (n_c s2) !! t = Some th → finished th) ∧ (∀ r, n_calls s2 r = None)).
Proof. exact nall_finish. Qed.
(** An update function that registers an update function with its own group, or reads a metric of its own group, blocks
    the group: afterwards no Visit of the group returns, and the update function does not return either. *)
Theorem c79_own_group : ∀ f0 v0 tr1 r t p tr2 s, run f0 v0 (tr1 ++ [NLCall r t p] ++ tr2) s → starts_with_own r p →
  (∀ t' time, NL (LVisit t' r time) ∉ tr2) ∧ (∀ t', NLReturn r t' ∉ tr2).
Proof. exact own_group. Qed.
Print Assumptions c79_projection.
Print Assumptions c79_stable.
Print Assumptions c79_finishes_partial.
Print Assumptions c79_own_group.

Fixpoint nrunf (s : nconfig) (ks : list ncmd) : option (list nlabel * nconfig) :=
  match ks with
  | [] => Some ([], s)
  | k :: ks => match nstepf s k with
               | Some (l, s1) => match nrunf s1 ks with Some (tr, s2) => Some (l :: tr, s2) | None => None end
               | None => None
               end
  end.
Lemma nrunf_sound s ks tr s' : nrunf s ks = Some (tr, s') → nexec s tr s'.
Proof.
  revert s tr s'. induction ks as [|k ks IH]; simpl; intros s tr s' E; [injection E as <- <-; constructor|].
  destruct (nstepf s k) as [[l s1]|] eqn:St; [|discriminate E]. destruct (nrunf s1 ks) as [[tr1 s2]|] eqn:R; [|discriminate E]. injection E as <- <-.
  change (l :: tr1) with ([l] ++ tr1). eapply nexec_trans; [|by apply IH]. change [l] with ([] ++ [l]). econstructor; [constructor|exact St].
Qed.
(** Request 0 reads group 7, whose update function registers update function 1 with group 3 and reads it. *)
Definition c79_cmds : list ncmd :=
  [NPlain (Spawn (rpc_singleton 7 0)); NPlain (Local 0 0); NPlain (Local 0 0); NPlain (Send 0); NPlain (Handle 7 0);
   NCall 7 [ARegister 3 1; AOpen; AVisit 3; ARead 3 0; AClose];
   NPlain (Local 1 0); NPlain (Send 1); NPlain (Handle 3 0); NPlain (Reply 1); NPlain (Local 1 0);
   NPlain (Local 1 0); NPlain (Local 1 0); NPlain (Send 1); NPlain (Handle 3 0); NPlain (Write 3 0 42); NPlain (Handle 3 50); NPlain (Reply 1); NPlain (Local 1 0);
   NPlain (Local 1 0); NPlain (Local 1 0); NPlain (Local 1 3); NPlain (Send 1); NPlain (Handle 3 0); NPlain (Reply 1); NPlain (Local 1 0);
   NReturn 7; NPlain (Write 7 0 43); NPlain (Handle 7 100); NPlain (Reply 0); NPlain (Local 0 0)].
Definition c79_level (r : nat) : nat := r.
Example c79_nonvacuous : ∃ tr s, run ex_f ex_v tr s ∧ downwards c79_level tr ∧ NLCall 7 1 [ARegister 3 1; AOpen; AVisit 3; ARead 3 0; AClose] ∈ tr ∧
  NL (LRead 1 3 0 42) ∈ tr ∧ NLReturn 7 1 ∈ tr ∧ NL (LVisit 0 7 100) ∈ tr.
Proof.
  destruct (nrunf (ninit ex_f ex_v) c79_cmds) as [[tr s]|] eqn:R; [|vm_compute in R; discriminate R]. exists tr, s. split; [by eapply nrunf_sound|].
  assert (Et : fst <$> nrunf (ninit ex_f ex_v) c79_cmds = Some tr) by (by rewrite R). clear R. vm_compute in Et. injection Et as <-.
  split; [|repeat split; repeat first [apply elem_of_list_here|apply elem_of_list_further]].
  intros r t p E. repeat (apply elem_of_cons in E as [E|E]; [try discriminate E|]); [|by apply elem_of_nil in E].
  injection E as -> -> ->. intros a r' Ha U. repeat (apply elem_of_cons in Ha as [->|Ha]; [simpl in U; try done; subst r'; unfold c79_level; lia|]). by apply elem_of_nil in Ha.
Qed.
(** The update function of group 7 replaces itself: request 0 never gets an answer, whatever happens. *)
Theorem c79_refuted : ∃ tr s, run ex_f ex_v tr s ∧ NL (LVisitCall 0 7) ∈ tr ∧ NLCall 7 1 [ARegister 7 1] ∈ tr ∧
  ∀ tr2 s2, nexec s tr2 s2 → (∀ t time, NL (LVisit t 7 time) ∉ tr2) ∧ (∀ t, NLReturn 7 t ∉ tr2).
Proof.
  pose (ks := [NPlain (Spawn (rpc_singleton 7 0)); NPlain (Local 0 0); NPlain (Local 0 0); NPlain (Send 0); NPlain (Handle 7 0); NCall 7 [ARegister 7 1]]).
  pose (tr1 := [NL (LSpawn 0 (rpc_singleton 7 0)); NL (LOpen 0); NL (LVisitCall 0 7); NL (LSend 0 7 MLock); NL (LUpdBegin 7 0)]).
  destruct (nrunf (ninit ex_f ex_v) ks) as [[tr s]|] eqn:R; [|vm_compute in R; discriminate R]. exists tr, s. pose proof (nrunf_sound _ _ _ _ R) as X.
  assert (Et : fst <$> nrunf (ninit ex_f ex_v) ks = Some (tr1 ++ [NLCall 7 1 [ARegister 7 1]])) by (vm_compute; reflexivity).
  rewrite R in Et. injection Et as ->. split; [exact X|]. split; [do 2 apply elem_of_list_further; apply elem_of_list_here|].
  split; [do 5 apply elem_of_list_further; apply elem_of_list_here|].
  intros tr2 s2 X2. eapply (own_group ex_f ex_v tr1 7 1 [ARegister 7 1]); [|left; eauto]. rewrite app_assoc. eapply nexec_trans; [exact X|exact X2].
Qed.
Print Assumptions c79_refuted.
