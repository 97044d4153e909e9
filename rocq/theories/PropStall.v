(** Property theorems C77 and C78: requests whose clients are slow, requests that end early.  Also the strongest form
    of the freshness part of C30. *)
From Coq Require Import ZArith.
From Verif Require Import GoBase.
From stdpp Require Import gmap list.
From Verif Require Import RegionModel RegionSpec RegionProofs RegionThms RegionLive RegionStall PropRegion.
Local Open Scope Z_scope.
Local Notation run f0 v0 := (exec (init_config f0 v0)).

(** C30.  If at some moment (after tr1) no request is busy with the group, then whatever a request is told about the
    group later comes from an update that began after that moment. *)
Theorem c30_since_idle : ∀ f0 v0 tr1 tr2 t r time c, run f0 v0 (tr1 ++ tr2 ++ [LVisit t r time]) c →
  (∀ t', engaged t' r tr1 = false) → ∃ f, LUpdBegin r f ∈ tr2.
Proof. exact since_idle. Qed.
Print Assumptions c30_since_idle.
(** Request 1 shares the update of request 0; the group was idle at the beginning. *)
Example c30_nonvacuous_since : ∃ c, run ex_f ex_v ([LSpawn 0 (rpc_singleton 7 0)] ++
  ([LSpawn 1 (rpc_singleton 7 0)] ++ skipn 2 ex_visit0 ++ ex_visit1) ++ [LVisit 1 7 100]) c.
Proof. apply (runf_labels _ ex_cmds). vm_compute. reflexivity. Qed.

(** C77.  JSON and RPC requests, and text requests for one metric, write to the client only when they have no session... *)
Theorem c77_programs_partial : ∀ ms r x, Forall (λ p, bracketed false p = true ∧ emits_outside false p) [api_listing ms; api_singleton r x; text_single r x].
Proof.
  intros ms r x. repeat (apply Forall_cons_2); [| | |apply Forall_nil_2].
  - unfold api_listing, listing. rewrite <- !(assoc_L (++)). split; simpl.
    + induction ms as [|[r1 x1] ms IH]; simpl; done.
    + induction ms as [|[r1 x1] ms IH]; simpl; [|exact IH]. done.
  - done.
  - done.
Qed.
(** ... so a request that waits for its client keeps no group from being updated, ... *)
Theorem c77_not_busy_partial : ∀ f0 v0 tr c t th r, run f0 v0 tr c → (∀ t' p, LSpawn t' p ∈ tr → emits_outside false p) →
  c_pool c !! t = Some th → stalled th → engaged t r tr = false.
Proof. exact stalled_free. Qed.
(** ... and when all others have finished or wait for their clients, the next request gets fresh data. *)
Theorem c77_fresh_partial : ∀ f0 v0 tr1 c1 tr2 c2 t r time, run f0 v0 tr1 c1 → (∀ t' p, LSpawn t' p ∈ tr1 → emits_outside false p) →
  (∀ t' th, c_pool c1 !! t' = Some th → finished th ∨ stalled th) → exec c1 (tr2 ++ [LVisit t r time]) c2 → ∃ f, LUpdBegin r f ∈ tr2.
Proof.
  intros f0 v0 tr1 c1 tr2 c2 t r time E Sp W X. eapply (since_idle f0 v0 tr1 tr2 t r time c2); [by eapply exec_run|].
  intros t'. destruct (c_pool c1 !! t') as [th|] eqn:P; [|by eapply absent_free].
  destruct (W t' th P) as [F|S]; [by eapply finished_free|by eapply stalled_free].
Qed.
Print Assumptions c77_programs_partial.
Print Assumptions c77_not_busy_partial.
Print Assumptions c77_fresh_partial.
(** Request 0 waits for its client to take the response; request 1 then makes the group update again. *)
Definition c77_served : list label :=
  [LSpawn 0 (api_singleton 7 0); LOpen 0; LVisitCall 0 7; LSend 0 7 MLock; LUpdBegin 7 0; LUpdEnd 7 0 100; LReply 0 7; LVisit 0 7 100; LRead 0 7 0 0;
   LVisit 0 7 100; LClose 0; LCloseNext 0 7; LSend 0 7 MUnlock; LHandled 7; LReply 0 7; LClosed 0].
Definition c77_next : list label := [LSpawn 1 (api_singleton 7 0); LOpen 1; LVisitCall 1 7; LSend 1 7 MLock; LUpdBegin 7 0; LUpdEnd 7 0 200; LReply 1 7].
Example c77_nonvacuous : ∃ c1 c2, run ex_f ex_v c77_served c1 ∧ c_pool c1 = [MkThread [AEmit] None CReady] ∧ exec c1 (c77_next ++ [LVisit 1 7 200]) c2.
Proof.
  pose (ks1 := [Spawn (api_singleton 7 0); Local 0 0; Local 0 0; Send 0; Handle 7 0; Handle 7 100; Reply 0; Local 0 0; Local 0 0; Local 0 0; Local 0 0; Local 0 7; Send 0; Handle 7 0; Reply 0; Local 0 0]).
  pose (ks2 := [Spawn (api_singleton 7 0); Local 1 0; Local 1 0; Send 1; Handle 7 0; Handle 7 200; Reply 1; Local 1 0]).
  destruct (runf (init_config ex_f ex_v) ks1) as [[tr1 c1]|] eqn:R1; [|vm_compute in R1; discriminate R1].
  destruct (runf c1 ks2) as [[tr2 c2]|] eqn:R2.
  - exists c1, c2.
    assert (tr1 = c77_served ∧ c_pool c1 = [MkThread [AEmit] None CReady]) as [<- P] by (vm_compute in R1; injection R1 as <- <-; split; reflexivity).
    split; [by eapply runf_sound|]. split; [exact P|].
    assert (tr2 = c77_next ++ [LVisit 1 7 200]) as <-; [|by eapply runf_sound].
    vm_compute in R1. injection R1 as _ <-. vm_compute in R2. injection R2 as <- _. reflexivity.
  - exfalso. vm_compute in R1. injection R1 as _ <-. vm_compute in R2. discriminate R2.
Qed.

(** Text listings and HTML pages do not have the property: as long as the client of such a request does not read,
    every other request gets the old data of the groups that were visited, whatever it does. *)
Definition c77_stuck (p : list action) : list label :=
  [LSpawn 0 p; LOpen 0; LEmit 0; LVisitCall 0 7; LSend 0 7 MLock; LUpdBegin 7 0; LUpdEnd 7 0 100; LReply 0 7; LVisit 0 7 100; LRead 0 7 0 0].
Definition c77_page (p : list action) : list label := [LSpawn 0 p; LOpen 0; LEmit 0] ++ skipn 2 (c77_stuck p).
Theorem c77_refuted : ∀ p, p ∈ [text_listing [(7%nat, 0%nat)]; html_page [(7%nat, 0%nat)]] →
  ∃ tr c th, run ex_f ex_v tr c ∧ LSpawn 0 p ∈ tr ∧ c_pool c !! 0%nat = Some th ∧ stalled th ∧
    (∃ c2, exec c [LSpawn 1 (api_singleton 7 0); LOpen 1; LVisitCall 1 7; LSend 1 7 MLock; LHandled 7; LReply 1 7; LVisit 1 7 100] c2) ∧
    ∀ tr2 c2 t time, exec c tr2 c2 → LEmit 0 ∉ tr2 → LVisit t 7 time ∈ tr2 → time = 100.
Proof.
  assert (K : ∀ p tr ks th, option_map fst (runf (init_config ex_f ex_v) ks) = Some tr → LSpawn 0 p ∈ tr → holds 0 7 tr = Some 100 → stalled th →
    option_map (λ x, c_pool (snd x) !! 0%nat) (runf (init_config ex_f ex_v) ks) = Some (Some th) →
    option_map fst (runf (init_config ex_f ex_v) (ks ++ [Spawn (api_singleton 7 0); Local 1 0; Local 1 0; Send 1; Handle 7 0; Reply 1; Local 1 0])) =
      Some (tr ++ [LSpawn 1 (api_singleton 7 0); LOpen 1; LVisitCall 1 7; LSend 1 7 MLock; LHandled 7; LReply 1 7; LVisit 1 7 100]) →
    ∃ tr c th, run ex_f ex_v tr c ∧ LSpawn 0 p ∈ tr ∧ c_pool c !! 0%nat = Some th ∧ stalled th ∧
    (∃ c2, exec c [LSpawn 1 (api_singleton 7 0); LOpen 1; LVisitCall 1 7; LSend 1 7 MLock; LHandled 7; LReply 1 7; LVisit 1 7 100] c2) ∧
    ∀ tr2 c2 t time, exec c tr2 c2 → LEmit 0 ∉ tr2 → LVisit t 7 time ∈ tr2 → time = 100).
  { intros p tr ks th R Sp H S P R2. destruct (runf (init_config ex_f ex_v) ks) as [[tr1 c]|] eqn:E; [|discriminate R].
    cbn [option_map fst snd] in R, P. injection R as ->. injection P as P. exists tr, c, th. pose proof (runf_sound _ _ _ _ E) as X.
    split; [exact X|]. split; [exact Sp|]. split; [exact P|]. split; [exact S|]. split.
    - assert (A : ∀ ks1 ks2 c0, runf c0 (ks1 ++ ks2) = match runf c0 ks1 with Some (tr, c1) => match runf c1 ks2 with Some (tr2, c2) => Some (tr ++ tr2, c2) | None => None end | None => None end).
      { clear. induction ks1 as [|k ks1 IH]; intros ks2 c0; simpl; [by destruct (runf c0 ks2) as [[? ?]|]|].
        destruct (stepf c0 k) as [[l c1]|]; [|done]. rewrite IH. destruct (runf c1 ks1) as [[tr1 c2]|]; [|done]. by destruct (runf c2 ks2) as [[tr2 c3]|]. }
      rewrite A, E in R2. destruct (runf c [_; _; _; _; _; _; _]) as [[tr2 c2]|] eqn:E2; [|discriminate R2]. cbn [option_map fst] in R2. injection R2 as R2.
      apply app_inv_head in R2. subst tr2. exists c2. by eapply runf_sound.
    - intros tr2 c2 t time. exact (frozen ex_f ex_v tr c 0 th 7 100 tr2 c2 t time X P S H). }
  intros p Hp. apply elem_of_cons in Hp as [->|Hp]; [|apply elem_of_list_singleton in Hp as ->].
  - apply (K _ (c77_stuck (text_listing [(7%nat, 0%nat)])) [Spawn (text_listing [(7%nat, 0%nat)]); Local 0 0; Local 0 0; Local 0 0; Send 0; Handle 7 0; Handle 7 100; Reply 0; Local 0 0; Local 0 0]
      (MkThread [AEmit; AClose] (Some {[7%nat := 100]}) CReady)); [vm_compute; reflexivity|by constructor|vm_compute; reflexivity|by exists [AClose]|vm_compute; reflexivity|vm_compute; reflexivity].
  - apply (K _ (c77_page (html_page [(7%nat, 0%nat)])) [Spawn (html_page [(7%nat, 0%nat)]); Local 0 0; Local 0 0; Local 0 0; Local 0 0; Send 0; Handle 7 0; Handle 7 100; Reply 0; Local 0 0; Local 0 0]
      (MkThread [AEmit; AEmit; AClose] (Some {[7%nat := 100]}) CReady)); [vm_compute; reflexivity|by constructor|vm_compute; reflexivity|by exists [AEmit; AClose]|vm_compute; reflexivity|vm_compute; reflexivity].
Qed.
Print Assumptions c77_refuted.

(** C78.  A request of any kind that ends early - anywhere, because a write fails or a callback panics - is still a
    program that closes the session it opened, so C30-C33 hold for it ... *)
Theorem c78_cut : ∀ ms r x n, Forall (λ p, bracketed false (cut n false p) = true)
  [api_listing ms; api_singleton r x; text_listing ms; text_single r x; html_page ms].
Proof.
  intros ms r x n. repeat (apply Forall_cons_2); [| | | | |apply Forall_nil_2]; apply cut_bracketed.
  - unfold api_listing, listing. rewrite <- !(assoc_L (++)). simpl. induction ms as [|[r1 x1] ms IH]; simpl; done.
  - done.
  - unfold text_listing. simpl. by rewrite bracketed_text_metric.
  - done.
  - unfold html_page. simpl. by rewrite bracketed_text_metric.
Qed.
(** ... and a request that is over, early or not, has released every group: nobody is counted any more when all are over. *)
Theorem c78_released : ∀ f0 v0 tr c t th, run f0 v0 tr c → c_pool c !! t = Some th → finished th → ∀ r, engaged t r tr = false ∧ locked t r tr = false.
Proof.
  intros f0 v0 tr c t th E P F r. split; [by eapply finished_free|]. pose proof (locked_cnt f0 v0 tr c E t r) as L. rewrite P in L.
  destruct F as (_ & Se & Ct). unfold cnt in L. rewrite Ct, Se in L. simpl in L. destruct (locked t r tr); [discriminate L|done].
Qed.
Theorem c78_all_released : ∀ f0 v0 tr c, run f0 v0 tr c → (∀ t th, c_pool c !! t = Some th → finished th) → ∀ r, r_lock (c_regs c r) = 0.
Proof.
  intros f0 v0 tr c E F r. apply (idle_lock f0 v0 tr c r E). intros t. destruct (c_pool c !! t) as [th|] eqn:P; [by eapply finished_free; eauto|by eapply absent_free].
Qed.
Print Assumptions c78_cut.
Print Assumptions c78_released.
Print Assumptions c78_all_released.
(** A text listing whose client goes away after the first metric. *)
Example c78_nonvacuous : cut 4 false (text_listing [(7%nat, 0%nat); (8%nat, 0%nat)]) = [AOpen; AEmit; AVisit 7; ARead 7 0; AClose] ∧
  ∃ c, run ex_f ex_v ([LSpawn 0 [AOpen; AEmit; AVisit 7; ARead 7 0; AClose]] ++ skipn 1 (c77_stuck []) ++
    [LClose 0; LCloseNext 0 7; LSend 0 7 MUnlock; LHandled 7; LReply 0 7; LClosed 0]) c ∧ c_pool c = [MkThread [] None CReady].
Proof.
  split; [reflexivity|].
  pose (ks := [Spawn [AOpen; AEmit; AVisit 7; ARead 7 0; AClose]; Local 0 0; Local 0 0; Local 0 0; Send 0; Handle 7 0; Handle 7 100; Reply 0; Local 0 0; Local 0 0;
    Local 0 0; Local 0 7; Send 0; Handle 7 0; Reply 0; Local 0 0]).
  destruct (runf (init_config ex_f ex_v) ks) as [[tr1 c1]|] eqn:R1; [|vm_compute in R1; discriminate R1].
  exists c1. split.
  - assert (tr1 = [LSpawn 0 [AOpen; AEmit; AVisit 7; ARead 7 0; AClose]] ++ skipn 1 (c77_stuck []) ++ [LClose 0; LCloseNext 0 7; LSend 0 7 MUnlock; LHandled 7; LReply 0 7; LClosed 0]) as <-.
    { vm_compute in R1. injection R1 as <- _. reflexivity. } by eapply runf_sound.
  - vm_compute in R1. injection R1 as _ <-. reflexivity.
Qed.
