(** Property theorems C30-C36: groups, requests (sessions), group ids. *)
From Coq Require Import ZArith.
From Verif Require Import GoBase.
From stdpp Require Import gmap list.
From Verif Require Import RegionModel RegionSpec RegionProofs RegionThms RegionLive IdModel IdProofs.
Local Open Scope Z_scope.
Local Notation run f0 v0 := (exec (init_config f0 v0)).

(** *** Concrete executions *)
Fixpoint runf (c : config) (ks : list cmd) : option (list label * config) :=
  match ks with
  | [] => Some ([], c)
  | k :: ks => match stepf c k with
      | Some (l, c1) => match runf c1 ks with Some (tr, c') => Some (l :: tr, c') | None => None end
      | None => None
      end
  end.
Lemma runf_sound ks : ∀ c tr c', runf c ks = Some (tr, c') → exec c tr c'.
Proof.
  induction ks as [|k ks IH]; simpl; intros c tr c' E; [injection E as <- <-; constructor|].
  destruct (stepf c k) as [[l c1]|] eqn:St; [|done]. destruct (runf c1 ks) as [[tr1 c1']|] eqn:R; [|done]. injection E as <- <-.
  change (l :: tr1) with ([l] ++ tr1). apply exec_app. exists c1. split; [|by apply IH].
  change [l] with ([] ++ [l]). econstructor; [constructor|exact St].
Qed.
Lemma runf_labels c ks tr : option_map fst (runf c ks) = Some tr → ∃ c', exec c tr c'.
Proof. destruct (runf c ks) as [[tr1 c']|] eqn:R; [|done]. intros [= <-]. exists c'. by eapply runf_sound. Qed.
Definition ex_f : nat → nat := λ _, 0%nat.
Definition ex_v : nat → nat → Z := λ _ _, 0.
(** request 0 visits group 7 and makes it update; request 1 visits it as well and shares that update *)
Definition ex_visit0 : list label :=
  [LSpawn 0 (rpc_singleton 7 0); LSpawn 1 (rpc_singleton 7 0); LOpen 0; LVisitCall 0 7; LSend 0 7 MLock; LUpdBegin 7 0;
   LWrite 7 0 42; LUpdEnd 7 0 100; LReply 0 7].
Definition ex_visit1 : list label := [LVisit 0 7 100; LOpen 1; LVisitCall 1 7; LSend 1 7 MLock; LHandled 7; LReply 1 7].
Definition ex_shared : list label := ex_visit0 ++ ex_visit1 ++ [LVisit 1 7 100].
Definition ex_cmds : list cmd :=
  [Spawn (rpc_singleton 7 0); Spawn (rpc_singleton 7 0); Local 0 0; Local 0 0; Send 0; Handle 7 0; Write 7 0 42; Handle 7 100; Reply 0;
   Local 0 0; Local 1 0; Local 1 0; Send 1; Handle 7 0; Reply 1; Local 1 0].
Lemma ex_shared_run ls : (∃ ks, option_map fst (runf (init_config ex_f ex_v) (ex_cmds ++ ks)) = Some (ex_shared ++ ls)) → ∃ c, run ex_f ex_v (ex_shared ++ ls) c.
Proof. intros [ks E]. by eapply runf_labels. Qed.

(** C30 *)
Theorem c30_no_update_while_held : ∀ f0 v0 tr l c t r, run f0 v0 (tr ++ [l]) c → updates r l = true → holds t r tr = None.
Proof. exact no_update_while_held. Qed.
Theorem c30_update_before_visit : ∀ f0 v0 tr c t r time, run f0 v0 (tr ++ [LVisit t r time]) c → ∃ vals, last_run (v0 r) r tr time vals.
Proof. exact visit_time. Qed.
Theorem c30_fresh : ∀ f0 v0 tr1 t r tr2 time c, run f0 v0 (tr1 ++ [LVisitCall t r] ++ tr2 ++ [LVisit t r time]) c →
  (∀ t', engaged t' r tr1 = false) → ∃ f, LUpdBegin r f ∈ tr2.
Proof. exact fresh_update. Qed.
Theorem c30_exactly_once : ∀ f0 v0 tr1 t r tr2 time c, run f0 v0 (tr1 ++ [LVisitCall t r] ++ tr2 ++ [LVisit t r time]) c →
  (∀ t', engaged t' r tr1 = false) → (∀ t', t' ≠ t → LVisitCall t' r ∉ tr2) → (∀ time', LVisit t r time' ∉ tr2) →
  length (filter (λ l, begins_update r l = true) tr2) = 1%nat.
Proof. exact one_update. Qed.
Theorem c30_only_for_visits : ∀ f0 v0 tr c r f, run f0 v0 (tr ++ [LUpdBegin r f]) c →
  ∃ t, engaged t r tr = true ∧ holds t r tr = None ∧ last_sender r tr = Some t.
Proof. exact begin_visitor. Qed.
Example c30_nonvacuous : ∃ c, run ex_f ex_v
    ([LSpawn 0 (rpc_singleton 7 0); LSpawn 1 (rpc_singleton 7 0); LOpen 0] ++ [LVisitCall 0 7] ++
     [LSend 0 7 MLock; LUpdBegin 7 0; LWrite 7 0 42; LUpdEnd 7 0 100; LReply 0 7] ++ [LVisit 0 7 100]) c.
Proof. apply (runf_labels _ (take 10 ex_cmds)). vm_compute. reflexivity. Qed.
Example c30_nonvacuous_held : holds 0 7 (ex_visit0 ++ [LVisit 0 7 100]) = Some 100 ∧ holds 0 7 ex_visit0 = None.
Proof. split; reflexivity. Qed.
Print Assumptions c30_no_update_while_held.
Print Assumptions c30_update_before_visit.
Print Assumptions c30_fresh.
Print Assumptions c30_exactly_once.
Print Assumptions c30_only_for_visits.

(** C31 *)
Theorem c31_read : ∀ f0 v0 tr c t r x v time, run f0 v0 (tr ++ [LRead t r x v]) c → holds t r tr = Some time →
  ∃ vals, last_run (v0 r) r tr time vals ∧ v = vals x.
Proof. exact read_held. Qed.
Theorem c31_stable : ∀ f0 v0 tr1 tr2 c t r time, run f0 v0 (tr1 ++ tr2) c → holds t r tr1 = Some time → LClose t ∉ tr2 →
  (∀ l, l ∈ tr2 → updates r l = false) ∧ holds t r (tr1 ++ tr2) = Some time.
Proof. exact held_span. Qed.
Theorem c31_overlap : ∀ f0 v0 tr c t1 t2 r a b, run f0 v0 tr c → holds t1 r tr = Some a → holds t2 r tr = Some b → a = b.
Proof. exact overlap. Qed.
Example c31_nonvacuous : (∃ c, run ex_f ex_v (ex_shared ++ [LRead 1 7 0 42]) c) ∧ holds 1 7 ex_shared = Some 100 ∧ holds 0 7 ex_shared = Some 100.
Proof. split; [|split; reflexivity]. apply ex_shared_run. exists [Local 1 0]. vm_compute. reflexivity. Qed.
Print Assumptions c31_read.
Print Assumptions c31_stable.
Print Assumptions c31_overlap.

(** C32 *)
Theorem c32_own_reply : ∀ f0 v0 tr c t r, run f0 v0 (tr ++ [LReply t r]) c → last_sender r tr = Some t.
Proof. exact own_reply. Qed.
Theorem c32_never_dies : ∀ f0 v0 tr c r, run f0 v0 tr c → LDie r ∉ tr ∧ r_h (c_regs c r) ≠ HDead.
Proof. exact never_dies. Qed.
Theorem c32_lock_count : ∀ f0 v0 tr c r, run f0 v0 tr c → r_h (c_regs c r) = HIdle →
  r_lock (c_regs c r) = Z.of_nat (length (filter (λ t, locked t r tr = true) (seq 0 (length (c_pool c))))).
Proof. exact lock_count. Qed.
Theorem c32_no_deadlock : ∀ f0 v0 tr c t th, run f0 v0 tr c → c_pool c !! t = Some th → ¬ finished th → ∃ k, internal k ∧ enabled c k.
Proof. exact progress. Qed.
(** If no more requests arrive, only a bounded number of steps (other than writes of update functions) remain,
    and when no step is left every request is complete. *)
Theorem c32_all_finish : ∀ f0 v0 tr c, run f0 v0 tr c → ∃ n, ∀ tr2 c2, exec c tr2 c2 → (∀ l, l ∈ tr2 → is_spawn l = false) →
  (length (filter (λ l, is_write l = false) tr2) ≤ n)%nat ∧
  ((∀ k, internal k → ¬ enabled c2 k) → ∀ t th, c_pool c2 !! t = Some th → finished th).
Proof. exact all_finish. Qed.
(** Two goroutines wait in RLock at the same time; the reply goes to the one whose message was received. *)
Example c32_nonvacuous : (∃ c, run ex_f ex_v
  [LSpawn 0 (rpc_singleton 7 0); LSpawn 1 (rpc_singleton 7 0); LOpen 0; LOpen 1; LVisitCall 0 7; LVisitCall 1 7; LSend 1 7 MLock;
   LUpdBegin 7 0; LUpdEnd 7 0 5; LReply 1 7] c) ∧ ¬ finished (MkThread [AClose] (Some ∅) CReady).
Proof.
  split; [|by intros [? _]].
  apply (runf_labels _ [Spawn (rpc_singleton 7 0); Spawn (rpc_singleton 7 0); Local 0 0; Local 1 0; Local 0 0; Local 1 0; Send 1; Handle 7 0; Handle 7 5; Reply 1]).
  vm_compute. reflexivity.
Qed.
Print Assumptions c32_own_reply.
Print Assumptions c32_never_dies.
Print Assumptions c32_lock_count.
Print Assumptions c32_no_deadlock.
Print Assumptions c32_all_finish.

(** C33.  After RegisterUpdateFunc(f) returned, an update runs f, or a function whose registration was in progress
    when that call began or began later. *)
Theorem c33_used : ∀ f0 v0 tr0 t r f tr g c, run f0 v0 (tr0 ++ [LFuncCall t r f] ++ tr ++ [LUpdBegin r g]) c → (∃ f', LFuncRet t r f' ∈ tr) →
  g = f ∨ (∃ t', registering t' r tr0 = Some g) ∨ ∃ t', LFuncCall t' r g ∈ tr.
Proof. exact func_used. Qed.
Theorem c33_initial : ∀ f0 v0 tr g r c, run f0 v0 (tr ++ [LUpdBegin r g]) c → g = f0 r ∨ ∃ t, LFuncCall t r g ∈ tr.
Proof. exact func_initial. Qed.
Theorem c33_quiet : ∀ f0 v0 tr r f c c' k, run f0 v0 tr c → stepf c k = Some (LSetFunc r f, c') →
  c_pool c' = c_pool c ∧ ∀ r', r_lock (c_regs c' r') = r_lock (c_regs c r') ∧ r_time (c_regs c' r') = r_time (c_regs c r') ∧ r_vars (c_regs c' r') = r_vars (c_regs c r').
Proof. exact setfunc_quiet. Qed.
Example c33_nonvacuous : ∃ c, run ex_f ex_v ([LSpawn 0 [ARegister 7 5]] ++ [LFuncCall 0 7 5] ++
  [LSend 0 7 (MFunc 5); LSetFunc 7 5; LReply 0 7; LFuncRet 0 7 5; LSpawn 1 (rpc_singleton 7 0); LOpen 1; LVisitCall 1 7; LSend 1 7 MLock] ++ [LUpdBegin 7 5]) c.
Proof.
  apply (runf_labels _ [Spawn [ARegister 7 5]; Local 0 0; Send 0; Handle 7 0; Reply 0; Local 0 0; Spawn (rpc_singleton 7 0); Local 1 0; Local 1 0; Send 1; Handle 7 0]).
  vm_compute. reflexivity.
Qed.
Print Assumptions c33_used.
Print Assumptions c33_initial.
Print Assumptions c33_quiet.

(** C34.  The property holds for JSON and RPC singletons and for every listing... *)
Theorem c34_guarded_partial : ∀ f0 v0 tr c t r x v p, run f0 v0 (tr ++ [LRead t r x v]) c → LSpawn t p ∈ tr → guarded ∅ p →
  ∃ time vals, holds t r tr = Some time ∧ last_run (v0 r) r tr time vals ∧ v = vals x.
Proof.
  intros f0 v0 tr c t r x v p E S G. destruct (guarded_read f0 v0 tr c t r x v p E S G) as [time H].
  destruct (read_held f0 v0 tr c t r x v time E H) as (vals & L & V). eauto.
Qed.
Theorem c34_json_rpc_listings_partial : (∀ r x, guarded ∅ (rpc_singleton r x) ∧ bracketed false (rpc_singleton r x) = true) ∧
  (∀ ms, guarded ∅ (listing ms) ∧ bracketed false (listing ms) = true).
Proof. split; [intros r x; simpl; set_solver|]. intros ms. split; [apply guarded_listing|apply bracketed_listing]. Qed.
(** ... but not for text requests for one metric: here the read happens in the middle of a later update. *)
Definition c34_trace : list label :=
  [LSpawn 0 (text_singleton 7 0); LSpawn 1 (rpc_singleton 7 0); LOpen 0; LVisitCall 0 7; LSend 0 7 MLock; LUpdBegin 7 0; LWrite 7 0 1; LUpdEnd 7 0 100;
   LReply 0 7; LVisit 0 7 100; LClose 0; LCloseNext 0 7; LSend 0 7 MUnlock; LHandled 7; LReply 0 7; LClosed 0;
   LOpen 1; LVisitCall 1 7; LSend 1 7 MLock; LUpdBegin 7 0; LWrite 7 0 2].
Theorem c34_refuted : ∃ c, run ex_f ex_v (c34_trace ++ [LRead 0 7 0 2]) c ∧ LSpawn 0 (text_singleton 7 0) ∈ c34_trace ∧
  holds 0 7 c34_trace = None ∧ ∀ time vals, ¬ last_run (ex_v 7) 7 c34_trace time vals.
Proof.
  destruct (runf_labels (init_config ex_f ex_v)
    [Spawn (text_singleton 7 0); Spawn (rpc_singleton 7 0); Local 0 0; Local 0 0; Send 0; Handle 7 0; Write 7 0 1; Handle 7 100; Reply 0; Local 0 0;
     Local 0 0; Local 0 7; Send 0; Handle 7 0; Reply 0; Local 0 0; Local 1 0; Local 1 0; Send 1; Handle 7 0; Write 7 0 2; Local 0 0]
    (c34_trace ++ [LRead 0 7 0 2])) as [c E]; [vm_compute; reflexivity|].
  exists c. split; [exact E|]. split; [by constructor|]. split; [reflexivity|].
  intros time vals (tr1 & f & tr2 & tr3 & Eq & _ & _ & U & _).
  destruct tr3 as [|l tr3 _] using rev_ind.
  - rewrite !app_nil_r, !app_assoc in Eq. change c34_trace with (removelast c34_trace ++ [LWrite 7 0 2]) in Eq. by apply app_inj_tail in Eq as [_ ?].
  - rewrite !app_assoc in Eq. change c34_trace with (removelast c34_trace ++ [LWrite 7 0 2]) in Eq. apply app_inj_tail in Eq as [_ <-].
    specialize (U (LWrite 7 0 2) ltac:(apply elem_of_app; right; by constructor)). done.
Qed.
Example c34_nonvacuous : ∃ c, run ex_f ex_v (ex_shared ++ [LRead 1 7 0 42]) c ∧ LSpawn 1 (rpc_singleton 7 0) ∈ ex_shared.
Proof.
  destruct (ex_shared_run [LRead 1 7 0 42]) as [c E]; [exists [Local 1 0]; vm_compute; reflexivity|]. exists c. split; [exact E|]. right. left.
Qed.
Print Assumptions c34_guarded_partial.
Print Assumptions c34_json_rpc_listings_partial.
Print Assumptions c34_refuted.

(** C35 (ids are 64 bit) *)
Theorem c35_unique : ∀ s t1 t2 a, ireach s → rank s ≤ 2 ^ 64 → i_creators s !! t1 = Some (Some a) → i_creators s !! t2 = Some (Some a) → t1 = t2.
Proof. intros s t1 t2 a R L. exact (omap_nodup_lookup _ _ _ _ (handed_nodup s R L)). Qed.
Theorem c35_no_gaps : ∀ s, ireach s → rank s ≤ 2 ^ 63 → handed s ≡ₚ Z.of_nat <$> seq 0 (length (handed s)).
Proof.
  intros s R L. destruct (ireach_inv s R) as [P _]. rewrite P at 1. apply reflexive_eq. apply list_fmap_ext. intros i n E.
  apply lookup_seq in E as [-> E]. apply wrap64_small. unfold rank in L. lia.
Qed.
Example c35_nonvacuous : ireach (MkIds (GSent 1) [Some 1; Some 0]) ∧ rank (MkIds (GSent 1) [Some 1; Some 0]) = 2.
Proof.
  split; [|done]. apply (ir_step (MkIds (GSending 1) [None; Some 0]) (IReceive 0)); [|reflexivity].
  apply (ir_step (MkIds (GSent 0) [None; Some 0]) IIncrement); [|reflexivity]. apply (ir_step (MkIds (GSending 0) [None; None]) (IReceive 1)); [|reflexivity].
  apply (ir_step (MkIds (GSending 0) [None]) INew); [|reflexivity]. apply (ir_step init_ids INew); [constructor|reflexivity].
Qed.
Print Assumptions c35_unique.
Print Assumptions c35_no_gaps.

(** C36.  [gid] assigns the group ids; they are unique by C35. *)
Theorem c36_regions_partial : ∀ f0 v0 (gid : group → Z) tr c t g g' r a b, (∀ g g', gid g = gid g' → g = g') → run f0 v0 tr c →
  (g, a) ∈ reported t tr → (g', b) ∈ reported t tr → g = GRegion r → gid g = gid g' → a = b.
Proof.
  intros f0 v0 gid tr c t g g' r a b Inj E A B -> G. apply Inj in G as <-. exact (report_region f0 v0 tr c t r a b E A B).
Qed.
(** Distributions and lists: the same one is registered under two paths and changes during the listing. *)
Theorem c36_refuted : ∃ tr c t a b, run ex_f ex_v tr c ∧ (GAggregate 3, a) ∈ reported t tr ∧ (GAggregate 3, b) ∈ reported t tr ∧ a ≠ b.
Proof.
  destruct (runf_labels (init_config ex_f ex_v)
    [Spawn [AOpen; AAggRead 3; AAggRead 3; AClose]; Spawn [AAggSet 3 5]; Local 0 0; Local 0 0; Local 1 0; Local 0 0]
    [LSpawn 0 [AOpen; AAggRead 3; AAggRead 3; AClose]; LSpawn 1 [AAggSet 3 5]; LOpen 0; LAggRead 0 3 0; LAggSet 1 3 5; LAggRead 0 3 5]) as [c E]; [vm_compute; reflexivity|].
  eexists _, c, 0%nat, 0, 5. split; [exact E|]. split; [by constructor|]. split; [by constructor; constructor|done].
Qed.
Example c36_nonvacuous : ∃ tr c, run ex_f ex_v tr c ∧ reported 1 tr = [(GRegion 7, 100); (GRegion 7, 100)].
Proof.
  destruct (ex_shared_run [LRead 1 7 0 42; LVisit 1 7 100]) as [c E]; [exists [Local 1 0; Local 1 0]; vm_compute; reflexivity|].
  eexists _, c. split; [exact E|]. reflexivity.
Qed.
Print Assumptions c36_regions_partial.
Print Assumptions c36_refuted.
