(** Properties of the default metrics and of the metrics of flags: C56, C68, C69 and C70. *)
From Verif Require Import GoBase GoVal UnitsModel DurationModel TypesModel FloatBase MessagesModel.
From stdpp Require Import gmap strings.
From Verif Require Import ReflectModel ListModel ValueModel.
From Verif Require Import PathModel PathSpec PathProofs RegistryModel RegistrySpec RegistryProofs RegistryConc PropRegistry HttpModel HttpSpec HttpProofs SetupModel SetupSpec SetupProofs.
Local Open Scope Z_scope.
Local Open Scope string_scope.
Local Open Scope list_scope.

(** ** C56. In full: every figure of getrusage, the CPU times and the stack size included, is reported as it is. *)
Theorem c56_figures_partial : ∀ w files o s0 es u path un z, last_usage es u → sizes_fit o u → (path, un, z) ∈ figures o u →
  reported w files s0 (after o es s0) path un (VScalar SInt64 z).
Proof. exact figures_reported. Qed.
(** The CPU times have the right seconds, but a microsecond counts as a nanosecond. *)
Theorem c56_cpu_partial : ∀ w files o s0 es u, last_usage es u → time_fits (u_utime u) → time_fits (u_stime u) →
  reported w files s0 (after o es s0) "/proc/cpu/user" "Seconds" (VDuration (tv_sec (u_utime u) * 1000000000 + tv_usec (u_utime u))) ∧
  reported w files s0 (after o es s0) "/proc/cpu/sys" "Seconds" (VDuration (tv_sec (u_stime u) * 1000000000 + tv_usec (u_stime u))).
Proof. intros w files o s0 es u L F1 F2. rewrite <- (cpu_value _ F1), <- (cpu_value _ F2). by apply cpu_reported. Qed.
Definition start : proc := initial "go1.9" "prog" ["-v"; "x"] (MkTime 1 0) (Some 7).
Definition busy : usage := MkUsage (MkTimeval 2 500000) (MkTimeval 0 250000) 4096 8 16 32 11 12 13 14 15 16 17 18 19 20.
Definition run1 : list pevent := [EvMemory 100 30; EvUsage 4 (Some busy); EvMemory 50 60; EvUsage 5 None].
Lemma run1_last : last_usage run1 busy.
Proof. exists [EvMemory 100 30], 4, [EvMemory 50 60; EvUsage 5 None]. split; [done|]. intros g u. by rewrite !elem_of_cons, elem_of_nil; intros [?|[?|[]]]. Qed.
Lemma busy_times : time_fits (u_utime busy) ∧ time_fits (u_stime busy).
Proof. split; (split; [done|vm_compute; split; congruence]). Qed.
Lemma user_path : components "/proc/cpu/user" ["proc"; "cpu"; "user"].
Proof. by apply newPathSpec_iff. Qed.
Lemma stack_path : components "/proc/memory/unshared-stack" ["proc"; "memory"; "unshared-stack"].
Proof. by apply newPathSpec_iff. Qed.
Theorem c56_refuted : ¬ ∀ w files o s0 es u, last_usage es u → time_fits (u_utime u) →
  reported w files s0 (after o es s0) "/proc/cpu/user" "Seconds" (VDuration (cpu_ns (u_utime u))).
Proof.
  intros H. specialize (H W64 true Linux start run1 busy run1_last (proj1 busy_times)).
  destruct (H (λ _, []) (λ _ _, MkTime 0 0) (λ _ _, 0) (default_heap true) ["proc"; "cpu"; "user"] user_path eq_refl) as (m & E & _ & _ & V).
  destruct (c56_cpu_partial W64 true Linux start run1 busy run1_last (proj1 busy_times) (proj2 busy_times)) as [H' _].
  destruct (H' (λ _, []) (λ _ _, MkTime 0 0) (λ _ _, 0) (default_heap true) ["proc"; "cpu"; "user"] user_path eq_refl) as (m' & E' & _ & _ & V').
  rewrite E in E'. injection E' as <-. rewrite V in V'. apply (f_equal (λ v, match v with VScalar SDuration d => d | VScalar SInt64 z => z | _ => 0 end)) in V'. vm_compute in V'. discriminate V'.
Qed.
Theorem c56_stack_refuted : ¬ ∀ w files o version name args ts fs es u, last_usage es u → sizes_fit o u → in64 (unit_bytes o * u_isrss u) →
  reported w files (initial version name args ts fs) (after o es (initial version name args ts fs)) "/proc/memory/unshared-stack" "Bytes" (VScalar SInt64 (unit_bytes o * u_isrss u)).
Proof.
  intros H. specialize (H W64 true Linux "go1.9" "prog" ["-v"; "x"] (MkTime 1 0) (Some 7) run1 busy run1_last ltac:(vm_compute; split_and!; congruence) ltac:(vm_compute; split; congruence)). fold start in H.
  destruct (H (λ _, []) (λ _ _, MkTime 0 0) (λ _ _, 0) (default_heap true) ["proc"; "memory"; "unshared-stack"] stack_path eq_refl) as (m & E & _ & _ & V).
  destruct (stack_reported W64 true Linux start run1 (λ _, []) (λ _ _, MkTime 0 0) (λ _ _, 0) (default_heap true) ["proc"; "memory"; "unshared-stack"] stack_path eq_refl) as (m' & E' & _ & _ & V').
  rewrite E in E'. injection E' as <-. rewrite V in V'. apply (f_equal (λ v, match v with VScalar SDuration d => d | VScalar SInt64 z => z | _ => 0 end)) in V'. vm_compute in V'. discriminate V'.
Qed.
Example c56_nonvacuous : last_usage run1 busy ∧ sizes_fit Linux busy ∧ ("/proc/memory/max-resident-set-size", "Bytes", 4194304) ∈ figures Linux busy ∧ time_fits (u_utime busy) ∧
  reported W64 true start (after Linux run1 start) "/proc/cpu/user" "Seconds" (VDuration 2000500000).
Proof.
  split; [exact run1_last|]. split; [vm_compute; split_and!; congruence|]. split; [left|]. destruct busy_times as [F1 F2].
  split; [exact F1|]. apply (c56_cpu_partial W64 true Linux start run1 busy run1_last F1 F2).
Qed.

(** ** C68 *)
Theorem c68_total_memory : ∀ w files o version name args ts fs es, let s0 := initial version name args ts fs in
  (∀ sys released, last_memory es sys released → reported w files s0 (after o es s0) "/proc/memory/total" "Bytes" (VScalar SUint64 (sys - released))) ∧
  ((∀ sys released, EvMemory sys released ∈ es → sys < released) → reported w files s0 (after o es s0) "/proc/memory/total" "Bytes" (VScalar SUint64 0)).
Proof.
  intros w files o version name args ts fs es s0. split.
  - intros sys rel L. rewrite <- (memory_after o es sys rel s0 L). apply memory_reported.
  - intros N. replace 0 with (p_totalMemory (after o es s0)); [apply memory_reported|]. by rewrite (memory_none o es s0 N).
Qed.
Example c68_nonvacuous : last_memory run1 100 30.
Proof. exists [], [EvUsage 4 (Some busy); EvMemory 50 60; EvUsage 5 None]. split; [done|]. split; [done|]. intros a b. rewrite !elem_of_cons, elem_of_nil. intros [?|[[= -> ->]|[?|[]]]]; done. Qed.

(** ** C69 *)
Theorem c69_defaults : ∀ files, reachable_heap (default_heap files) ∧
  (∀ path mi, (path, mi) ∈ default_calls files → ∃ p e, components path p ∧ answer (default_heap files) p = Some (NMetric e) ∧ e_obj e = OMetric mi) ∧
  (∀ p e, answer (default_heap files) p = Some (NMetric e) → ∃ path mi, (path, mi) ∈ default_calls files ∧ components path p ∧ e_obj e = OMetric mi).
Proof.
  intros files. split; [apply default_reachable|]. split; [|apply default_only]. intros path mi X. destruct (default_added files) as (_ & P1 & _).
  apply (elem_of_list_fmap_1 (λ x, (newPathSpec x.1, x.2))) in X. destruct (P1 _ X) as (e & A & Oe). exists (newPathSpec path), e. split; [by apply newPathSpec_iff|done].
Qed.
Example c69_nonvacuous : length (default_calls true) = 23%nat ∧ length (default_calls false) = 22%nat ∧ is_metric (answer (default_heap true) ["proc"; "start-time"]) ∧
  answer (default_heap false) ["proc"; "io"; "num-open-file-descriptors"] = None.
Proof. split; [reflexivity|]. split; [reflexivity|]. split; [|vm_compute; reflexivity]. vm_compute. by eexists. Qed.

(** ** C70. In full: after RegisterFlags every flag is a metric under /proc/flags. *)
Theorem c70_flags_partial : ∀ W w units (s : W) flags h, reachable_heap h → (∀ q, below q flags_dir → ¬ is_metric (answer h q)) →
  ∀ ps, Forall2 (λ f p, components (f_name f) p) flags ps → separate ps →
  Forall (λ f, flag_Get f s ≠ None) flags → Forall (λ p, p ≠ [] ∧ ¬ obstructed h (flags_dir ++ p)) ps →
  ∃ h', registerFlags w units s flags h = (h', false) ∧
    (∀ f p, (f, p) ∈ zip flags ps → ∃ e mi, answer h' (flags_dir ++ p) = Some (NMetric e) ∧ e_obj e = OMetric mi ∧
      mi_spec mi = MVar (f_var f) ∧ mi_desc mi = f_usage f ∧ documented_unit units f s (mi_unit mi)) ∧
    (∀ q, answer h q ≠ None → answer h' q = answer h q) ∧ (∀ q, ¬ below flags_dir q → answer h q = None → answer h' q = None ∨ below q flags_dir).
Proof.
  intros W w units s flags h R M ps C S G O.
  assert (ps = map (λ f, newPathSpec (f_name f)) flags) as ->. { clear -C. induction C as [|f p fs ps C Cs IH]; [done|]. simpl. f_equal; [|done]. by apply newPathSpec_iff in C. }
  destruct (flags_spec w units s h flags) as (h' & E & _ & P1 & P2 & P3); [by apply reachable_heap_wf|done| | |done|].
  - apply Forall_forall. intros f F. split; [|by apply (proj1 (Forall_forall _ _) G)]. apply (proj1 (Forall_forall _ _) O). by apply (elem_of_list_fmap_1 (λ f, newPathSpec (f_name f))).
  - intros f F. apply (proj1 (Forall_forall _ _) O). by apply (elem_of_list_fmap_1 (λ f, newPathSpec (f_name f))).
  - exists h'. split; [done|]. split; [|done]. intros f p Z. assert (f ∈ flags ∧ p = newPathSpec (f_name f)) as [F ->].
    { clear -Z. induction flags as [|f' fs IH]; [by apply elem_of_nil in Z|]. simpl in Z. apply elem_of_cons in Z as [[= -> ->]|Z]; [split; [left|done]|]. destruct (IH Z) as [? ?]. split; [by right|done]. }
    destruct (P1 f F) as (e & A & Oe). eexists e, _. split; [done|]. split; [exact Oe|]. simpl. split; [done|]. split; [done|]. unfold documented_unit, flagUnit. destruct (units !! f_name f); [done|].
    unfold flag_Get. destruct (f_get f) as [g|]; [|right; split; [by intros (g & d & X & _)|done]]. destruct (g s) as [[]|] eqn:Eg; simpl; try (right; split; [intros (g' & d' & [= <-] & X); congruence|done]).
    left. split; [eauto|done].
Qed.
Definition num_flag (n : string) (v : nat) : flag unit := MkFlag _ n "usage" (Some (λ _, Some (RVBasic KInt None 3))) (λ _, "3") v.
Definition time_flag (n : string) (v : nat) : flag unit := MkFlag _ n "usage" (Some (λ _, Some (RVDuration 3))) (λ _, "3ns") v.
(** Flags can have slashes in their names, so that one would have to be a directory and a metric; the error is ignored. *)
Theorem c70_refuted : ¬ ∀ W w units (s : W) flags h, reachable_heap h → (∀ q, below q flags_dir → ¬ is_metric (answer h q)) →
  ∀ ps, Forall2 (λ f p, components (f_name f) p) flags ps → NoDup (map f_name flags) →
  Forall (λ f, flag_Get f s ≠ None) flags → Forall (λ p, p ≠ [] ∧ ¬ obstructed h (flags_dir ++ p)) ps →
  ∃ h', registerFlags w units s flags h = (h', false) ∧ (∀ f p, (f, p) ∈ zip flags ps → ∃ e, answer h' (flags_dir ++ p) = Some (NMetric e)).
Proof.
  intros H. destruct (H unit W64 ∅ tt [num_flag "cache" 0; num_flag "cache/size" 1] init_heap) with (ps := [["cache"]; ["cache"; "size"]]) as (h' & E & P).
  - exists init_config. split; [|done]. exists [init_config]. constructor.
  - intros [|a q] B [e M]; [done|by rewrite init_answer in M].
  - repeat constructor; by apply newPathSpec_iff.
  - by apply (bool_decide_unpack _).
  - repeat constructor; discriminate.
  - repeat constructor; try discriminate; intros [N|[N|([|a q] & B & [e M])]]; try done; try (by apply N, init_answer); by rewrite init_answer in M.
  - destruct (P (num_flag "cache/size" 1) ["cache"; "size"]) as [e A]; [right; left|]. unfold registerFlags in E.
    assert (answer (fst (registerFlags W64 ∅ tt [num_flag "cache" 0; num_flag "cache/size" 1] init_heap)) (flags_dir ++ ["cache"; "size"]) = None) as N by (vm_compute; reflexivity).
    change (registerFlags W64 ∅ tt [num_flag "cache" 0; num_flag "cache/size" 1] init_heap = (h', false)) in E. rewrite E in N. simpl in N, A. congruence.
Qed.
Definition unit_at (h : heap) (p : list string) : option unit_t := match answer h p with Some (NMetric e) => match e_obj e with OMetric mi => Some (mi_unit mi) | _ => None end | _ => None end.
Example c70_nonvacuous : let flags := [num_flag "n" 0; time_flag "t" 1; time_flag "u/v" 2] in let h' := fst (registerFlags W64 {["u/v" := "Bytes"]} tt flags (default_heap true)) in
  separate [["n"]; ["t"]; ["u"; "v"]] ∧ unit_at h' ["proc"; "flags"; "n"] = Some "None" ∧ unit_at h' ["proc"; "flags"; "t"] = Some "Seconds" ∧ unit_at h' ["proc"; "flags"; "u"; "v"] = Some "Bytes".
Proof.
  split; [|vm_compute; split; [|split]; reflexivity]. assert (bool_decide (separate [["n"]; ["t"]; ["u"; "v"]]) = true) as B by (vm_compute; reflexivity). by apply bool_decide_eq_true in B.
Qed.
Print Assumptions c56_figures_partial.
Print Assumptions c56_cpu_partial.
Print Assumptions c56_refuted.
Print Assumptions c56_stack_refuted.
Print Assumptions c68_total_memory.
Print Assumptions c69_defaults.
Print Assumptions c70_flags_partial.
Print Assumptions c70_refuted.
