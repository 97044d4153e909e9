(** Property theorems C16-C24: the registry as seen by one caller, from any reachable state. *)
From stdpp Require Import gmap strings.
From Verif Require Import PathModel PathSpec PathProofs RegistryModel RegistrySpec RegistryProofs RegistryConc RegistryConcProofs RegistryWitness.

(** All theorems hold in every heap reachable by any number of concurrent calls, including in the middle of other
    calls; [run] is a call executed without interference.  The string path enters through [components]. *)
Lemma reachable_heap_wf h : reachable_heap h → wf h.
Proof. exact (reachable_wf h). Qed.
Lemma components_valid s p : components s p → newPathSpec s = p ∧ Forall valid_component p.
Proof. intros C. apply newPathSpec_iff in C as <-. split; [done|]. apply newPathSpec_valid. Qed.

(** a state with the metric /a/x and the directories /a, /a/b and /c *)
Definition var (u desc : string) : minfo := MkInfo (MVar 0) 0 u desc.
Definition ex_calls : list instr :=
  [Start 1 (CRegMetric root "a/x" (var "None" "an x")); Go 1 3; Start 2 (CRegDir root "/a/b"); Go 2 3;
   Start 3 (CRegDir root "c"); Go 3 2].
Definition ex_config : config := match exec ex_calls init_config with Some (_, c) => c | None => init_config end.
Definition ex_heap : heap := c_heap ex_config.
Lemma ex_reachable : reachable ex_config.
Proof.
  unfold ex_config. destruct (exec ex_calls init_config) as [[l c]|] eqn:E; [|eexists; constructor].
  exists l. by eapply exec_sound.
Qed.
Lemma ex_heap_reachable : reachable_heap ex_heap.
Proof. exists ex_config. split; [apply ex_reachable|done]. Qed.

(** C16 *)
Theorem c16_register_visible : ∀ h s p m h', reachable_heap h → components s p →
  run (registerMetric root (newPathSpec s) m) h = (h', MOk) →
  answer h p = None ∧
  (∃ e, answer h' p = Some (NMetric e) ∧ e_obj e = OMetric m) ∧
  (∀ q, properly_below q p → is_dir (answer h' q)) ∧
  (∀ q, ¬ below q p → answer h' q = answer h q) ∧
  (∀ q, answer h q ≠ None → answer h' q = answer h q).
Proof.
  intros h s p m h' R C E. pose proof (reachable_heap_wf _ R) as W. apply components_valid in C as [<- V].
  pose proof (registerMetric_spec h root [] (newPathSpec s) m V W (root_live h)) as S. rewrite E in S. simpl in S.
  destruct S as (W' & _ & Nob & Np & _ & Add & Ans). set (p := newPathSpec s) in *.
  assert (N : answer h p = None). { destruct (answer h p) eqn:A; [|done]. exfalso. apply Nob. right. left. congruence. }
  split; [done|]. split; [done|]. split; [|split].
  - intros q B. assert (q ≠ p). { intros ->. destruct B as (x & r & B). apply (f_equal length) in B. rewrite app_length in B. simpl in B. lia. }
    destruct (Add q) as (A1 & A2 & _); [done|]. destruct (answer h q) as [[d|e]|] eqn:A.
    + exists d. by apply A1.
    + exfalso. apply Nob. right. right. exists q. split; [done|]. by exists e.
    + apply A2; [done|]. destruct B as (x & r & ->). by exists (x :: r).
  - intros q B. assert (q ≠ p) by (intros ->; apply B; by exists []; rewrite app_nil_r).
    destruct (Add q) as (A1 & _ & A3); [done|]. destruct (answer h q) eqn:A; [by apply A1|by apply A3].
  - intros q A. apply Add; [|done]. congruence.
Qed.
Example c16_nonvacuous : snd (run (registerMetric root (newPathSpec " /a//new/z") (var "None" "")) ex_heap) = MOk.
Proof. vm_compute. reflexivity. Qed.
Print Assumptions c16_register_visible.

(** C17 *)
Theorem c17_path_in_use : ∀ h s p m, reachable_heap h → components s p → accepts h m →
  let '(h', r) := run (registerMetric root (newPathSpec s) m) h in
  (r = MOk ∨ r = MErr ErrPathInUse) ∧
  (r = MErr ErrPathInUse ↔ p = [] ∨ answer h p ≠ None ∨ ∃ q, properly_below q p ∧ is_metric (answer h q)) ∧
  (r = MErr ErrPathInUse → same_answers h h').
Proof.
  intros h s p m R C A. pose proof (reachable_heap_wf _ R) as W. apply components_valid in C as [<- V].
  pose proof (registerMetric_spec h root [] (newPathSpec s) m V W (root_live h)) as S.
  destruct (run (registerMetric root (newPathSpec s) m) h) as [h' r]. simpl in S. destruct S as (_ & _ & S).
  destruct r as [|[]|]; try (by destruct S as (S & _)); try done.
  - destruct S as (N & _). split; [by left|]. split; [|done]. split; [done|]. intros O. by exfalso; apply N.
  - destruct S as (O & Sm). split; [by right|]. split; [|done]. split; [|done]. intros _. destruct O as [->|O]; [by left|exact O].
Qed.
Example c17_nonvacuous : accepts ex_heap (var "None" "") ∧
  map (λ s, snd (run (registerMetric root (newPathSpec s) (var "None" "")) ex_heap)) ["a"; "a/x"; "a/x/y"; "/"; "a/y"]%string =
  [MErr ErrPathInUse; MErr ErrPathInUse; MErr ErrPathInUse; MErr ErrPathInUse; MOk].
Proof. split; [done|]. vm_compute. reflexivity. Qed.
Print Assumptions c17_path_in_use.

(** C18. The code violates it; what remains true is that no metric appears or disappears and nothing that existed
    changes, and that ErrPathInUse changes no answer. *)
Theorem c18_failed_registration_partial : ∀ h s p m h' r, reachable_heap h → components s p →
  run (registerMetric root (newPathSpec s) m) h = (h', r) → r ≠ MOk →
  (r = MErr ErrPathInUse → same_answers h h') ∧
  (r ≠ MErr ErrPathInUse → h_units h' = h_units h) ∧
  ∀ q, (answer h q ≠ None → answer h' q = answer h q) ∧
       (answer h' q ≠ answer h q → answer h q = None ∧ is_dir (answer h' q) ∧ properly_below q p).
Proof.
  intros h s p m h' r R C E Nr. pose proof (reachable_heap_wf _ R) as W. apply components_valid in C as [<- V].
  pose proof (registerMetric_spec h root [] (newPathSpec s) m V W (root_live h)) as S. rewrite E in S. simpl in S.
  destruct S as (_ & _ & S). set (p := newPathSpec s) in *.
  assert (Main : answer h' p = answer h p → adds_at h h' p → ∀ q, (answer h q ≠ None → answer h' q = answer h q) ∧
       (answer h' q ≠ answer h q → answer h q = None ∧ is_dir (answer h' q) ∧ properly_below q p)).
  { intros Ap Add q. destruct (decide (q = p)) as [->|Nq]; [split; [by intros|intros H; by exfalso]|].
    destruct (Add q Nq) as (A1 & A2 & A3). split; [done|]. intros H. destruct (answer h q) as [n|] eqn:A.
    - exfalso. apply H. by apply A1.
    - split; [done|]. destruct (below_dec q p) as [B|B].
      + split; [by apply A2|]. destruct B as [[|x r0] B]; [by rewrite app_nil_r in B|]. by exists x, r0.
      + exfalso. apply H. by apply A3. }
  destruct r as [|[]|]; try done.
  - destruct S as (_ & Sm). split; [done|]. split; [done|]. intros q. split; [by intros|]. intros H. exfalso. by apply H, Sm.
  - destruct S as (_ & _ & Ap & Add & U & _). split; [done|]. split; [done|]. by apply Main.
  - destruct S as (_ & _ & Ap & Add & U & _). split; [done|]. split; [done|]. by apply Main.
  - destruct S as (_ & _ & Ap & Add & U & _). split; [done|]. split; [done|]. by apply Main.
Qed.
(** A registration rejected with ErrWrongType creates a directory; one rejected with ErrPathInUse assigns the
    distribution's unit, so that a later registration with another unit is refused. *)
Theorem c18_refuted :
  (∃ h s m h', reachable_heap h ∧ run (registerMetric root (newPathSpec s) m) h = (h', MErr ErrWrongType) ∧ ¬ same_answers h h') ∧
  (∃ h s d u desc h', reachable_heap h ∧
     run (registerMetric root (newPathSpec s) (MkInfo (MDist d) 0 u desc)) h = (h', MErr ErrPathInUse) ∧
     h_units h !! d = None ∧ h_units h' !! d = Some u ∧
     ∀ s' u' desc', newPathSpec s' = ["fresh"]%string → u' ≠ u →
       snd (run (registerMetric root (newPathSpec s') (MkInfo (MDist d) 0 u' desc')) h) = MOk ∧
       snd (run (registerMetric root (newPathSpec s') (MkInfo (MDist d) 0 u' desc')) h') = MErr ErrWrongUnit).
Proof.
  split.
  - exists ex_heap, "new/x"%string, (MkInfo (MBadType 0) 0 "None" ""), (fst (run (registerMetric root (newPathSpec "new/x") (MkInfo (MBadType 0) 0 "None" "")) ex_heap)).
    split; [apply ex_heap_reachable|]. split; [by vm_compute|]. intros S. specialize (S ["new"]%string). vm_compute in S. discriminate.
  - exists ex_heap, "a/x"%string, 7, "None"%string, ""%string, (fst (run (registerMetric root (newPathSpec "a/x") (MkInfo (MDist 7) 0 "None" "")) ex_heap)).
    split; [apply ex_heap_reachable|]. split; [by vm_compute|]. split; [by vm_compute|]. split; [by vm_compute|].
    intros s' u' desc' -> N. split; [by vm_compute|].
    set (h' := fst _). assert (U : h_units h' !! 7 = Some "None"%string) by by vm_compute.
    unfold registerMetric. cbn -[h_units]. clearbody h'. rewrite U. cbn. by rewrite bool_decide_eq_false_2.
Qed.
Print Assumptions c18_failed_registration_partial.
Print Assumptions c18_refuted.

(** C19 *)
Theorem c19_register_directory : ∀ h s p, reachable_heap h → components s p →
  let '(h', r) := run (registerDirectory root (newPathSpec s)) h in
  match r with
  | inl d => (∀ q, below q p → ¬ is_metric (answer h q)) ∧ live h' d p ∧ adds_dirs h h' p ∧
             run (registerDirectory root (newPathSpec s)) h' = (h', inl d)
  | inr e => e = ErrPathInUse ∧ h' = h ∧ ∃ q, q ≠ [] ∧ below q p ∧ is_metric (answer h q)
  end.
Proof.
  intros h s p R C. pose proof (reachable_heap_wf _ R) as W. apply components_valid in C as [<- V]. set (p := newPathSpec s) in *.
  pose proof (registerDirectory_spec p V h root [] W (root_live h)) as S.
  destruct (run (registerDirectory root p) h) as [h' r]. destruct S as (W' & _ & _ & S). destruct r as [d|e]; simpl in S.
  - destruct S as [L A]. split_and!; try done.
    + intros q [r B] [e M]. destruct (A q) as (A1 & _). rewrite M in A1. specialize (A1 ltac:(done)).
      unfold live, answer in *. rewrite B, find_app, A1 in L. by destruct r.
    + pose proof (run_registerDirectory_app h' p [] root d L) as E. rewrite app_nil_r in E. rewrite E. done.
  - destruct S as (-> & -> & q & B & M). split_and!; try done. exists q. split; [|done]. intros ->. destruct M as [e M]. discriminate.
Qed.
Example c19_nonvacuous : is_Some (match snd (run (registerDirectory root (newPathSpec "a/b/c")) ex_heap) with inl d => Some d | _ => None end) ∧
  snd (run (registerDirectory root (newPathSpec "a/x/c")) ex_heap) = inr ErrPathInUse.
Proof. vm_compute. split; [eexists; reflexivity|reflexivity]. Qed.
Print Assumptions c19_register_directory.

(** C20 *)
Theorem c20_get_directory : ∀ h s p, reachable_heap h → components s p →
  ∃ r, run (getDirectoryAndError root (newPathSpec s)) h = (h, r) ∧
  (∀ d, r = inl d ↔ answer h p = Some (NDir d)) ∧
  (r = inr ErrNotFound ↔ ∃ q x, below (q ++ [x]) p ∧ is_dir (answer h q) ∧ answer h (q ++ [x]) = None) ∧
  (r = inr ErrPathInUse ↔ ∃ q, below q p ∧ is_metric (answer h q)).
Proof.
  intros h s p R C. apply components_valid in C as [<- V]. set (p := newPathSpec s) in *.
  destruct (run_getDirectoryAndError h p root) as (r & E & H). exists r. split; [done|]. clear V.
  assert (X1 : ∀ d q x, answer h p = Some (NDir d) → below (q ++ [x]) p → answer h (q ++ [x]) ≠ None).
  { intros d q x A [r0 B] N. unfold answer in *. by rewrite B, find_app, N in A. }
  assert (X2 : ∀ d q, answer h p = Some (NDir d) → below q p → ¬ is_metric (answer h q)).
  { intros d q A [r0 B] [e M]. unfold answer in *. rewrite B, find_app, M in A. by destruct r0. }
  assert (X3 : ∀ q x q', below (q ++ [x]) p → is_dir (answer h q) → answer h (q ++ [x]) = None → below q' p → ¬ is_metric (answer h q')).
  { intros q x q' [r1 B1] [d Dq] N [r2 B2] [e M]. unfold answer in *.
    assert (Hc : below q' q ∨ below (q ++ [x]) q').
    { rewrite B1 in B2. rewrite <- app_assoc in B2. clear -B2. revert q' B2. induction q as [|y q IH]; intros [|z q'] B; simpl in *.
      - left. by exists [].
      - right. injection B as <- B. by exists q'.
      - left. by exists (y :: q).
      - injection B as <- B. destruct (IH q' B) as [[r3 ->]|[r3 ->]]; [left; by exists r3|right; by exists r3]. }
    destruct Hc as [[r3 ->]|[r3 ->]].
    - rewrite find_app, M in Dq. by destruct r3.
    - by rewrite find_app, N in M. }
  destruct r as [d|[]]; try done; simpl in H.
  - split_and!.
    + intros d'. change (find h root p) with (answer h p) in H. split; [by intros [= <-]|]. rewrite H. by intros [= <-].
    + split; [done|]. intros (q & x & B & _ & N). by exfalso; eapply X1.
    + split; [done|]. intros (q & B & M). by exfalso; eapply X2.
  - destruct H as (q & x & B & D & N). split_and!.
    + intros d. split; [done|]. intros A. by exfalso; eapply X1.
    + split; [|done]. intros _. by exists q, x.
    + split; [done|]. intros (q' & B' & M). exfalso. exact (X3 q x q' B D N B' M).
  - destruct H as (q & B & M). split_and!.
    + intros d. split; [done|]. intros A. by exfalso; eapply X2.
    + split; [done|]. intros (q' & x & B' & D' & N'). exfalso. exact (X3 q' x q B' D' N' B M).
    + split; [|done]. intros _. by exists q.
Qed.
Example c20_nonvacuous : map (λ s, match snd (run (getDirectoryAndError root (newPathSpec s)) ex_heap) with inl _ => None | inr e => Some e end)
  ["a/b"; "a/x"; "a/x/y"; "a/y/x"]%string = [None; Some ErrPathInUse; Some ErrPathInUse; Some ErrNotFound].
Proof. vm_compute. reflexivity. Qed.
Print Assumptions c20_get_directory.

(** C21 *)
Theorem c21_unregister_path : ∀ h s p, reachable_heap h → components s p →
  let '(h', _) := run (unregisterPath root (newPathSpec s)) h in
  (p = [] → same_answers h h') ∧
  (p ≠ [] → (∀ q, below p q → answer h' q = None) ∧ ∀ q, ¬ below p q → answer h' q = answer h q).
Proof.
  intros h s p R C. pose proof (reachable_heap_wf _ R) as W. apply components_valid in C as [<- V]. set (p := newPathSpec s) in *.
  pose proof (unregisterPath_spec h root [] p W (root_live h)) as S. destruct (run (unregisterPath root p) h) as [h' u].
  destruct S as (_ & _ & _ & S). simpl in S. split.
  - intros E q. rewrite S. rewrite decide_False; [done|]. by intros [].
  - intros N. split; intros q B; rewrite S; [by rewrite decide_True|]. rewrite decide_False; [done|]. by intros [].
Qed.
Example c21_nonvacuous : answer (fst (run (unregisterPath root (newPathSpec "/a/")) ex_heap)) ["a"; "x"]%string = None ∧
  answer ex_heap ["a"; "x"]%string ≠ None.
Proof. split; [vm_compute; reflexivity|]. by vm_compute. Qed.
Print Assumptions c21_unregister_path.

(** C22. [sa] is any spelling of the absolute path of the live directory d. *)
Theorem c22_handle_is_path : ∀ h d a sa s m, reachable_heap h → live h d a → components sa a →
  let s' := String.append sa (String.append "/" s) in
  run (getDirectoryAndError d (newPathSpec s)) h = run (getDirectoryAndError root (newPathSpec s')) h ∧
  run (getDirectoryOrMetric d (newPathSpec s)) h = run (getDirectoryOrMetric root (newPathSpec s')) h ∧
  run (registerDirectory d (newPathSpec s)) h = run (registerDirectory root (newPathSpec s')) h ∧
  (newPathSpec s ≠ [] →
   run (registerMetric d (newPathSpec s) m) h = run (registerMetric root (newPathSpec s') m) h ∧
   run (unregisterPath d (newPathSpec s)) h = run (unregisterPath root (newPathSpec s')) h) ∧
  (a ≠ [] → run (unregisterDirectory d) h = run (unregisterPath root (newPathSpec sa)) h).
Proof.
  intros h d a sa s m R L C s'. pose proof (reachable_heap_wf _ R) as W. apply components_valid in C as [Ea V].
  assert (E : newPathSpec s' = a ++ newPathSpec s) by (unfold s'; rewrite newPathSpec_app; by rewrite Ea). rewrite E.
  split_and!.
  - symmetry. by apply run_getDirectoryAndError_app.
  - rewrite !run_getDirectoryOrMetric. f_equal. symmetry. by apply (live_app h d a).
  - symmetry. by apply run_registerDirectory_app.
  - intros N. split; symmetry; [by apply run_registerMetric_app|by apply run_unregisterPath_app].
  - intros N. rewrite Ea. by apply run_unregisterDirectory.
Qed.
(** With an empty relative path nothing can be registered or removed through the handle. *)
Theorem c22_empty_relative_path : ∀ h d s m, newPathSpec s = [] →
  run (registerMetric d (newPathSpec s) m) h = (h, MErr ErrPathInUse) ∧ run (unregisterPath d (newPathSpec s)) h = (h, tt).
Proof. intros h d s m ->. done. Qed.
Example c22_nonvacuous : ∃ d, live ex_heap d ["a"; "b"]%string ∧ components "/a/b" ["a"; "b"]%string ∧ d ≠ root.
Proof.
  unfold live. destruct (answer ex_heap ["a"; "b"]%string) as [[d|e]|] eqn:A; try (vm_compute in A; discriminate).
  exists d. split; [done|]. split; [apply newPathSpec_iff; by vm_compute|]. intros ->. vm_compute in A. discriminate.
Qed.
Print Assumptions c22_handle_is_path.
Print Assumptions c22_empty_relative_path.

(** C23, first part: removing a directory leaves the handles to it and to everything below it unregistered. *)
Theorem c23_removal : ∀ h d a c r, reachable_heap h → live h d a → a ≠ [] → live h c (a ++ r) →
  dead (fst (run (unregisterDirectory d) h)) c ∧ dead (fst (run (unregisterPath root a) h)) c.
Proof.
  intros h d a c r R L N Lc. pose proof (reachable_heap_wf _ R) as W.
  assert (D : dead (fst (run (unregisterPath root a) h)) c).
  { pose proof (unregisterPath_spec h root [] a W (root_live h)) as S. destruct (run (unregisterPath root a) h) as [h' u].
    destruct S as (W' & E & _ & S). simpl in *. split; [apply (ext_has _ _ _ E); by eapply live_exists|].
    intros b Lb. rewrite S in Lb. destruct (decide _) as [|Nb]; [done|]. apply Nb. split; [done|].
    rewrite (live_unique h c b (a ++ r) W Lb Lc). by exists r. }
  split; [|done]. by rewrite (run_unregisterDirectory h d a W L N).
Qed.
(** C23, second part: an unregistered directory never comes back, whatever any goroutines do. *)
Theorem c23_stays_unregistered : ∀ c l c' d, reachable c → during c l c' → dead (c_heap c) d → dead (c_heap c') d.
Proof. intros c l c' d R D Dd. destruct (during_extd _ _ _ (reachable_inv c R) D) as [_ [_ H]]. by apply H. Qed.
(** ... nor is anything stored in it or below it visible. *)
Theorem c23_contents_invisible : ∀ h d x e q, reachable_heap h → dead h d → contents h d !! x = Some e →
  answer h q ≠ Some (node_of e) ∧ ∀ d', e_obj e = ODir d' → dead h d'.
Proof.
  intros h d x e q R [Hd Dd] C. pose proof (reachable_heap_wf _ R) as W.
  assert (K : ∀ d0 y, contents h d0 !! y = Some e → d0 = d).
  { intros d0 y C0. pose proof (parentDir_container _ _ _ _ W C). pose proof (parentDir_container _ _ _ _ W C0). congruence. }
  assert (V : ∀ q, answer h q ≠ Some (node_of e)).
  { intros q0 A. unfold node_of in A. destruct (e_obj e) as [m|d'] eqn:O.
    - apply find_metric_inv in A as (a & y & d0 & -> & F & C0 & _). rewrite (K d0 y C0) in F. by apply (Dd a).
    - destruct q0 as [|y a _] using rev_ind.
      { injection A as <-. destruct (wf_entry_dir _ W _ _ _ _ C O) as (_ & E & _). rewrite (encl_root h W) in E. done. }
      apply find_dir_inv in A as (d0 & e0 & F & C0 & O0). destruct (wf_entry_dir _ W _ _ _ _ C O) as (_ & E & _).
      destruct (wf_entry_dir _ W _ _ _ _ C0 O0) as (_ & E0 & _). assert (e0 = e) as -> by congruence.
      rewrite (K d0 y C0) in F. by apply (Dd a). }
  split; [done|]. intros d' O. destruct (wf_entry_dir _ W _ _ _ _ C O) as (_ & _ & H'). split; [done|].
  intros a A. apply (V a). unfold node_of. by rewrite O.
Qed.
(** C23, third part: no step of a call made through an unregistered handle changes any answer. *)
Theorem c23_stale_handle_silent : ∀ h T t ca s h' s', reachable (MkConfig h T) → T !! t = Some (MkThread ca s) →
  dead h (call_dir ca) → tstep h s h' s' → same_answers h h'.
Proof.
  intros h T t ca s h' s' R Tt Dd St. pose proof (reachable_conf _ R t _ Tt) as K. simpl in K.
  destruct (conf_tstep (call_dir ca) h s h' s') as [_ S]; [apply (reachable_inv _ R)|done|done|]. by apply S.
Qed.
Print Assumptions c23_removal.
Print Assumptions c23_stays_unregistered.
Print Assumptions c23_contents_invisible.
Print Assumptions c23_stale_handle_silent.

(** C24 *)
Theorem c24_abs_path : ∀ h p e, reachable_heap h → answer h p = Some (NMetric e) →
  components (absPath e) p ∧ run (getDirectoryOrMetric root (newPathSpec (absPath e))) h = (h, Some (NMetric e)) ∧
  ∃ s, absPath e = String.append "/" s.
Proof.
  intros h p e R A. pose proof (reachable_heap_wf _ R) as W. pose proof (find_components _ _ _ _ W A) as V.
  pose proof (metric_path h p e W A) as N. rewrite absPath_names, N.
  assert (E : newPathSpec (String.append "/" (join p)) = p) by exact (eq_trans (newPathSpec_slash (join p)) (newPathSpec_join p V)).
  split; [by apply newPathSpec_iff|]. split; [|by eexists]. rewrite E, run_getDirectoryOrMetric. f_equal. exact A.
Qed.
Theorem c24_unique : ∀ h p1 e1 p2 e2, reachable_heap h → answer h p1 = Some (NMetric e1) → answer h p2 = Some (NMetric e2) →
  absPath e1 = absPath e2 → e1 = e2.
Proof.
  intros h p1 e1 p2 e2 R A1 A2 E. destruct (c24_abs_path h p1 e1 R A1) as (_ & L1 & _).
  destruct (c24_abs_path h p2 e2 R A2) as (_ & L2 & _). rewrite E in L1. rewrite L1 in L2. by injection L2.
Qed.
Theorem c24_directories : ∀ h d a, reachable_heap h → live h d a → components (dirAbsPath h d) a ∧ dirAbsPath h root = "/"%string.
Proof.
  intros h d a R L. pose proof (reachable_heap_wf _ R) as W. pose proof (find_components _ _ _ _ W L) as V. split.
  - apply newPathSpec_iff. unfold dirAbsPath. pose proof (live_path h a W d L) as P. unfold dpath in P.
    destruct (encl h d) as [e|]; [|by rewrite <- P]. rewrite absPath_names, P. exact (eq_trans (newPathSpec_slash (join a)) (newPathSpec_join a V)).
  - unfold dirAbsPath. by rewrite (encl_root h W).
Qed.
Example c24_nonvacuous : ∃ e, answer ex_heap ["a"; "x"]%string = Some (NMetric e) ∧ absPath e = "/a/x"%string.
Proof.
  destruct (answer ex_heap ["a"; "x"]%string) as [[d|e]|] eqn:A; try (vm_compute in A; discriminate).
  exists e. split; [done|]. vm_compute in A. injection A as <-. by vm_compute.
Qed.
Print Assumptions c24_abs_path.
Print Assumptions c24_unique.
Print Assumptions c24_directories.
