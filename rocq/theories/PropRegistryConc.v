(** Property theorems C25-C29, C57, C58: the registry under every interleaving of concurrent calls. *)
From stdpp Require Import gmap strings sorting.
From Verif Require Import PathModel PathSpec PathProofs RegistryModel RegistrySpec RegistryProofs RegistryConc RegistryConcProofs RegistryList RegistryRace RegistryStale RegistryWitness PropRegistry.

Lemma init_reachable : reachable init_config.
Proof. exists [init_config]. constructor. Qed.
Lemma during_reachable c l c' : reachable c → during c l c' → reachable c'.
Proof. intros R D. exact (reachable_during _ _ _ R D). Qed.

(** C25 *)
Theorem c25_well_formed : ∀ c, reachable c → wf (c_heap c).
Proof. intros c R. exact (reachable_wf _ (ex_intro _ c (conj R eq_refl))). Qed.
(** A consequence: a directory or metric is found at one path only. *)
Theorem c25_one_path : ∀ c a b n, reachable c → answer (c_heap c) a = Some n → answer (c_heap c) b = Some n → a = b.
Proof.
  intros c a b n R A B. pose proof (c25_well_formed c R) as W. destruct n as [d|e].
  - exact (live_unique _ d a b W A B).
  - rewrite <- (metric_path _ a e W A). exact (metric_path _ b e W B).
Qed.
(** Two registrations and a removal interleaved: both report success, but the directory the first created is gone. *)
Definition c25_run : list instr :=
  [Start 1 (CRegMetric root "a/x" (var "None" "1")); Start 2 (CRegMetric root "a/x" (var "None" "2"));
   Start 3 (CUnregPath root "a"); Go 1 1; Go 3 2; Go 2 3; Go 1 2].
Definition c25_test (c : config) (l : list config) (c' : config) : bool :=
  match reg_result 1 c', reg_result 2 c', answer (c_heap c') ["a"; "x"]%string with
  | Some (_, _, MOk), Some (_, _, MOk), Some (NMetric e) => match e_obj e with OMetric m => String.eqb (mi_desc m) "2" | _ => false end
  | _, _, _ => false
  end.
Example c25_nonvacuous : ∃ c s1 s2 m1 m2 e m, reachable c ∧
  c_pool c !! 1 = Some (MkThread (CRegMetric root s1 m1) (TDone (RMetric MOk))) ∧
  c_pool c !! 2 = Some (MkThread (CRegMetric root s2 m2) (TDone (RMetric MOk))) ∧
  answer (c_heap c) ["a"; "x"]%string = Some (NMetric e) ∧ e_obj e = OMetric m ∧ mi_desc m = "2"%string.
Proof.
  destruct (scenario_sound [] c25_run c25_test) as (c0 & l & c & R & D & T); [vm_compute; reflexivity|].
  unfold c25_test in T. destruct (reg_result 1 c) as [[[s1 m1] []]|] eqn:E1; try done. destruct (reg_result 2 c) as [[[s2 m2] []]|] eqn:E2; try done.
  apply reg_result_spec in E1, E2. destruct (answer (c_heap c) _) as [[|e]|] eqn:A; try done. destruct (e_obj e) as [m|] eqn:O; try done.
  apply String.eqb_eq in T. exists c, s1, s2, m1, m2, e, m. split; [by eapply during_reachable|]. done.
Qed.
Print Assumptions c25_well_formed.
Print Assumptions c25_one_path.

(** C26. Threads t1 and t2 register metrics at the absolute path P through any handles that are registered at the end,
    with any spelling of the path.  If no step of the execution removes P or a directory on the way to P, they do not
    both succeed, and a winner's metric is the one visible at P. *)
Lemma succeeded_registers c c' P t m : succeeded c c' P t m → registers c c' P t m.
Proof. intros (N & d & s & a & r & T & L & C & E). split; [done|]. exists d, s, a. apply newPathSpec_iff in C as <-. done. Qed.
Theorem c26_one_winner : ∀ c l c' P t1 t2 m1 m2, reachable c → during c l c' → consecutive (keeps P) l →
  succeeded c c' P t1 m1 → succeeded c c' P t2 m2 → t1 = t2.
Proof.
  intros c l c' P t1 t2 m1 m2 R D K S1 S2. destruct (decide (t1 = t2)) as [|N]; [done|]. exfalso.
  apply succeeded_registers in S1, S2. exact (race_one c c' l D (reachable_inv c R) P K t1 t2 m1 m2 N S1 S2).
Qed.
Theorem c26_winner_visible : ∀ c l c' P t m, reachable c → during c l c' → consecutive (keeps P) l →
  succeeded c c' P t m → ∃ e, answer (c_heap c') P = Some (NMetric e) ∧ e_obj e = OMetric m.
Proof. intros c l c' P t m R D K S. apply succeeded_registers in S. exact (race_winner c c' l D (reachable_inv c R) P K t m S). Qed.
(** In particular if nobody calls an unregister function at all. *)
Theorem c26_no_unregister : ∀ c l c' P, reachable c → during c l c' →
  (∀ t th, c_pool c' !! t = Some th → ¬ unregisters (t_call th)) → consecutive (keeps P) l.
Proof. exact no_unregister_keeps. Qed.
Definition c26_run : list instr :=
  [Start 1 (CRegMetric root "a/x" (var "None" "1")); Start 2 (CRegMetric root "/a//x" (var "None" "2"));
   Go 1 1; Go 2 1; Go 2 2; Go 1 2].
Definition c26_test (c : config) (l : list config) (c' : config) : bool :=
  idle 1 c && idle 2 c &&
  match reg_result 1 c', reg_result 2 c' with
  | Some (s1, _, MErr ErrPathInUse), Some (s2, _, MOk) => String.eqb s1 "a/x" && String.eqb s2 "/a//x"
  | _, _ => false
  end.
Example c26_nonvacuous : ∃ l c' m, during init_config l c' ∧ consecutive (keeps ["a"; "x"]%string) l ∧
  succeeded init_config c' ["a"; "x"]%string 2 m ∧
  ∃ m', c_pool c' !! 1 = Some (MkThread (CRegMetric root "a/x" m') (TDone (RMetric (MErr ErrPathInUse)))).
Proof.
  assert (T : match exec c26_run init_config with Some (l, c') => c26_test init_config l c' | None => false end = true) by (vm_compute; reflexivity).
  destruct (exec c26_run init_config) as [[l c]|] eqn:E; [|done]. pose proof (exec_sound _ _ _ _ E) as D.
  unfold c26_test in T. apply andb_true_iff in T as [_ T].
  destruct (reg_result 1 c) as [[[s1 m1] [|[]|]]|] eqn:E1; try done. destruct (reg_result 2 c) as [[[s2 m2] []]|] eqn:E2; try done.
  apply reg_result_spec in E1, E2. apply andb_true_iff in T as [->%String.eqb_eq ->%String.eqb_eq].
  exists l, c, m2. split; [done|]. split; [|split; [|by exists m1]].
  - apply (c26_no_unregister init_config l c); [apply init_reachable|done|].
    intros t th P. destruct (exec_calls _ _ _ _ E t th P) as [M|M]; [|simpl in M; by rewrite lookup_empty in M].
    intros U. repeat (apply elem_of_cons in M as [M|M]; [by rewrite M in U|]). by apply elem_of_nil in M.
  - split; [done|]. exists root, "/a//x"%string, [], ["a"; "x"]%string. split; [done|]. split; [done|]. split; [|done].
    apply newPathSpec_iff. by vm_compute.
Qed.
Print Assumptions c26_one_winner.
Print Assumptions c26_winner_visible.
Print Assumptions c26_no_unregister.

(** C27. [listed c l c' t s out]: thread t makes the call GetAllMetricsByPath(s), begun after c, ended before c', with
    result out; l are all the configurations in between. *)
Theorem c27_exact : ∀ c l c' t s p out h, reachable c → listed c l c' t s out → components s p →
  (∀ x, x ∈ l → c_heap x = h) →
  (∀ e, e ∈ out ↔ ∃ q, below p q ∧ answer h q = Some (NMetric e)) ∧ StronglySorted ilt (map names out).
Proof.
  intros c l c' t s p out h R (D & N & Dn) C Hh. apply newPathSpec_iff in C as <-. pose proof (reachable_inv c R) as I.
  assert (W : wf h). { rewrite <- (Hh c (during_first _ _ _ D)). apply I. }
  split; [|by eapply listing_order]. intros e. split.
  - intros He. exists (names e). split.
    + pose proof (listing_sound _ _ _ _ _ _ _ D I N Dn) as F. destruct (proj1 (Forall_forall _ _) F e He) as [_ B].
      rewrite (live_path (c_heap c') []) in B; [done| |done].
      rewrite (Hh c' (during_last _ _ _ D)). done.
    + pose proof (listing_quiescent _ _ _ _ _ h _ D I N Dn Hh) as F. exact (proj1 (Forall_forall _ _) F e He).
  - intros (q & B & A). eapply (listing_complete c c' l D I q e); [|done|done|done]. intros x Hx. by rewrite (Hh x Hx).
Qed.
(** Hence the output depends only on the registry, not on the map iteration order or on the schedule. *)
Lemma sorted_unmap {A B} (R : B → B → Prop) (f : A → B) l : StronglySorted R (map f l) → StronglySorted (λ x y, R (f x) (f y)) l.
Proof.
  induction l as [|x l IH]; simpl; intros S; [constructor|]. inversion S as [|? ? S1 F]; subst. constructor; [by apply IH|].
  apply Forall_forall. intros y Hy. apply (proj1 (Forall_forall _ _) F). apply elem_of_list_fmap. by exists y.
Qed.
Lemma sorted_same (l1 l2 : list entry) : StronglySorted ilt (map names l1) → StronglySorted ilt (map names l2) →
  (∀ e, e ∈ l1 ↔ e ∈ l2) → l1 = l2.
Proof.
  intros S1 S2 H. apply sorted_unmap in S1, S2. set (R := λ x y : entry, ilt (names x) (names y)) in *.
  assert (ND : ∀ l, StronglySorted R l → NoDup l).
  { induction 1 as [|x l S IH F]; constructor; [|done]. intros Hx. apply (ilt_irrefl (names x)). exact (proj1 (Forall_forall _ _) F x Hx). }
  assert (AntiSymm (=) R) by (intros x y A B; exfalso; exact (ilt_irrefl _ (ilt_trans _ _ _ A B))).
  apply (StronglySorted_unique R); [done|done|]. apply NoDup_Permutation; [by apply ND|by apply ND|done].
Qed.
Theorem c27_deterministic : ∀ c1 l1 c1' t1 s1 out1 c2 l2 c2' t2 s2 out2 h p, reachable c1 → reachable c2 →
  listed c1 l1 c1' t1 s1 out1 → listed c2 l2 c2' t2 s2 out2 → components s1 p → components s2 p →
  (∀ x, x ∈ l1 → c_heap x = h) → (∀ x, x ∈ l2 → c_heap x = h) → out1 = out2.
Proof.
  intros c1 l1 c1' t1 s1 out1 c2 l2 c2' t2 s2 out2 h p R1 R2 L1 L2 C1 C2 H1 H2.
  destruct (c27_exact _ _ _ _ _ _ _ _ R1 L1 C1 H1) as [E1 S1]. destruct (c27_exact _ _ _ _ _ _ _ _ R2 L2 C2 H2) as [E2 S2].
  apply sorted_same; [done|done|]. intros e. by rewrite E1, E2.
Qed.
Theorem c27_missing_path : ∀ c l c' t s p out h, reachable c → listed c l c' t s out → components s p →
  (∀ x, x ∈ l → c_heap x = h) → answer h p = None → out = [].
Proof.
  intros c l c' t s p out h R L C H N. destruct (c27_exact _ _ _ _ _ _ _ _ R L C H) as [E _].
  destruct out as [|e out]; [done|]. exfalso. destruct (proj1 (E e) ltac:(constructor)) as (q & [r ->] & A).
  unfold answer in *. by rewrite find_app, N in A.
Qed.
Definition c27_setup : list instr :=
  [Start 1 (CRegMetric root "a/y" (var "None" "")); Go 1 3; Start 2 (CRegMetric root "b" (var "None" "")); Go 2 2;
   Start 3 (CRegMetric root "a/x" (var "None" "")); Go 3 3].
Definition c27_test (c : config) (l : list config) (c' : config) : bool :=
  idle 9 c &&
  match list_result 9 c' with
  | Some (s, [e1; e2; e3]) => String.eqb s "/" && String.eqb (absPath e1) "/a/x" && String.eqb (absPath e2) "/a/y" && String.eqb (absPath e3) "/b"
  | _ => false
  end.
Example c27_nonvacuous : ∃ c l c' out, reachable c ∧ listed c l c' 9 "/" out ∧ map absPath out = ["/a/x"; "/a/y"; "/b"]%string.
Proof.
  destruct (scenario_sound c27_setup [Start 9 (CList root "/"); Go 9 7] c27_test) as (c & l & c' & R & D & T); [vm_compute; reflexivity|].
  exists c, l, c'. unfold c27_test in T. apply andb_true_iff in T as [T1 T2]. apply idle_spec in T1.
  destruct (list_result 9 c') as [[s [|e1 [|e2 [|e3 [|]]]]]|] eqn:L; try done. apply list_result_spec in L.
  apply andb_true_iff in T2 as [T2 E3%String.eqb_eq]. apply andb_true_iff in T2 as [T2 E2%String.eqb_eq].
  apply andb_true_iff in T2 as [->%String.eqb_eq E1%String.eqb_eq].
  exists [e1; e2; e3]. split; [done|]. split; [done|]. simpl. congruence.
Qed.
Print Assumptions c27_exact.
Print Assumptions c27_deterministic.
Print Assumptions c27_missing_path.

(** C28. What holds of every listing, whatever happens concurrently. *)
Theorem c28_complete : ∀ c l c' t s p out q e, reachable c → listed c l c' t s out → components s p → below p q →
  (∀ x, x ∈ l → answer (c_heap x) q = Some (NMetric e)) → e ∈ out.
Proof.
  intros c l c' t s p out q e R (D & N & Dn) C B A. apply newPathSpec_iff in C as <-.
  exact (listing_complete c c' l D (reachable_inv c R) q e A t s out N Dn B).
Qed.
Theorem c28_no_path_twice : ∀ c l c' t s out, reachable c → listed c l c' t s out →
  StronglySorted ilt (map names out) ∧ NoDup (map names out).
Proof.
  intros c l c' t s out R (D & N & Dn). assert (S : StronglySorted ilt (map names out)) by (eapply listing_order; [exact D|by apply reachable_inv|done|done]).
  split; [done|]. induction S as [|x r S IH F]; constructor; [|done]. intros Hx. apply (ilt_irrefl x). exact (proj1 (Forall_forall _ _) F x Hx).
Qed.
(** Soundness, as far as it holds: a reported metric is below the requested path and was in the directory it was
    registered in at some instant of the call; if that directory is still registered when the call ends, the metric was
    registered at the reported path at some instant of the call. *)
Theorem c28_sound_partial : ∀ c l c' t s p out e, reachable c → listed c l c' t s out → components s p → e ∈ out →
  below p (names e) ∧
  (∃ x d n m, x ∈ l ∧ contents (c_heap x) d !! n = Some e ∧ e_obj e = OMetric m) ∧
  ∃ d, parentDir e = Some d ∧
    ((∃ a, live (c_heap c') d a) → ∃ x, x ∈ l ∧ answer (c_heap x) (names e) = Some (NMetric e)).
Proof.
  intros c l c' t s p out e R (D & N & Dn) C He. apply newPathSpec_iff in C as <-. pose proof (reachable_inv c R) as I.
  pose proof (listing_sound _ _ _ _ _ _ _ D I N Dn) as F. destruct (proj1 (Forall_forall _ _) F e He) as [S B].
  assert (W' : wf (c_heap c')) by (apply c25_well_formed; by eapply during_reachable).
  rewrite (live_path (c_heap c') []) in B; [|done|done]. split; [done|]. split; [exact S|].
  destruct (seen_registered l e c c' D I S) as (a & d & Na & Pd & Hl). exists d. split; [done|]. intros [b Lb]. apply Hl.
  assert (b = a) as <-; [|done]. destruct S as (x & d1 & n & m & Hx & Cx & O).
  destruct (mem_heap_props _ _ _ (c_heap x) D I ltac:(by exists x)) as [Wx Ex].
  pose proof (parentDir_container _ _ _ _ Wx Cx) as P1. assert (d1 = d) as -> by congruence.
  rewrite <- (live_path _ b W' d Lb), (dpath_ext _ _ d Ex (contents_has _ _ _ _ Cx)).
  pose proof (entry_names _ _ _ _ Wx Cx) as Ne. rewrite Na in Ne. by apply app_inj_tail in Ne as [-> _].
Qed.
(** The code violates plain soundness: the listing reads the root, then another goroutine unregisters /a and after that
    registers x through its (now stale) handle of /a.  The listing reports /a/x, which never existed. *)
Definition stale_setup : list instr := [Start 1 (CRegDir root "a"); Go 1 2].
Definition stale_run (d : nat) : list instr :=
  [Start 9 (CList root ""); Go 9 2; Start 2 (CUnregPath root "a"); Go 2 2;
   Start 3 (CRegMetric d "x" (var "None" "")); Go 3 2; Go 9 3].
Definition stale_dir : nat := match exec stale_setup init_config with
  | Some (_, c) => match answer (c_heap c) ["a"]%string with Some (NDir d) => d | _ => 0 end | None => 0 end.
Definition missing (n : option node) : bool := match n with None => true | Some _ => false end.
Lemma missing_spec n : missing n = true → n = None.
Proof. by destruct n. Qed.
Lemma forallb_elem {A} (f : A → bool) l : forallb f l = true → ∀ x, x ∈ l → f x = true.
Proof. intros F x Hx. apply elem_of_list_In in Hx. by eapply forallb_forall in F. Qed.
Definition c28_test (c : config) (l : list config) (c' : config) : bool :=
  idle 9 c &&
  match list_result 9 c' with
  | Some (s, [e]) => String.eqb (absPath e) "/a/x" && forallb (λ x, missing (answer (c_heap x) (names e))) l
  | _ => false
  end.
Theorem c28_refuted : ∃ c l c' t s out e, reachable c ∧ listed c l c' t s out ∧ e ∈ out ∧
  absPath e = "/a/x"%string ∧ ∀ x, x ∈ l → answer (c_heap x) (names e) = None.
Proof.
  destruct (scenario_sound stale_setup (stale_run stale_dir) c28_test) as (c & l & c' & R & D & T); [vm_compute; reflexivity|].
  unfold c28_test in T. apply andb_true_iff in T as [T1 T2]. apply idle_spec in T1.
  destruct (list_result 9 c') as [[s [|e [|]]]|] eqn:L; try done. apply list_result_spec in L.
  apply andb_true_iff in T2 as [E%String.eqb_eq M]. exists c, l, c', 9, s, [e], e. split; [done|]. split; [done|].
  split; [constructor|]. split; [done|]. intros x Hx. apply missing_spec. exact (forallb_elem _ _ M x Hx).
Qed.
Print Assumptions c28_complete.
Print Assumptions c28_no_path_twice.
Print Assumptions c28_sound_partial.
Print Assumptions c28_refuted.

(** C29. The code violates it: the listing sees /b/y without /a/x although /a/x was registered first and stays. *)
Definition snap_setup : list instr := [Start 1 (CRegDir root "a"); Go 1 2; Start 2 (CRegDir root "b"); Go 2 2].
Definition snap_run : list instr :=
  [Start 9 (CList root ""); Go 9 3; Start 3 (CRegMetric root "a/x" (var "None" "")); Go 3 3;
   Start 4 (CRegMetric root "b/y" (var "None" "")); Go 4 3; Go 9 3].
Definition metricb (n : option node) : bool := match n with Some (NMetric _) => true | _ => false end.
Lemma metricb_spec n : metricb n = true → is_metric n.
Proof. destruct n as [[|e]|]; try done. by exists e. Qed.
Definition strs_eqb (a b : list string) : bool := bool_decide (a = b).
Definition c29_test (c : config) (l : list config) (c' : config) : bool :=
  idle 9 c &&
  match list_result 9 c' with
  | Some (s, [e]) => String.eqb s "" && strs_eqb (names e) ["b"; "y"]%string &&
      forallb (λ x, missing (answer (c_heap x) ["b"; "y"]%string) || metricb (answer (c_heap x) ["a"; "x"]%string)) l
  | _ => false
  end.
Theorem c29_refuted : ∃ c l c' t out, reachable c ∧ listed c l c' t "" out ∧
  ∀ x, x ∈ l → ¬ (∀ q, In q (map names out) ↔ is_metric (answer (c_heap x) q)).
Proof.
  destruct (scenario_sound snap_setup snap_run c29_test) as (c & l & c' & R & D & T); [vm_compute; reflexivity|].
  unfold c29_test in T. apply andb_true_iff in T as [T1 T2]. apply idle_spec in T1.
  destruct (list_result 9 c') as [[s [|e [|]]]|] eqn:L; try done. apply list_result_spec in L.
  apply andb_true_iff in T2 as [T2 M]. apply andb_true_iff in T2 as [->%String.eqb_eq N%bool_decide_eq_true].
  exists c, l, c', 9, [e]. split; [done|]. split; [done|]. intros x Hx H. simpl in H. rewrite N in H.
  pose proof (forallb_elem _ _ M x Hx) as X. apply orb_true_iff in X as [Y%missing_spec|Y%metricb_spec].
  - destruct (proj1 (H ["b"; "y"]%string)) as [e' M']; [by left|]. congruence.
  - apply (proj2 (H _)) in Y as [Y|[]]. discriminate.
Qed.
(** What remains: while nobody unregisters, the listing lies between the metrics registered when the call begins and
    those registered when it ends (in general see C28). *)
Theorem c29_between_partial : ∀ c l c' t s p out, reachable c → listed c l c' t s out → components s p →
  (∀ t th, c_pool c' !! t = Some th → ¬ unregisters (t_call th)) →
  (∀ q e, below p q → answer (c_heap c) q = Some (NMetric e) → e ∈ out) ∧
  (∀ e, e ∈ out → below p (names e) ∧ answer (c_heap c') (names e) = Some (NMetric e)).
Proof.
  intros c l c' t s p out R L C U. pose proof L as (D & N & Dn). pose proof (reachable_inv c R) as I. split.
  - intros q e B A. eapply (c28_complete c l c'); [done|exact L|exact C|exact B|].
    intros x Hx. destruct (during_split _ _ _ _ D Hx) as (l1 & l2 & D1 & D2 & _).
    assert (Ux : ∀ t th, c_pool x !! t = Some th → ¬ unregisters (t_call th)).
    { intros t0 th E1. assert (Lx : t_call <$> c_pool c' !! t0 = Some (t_call th)) by (eapply (pool_last c c' l D x); [done|by rewrite E1]).
      destruct (c_pool c' !! t0) as [th'|] eqn:E2; [|done]. simpl in Lx. injection Lx as <-. by eapply U. }
    pose proof (c26_no_unregister c l1 x q R D1 Ux) as K. rewrite <- A.
    apply (during_keeps q _ _ _ D1 K c (during_first _ _ _ D1)); [by exists []; rewrite app_nil_r|congruence].
  - intros e He. split; [by eapply c28_sound_partial|].
    pose proof (listing_mono t s l c c' out D I N (during_mono _ _ _ I (reachable_norem c R) D U) Dn) as F.
    exact (proj1 (Forall_forall _ _) F e He).
Qed.
Print Assumptions c29_between_partial.
Print Assumptions c29_refuted.

(** C57. A metric registered through the handle of an unregistered directory: no lookup finds it (C23), and no listing
    that starts after the directory was unregistered reports it.  A listing already running may (c28_refuted). *)
Theorem c57_not_reported_partial : ∀ c l c' t s out e d, reachable c → listed c l c' t s out → e ∈ out →
  parentDir e = Some d → ¬ dead (c_heap c) d.
Proof. intros c l c' t s out e d R (D & N & Dn) He P. exact (listing_stale c c' l D (reachable_inv c R) t s out N Dn e d He P). Qed.
(** ... and does: this call begins when the directory is already unregistered. *)
Definition stale_setup2 : list instr := stale_setup ++ [Start 9 (CList root ""); Go 9 2; Start 2 (CUnregPath root "a"); Go 2 2].
Definition stale_run2 (d : nat) : list instr := [Start 3 (CRegMetric d "x" (var "None" "")); Go 3 2; Go 9 3].
Definition c57_test (c : config) (l : list config) (c' : config) : bool :=
  idle 3 c && missing (answer (c_heap c) ["a"]%string) && match encl (c_heap c) stale_dir with Some e => strs_eqb (names e) ["a"]%string | None => false end &&
  match c_pool c' !! 3 with Some (MkThread (CRegMetric d s m) (TDone (RMetric MOk))) => bool_decide (d = stale_dir) && String.eqb (mi_desc m) "" | _ => false end &&
  match list_result 9 c' with Some (s, [e]) => match parentDir e with Some d => bool_decide (d = stale_dir) | None => false end | _ => false end.
Theorem c57_refuted : ∃ c l c' t d s m t' s' out e, reachable c ∧ during c l c' ∧ dead (c_heap c) d ∧
  c_pool c !! t = None ∧ c_pool c' !! t = Some (MkThread (CRegMetric d s m) (TDone (RMetric MOk))) ∧
  c_pool c' !! t' = Some (MkThread (CList root s') (TDone (RList out))) ∧ e ∈ out ∧ parentDir e = Some d.
Proof.
  destruct (scenario_sound stale_setup2 (stale_run2 stale_dir) c57_test) as (c & l & c' & R & D & T); [vm_compute; reflexivity|].
  unfold c57_test in T. apply andb_true_iff in T as [T T5]. apply andb_true_iff in T as [T T4]. apply andb_true_iff in T as [T T3].
  apply andb_true_iff in T as [T1%idle_spec T2%missing_spec].
  destruct (encl (c_heap c) stale_dir) as [e0|] eqn:E0; [|done]. apply bool_decide_eq_true in T3.
  destruct (c_pool c' !! 3) as [[[d s m| | | | | |] [p|w o|r]]|] eqn:P3; try done. destruct r as [[]| | | |]; try done.
  apply andb_true_iff in T4 as [->%bool_decide_eq_true _].
  destruct (list_result 9 c') as [[s' [|e [|]]]|] eqn:L; try done. apply list_result_spec in L.
  destruct (parentDir e) as [d|] eqn:Pe; [|done]. apply bool_decide_eq_true in T5 as ->.
  pose proof (c25_well_formed c R) as W.
  exists c, l, c', 3, stale_dir, s, m, 9, s', [e], e. split; [done|]. split; [done|]. split; [|repeat split; try done; constructor].
  split.
  - unfold has. unfold encl in E0. by destruct (h_dirs (c_heap c) !! stale_dir).
  - intros a A. pose proof (live_path _ a W _ A) as Pa. unfold dpath in Pa. rewrite E0, T3 in Pa. subst a. congruence.
Qed.
Print Assumptions c57_not_reported_partial.
Print Assumptions c57_refuted.

(** C58. No call ever blocks: a call that is left alone finishes, in any state of the other calls. *)
Theorem c58_calls_finish : ∀ c t ca s, reachable c → c_pool c !! t = Some (MkThread ca s) →
  ∃ l c' r, during c l c' ∧ c_pool c' !! t = Some (MkThread ca (TDone r)) ∧ ∀ t', t' ≠ t → c_pool c' !! t' = c_pool c !! t'.
Proof. intros c t ca s R. apply call_finishes. by apply reachable_inv. Qed.
Theorem c58_no_infinite_call : ∀ c t ca s, reachable c → c_pool c !! t = Some (MkThread ca s) →
  Acc (λ x y, tstep (fst y) (snd y) (fst x) (snd x)) (c_heap c, s).
Proof.
  intros c t ca s R P. pose proof (reachable_inv c R) as I. apply (acc_thread (c_heap c) s); [apply I|].
  exact (ci_threads _ I _ _ P).
Qed.
Print Assumptions c58_calls_finish.
Print Assumptions c58_no_infinite_call.
