(** Proofs about the default metrics and the metrics of flags. *)
From Verif Require Import GoBase GoVal UnitsModel DurationModel TypesModel FloatBase MessagesModel.
From stdpp Require Import gmap strings.
From Verif Require Import DurationProofs ReflectModel ListModel ValueModel.
From Verif Require Import PathModel PathSpec PathProofs RegistryModel RegistrySpec RegistryProofs RegistryConc RegistryConcProofs PropRegistry HttpModel HttpSpec HttpProofs SetupModel SetupSpec.
Local Open Scope string_scope.
Local Open Scope list_scope.

(** ** Many registrations *)
Definition regs (l : list (list string * minfo)) (h : heap) : heap := foldl (λ h x, fst (RegistryModel.run (registerMetric root x.1 x.2) h)) h l.
Definition variable (m : minfo) : Prop := ∃ v, mi_spec m = MVar v.
Definition fits (h : heap) (x : list string * minfo) : Prop := Forall valid_component x.1 ∧ ¬ obstructed h x.1 ∧ variable x.2.
Definition added (h h' : heap) (l : list (list string * minfo)) : Prop :=
  (∀ x, x ∈ l → ∃ e, answer h' x.1 = Some (NMetric e) ∧ e_obj e = OMetric x.2) ∧
  (∀ q, answer h q ≠ None → answer h' q = answer h q) ∧
  (∀ q x, x ∈ l → properly_below q x.1 → is_dir (answer h' q)) ∧
  (∀ q, answer h q = None → (∀ x, x ∈ l → ¬ below q x.1) → answer h' q = None).

Lemma below_properly q p : below q p → q = p ∨ properly_below q p.
Proof. intros [[|x r] ->]; [left; by rewrite app_nil_r|right; by exists x, r]. Qed.
Lemma register_one h x : wf h → fits h x →
  let h' := fst (RegistryModel.run (registerMetric root x.1 x.2) h) in
  snd (RegistryModel.run (registerMetric root x.1 x.2) h) = MOk ∧ wf h' ∧ adds_at h h' x.1 ∧ ∃ e, answer h' x.1 = Some (NMetric e) ∧ e_obj e = OMetric x.2.
Proof.
  intros Wf (V & O & v & Sv). pose proof (registerMetric_spec h root [] x.1 x.2 V Wf (root_live h)) as S.
  destruct (RegistryModel.run _ h) as [h' r]. destruct S as (W' & _ & S). simpl in *.
  assert (accepts h x.2) as A by (unfold accepts; by rewrite Sv).
  destruct r as [|[]|]; try (destruct S as [[]]; done); try done.
  - by destruct S as (_ & _ & _ & S & E).
  - destruct S as [[E|E] _]; [|done]. exfalso. apply O. by left.
Qed.
Lemma fits_next h h' p y : answer h p = None → adds_at h h' p → (∃ e, answer h' p = Some (NMetric e)) → ¬ below p y.1 → ¬ below y.1 p → fits h y → fits h' y.
Proof.
  intros N A M B1 B2 (V & O & Vr). split; [done|]. split; [|done]. intros [E|[E|(q & Q & [e Me])]].
  - apply O. by left.
  - destruct (A y.1) as (A1 & A2 & A3); [intros Ey; apply B1; rewrite Ey; apply below_refl|]. destruct (answer h y.1) as [n|] eqn:Ey.
    + apply O. right. left. congruence.
    + apply E. by apply A3.
  - destruct (decide (q = p)) as [->|Nq]; [apply B1; destruct Q as (z & r & ->); by eexists|]. destruct (A q Nq) as (A1 & A2 & A3).
    destruct (answer h q) as [n|] eqn:Eq; [apply O; right; right; exists q; split; [done|]; exists e; rewrite <- Me, A1; done|].
    destruct (decide (below q p)) as [B|B]; [destruct (A2 eq_refl B) as [d D]; congruence|rewrite A3 in Me; done].
Qed.
Lemma regs_spec l : ∀ h, wf h → Forall (fits h) l → separate (map fst l) → wf (regs l h) ∧ added h (regs l h) l.
Proof.
  induction l as [|x l IH]; intros h Wf F S; simpl.
  { split; [done|]. split_and!; [by intros x X%elem_of_nil|done|by intros q x X%elem_of_nil|done]. }
  inversion F as [|? ? Fx Fl]; subst. destruct S as [Sx Sl]. destruct (register_one h x Wf Fx) as (_ & W1 & A & e & E & Oe). set (h1 := fst (RegistryModel.run _ h)) in *.
  assert (answer h x.1 = None) as N by (destruct Fx as (_ & O & _); destruct (answer h x.1) eqn:Eq; [exfalso; apply O; right; left; congruence|done]).
  assert (Forall (fits h1) l) as F1.
  { pose proof (proj1 (Forall_forall _ _) Sx) as Sx'. pose proof (proj1 (Forall_forall _ _) Fl) as Fl'. apply Forall_forall. intros y Y. destruct (Sx' y.1) as [B1 B2]; [by apply elem_of_list_fmap_1|]. eapply fits_next; eauto. }
  destruct (IH h1 W1 F1 Sl) as (W2 & P1 & P2 & P3 & P4). change (foldl _ h1 l) with (regs l h1). split; [done|]. split_and!.
  - intros y [->|Y]%elem_of_cons; [|by apply P1]. exists e. split; [|done]. rewrite P2; [done|]. by rewrite E.
  - intros q Q. destruct (A q) as (A1 & _); [intros ->; done|]. rewrite P2; [by apply A1|]. by rewrite A1.
  - intros q y [->|Y]%elem_of_cons B; [|by eapply P3].
    assert (q ≠ x.1) as Nq. { destruct B as (z & r & ->). intros B. rewrite <- (app_nil_r q) in B at 1. by apply app_inv_head in B. }
    assert (is_dir (answer h1 q)) as [d D].
    { destruct (A q Nq) as (A1 & A2 & A3). destruct (answer h q) as [[d|e']|] eqn:Eq.
      - rewrite A1 by done. by exists d.
      - exfalso. destruct Fx as (_ & O & _). apply O. right. right. exists q. split; [done|]. by exists e'.
      - apply A2; [done|]. destruct B as (z & r & ->). by eexists. }
    exists d. rewrite P2; [done|]. by rewrite D.
  - intros q Q B. destruct (A q) as (A1 & A2 & A3); [intros ->; apply (B x); [left|apply below_refl]|]. apply P4; [|intros y Y; apply B; by right].
    apply A3; [done|]. apply B. left.
Qed.
Lemma registerAll_regs l h : registerAll l h = regs (map (λ x, (newPathSpec x.1, x.2)) l) h.
Proof. revert h. induction l as [|x l IH]; intros h; [done|]. apply IH. Qed.
Global Instance separate_dec ps : Decision (separate ps).
Proof. induction ps as [|p ps IH]; simpl; apply _. Defined.
Lemma separate_app a ps : separate ps → separate (map (app a) ps).
Proof.
  induction ps as [|p ps IH]; [done|]. intros [F S]. split; [|by apply IH]. apply Forall_forall. intros x X. apply elem_of_list_fmap in X as (q & -> & Q).
  destruct (proj1 (Forall_forall _ _) F q Q) as [B1 B2]. split; intros [r E]; rewrite <- app_assoc in E; apply app_inv_head in E; [apply B1|apply B2]; by exists r.
Qed.
Definition call_paths (files : bool) : list (list string * minfo) := map (λ x, (newPathSpec x.1, x.2)) (default_calls files).
Lemma init_answer q : q ≠ [] → answer init_heap q = None.
Proof. destruct q as [|x q]; [done|]. intros _. unfold answer. simpl. done. Qed.
Lemma default_added files : wf (default_heap files) ∧ added init_heap (default_heap files) (call_paths files).
Proof.
  unfold default_heap. rewrite registerAll_regs. fold (call_paths files). apply regs_spec.
  - apply reachable_wf. exists init_config. split; [|done]. exists [init_config]. constructor.
  - apply Forall_forall. intros x X. unfold call_paths in X. apply elem_of_list_fmap in X as ([path mi] & -> & X). simpl. split; [apply newPathSpec_valid|]. 
    assert (newPathSpec path ≠ [] ∧ variable mi) as [N Vr].
    { assert (forallb (λ x, match newPathSpec x.1, mi_spec x.2 with _ :: _, MVar _ => true | _, _ => false end) (default_calls files) = true) as F by (destruct files; vm_compute; reflexivity).
      rewrite forallb_forall in F. apply elem_of_list_In in X. specialize (F _ X). simpl in F. destruct (newPathSpec path); [done|]. split; [done|].
      unfold variable. destruct (mi_spec mi); try done. by eexists. }
    split; [|done]. intros [E|[E|(q & B & [e M])]]; [done|by apply E, init_answer|].
    destruct q; [done|]. by rewrite init_answer in M.
  - assert (bool_decide (separate (map fst (call_paths files))) = true) as B by (destruct files; vm_compute; reflexivity). by apply bool_decide_eq_true in B.
Qed.

(** ** What a default metric reports *)
Lemma default_calls_lookup files i x : defaults files !! i = Some x → default_info i x ∈ default_calls files.
Proof. intros E. apply elem_of_list_lookup. exists i. unfold default_calls. by rewrite list_lookup_imap, E. Qed.
Lemma canonical_paths files : forallb (λ x, String.eqb x.1 ("/" +:+ join (newPathSpec x.1))) (default_calls files) = true.
Proof. destruct files; vm_compute; reflexivity. Qed.
Lemma default_answer files i path u desc g obj : defaults files !! i = Some (path, u, desc, g, obj) →
  ∃ e, answer (default_heap files) (newPathSpec path) = Some (NMetric e) ∧ e_obj e = OMetric (MkInfo (MVar i) g u desc) ∧ absPath e = path.
Proof.
  intros E. apply default_calls_lookup in E. destruct (default_added files) as (Wf & P1 & _). simpl in E.
  destruct (P1 (newPathSpec path, MkInfo (MVar i) g u desc)) as (e & A & Oe); [by apply (elem_of_list_fmap_1 (λ x, (newPathSpec x.1, x.2))) in E|].
  exists e. split; [done|]. split; [done|]. rewrite absPath_names, (metric_path _ _ _ Wf A).
  pose proof (canonical_paths files) as C. rewrite forallb_forall in C. apply elem_of_list_In in E. specialize (C _ E). simpl in C. by apply String.eqb_eq in C.
Qed.
Lemma reported_row w files s0 s i path u desc g obj v mm x : defaults files !! i = Some (path, u, desc, g, obj) → ValueModel.newValue w s0 obj = NVOk v →
  rpcMetric v s = Some mm → mm_value mm = MVScalar x → reported w files s0 s path u (to_goval x).
Proof.
  intros E V M X arrays stamp group h p C A. destruct (default_answer files i path u desc g obj E) as (e & A' & Oe & P).
  rewrite (looked_up_answer h path p C). apply newPathSpec_iff in C as <-. rewrite A, A'. simpl. unfold InitRpcMetric, info. rewrite Oe. cbn [mi_spec default_value]. rewrite E, V, M, X.
  simpl. eexists. split; [reflexivity|]. done.
Qed.

Section After.
  Context (o : os).
  Notation size := (match o with Linux => shl10 | Darwin => λ x, x end).
  (** the variables of the group after a successful reading u *)
  Definition shows (u : usage) (s : proc) : Prop :=
    (∃ old, p_resourceUsage s = Getrusage o (Some u) old) ∧ p_userTime s = timeValToDuration (u_utime u) ∧ p_sysTime s = timeValToDuration (u_stime u) ∧ p_maxResidentSetSize s = size (u_maxrss u).
  Lemma update_shows g u s : shows u (resourceUpdate o g (Some u) s).
  Proof. unfold resourceUpdate. split; [by eexists|]. simpl. destruct u as [[] []]; done. Qed.
  Lemma shows_stable u es : (∀ g' u', EvUsage g' (Some u') ∉ es) → ∀ s, shows u s → shows u (after o es s).
  Proof.
    induction es as [|e es IH]; intros N s S; [done|]. simpl. apply IH; [intros g' u' X; apply (N g' u'); by right|].
    destruct S as ([old E] & U & Sy & Mx). destruct e as [sys rel|g [u'|]|f]; simpl.
    - by split; [exists old|].
    - exfalso. apply (N g u'). left.
    - unfold resourceUpdate. split; [by exists old|]. simpl. rewrite E. destruct u as [[] []]; done.
    - by split; [exists old|].
  Qed.
  Lemma last_shows es u s : last_usage es u → shows u (after o es s).
  Proof. intros (es1 & g & es2 & -> & N). unfold after. rewrite foldl_app. simpl. apply (shows_stable u es2 N). apply update_shows. Qed.
  Lemma isrss_const es s : u_isrss (p_resourceUsage (after o es s)) = u_isrss (p_resourceUsage s).
  Proof. revert s. induction es as [|e es IH]; intros s; [done|]. simpl. rewrite IH. by destruct e as [|g [u|]|]. Qed.
  Lemma memory_after es sys rel s : last_memory es sys rel → p_totalMemory (after o es s) = (sys - rel)%Z.
  Proof.
    intros (es1 & es2 & -> & L & N). unfold after. rewrite foldl_app. simpl. set (s' := foldl _ _ es1). clearbody s'.
    assert (p_totalMemory (memoryUpdate sys rel s') = (sys - rel)%Z) as E by (simpl; by rewrite (proj2 (Z.leb_le _ _) L)).
    revert E. generalize (memoryUpdate sys rel s'). clear s' s. induction es2 as [|e es IH]; intros s E; [done|]. simpl. apply IH; [intros a b X; apply N; by right|].
    destruct e as [a b|g u|f]; [|done..]. simpl. assert (a < b)%Z by (apply N; left). by rewrite (proj2 (Z.leb_gt _ _)).
  Qed.
  Lemma memory_none es s : (∀ sys rel, EvMemory sys rel ∈ es → (sys < rel)%Z) → p_totalMemory (after o es s) = p_totalMemory s.
  Proof.
    revert s. induction es as [|e es IH]; intros s N; [done|]. simpl. rewrite IH; [|intros a b X; apply N; by right].
    destruct e as [a b|g u|f]; [|done..]. simpl. assert (a < b)%Z by (apply N; left). by rewrite (proj2 (Z.leb_gt _ _)).
  Qed.
  Lemma goroutines_after es g s : last_goroutines es g → p_numGoroutines (after o es s) = g.
  Proof.
    intros (es1 & u & es2 & -> & N). unfold after. rewrite foldl_app. simpl. set (s' := resourceUpdate _ _ _ _). assert (p_numGoroutines s' = g) as E by done. clearbody s'.
    revert s' E. induction es2 as [|e es IH]; intros s' E; [done|]. simpl. apply IH; [intros a b X; apply (N a b); by right|].
    destruct e as [a b|g' u'|f]; [done| |done]. exfalso. apply (N g' u'). left.
  Qed.
  Lemma size_fits x : in64 (unit_bytes o * x) → size x = (unit_bytes o * x)%Z.
  Proof. destruct o; simpl; intros F; [|lia]. unfold shl10. rewrite wrap64_id; [lia|]. by rewrite Z.mul_comm. Qed.
End After.

Lemma figures_reported w files o s0 es u path un z : last_usage es u → sizes_fit o u → (path, un, z) ∈ figures o u →
  reported w files s0 (after o es s0) path un (VScalar SInt64 z).
Proof.
  intros L (F1 & F2 & F3) I. destruct (last_shows o es u s0 L) as ([old E] & _ & _ & Mx). set (s := after o es s0) in *. clearbody s.
  assert (R : ∀ i path un desc g f, defaults files !! i = Some (path, un, desc, g, int_ptr f) → reported w files s0 s path un (VScalar SInt64 (f s))).
  { intros i path' un' desc g f D. change (VScalar SInt64 (f s)) with (to_goval (RVBasic KInt64 None (f s))). eapply (reported_row w files s0 s i); [exact D|reflexivity|reflexivity|reflexivity]. }
  assert (K : ∀ f : usage → Z, f (p_resourceUsage s) = f (Getrusage o (Some u) old)) by (intros f; by rewrite E).
  unfold figures in I. rewrite <- (size_fits o _ F1), <- (size_fits o _ F2), <- (size_fits o _ F3) in I.
  rewrite !elem_of_cons, elem_of_nil in I.
  assert (X : ∀ i j path' un' desc g (f : usage → Z), (files = true → defaults true !! i = Some (path', un', desc, g, usage_ptr f)) → (files = false → defaults false !! j = Some (path', un', desc, g, usage_ptr f)) →
    reported w files s0 s path' un' (VScalar SInt64 (f (Getrusage o (Some u) old)))).
  { intros i j path' un' desc g f D1 D2. rewrite <- K. destruct files; [by apply (R i path' un' desc g (λ s, f (p_resourceUsage s))), D1|by apply (R j path' un' desc g (λ s, f (p_resourceUsage s))), D2]. }
  destruct I as [I|[I|[I|[I|[I|[I|[I|[I|[I|[I|[I|[I|[I|[]]]]]]]]]]]]]]; injection I as -> -> ->.
  - rewrite <- Mx. apply (R 5 _ _ "Maximum resident set size" 2 p_maxResidentSetSize). by destruct files.
  - by apply (X 6 6 _ _ "Integral shared memory size" 2 u_ixrss).
  - by apply (X 7 7 _ _ "Integral unshared data size" 2 u_idrss).
  - by apply (X 9 9 _ _ "Soft page faults" 2 u_minflt).
  - by apply (X 10 10 _ _ "Hard page faults" 2 u_majflt).
  - by apply (X 11 11 _ _ "Swaps" 2 u_nswap).
  - by apply (X 12 12 _ _ "Block input operations" 2 u_inblock).
  - by apply (X 14 13 _ _ "Block output operations" 2 u_oublock).
  - by apply (X 15 14 _ _ "IPC messages sent" 2 u_msgsnd).
  - by apply (X 16 15 _ _ "IPC messages received" 2 u_msgrcv).
  - by apply (X 17 16 _ _ "Signals received" 2 u_nsignals).
  - by apply (X 18 17 _ _ "Involuntary context switches" 2 u_nivcsw).
  - by apply (X 19 18 _ _ "Voluntary context switches" 2 u_nvcsw).
Qed.
Lemma cpu_value v : time_fits v → timeValToDuration v = (tv_sec v * 1000000000 + tv_usec v)%Z.
Proof.
  intros ((S & U) & F). unfold cpu_ns, in64 in F. unfold timeValToDuration, time_Second, time_Nanosecond in *.
  rewrite (wrap64_id (tv_sec v * 1000000000)) by (unfold in64; lia). rewrite (wrap64_id (tv_usec v * 1)) by (unfold in64; lia). rewrite wrap64_id by (unfold in64; lia). lia.
Qed.
Lemma cpu_reported w files o s0 es u : last_usage es u →
  reported w files s0 (after o es s0) "/proc/cpu/user" "Seconds" (VDuration (timeValToDuration (u_utime u))) ∧
  reported w files s0 (after o es s0) "/proc/cpu/sys" "Seconds" (VDuration (timeValToDuration (u_stime u))).
Proof.
  intros L. destruct (last_shows o es u s0 L) as (_ & U & Sy & _). set (s := after o es s0) in *. clearbody s. rewrite <- U, <- Sy.
  change (VDuration (p_userTime s)) with (to_goval (RVDuration (p_userTime s))). change (VDuration (p_sysTime s)) with (to_goval (RVDuration (p_sysTime s))).
  split; [eapply (reported_row w files s0 s 1)|eapply (reported_row w files s0 s 2)]; try reflexivity.
Qed.
Lemma stack_reported w files o s0 es : reported w files s0 (after o es s0) "/proc/memory/unshared-stack" "Bytes" (VScalar SInt64 (u_isrss (p_resourceUsage s0))).
Proof.
  rewrite <- (isrss_const o es s0). set (s := after o es s0) in *. clearbody s. change (VScalar SInt64 (u_isrss (p_resourceUsage s))) with (to_goval (RVBasic KInt64 None (u_isrss (p_resourceUsage s)))).
  eapply (reported_row w files s0 s 8); reflexivity.
Qed.
Lemma memory_reported w files s0 s : reported w files s0 s "/proc/memory/total" "Bytes" (VScalar SUint64 (p_totalMemory s)).
Proof. change (VScalar SUint64 (p_totalMemory s)) with (to_goval (RVBasic KUint64 None (p_totalMemory s))). eapply (reported_row w files s0 s 0); reflexivity. Qed.

(** ** Flags *)
Section FlagProofs.
  Context {W : Type} (w : wordsize) (units : gmap string unit_t) (s : W).
  Definition flag_call (f : flag W) : list string * minfo := (flags_dir ++ newPathSpec (f_name f), flag_info w units s f).
  Lemma flag_variable f : flag_Get f s ≠ None → mi_spec (flag_info w units s f) = MVar (f_var f).
  Proof.
    unfold flag_Get, flag_info, f_value. intros N. simpl. destruct (f_get f) as [g|]; simpl; [|done]. destruct (g s) as [v|]; [|done]. by destruct (getPrimitiveType w (rtype_of v)) as [[]|].
  Qed.
  Lemma regs_cons x l h : regs (x :: l) h = regs l (fst (RegistryModel.run (registerMetric root x.1 x.2) h)).
  Proof. done. Qed.
  Lemma register_flags_regs d flags : ∀ h, wf h → live h d flags_dir → Forall (λ f, newPathSpec (f_name f) ≠ []) flags → Forall (fits h) (map flag_call flags) →
    separate (map fst (map flag_call flags)) → register_flags w units s d flags h = (regs (map flag_call flags) h, false).
  Proof.
    induction flags as [|f flags IH]; intros h Wf L N F S; [done|]. cbn [register_flags map]. rewrite regs_cons. inversion F as [|? ? Fx Fl]; subst. inversion N as [|? ? Nx Nl]; subst. destruct S as [Sx Sl].
    rewrite <- (run_registerMetric_app h d flags_dir _ _ L Nx). change (RegistryModel.run (registerMetric root (flags_dir ++ newPathSpec (f_name f)) (flag_info w units s f)) h) with (RegistryModel.run (registerMetric root (flag_call f).1 (flag_call f).2) h).
    destruct (register_one h (flag_call f) Wf Fx) as (R & W1 & A & e & E & Oe). destruct (RegistryModel.run _ h) as [h1 r] eqn:Er. cbn [fst snd] in R, W1, A, E |- *. subst r.
    assert (answer h (flag_call f).1 = None) as Nn by (destruct Fx as (_ & O & _); destruct (answer h (flag_call f).1) eqn:Eq; [exfalso; apply O; right; left; congruence|done]).
    apply IH; [done| |done| |done].
    - unfold live. destruct (A flags_dir) as (A1 & _).
      { simpl. intros B. change ["proc"; "flags"] with flags_dir in B. unfold flag_call, flags_dir in B. simpl in B. by destruct (newPathSpec (f_name f)). }
      rewrite A1; [done|]. by rewrite L.
    - pose proof (proj1 (Forall_forall _ _) Sx) as Sx'. pose proof (proj1 (Forall_forall _ _) Fl) as Fl'. apply Forall_forall. intros y Y. destruct (Sx' y.1) as [B1 B2]; [by apply elem_of_list_fmap_1|]. eapply fits_next; eauto.
  Qed.
  Lemma flags_spec h flags : wf h → (∀ q, below q flags_dir → ¬ is_metric (answer h q)) → Forall (λ f, newPathSpec (f_name f) ≠ [] ∧ flag_Get f s ≠ None) flags →
    (∀ f, f ∈ flags → ¬ obstructed h (flags_dir ++ newPathSpec (f_name f))) → separate (map (λ f, newPathSpec (f_name f)) flags) →
    ∃ h', registerFlags w units s flags h = (h', false) ∧ wf h' ∧
      (∀ f, f ∈ flags → ∃ e, answer h' (flags_dir ++ newPathSpec (f_name f)) = Some (NMetric e) ∧ e_obj e = OMetric (MkInfo (MVar (f_var f)) 0 (flagUnit units f s) (f_usage f))) ∧
      (∀ q, answer h q ≠ None → answer h' q = answer h q) ∧ (∀ q, ¬ below flags_dir q → answer h q = None → answer h' q = None ∨ below q flags_dir).
  Proof.
    intros Wf M F O S. unfold registerFlags. change (newPathSpec "/proc/flags") with flags_dir.
    assert (Forall valid_component flags_dir) as V by (change flags_dir with (newPathSpec "/proc/flags"); apply newPathSpec_valid).
    pose proof (registerDirectory_spec flags_dir V h root [] Wf (root_live h)) as R. destruct (RegistryModel.run _ h) as [h1 [d|er]].
    2: { exfalso. destruct R as (_ & _ & _ & _ & _ & q & B & Mq). by apply (M q). }
    destruct R as (W1 & _ & _ & L & A). simpl in L, A.
    assert (separate (map fst (map flag_call flags))) as Sep by (rewrite map_map; by apply (separate_app flags_dir) in S; rewrite map_map in S).
    assert (Forall (fits h1) (map flag_call flags)) as Fit.
    { apply Forall_forall. intros x X. apply elem_of_list_fmap in X as (f & -> & I). pose proof (proj1 (Forall_forall _ _) F f I) as [N G]. specialize (O f I). unfold fits. cbn [flag_call fst snd].
      split; [apply Forall_app; split; [done|apply newPathSpec_valid]|]. split; [|by eexists; apply flag_variable]. intros [E|[E|(q & B & [e Me])]].
      - apply O. by left.
      - destruct (A (flags_dir ++ newPathSpec (f_name f))) as (A1 & A2 & A3). destruct (answer h (flags_dir ++ newPathSpec (f_name f))) eqn:Eq; [apply O; right; left; congruence|].
        apply E, A3; [done|]. intros [r B]. rewrite <- app_assoc in B. rewrite <- (app_nil_r flags_dir) in B at 1. apply app_inv_head in B. by destruct (newPathSpec (f_name f)).
      - destruct (A q) as (A1 & A2 & A3). destruct (answer h q) eqn:Eq; [apply O; right; right; exists q; split; [done|]; exists e; rewrite Eq, <- Me, A1; done|].
        destruct (decide (below q flags_dir)) as [B'|B']; [destruct (A2 eq_refl B') as [d' D]; congruence|rewrite A3 in Me; done]. }
    rewrite register_flags_regs; [|done|done| |done|done].
    - destruct (regs_spec (map flag_call flags) h1 W1 Fit Sep) as (W2 & P1 & P2 & P3 & P4). eexists. split; [reflexivity|]. split; [done|]. split_and!.
        + intros f I. destruct (P1 (flag_call f)) as (e & E & Oe); [by apply elem_of_list_fmap_1|]. exists e. split; [done|]. rewrite Oe. unfold flag_call. simpl. f_equal.
          pose proof (proj1 (Forall_forall _ _) F f I) as [_ G]. unfold flag_info. f_equal. exact (flag_variable f G).
        + intros q Q. destruct (A q) as (A1 & _). rewrite P2; [by apply A1|]. by rewrite A1.
        + intros q B Q. destruct (decide (below q flags_dir)) as [B'|B']; [by right|left]. destruct (A q) as (_ & _ & A3). apply P4; [by apply A3|].
          intros x X. apply elem_of_list_fmap in X as (f & -> & _). simpl. intros [r E]. clear -B B' E. destruct q as [|a [|b q]]; [apply B'; by eexists|injection E as <- _; apply B'; by eexists|].
          injection E as <- <- E. apply B. by exists q.
    - eapply Forall_impl; [exact F|]. by intros f [N _].
  Qed.
End FlagProofs.

(** ** The default registry is reachable *)
Lemma run_during t ca (p : prog (reply + list witem)) : ∀ h T, ∃ l T', during (MkConfig h (<[t := MkThread ca (TRun p)]> T)) l (MkConfig (fst (RegistryModel.run p h)) T').
Proof.
  induction p as [a|B op k IH]; intros h T.
  - exists [MkConfig h (<[t := MkThread ca (TRun (Ret a))]> T)], (<[t := MkThread ca (TRun (Ret a))]> T). constructor.
  - cbn [RegistryModel.run]. destruct (op_sem op h) as [h' b] eqn:E. destruct (IH b h' T) as (l & T' & D). eexists _, T'. eapply DStep; [|exact D].
    rewrite <- (insert_insert T t (MkThread ca (TRun (k b))) (MkThread ca (TRun (Step op k)))).
    eapply StepThread; [apply lookup_insert|]. replace h' with (fst (op_sem op h)) by (by rewrite E). replace b with (snd (op_sem op h)) by (by rewrite E). constructor.
Qed.
Lemma run_reachable h ca : reachable_heap h → is_Some (h_dirs h !! call_dir ca) → reachable_heap (fst (RegistryModel.run (prog_of ca) h)).
Proof.
  intros ([h0 T] & R & E) D. simpl in E. subst h0. set (t := fresh (dom T)). assert (T !! t = None) as N by (apply not_elem_of_dom; apply is_fresh).
  destruct (run_during t ca (prog_of ca) h T) as (l & T' & D'). exists (MkConfig (fst (RegistryModel.run (prog_of ca) h)) T'). split; [|done]. destruct R as [l0 D0].
  destruct (during_app _ _ _ _ _ D0 (DStep _ _ _ _ (StepStart h T t ca N D) D')) as (l2 & D2 & _). by exists l2.
Qed.
Lemma registerAll_reachable l : ∀ h, reachable_heap h → reachable_heap (registerAll l h).
Proof.
  induction l as [|x l IH]; intros h R; [done|]. simpl. apply IH. pose proof (run_reachable h (CRegMetric root x.1 x.2) R) as H. cbn [prog_of] in H. rewrite run_bind in H.
  destruct (RegistryModel.run _ h) as [h' r]. apply H. apply (proj1 (wf_root _ (reachable_wf _ R))).
Qed.
Lemma default_reachable files : reachable_heap (default_heap files).
Proof. apply registerAll_reachable. exists init_config. split; [|done]. exists [init_config]. constructor. Qed.
Lemma default_only files q e : answer (default_heap files) q = Some (NMetric e) → ∃ path mi, (path, mi) ∈ default_calls files ∧ components path q ∧ e_obj e = OMetric mi.
Proof.
  intros A. destruct (default_added files) as (Wf & P1 & P2 & P3 & P4). assert (q ≠ []) as N by (by intros ->). pose proof (init_answer q N) as I.
  destruct (decide (Exists (λ x, below q x.1) (call_paths files))) as [(x & X & B)%Exists_exists|Nx].
  - destruct (below_properly _ _ B) as [->|B'].
    + destruct (P1 x X) as (e' & E & Oe). rewrite A in E. injection E as <-. unfold call_paths in X. apply elem_of_list_fmap in X as ([path mi] & -> & X). exists path, mi. split; [done|]. split; [by apply newPathSpec_iff|done].
    + destruct (P3 q x X B') as [d D]. congruence.
  - rewrite P4 in A; [done|done|]. intros x X B. apply Nx, Exists_exists. eauto.
Qed.
