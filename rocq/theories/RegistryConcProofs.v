(** Invariants of the concurrent registry. *)
From stdpp Require Import gmap strings sorting.
From Verif Require Import PathModel PathSpec PathProofs RegistryModel RegistrySpec RegistryProofs RegistryConc.

(** ** well formedness under every interleaving *)
Definition item_has (h : heap) (i : witem) : Prop := match i with WDir d => has h d | WMetric _ => True end.
Definition res_ok (h : heap) (r : reply + list witem) : Prop :=
  match r with inl _ => True | inr w => Forall (item_has h) w end.
Definition tstate_ok (h : heap) (s : tstate) : Prop :=
  match s with
  | TRun p => safe p res_ok h
  | TList w _ => Forall (item_has h) w
  | TDone _ => True
  end.
Record cinv (c : config) : Prop := {
  ci_wf : wf (c_heap c);
  ci_threads : ∀ t th, c_pool c !! t = Some th → tstate_ok (c_heap c) (t_state th);
}.
Lemma item_has_ext h h' i : ext h h' → item_has h i → item_has h' i.
Proof. destruct i; simpl; [apply ext_has|done]. Qed.
Lemma res_ok_ext h h' r : ext h h' → res_ok h r → res_ok h' r.
Proof. intros E. destruct r; simpl; [done|]. intros F. eapply Forall_impl; [done|]. intros i. by apply item_has_ext. Qed.
Lemma tstate_ok_ext h h' s : ext h h' → tstate_ok h s → tstate_ok h' s.
Proof.
  intros E. destruct s; simpl; [|intros F; eapply Forall_impl; [done|]; intros i; by apply item_has_ext|done].
  apply safe_ext; [|done]. intros h1 h2 a. apply res_ok_ext.
Qed.
Lemma newPathSpec_valid' s : Forall valid_component (newPathSpec s).
Proof. apply newPathSpec_valid. Qed.
Lemma safe_True {A} (p : prog A) (Q : heap → A → Prop) h : safe p Q h → safe p (λ _ _, True) h.
Proof.
  revert h. induction p as [a|B o k IH]; simpl; intros h S; [done|]. intros h' W E. destruct (S h' W E) as [S1 S2].
  split; [done|by apply IH].
Qed.
Lemma safe_prog_of c h : has h (call_dir c) → safe (prog_of c) res_ok h.
Proof.
  intros H. destruct c as [d s m|d s|d s|d s|d s|d|d s]; cbn [prog_of call_dir] in *.
  - eapply safe_bind; [apply safe_registerMetric; [apply newPathSpec_valid'|done]|]. done.
  - eapply safe_bind; [apply safe_registerDirectory; [apply newPathSpec_valid'|done]|]. done.
  - eapply safe_bind; [by apply safe_getDirectoryAndError|]. done.
  - eapply safe_bind; [by apply safe_getDirectoryOrMetric|]. done.
  - eapply safe_bind; [by apply safe_unregisterPath|]. done.
  - eapply safe_bind; [by apply safe_unregisterDirectory|]. done.
  - eapply safe_bind; [by apply safe_getDirectoryOrMetric|]. intros h' [[d'|e]|] Q; simpl; auto.
Qed.
Lemma insert_perm x l : insert_entry x l ≡ₚ x :: l.
Proof.
  induction l as [|y l IH]; simpl; [done|]. destruct (String.leb _ _); [done|]. rewrite IH. constructor.
Qed.
Lemma sort_perm l : sortListEntries l ≡ₚ l.
Proof. induction l as [|x l IH]; simpl; [done|]. by rewrite insert_perm, IH. Qed.
Lemma entries_of_elem h d e : e ∈ entries_of h d ↔ ∃ x, contents h d !! x = Some e.
Proof.
  unfold entries_of. rewrite elem_of_list_fmap. split.
  - intros ([x e'] & -> & E). apply elem_of_map_to_list in E. eauto.
  - intros [x E]. exists (x, e). split; [done|]. by apply elem_of_map_to_list.
Qed.
Lemma items_has h d l : wf h → l ≡ₚ entries_of h d → Forall (item_has h) (map item_of (sortListEntries l)).
Proof.
  intros W P. apply Forall_forall. intros i I. apply elem_of_list_fmap in I as (e & -> & I).
  rewrite sort_perm, P in I. apply entries_of_elem in I as [x C].
  unfold item_of. destruct (e_obj e) eqn:O; simpl; [done|]. by eapply entry_dir_has.
Qed.
(** how one step of one thread changes the heap *)
Lemma tstep_change h s h' s' : wf h → tstate_ok h s → tstep h s h' s' → change h h' ∧ tstate_ok h' s'.
Proof.
  intros W K St. assert (R : change h h) by (apply ChNone; done).
  destruct St as [h B o k|h r|h w|h d l w out P|h e w out|h out]; simpl in K.
  - destruct (K h W (ext_refl h)) as [K1 K2]. split; [by apply op_change|done].
  - split; done.
  - split; [done|]. simpl. done.
  - split; [done|]. simpl. inversion K; subst. apply Forall_app. split; [by eapply items_has|done].
  - split; [done|]. simpl. by inversion K.
  - split; done.
Qed.
Lemma step_inv c c' : cinv c → step c c' → cinv c' ∧ change (c_heap c) (c_heap c').
Proof.
  intros [W K] St. destruct St as [h T t ca N H|h T t ca s h' s' Tt St]; simpl in *.
  - split; [|apply ChNone; done]. split; simpl; [done|]. intros t' th [[<- <-]|[_ Th]]%lookup_insert_Some; [|by eapply K].
    simpl. by apply safe_prog_of.
  - destruct (tstep_change h s h' s' W (K _ _ Tt) St) as [CH K']. split; [|done].
    split; simpl; [by eapply change_wf|]. intros t' th [[<- <-]|[_ Th]]%lookup_insert_Some; [done|].
    eapply tstate_ok_ext; [by eapply change_ext|]. by eapply K.
Qed.
Lemma cinv_init : cinv init_config.
Proof. split; simpl; [apply wf_init|]. intros t th. by rewrite lookup_empty. Qed.
Lemma during_inv c l c' : cinv c → during c l c' → Forall cinv l ∧ cinv c'.
Proof.
  intros I D. revert I. induction D as [c|c c1 l c2 S D IH]; intros I; [split; [by constructor|done]|].
  destruct (step_inv c c1 I S) as [I1 _]. destruct (IH I1) as [F I2]. split; [by constructor|done].
Qed.
Lemma reachable_inv c : reachable c → cinv c.
Proof. intros [l D]. by destruct (during_inv _ _ _ cinv_init D). Qed.
Lemma reachable_wf h : reachable_heap h → wf h.
Proof. intros (c & R & <-). by apply reachable_inv. Qed.
Lemma during_extd c l c' : cinv c → during c l c' → Forall (λ c1, extd (c_heap c) (c_heap c1)) l ∧ extd (c_heap c) (c_heap c').
Proof.
  intros I D. revert I. induction D as [c|c c1 l c2 S D IH]; intros I; [split; [constructor; [apply extd_refl|constructor]|apply extd_refl]|].
  destruct (step_inv c c1 I S) as [I1 CH]. destruct (IH I1) as [F I2].
  assert (E : extd (c_heap c) (c_heap c1)) by (by apply change_extd; [apply I|]). split.
  - constructor; [apply extd_refl|]. eapply Forall_impl; [done|]. intros c3 E3. by eapply extd_trans.
  - by eapply extd_trans.
Qed.
Lemma during_first c l c' : during c l c' → c ∈ l.
Proof. intros D. destruct D; constructor. Qed.
Lemma during_last c l c' : during c l c' → c' ∈ l.
Proof. intros D. induction D; [constructor|by constructor]. Qed.
Lemma during_app c l c' l' c'' : during c l c' → during c' l' c'' → ∃ l2, during c l2 c'' ∧ ∀ x, x ∈ l2 ↔ x ∈ l ∨ x ∈ l'.
Proof.
  intros D1 D2. induction D1 as [c|c c1 l c2 S D IH].
  - exists l'. split; [done|]. intros x. rewrite elem_of_list_singleton. split; [by right|].
    intros [->|?]; [by eapply during_first|done].
  - destruct (IH D2) as (l2 & D3 & E). exists (c :: l2). split; [by econstructor|]. intros x. rewrite !elem_of_cons, E. tauto.
Qed.
Lemma reachable_during c l c' : reachable c → during c l c' → reachable c'.
Proof. intros [l0 D0] D. destruct (during_app _ _ _ _ _ D0 D) as (l2 & D2 & _). by exists l2. Qed.
(** every intermediate configuration splits the execution *)
Lemma during_split c l c' x : during c l c' → x ∈ l → ∃ l1 l2, during c l1 x ∧ during x l2 c' ∧ (∀ y, y ∈ l1 → y ∈ l) ∧ (∀ y, y ∈ l2 → y ∈ l).
Proof.
  intros D. induction D as [c|c c1 l c2 S D IH]; intros X.
  - apply elem_of_list_singleton in X as ->. exists [c], [c]. split_and!; auto; constructor.
  - apply elem_of_cons in X as [->|X].
    + exists [c], (c :: l). split_and!; [constructor|by econstructor| |done]. intros y Y. apply elem_of_list_singleton in Y as ->. constructor.
    + destruct (IH X) as (l1 & l2 & A & B & C1 & C2). exists (c :: l1), l2. split_and!; [by econstructor|done| |].
      * intros y [->|Y]%elem_of_cons; [constructor|constructor; by apply C1].
      * intros y Y. constructor. by apply C2.
Qed.

(** ** threads holding a dead handle change nothing *)
Definition conf_state (d : nat) (h : heap) (s : tstate) : Prop :=
  match s with TRun p => conf d p (λ _ _, True) h | _ => True end.
Lemma conf_prog_of c h : has h (call_dir c) → conf (call_dir c) (prog_of c) (λ _ _, True) h.
Proof.
  intros H. destruct c as [d s m|d s|d s|d s|d s|d|d s]; cbn [prog_of call_dir] in *.
  - eapply conf_bind; [apply conf_registerMetric; [apply newPathSpec_valid'|done]|]. done.
  - eapply conf_bind; [apply conf_registerDirectory; [apply newPathSpec_valid'|by apply UHere]|]. done.
  - eapply conf_bind; [apply conf_getDirectoryAndError; by apply UHere|]. done.
  - eapply conf_bind; [by apply conf_getDirectoryOrMetric|]. done.
  - eapply conf_bind; [by apply conf_unregisterPath|]. done.
  - eapply conf_bind; [by apply conf_unregisterDirectory|]. done.
  - eapply conf_bind; [by apply conf_getDirectoryOrMetric|]. done.
Qed.
Definition conf_inv (c : config) : Prop :=
  ∀ t th, c_pool c !! t = Some th → conf_state (call_dir (t_call th)) (c_heap c) (t_state th).
Lemma conf_state_ext d h h' s : ext h h' → conf_state d h s → conf_state d h' s.
Proof. intros E. destruct s; simpl; try done. by apply conf_ext. Qed.
Lemma conf_tstep d h s h' s' : wf h → conf_state d h s → tstep h s h' s' → conf_state d h' s' ∧ (dead h d → same_answers h h').
Proof.
  intros W K St. destruct St as [h B o k|h r|h w|h d' l w out P|h e w out|h out]; simpl in *; try (split; [done|intros ? q; done]).
  destruct (K h W (ext_refl h)) as [K1 K2]. done.
Qed.
Lemma conf_step c c' : cinv c → conf_inv c → step c c' → conf_inv c'.
Proof.
  intros I K St. pose proof (step_inv c c' I St) as [I' CH]. pose proof (change_ext _ _ (ci_wf _ I) CH) as E. revert E.
  destruct St as [h T t ca N H|h T t ca s h' s' Tt St]; simpl in *; intros E t' th Th; simpl in Th.
  - apply lookup_insert_Some in Th as [[<- <-]|[_ Th]]; [by apply conf_prog_of|]. by eapply (K t').
  - apply lookup_insert_Some in Th as [[<- <-]|[_ Th]].
    + eapply (conf_tstep (call_dir ca) h s h' s'); [apply I|by apply (K _ _ Tt)|done].
    + eapply conf_state_ext; [exact E|]. by eapply (K t').
Qed.
Lemma reachable_conf c : reachable c → conf_inv c.
Proof.
  intros [l D]. assert (K : conf_inv init_config) by (intros t th; simpl; by rewrite lookup_empty). revert K. pose proof cinv_init as I. revert I.
  induction D as [c|c c1 l c2 S D IH]; intros I K; [done|]. apply IH; [by eapply step_inv|by eapply conf_step].
Qed.
