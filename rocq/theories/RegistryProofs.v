(** Sequential behaviour of the registry. *)
From stdpp Require Import gmap strings.
From Verif Require Import PathModel PathSpec PathProofs RegistryModel RegistrySpec.

Lemma run_bind {A B} (p : prog A) (f : A → prog B) h :
  run (bind p f) h = let '(h1, a) := run p h in run (f a) h1.
Proof. revert h. induction p as [a|B0 o k IH]; intros h; simpl; [done|]. destruct (op_sem o h). apply IH. Qed.

(** ** find *)
Lemma find_app h a : ∀ s b,
  find h s (a ++ b) = match find h s a with
                      | Some (NDir d) => find h d b
                      | Some (NMetric e) => match b with [] => Some (NMetric e) | _ => None end
                      | None => None
                      end.
Proof.
  induction a as [|x a IH]; intros s b; simpl; [done|].
  destruct (contents h s !! x) as [e|]; [|done]. destruct (e_obj e).
  - destruct a; simpl; [by destruct b|done].
  - apply IH.
Qed.
Lemma find_cons h s x r : find h s (x :: r) =
  match contents h s !! x with
  | None => None
  | Some e => match e_obj e with ODir d' => find h d' r | OMetric _ => match r with [] => Some (NMetric e) | _ => None end end
  end.
Proof. simpl. destruct (contents h s !! x) as [e|]; [|done]. by destruct (e_obj e), r. Qed.
Lemma find_snoc h s a x : find h s (a ++ [x]) =
  match find h s a with Some (NDir d) => node_of <$> contents h d !! x | _ => None end.
Proof.
  rewrite find_app. destruct (find h s a) as [[d|e]|]; try done. rewrite find_cons.
  destruct (contents h d !! x) as [e|]; [|done]. unfold node_of; simpl. by destruct (e_obj e).
Qed.
Lemma node_of_dir e d : node_of e = NDir d → e_obj e = ODir d.
Proof. unfold node_of. destruct (e_obj e); congruence. Qed.
Lemma node_of_metric e e' : node_of e = NMetric e' → e = e' ∧ ∃ m, e_obj e = OMetric m.
Proof. unfold node_of. destruct (e_obj e); intros H; inversion H; eauto. Qed.
Lemma find_metric_inv h s a e : find h s a = Some (NMetric e) →
  ∃ a' x d, a = a' ++ [x] ∧ find h s a' = Some (NDir d) ∧ contents h d !! x = Some e ∧ ∃ m, e_obj e = OMetric m.
Proof.
  destruct a as [|x a' _] using rev_ind; [done|]. rewrite find_snoc.
  destruct (find h s a') as [[d|]|] eqn:F; try done. destruct (contents h d !! x) as [e0|] eqn:C; [|done].
  simpl. intros [=H]. apply node_of_metric in H as [-> [m E]]. eauto 10.
Qed.
Lemma find_dir_inv h s a x d : find h s (a ++ [x]) = Some (NDir d) →
  ∃ d0 e, find h s a = Some (NDir d0) ∧ contents h d0 !! x = Some e ∧ e_obj e = ODir d.
Proof.
  rewrite find_snoc. destruct (find h s a) as [[d0|]|] eqn:F; try done. destruct (contents h d0 !! x) as [e0|] eqn:C; [|done].
  simpl. intros [=H]. apply node_of_dir in H. eauto 10.
Qed.

(** ** lookups are find *)
Lemma run_getDirectory h p : ∀ d,
  run (getDirectory d p) h = (h, match find h d p with Some (NDir d') => Some d' | _ => None end).
Proof.
  induction p as [|x p IH]; intros d; simpl; [done|].
  destruct (contents h d !! x) as [e|]; simpl; [|done]. destruct (e_obj e); simpl; [by destruct p|apply IH].
Qed.
Lemma Dir_Base p : (p = [] ∧ Dir p = None) ∨ ∃ a x, p = a ++ [x] ∧ Dir p = Some a ∧ Base p = Some x.
Proof.
  destruct p as [|x a _] using rev_ind; [left; done|right]. exists a, x. split; [done|]. split.
  - unfold Dir. rewrite removelast_last. by destruct a.
  - destruct a as [|y a]; [done|]. simpl. f_equal. apply List.last_last.
Qed.
Lemma run_getDirectoryOrMetric h d p : run (getDirectoryOrMetric d p) h = (h, find h d p).
Proof.
  unfold getDirectoryOrMetric. destruct (Dir_Base p) as [[-> ->]|(a & x & -> & -> & ->)]; [done|].
  rewrite run_bind, run_getDirectory, find_snoc. destruct (find h d a) as [[d'|]|]; done.
Qed.
Lemma run_getDirectoryAndError h p : ∀ d,
  ∃ r, run (getDirectoryAndError d p) h = (h, r) ∧
  match r with
  | inl d' => find h d p = Some (NDir d')
  | inr ErrNotFound => ∃ q x, below (q ++ [x]) p ∧ is_dir (find h d q) ∧ find h d (q ++ [x]) = None
  | inr ErrPathInUse => ∃ q, below q p ∧ is_metric (find h d q)
  | _ => False
  end.
Proof.
  induction p as [|x p IH]; intros d; simpl; [by exists (inl d)|].
  destruct (contents h d !! x) as [e|] eqn:C; simpl.
  - destruct (e_obj e) as [m|d'] eqn:O; simpl.
    + eexists. split; [done|]. exists [x]. split; [by exists p|]. exists e. simpl. by rewrite C, O.
    + destruct (IH d') as (r & -> & H). eexists. split; [done|]. destruct r as [d2|[]]; try done.
      * destruct H as (q & y & [r ->] & [d1 D] & N). exists (x :: q), y. split; [by exists r|]. split.
        -- exists d1. by rewrite find_cons, C, O.
        -- simpl. by rewrite C, O.
      * destruct H as (q & [r ->] & [e1 D]). exists (x :: q). split; [by exists r|]. exists e1. by rewrite find_cons, C, O.
  - eexists. split; [done|]. exists [], x. split; [by exists p|]. split; [by eexists|]. simpl. by rewrite C.
Qed.

(** ** well formedness and unique paths *)
Lemma contents_dirs h d x e : contents h d !! x = Some e → ∃ dd, h_dirs h !! d = Some dd ∧ d_contents dd !! x = Some e.
Proof. unfold contents. destruct (h_dirs h !! d) as [dd|]; [eauto|]. by rewrite lookup_empty. Qed.
Lemma encl_root h : wf h → encl h root = None.
Proof. intros W. by destruct (wf_root _ W). Qed.

Definition dpath (h : heap) (d : nat) : list string :=
  match encl h d with None => [] | Some e => names e end.
Lemma names_eq e : names e = match e_parent e with None => [] | Some p => names p end ++ [e_name e].
Proof. destruct e as [i n o [p|]]; done. Qed.
Lemma entry_names h d x e : wf h → contents h d !! x = Some e → names e = dpath h d ++ [x].
Proof.
  intros W C. destruct (wf_entry _ W _ _ _ C) as (N & _ & P & _). rewrite names_eq, P, N. unfold dpath.
  by destruct (encl h d).
Qed.
Lemma live_path h a : wf h → ∀ d, live h d a → dpath h d = a.
Proof.
  intros W. induction a as [|x a IH] using rev_ind; intros d L.
  - unfold live, answer in L. simpl in L. inversion L; subst. unfold dpath. by rewrite encl_root.
  - unfold live, answer in L. apply find_dir_inv in L as (d0 & e & F & C & O).
    destruct (wf_entry_dir _ W _ _ _ _ C O) as (I & E & _). unfold dpath. rewrite E.
    erewrite entry_names by eauto. f_equal. by apply IH.
Qed.
Lemma live_unique h d a b : wf h → live h d a → live h d b → a = b.
Proof. intros W A B. rewrite <- (live_path h a W d A). by apply live_path. Qed.
Lemma metric_path h a e : wf h → answer h a = Some (NMetric e) → names e = a.
Proof.
  intros W F. apply find_metric_inv in F as (a' & x & d & -> & F & C & _).
  erewrite entry_names by eauto. f_equal. by apply live_path.
Qed.
Lemma live_exists h d a : wf h → live h d a → has h d.
Proof.
  intros W L. destruct a as [|x a _] using rev_ind.
  - inversion L; subst. by destruct (wf_root _ W).
  - apply find_dir_inv in L as (d0 & e & F & C & O). by destruct (wf_entry_dir _ W _ _ _ _ C O) as (_ & _ & ?).
Qed.
Lemma find_components h s a n : wf h → find h s a = Some n → Forall valid_component a.
Proof.
  intros W. revert s. induction a as [|x a IH]; intros s F; [constructor|]. rewrite find_cons in F.
  destruct (contents h s !! x) as [e|] eqn:C; [|done]. destruct (wf_entry _ W _ _ _ C) as (_ & V & _).
  constructor; [done|]. destruct (e_obj e); [destruct a; [constructor|done]|eauto].
Qed.

(** ** changing the contents of one directory *)
Section update.
  Context (h h' : heap) (d : nat).
  Context (Hc : ∀ d', d' ≠ d → contents h' d' = contents h d').
  Lemma find_miss q : ∀ s, (∀ a, find h s a ≠ Some (NDir d)) → find h' s q = find h s q.
  Proof using Hc.
    induction q as [|x q IH]; intros s N; [done|]. rewrite !find_cons.
    assert (s ≠ d) by (intros ->; by apply (N [])). rewrite Hc by done.
    destruct (contents h s !! x) as [e|] eqn:C; [|done]. destruct (e_obj e) eqn:O; [done|].
    apply IH. intros a F. apply (N (x :: a)). rewrite find_cons, C, O. done.
  Qed.
  Lemma find_hit_dir a : ∀ s, find h s a = Some (NDir d) → (∀ b, find h s b = Some (NDir d) → b = a) →
    find h' s a = Some (NDir d).
  Proof using Hc.
    induction a as [|x a IH]; intros s F U; [done|].
    assert (s ≠ d) by (intros ->; by specialize (U [] eq_refl)). rewrite find_cons in *. rewrite Hc by done.
    destruct (contents h s !! x) as [e|] eqn:C; [|done]. destruct (e_obj e) eqn:O; [by destruct a|].
    apply IH; [done|]. intros b Fb. specialize (U (x :: b)). rewrite find_cons, C, O in U. specialize (U Fb). congruence.
  Qed.
  Lemma find_other a : ∀ s q, find h s a = Some (NDir d) → (∀ b, find h s b = Some (NDir d) → b = a) →
    ¬ below a q → find h' s q = find h s q.
  Proof using Hc.
    induction a as [|x a IH]; intros s q F U B; [exfalso; apply B; by exists q|].
    assert (s ≠ d) by (intros ->; by specialize (U [] eq_refl)). destruct q as [|y q]; [done|].
    rewrite !(find_cons _ _ y). rewrite Hc by done.
    destruct (contents h s !! y) as [e|] eqn:C; [|done]. destruct (e_obj e) eqn:O; [done|].
    destruct (decide (x = y)) as [->|N].
    - rewrite find_cons, C, O in F. apply IH; [done| |].
      + intros b Fb. specialize (U (y :: b)). rewrite find_cons, C, O in U. specialize (U Fb). congruence.
      + intros [r ->]. apply B. by exists r.
    - apply find_miss. intros b Fb. specialize (U (y :: b)). rewrite find_cons, C, O in U. specialize (U Fb). congruence.
  Qed.
  (* below d itself, through a name whose entry did not change *)
  Lemma find_same_entry a s x r : find h s a = Some (NDir d) → (∀ b, find h s b = Some (NDir d) → b = a) →
    contents h' d !! x = contents h d !! x → find h' d (x :: r) = find h d (x :: r).
  Proof using Hc.
    intros F U E. rewrite !find_cons, E. destruct (contents h d !! x) as [e|] eqn:C; [|done].
    destruct (e_obj e) eqn:O; [done|]. apply find_miss. intros b Fb.
    assert (G : find h s (a ++ x :: b) = Some (NDir d)).
    { rewrite find_app, F, find_cons, C, O. done. }
    specialize (U _ G). assert (length (a ++ x :: b) = length a) by congruence. rewrite app_length in H. simpl in H. lia.
  Qed.
End update.

Lemma below_refl p : below p p.
Proof. exists []. by rewrite app_nil_r. Qed.
Lemma below_app a r : below a (a ++ r).
Proof. by exists r. Qed.
#[global] Instance below_dec q p : Decision (below q p).
Proof.
  revert p. induction q as [|x q IH]; intros p; [left; by exists p|].
  destruct p as [|y p]; [right; intros [r ?]; done|].
  destruct (decide (x = y)) as [->|N]; [|right; intros [r E]; inversion E; done].
  destruct (IH p) as [B|B]; [left; destruct B as [r ->]; by exists r|].
  right. intros [r E]. inversion E; subst. apply B. by exists r.
Defined.

Lemma answer_insert h h' d x e a q : wf h →
  live h d a → contents h d !! x = None →
  (∀ d', d' ≠ d → contents h' d' = contents h d') →
  contents h' d = <[x := e]> (contents h d) →
  (∀ d', e_obj e = ODir d' → contents h' d' = ∅) →
  answer h' q = if decide (q = a ++ [x]) then Some (node_of e) else answer h q.
Proof.
  intros W L N Hc Hd He. unfold live, answer in *.
  assert (U : ∀ b, find h root b = Some (NDir d) → b = a) by (intros b Fb; by eapply live_unique).
  pose proof (find_hit_dir h h' d Hc a root L U) as L'.
  destruct (decide (below a q)) as [[r ->]|B].
  - rewrite !find_app, L, L'. destruct r as [|y r].
    { rewrite app_nil_r. rewrite decide_False; [done|]. intros E. apply (f_equal length) in E. rewrite app_length in E. simpl in E. lia. }
    destruct (decide (x = y)) as [->|NE].
    + rewrite (find_cons h), N. rewrite find_cons, Hd, lookup_insert.
      destruct r as [|z r].
      * rewrite decide_True by done. unfold node_of. destruct (e_obj e) eqn:O; done.
      * rewrite decide_False. { destruct (e_obj e) eqn:O; [done|]. rewrite find_cons, (He _ eq_refl), lookup_empty. done. }
        intros E. apply app_inv_head in E. done.
    + rewrite decide_False by (intros E; apply app_inv_head in E; congruence).
      apply (find_same_entry h h' d Hc a root); [done|done|]. by rewrite Hd, lookup_insert_ne.
  - rewrite decide_False by (intros ->; apply B; apply below_app).
    by apply (find_other h h' d Hc a root).
Qed.
Lemma answer_delete h h' d x a q : wf h → live h d a →
  (∀ d', d' ≠ d → contents h' d' = contents h d') →
  contents h' d = delete x (contents h d) →
  answer h' q = if decide (below (a ++ [x]) q) then None else answer h q.
Proof.
  intros W L Hc Hd. unfold live, answer in *.
  assert (U : ∀ b, find h root b = Some (NDir d) → b = a) by (intros b Fb; by eapply live_unique).
  pose proof (find_hit_dir h h' d Hc a root L U) as L'.
  destruct (decide (below a q)) as [[r ->]|B].
  - rewrite !find_app, L, L'. destruct r as [|y r].
    { rewrite decide_False; [done|]. intros [r E]. rewrite <- app_assoc in E. apply app_inv_head in E. done. }
    destruct (decide (x = y)) as [->|NE].
    + rewrite decide_True by (exists r; by rewrite <- app_assoc). rewrite find_cons, Hd, lookup_delete. done.
    + rewrite decide_False by (intros [r' E]; rewrite <- app_assoc in E; apply app_inv_head in E; simpl in E; congruence).
      apply (find_same_entry h h' d Hc a root); [done|done|]. by rewrite Hd, lookup_delete_ne.
  - rewrite decide_False by (intros [r ->]; apply B; rewrite <- app_assoc; apply below_app).
    by apply (find_other h h' d Hc a root).
Qed.
Lemma answer_dead h h' d q : (∀ a, answer h a ≠ Some (NDir d)) →
  (∀ d', d' ≠ d → contents h' d' = contents h d') → answer h' q = answer h q.
Proof. intros D Hc. unfold answer. by apply (find_miss h h' d Hc). Qed.

(** ** set_contents *)
Lemma contents_set h d c d' : has h d →
  contents (set_contents h d c) d' = if decide (d' = d) then c else contents h d'.
Proof.
  intros [dd E]. unfold contents, set_contents. rewrite E. simpl. destruct (decide (d' = d)) as [->|N].
  - by rewrite lookup_insert.
  - by rewrite lookup_insert_ne.
Qed.
Lemma encl_set h d c d' : encl (set_contents h d c) d' = encl h d'.
Proof.
  unfold encl, set_contents. destruct (h_dirs h !! d) as [dd|] eqn:E; [|done]. simpl.
  destruct (decide (d' = d)) as [->|N]; [by rewrite lookup_insert, E|by rewrite lookup_insert_ne].
Qed.
Lemma has_set h d c d' : has (set_contents h d c) d' ↔ has h d'.
Proof.
  unfold has, set_contents. destruct (h_dirs h !! d) as [dd|] eqn:E; [|done]. simpl.
  destruct (decide (d' = d)) as [->|N]; [rewrite lookup_insert, E; split; eauto|by rewrite lookup_insert_ne].
Qed.
Lemma next_set h d c : h_next (set_contents h d c) = h_next h.
Proof. unfold set_contents. by destruct (h_dirs h !! d). Qed.
Lemma units_set h d c : h_units (set_contents h d c) = h_units h.
Proof. unfold set_contents. by destruct (h_dirs h !! d). Qed.
Lemma contents_none h d : ¬ has h d → contents h d = ∅.
Proof. unfold has, contents. destruct (h_dirs h !! d); [|done]. intros H. exfalso. apply H. eauto. Qed.
Lemma contents_has h d x e : contents h d !! x = Some e → has h d.
Proof. unfold has, contents. destruct (h_dirs h !! d); [eauto|]. by rewrite lookup_empty. Qed.
Lemma has_bump h d : has (bump h) d ↔ has h d.
Proof. done. Qed.

(** ** atomic steps *)
Definition op_ok {B} (o : op B) (h : heap) : Prop :=
  match o with
  | GetListEntry d _ => has h d
  | RemoveListEntry d _ => has h d
  | RemoveChildDirectory d child => has h d ∧ parentDir child = Some d ∧ ∃ c, has h c ∧ encl h c = Some child
  | CreateDirIfNeeded d n => has h d ∧ valid_component n
  | StoreMetric d n _ => has h d ∧ valid_component n
  | SetUnit _ _ => True
  | EnclosingEntry d => has h d
  end.
(** directories never disappear from the heap and keep their entry *)
Definition ext (h h' : heap) : Prop :=
  (∀ d, has h d → has h' d ∧ encl h' d = encl h d) ∧ h_next h ≤ h_next h'.
Lemma ext_refl h : ext h h.
Proof. split; auto. Qed.
Lemma ext_trans h1 h2 h3 : ext h1 h2 → ext h2 h3 → ext h1 h3.
Proof.
  intros [A1 B1] [A2 B2]. split; [|lia]. intros d H. destruct (A1 d H) as [H1 E1]. destruct (A2 d H1) as [H2 E2].
  split; [done|congruence].
Qed.

(** how a step changes the heap *)
Inductive change (h h' : heap) : Prop :=
| ChNone : (∀ d, contents h' d = contents h d) → (∀ d, encl h' d = encl h d) → (∀ d, has h' d ↔ has h d) →
    h_next h' = h_next h → change h h'
| ChDelete d n : has h d →
    (∀ d', contents h' d' = if decide (d' = d) then delete n (contents h d) else contents h d') →
    (∀ d', encl h' d' = encl h d') → (∀ d', has h' d' ↔ has h d') → h_next h' = h_next h → change h h'
| ChDir d n e : has h d → valid_component n → contents h d !! n = None →
    e = Entry (h_next h) n (ODir (h_next h)) (encl h d) →
    (∀ d', contents h' d' = if decide (d' = d) then <[n := e]> (contents h d) else contents h d') →
    (∀ d', encl h' d' = if decide (d' = h_next h) then Some e else encl h d') →
    (∀ d', has h' d' ↔ (d' = h_next h ∨ has h d')) → h_next h' = S (h_next h) → change h h'
| ChMetric d n e m : has h d → valid_component n → contents h d !! n = None →
    e = Entry (h_next h) n (OMetric m) (encl h d) →
    (∀ d', contents h' d' = if decide (d' = d) then <[n := e]> (contents h d) else contents h d') →
    (∀ d', encl h' d' = encl h d') → (∀ d', has h' d' ↔ has h d') → h_next h' = S (h_next h) → change h h'.

Lemma not_has_next h : wf h → ¬ has h (h_next h).
Proof. intros W H. apply (wf_fresh _ W) in H. lia. Qed.

Lemma create_change h d n : wf h → has h d → valid_component n → contents h d !! n = None →
  let e := Entry (h_next h) n (ODir (h_next h)) (encl h d) in
  let h' := fst (op_sem (CreateDirIfNeeded d n) h) in
  (∀ d', contents h' d' = if decide (d' = d) then <[n := e]> (contents h d) else contents h d') ∧
  (∀ d', encl h' d' = if decide (d' = h_next h) then Some e else encl h d') ∧
  (∀ d', has h' d' ↔ (d' = h_next h ∨ has h d')) ∧ h_next h' = S (h_next h) ∧ h_units h' = h_units h.
Proof.
  intros W H V C e h'. pose proof (not_has_next h W) as NN.
  assert (Hne : d ≠ h_next h) by (intros E; apply NN; by rewrite <- E).
  unfold h', op_sem. rewrite C. simpl fst.
  set (h2 := set_contents (bump h) d _). split_and!.
  - intros d'. transitivity (if decide (d' = h_next h) then ∅ else contents h2 d').
    { unfold contents. simpl. destruct (decide (d' = h_next h)) as [->|N]; [by rewrite lookup_insert|by rewrite lookup_insert_ne]. }
    unfold h2. rewrite contents_set by done. destruct (decide (d' = h_next h)) as [->|N].
    + rewrite decide_False by done. by rewrite (contents_none h).
    + done.
  - intros d'. transitivity (if decide (d' = h_next h) then Some e else encl h2 d').
    { unfold encl. simpl. destruct (decide (d' = h_next h)) as [->|N]; [by rewrite lookup_insert|by rewrite lookup_insert_ne]. }
    unfold h2. by rewrite encl_set.
  - intros d'. unfold has; simpl. destruct (decide (d' = h_next h)) as [->|N].
    + rewrite lookup_insert. split; [by left|eauto].
    + rewrite lookup_insert_ne by done. fold (has h2 d'). unfold h2. rewrite has_set, has_bump. split; [by right|].
      intros [?|?]; done.
  - simpl. unfold h2. by rewrite next_set.
  - simpl. unfold h2. by rewrite units_set.
Qed.
Lemma store_change h d n m : wf h → has h d → valid_component n → contents h d !! n = None →
  let e := Entry (h_next h) n (OMetric m) (encl h d) in
  let h' := fst (op_sem (StoreMetric d n m) h) in
  (∀ d', contents h' d' = if decide (d' = d) then <[n := e]> (contents h d) else contents h d') ∧
  (∀ d', encl h' d' = encl h d') ∧
  (∀ d', has h' d' ↔ has h d') ∧ h_next h' = S (h_next h) ∧ h_units h' = h_units h.
Proof.
  intros W H V C e h'. unfold h', op_sem. rewrite C. simpl fst. split_and!.
  - intros d'. rewrite contents_set by done. done.
  - intros d'. by rewrite encl_set.
  - intros d'. by rewrite has_set.
  - by rewrite next_set.
  - by rewrite units_set.
Qed.
Lemma remove_change h d n : has h d →
  let h' := fst (op_sem (RemoveListEntry d n) h) in
  (∀ d', contents h' d' = if decide (d' = d) then delete n (contents h d) else contents h d') ∧
  (∀ d', encl h' d' = encl h d') ∧ (∀ d', has h' d' ↔ has h d') ∧ h_next h' = h_next h ∧ h_units h' = h_units h.
Proof.
  intros H. simpl. split_and!.
  - intros d'. by rewrite contents_set.
  - intros d'. by rewrite encl_set.
  - intros d'. by rewrite has_set.
  - by rewrite next_set.
  - by rewrite units_set.
Qed.
Lemma op_change {B} (o : op B) h : wf h → op_ok o h → change h (fst (op_sem o h)).
Proof.
  intros W K. assert (R : change h h) by (apply ChNone; done). destruct o as [d n|d n|d c|d n|d n m|di u|d]; simpl in K.
  - done.
  - destruct (remove_change h d n K) as (A & B0 & C & D & _). by eapply ChDelete.
  - destruct K as (H & P & c0 & Hc & E). cbn. destruct (contents h d !! e_name c) as [e|]; [|done].
    destruct (decide (e_id e = e_id c)); [|done].
    destruct (remove_change h d (e_name c) H) as (A & B0 & C & D & _). exact (ChDelete _ _ d (e_name c) H A B0 C D).
  - destruct K as (H & V). destruct (contents h d !! n) as [e|] eqn:C.
    + cbn. rewrite C. by destruct (e_obj e).
    + destruct (create_change h d n W H V C) as (A & B0 & C0 & D & _). by eapply ChDir.
  - destruct K as (H & V). destruct (contents h d !! n) as [e|] eqn:C.
    + cbn. by rewrite C.
    + destruct (store_change h d n m W H V C) as (A & B0 & C0 & D & _). by eapply ChMetric.
  - cbn. destruct (h_units h !! di); [done|by apply ChNone].
  - done.
Qed.
Lemma change_ext h h' : wf h → change h h' → ext h h'.
Proof.
  intros W []; split; try lia; intros d' H'.
  - split; [by apply H1|done].
  - split; [by apply H2|done].
  - split; [apply H5; by right|]. rewrite H4. rewrite decide_False; [done|]. intros ->. by apply (not_has_next h W).
  - split; [by apply H5|done].
Qed.
Lemma change_wf h h' : wf h → change h h' → wf h'.
Proof.
  intros W. pose proof (not_has_next h W) as NN. destruct 1 as [Hc He Hh Hn|d n Hd Hc He Hh Hn|d n e Hd V C Ee Hc He Hh Hn|d n e m Hd V C Ee Hc He Hh Hn].
  - destruct W as [W1 W2 W3 W4 W5 W6 W7]. split.
    + by rewrite Hh, He.
    + intros d H N. rewrite Hh in H. destruct (W2 d H N) as (e & A1 & A2 & A3 & A4 & pd & P1 & P2 & P3).
      exists e. rewrite He. split_and!; try done. exists pd. by rewrite He, Hh.
    + intros d. rewrite Hh, Hn. apply W3.
    + intros d x e. rewrite Hc, He, Hn. apply W4.
    + intros d x e d'. rewrite Hc, He, Hh. apply W5.
    + intros d x e m. rewrite Hc, Hh. apply W6.
    + intros d1 x1 e1 d2 x2 e2. rewrite !Hc. apply W7.
  - assert (Hc' : ∀ d' x e, contents h' d' !! x = Some e → contents h d' !! x = Some e).
    { intros d' x e. rewrite Hc. destruct (decide (d' = d)) as [->|]; [|done]. intros H. by apply lookup_delete_Some in H as [_ ?]. }
    destruct W as [W1 W2 W3 W4 W5 W6 W7]. split.
    + by rewrite Hh, He.
    + intros d0 H N. rewrite Hh in H. destruct (W2 d0 H N) as (e & A1 & A2 & A3 & A4 & pd & P1 & P2 & P3).
      exists e. rewrite He. split_and!; try done. exists pd. by rewrite He, Hh.
    + intros d0. rewrite Hh, Hn. apply W3.
    + intros d0 x e H. apply Hc' in H. rewrite He, Hn. by apply W4.
    + intros d0 x e d' H. apply Hc' in H. rewrite He, Hh. by eapply W5.
    + intros d0 x e m H. apply Hc' in H. rewrite Hh. by eapply W6.
    + intros d1 x1 e1 d2 x2 e2 H1 H2. apply Hc' in H1, H2. by eapply W7.
  - assert (Hdn : d ≠ h_next h) by (intros E; apply NN; by rewrite <- E).
    assert (Hc' : ∀ d' x e', contents h' d' !! x = Some e' → (d' = d ∧ x = n ∧ e' = e) ∨ contents h d' !! x = Some e').
    { intros d' x e'. rewrite Hc. destruct (decide (d' = d)) as [->|]; [|by right]. intros H.
      apply lookup_insert_Some in H as [[<- <-]|[_ ?]]; [left; done|by right]. }
    assert (He' : ∀ d', has h d' → encl h' d' = encl h d').
    { intros d' H. rewrite He. rewrite decide_False; [done|]. by intros ->. }
    destruct W as [W1 W2 W3 W4 W5 W6 W7]. split.
    + rewrite He' by apply W1. rewrite Hh. split; [right|]; apply W1.
    + intros d0 H N. rewrite He. rewrite Hh in H. destruct (decide (d0 = h_next h)) as [->|N'].
      * exists e. rewrite Ee. simpl. split_and!; try done. unfold parentDir. simpl.
        destruct (decide (d = root)) as [->|Nr].
        -- exists root. destruct W1 as [R1 R2]. rewrite R2. split; [done|]. rewrite He', Hh by done. auto.
        -- destruct (W2 d Hd Nr) as (ed & A1 & A2 & _). exists d. rewrite A1, A2. split; [done|].
           rewrite He', Hh by done. auto.
      * destruct H as [?|H]; [done|]. destruct (W2 d0 H N) as (e0 & A1 & A2 & A3 & A4 & pd & P1 & P2 & P3).
        exists e0. split_and!; try done. exists pd. rewrite He', Hh by done. auto.
    + intros d0. rewrite Hh, Hn. intros [->|H]; [lia|]. apply W3 in H. lia.
    + intros d0 x e0 H. rewrite Hn. apply Hc' in H as [(-> & -> & ->)|H].
      * rewrite Ee. simpl. rewrite He' by done. split_and!; try done. lia.
      * assert (has h d0) by (by eapply contents_has). rewrite He' by done. destruct (W4 _ _ _ H) as (?&?&?&?). split_and!; try done. lia.
    + intros d0 x e0 d' H O. rewrite Hh. apply Hc' in H as [(-> & -> & ->)|H].
      * rewrite Ee in O. simpl in O. injection O as <-. rewrite He, decide_True by done. rewrite Ee at 1. simpl. auto.
      * destruct (W5 _ _ _ _ H O) as (?&?&?). rewrite He' by done. auto.
    + intros d0 x e0 m H O. rewrite Hh. apply Hc' in H as [(-> & -> & ->)|H].
      * rewrite Ee in O. done.
      * intros [E|Hh0]; [|by eapply W6]. destruct (W4 _ _ _ H) as (_&_&_&L). lia.
    + assert (Hlt : ∀ d x e', contents h d !! x = Some e' → e_id e' < h_next h) by (intros ??? HH; apply (W4 _ _ _ HH)).
      intros d1 x1 e1 d2 x2 e2 H1 H2 I. apply Hc' in H1 as [(->&->&->)|H1]; apply Hc' in H2 as [(->&->&->)|H2]; try done.
      * apply Hlt in H2. rewrite Ee in I. simpl in I. lia.
      * apply Hlt in H1. rewrite Ee in I. simpl in I. lia.
      * by eapply W7.
  - assert (Hc' : ∀ d' x e', contents h' d' !! x = Some e' → (d' = d ∧ x = n ∧ e' = e) ∨ contents h d' !! x = Some e').
    { intros d' x e'. rewrite Hc. destruct (decide (d' = d)) as [->|]; [|by right]. intros H.
      apply lookup_insert_Some in H as [[<- <-]|[_ ?]]; [left; done|by right]. }
    destruct W as [W1 W2 W3 W4 W5 W6 W7]. split.
    + by rewrite Hh, He.
    + intros d0 H N. rewrite Hh in H. destruct (W2 d0 H N) as (e0 & A1 & A2 & A3 & A4 & pd & P1 & P2 & P3).
      exists e0. rewrite He. split_and!; try done. exists pd. by rewrite He, Hh.
    + intros d0. rewrite Hh, Hn. intros H. apply W3 in H. lia.
    + intros d0 x e0 H. rewrite Hn, He. apply Hc' in H as [(-> & -> & ->)|H].
      * rewrite Ee. simpl. split_and!; try done. lia.
      * destruct (W4 _ _ _ H) as (?&?&?&?). split_and!; try done. lia.
    + intros d0 x e0 d' H O. rewrite Hh, He. apply Hc' in H as [(-> & -> & ->)|H].
      * rewrite Ee in O. done.
      * by eapply W5.
    + intros d0 x e0 m0 H O. rewrite Hh. apply Hc' in H as [(-> & -> & ->)|H].
      * rewrite Ee. done.
      * by eapply W6.
    + assert (Hlt : ∀ d x e', contents h d !! x = Some e' → e_id e' < h_next h) by (intros ??? HH; apply (W4 _ _ _ HH)).
      intros d1 x1 e1 d2 x2 e2 H1 H2 I. apply Hc' in H1 as [(->&->&->)|H1]; apply Hc' in H2 as [(->&->&->)|H2]; try done.
      * apply Hlt in H2. rewrite Ee in I. simpl in I. lia.
      * apply Hlt in H1. rewrite Ee in I. simpl in I. lia.
      * by eapply W7.
Qed.
Lemma wf_init : wf init_heap.
Proof.
  assert (Hc : ∀ d, contents init_heap d = ∅).
  { intros d. unfold contents, init_heap. simpl. destruct (decide (d = root)) as [->|]; [by rewrite lookup_singleton|by rewrite lookup_singleton_ne]. }
  assert (Hh : ∀ d, has init_heap d → d = root).
  { intros d [dd H]. simpl in H. apply lookup_singleton_Some in H as [<- _]. done. }
  split.
  - split; [|done]. by eexists.
  - intros d H N. by apply Hh in H.
  - intros d ->%Hh. unfold root. simpl. lia.
  - intros d x e. by rewrite Hc.
  - intros d x e d'. by rewrite Hc.
  - intros d x e m. by rewrite Hc.
  - intros d1 x1 e1 d2 x2 e2. by rewrite Hc.
Qed.

(** every directory is live or dead *)
Lemma live_or_dead h d : wf h → (∃ a, live h d a) ∨ (∀ a, answer h a ≠ Some (NDir d)).
Proof.
  intros W. assert (D : live h d (dpath h d) ∨ answer h (dpath h d) ≠ Some (NDir d)).
  { unfold live. destruct (answer h (dpath h d)) as [[d'|e]|]; [|by right|by right].
    destruct (decide (d' = d)) as [->|N]; [by left|right; congruence]. }
  destruct D as [L|N]; [left; eauto|]. right. intros a L. apply N. by rewrite (live_path h a W d L).
Qed.

(** how a step changes what the package level functions answer *)
Inductive achange (h h' : heap) : Prop :=
| ASame : (∀ q, answer h' q = answer h q) → achange h h'
| ADelete d a n : live h d a → (∀ q, answer h' q = if decide (below (a ++ [n]) q) then None else answer h q) → achange h h'
| AInsert d a n e : live h d a → valid_component n → answer h (a ++ [n]) = None → e_id e = h_next h → ¬ has h (e_id e) →
    (∀ d', e_obj e = ODir d' → d' = h_next h) →
    (∀ q, answer h' q = if decide (q = a ++ [n]) then Some (node_of e) else answer h q) → achange h h'.

Lemma change_answer h h' : wf h → change h h' → achange h h'.
Proof.
  intros W CH. pose proof (not_has_next h W) as NN.
  destruct CH as [Hc He Hh Hn|d n Hd Hc He Hh Hn|d n e Hd V C Ee Hc He Hh Hn|d n e m Hd V C Ee Hc He Hh Hn].
  - apply ASame. intros q. unfold answer. generalize root. induction q as [|x q IH]; intros s; [done|].
    rewrite !find_cons, Hc. destruct (contents h s !! x) as [e|]; [|done]. destruct (e_obj e); [done|apply IH].
  - destruct (live_or_dead h d W) as [[a L]|D].
    + eapply (ADelete _ _ d a n); [done|]. intros q. eapply answer_delete; try done.
      * intros d' N. rewrite Hc. by rewrite decide_False.
      * rewrite Hc. by rewrite decide_True.
    + apply ASame. intros q. eapply answer_dead; [done|]. intros d' N. rewrite Hc. by rewrite decide_False.
  - destruct (live_or_dead h d W) as [[a L]|D].
    + assert (Hdn : h_next h ≠ d) by (intros E; apply NN; by rewrite E).
      eapply (AInsert _ _ d a n e); try done.
      * unfold answer. rewrite find_snoc. unfold live, answer in L. rewrite L, C. done.
      * by rewrite Ee.
      * by rewrite Ee.
      * rewrite Ee. simpl. congruence.
      * intros q. eapply (answer_insert h h' d n e a); try done.
        -- intros d' N. rewrite Hc. by rewrite decide_False.
        -- rewrite Hc. by rewrite decide_True.
        -- rewrite Ee. simpl. intros d' [=<-]. rewrite Hc, decide_False by done. by apply contents_none.
    + apply ASame. intros q. eapply answer_dead; [done|]. intros d' N. rewrite Hc. by rewrite decide_False.
  - destruct (live_or_dead h d W) as [[a L]|D].
    + eapply (AInsert _ _ d a n e); try done.
      * unfold answer. rewrite find_snoc. unfold live, answer in L. rewrite L, C. done.
      * by rewrite Ee.
      * by rewrite Ee.
      * rewrite Ee. simpl. congruence.
      * intros q. eapply (answer_insert h h' d n e a); try done.
        -- intros d' N. rewrite Hc. by rewrite decide_False.
        -- rewrite Hc. by rewrite decide_True.
        -- rewrite Ee. simpl. done.
    + apply ASame. intros q. eapply answer_dead; [done|]. intros d' N. rewrite Hc. by rewrite decide_False.
Qed.

(** dead directories stay dead *)
Lemma change_dead h h' c : wf h → change h h' → dead h c → dead h' c.
Proof.
  intros W CH [Hc D]. pose proof (not_has_next h W) as NN. split; [by apply (proj1 (change_ext h h' W CH))|].
  intros q. destruct (change_answer h h' W CH) as [S|d a n L S|d a n e L V N I F O S]; rewrite S; auto.
  - destruct (decide _); auto.
  - destruct (decide _); auto. intros [=E]. apply node_of_dir in E. apply O in E. subst c. done.
Qed.
(** a live directory that stays live keeps its path *)
Lemma change_live h h' c a b : wf h → change h h' → live h c a → live h' c b → b = a.
Proof.
  intros W CH L L'. rewrite <- (live_path h a W c L). rewrite <- (live_path h' b (change_wf h h' W CH) c L').
  unfold dpath. destruct (change_ext h h' W CH) as [E _]. by destruct (E c (live_exists h c a W L)) as [_ ->].
Qed.

(** ** programs under interference: every step is performed on a well formed extension *)
Fixpoint safe {A} (p : prog A) (Q : heap → A → Prop) (h : heap) : Prop :=
  match p with
  | Ret a => Q h a
  | Step o k => ∀ h', wf h' → ext h h' → op_ok o h' ∧ safe (k (snd (op_sem o h'))) Q (fst (op_sem o h'))
  end.
Lemma safe_ext {A} (p : prog A) (Q : heap → A → Prop) h h' : (∀ h1 h2 a, ext h1 h2 → Q h1 a → Q h2 a) → ext h h' → safe p Q h → safe p Q h'.
Proof.
  intros HQ E. destruct p as [a|B o k]; simpl; [by apply HQ|]. intros S h2 W2 E2. apply S; [done|]. by eapply ext_trans.
Qed.
Lemma safe_bind {A B} (p : prog A) (f : A → prog B) (Q : heap → A → Prop) (R : heap → B → Prop) h :
  safe p Q h → (∀ h' a, Q h' a → safe (f a) R h') → safe (bind p f) R h.
Proof.
  revert h. induction p as [a|B0 o k IH]; simpl; intros h S F; [by apply F|].
  intros h' W E. destruct (S h' W E) as [K S']. split; [done|]. by apply IH.
Qed.
Lemma safe_run {A} (p : prog A) (Q : heap → A → Prop) h : wf h → safe p Q h →
  wf (fst (run p h)) ∧ ext h (fst (run p h)) ∧ Q (fst (run p h)) (snd (run p h)).
Proof.
  revert h. induction p as [a|B o k IH]; simpl; intros h W S; [split_and!; auto using ext_refl|].
  destruct (S h W (ext_refl h)) as [K S']. pose proof (op_change o h W K) as CH.
  destruct (op_sem o h) as [h1 b] eqn:E; simpl in *.
  destruct (IH b h1 (change_wf h h1 W CH) S') as (A1 & A2 & A3). split_and!; try done.
  eapply ext_trans; [by apply change_ext|done].
Qed.

Lemma ext_has h h' d : ext h h' → has h d → has h' d.
Proof. intros [E _] H. by apply E. Qed.
Lemma entry_dir_has h d x e d' : wf h → contents h d !! x = Some e → e_obj e = ODir d' → has h d'.
Proof. intros W C O. by destruct (wf_entry_dir _ W _ _ _ _ C O) as (_&_&?). Qed.

Definition hasopt (h : heap) (r : option nat) : Prop := match r with Some d => has h d | None => True end.
Definition hassum {E} (h : heap) (r : nat + E) : Prop := match r with inl d => has h d | inr _ => True end.
Lemma safe_getDirectory p : ∀ h d, has h d → safe (getDirectory d p) hasopt h.
Proof.
  induction p as [|x p IH]; intros h d H; simpl; [done|]. intros h' W E. split; [by eapply ext_has|].
  destruct (contents h' d !! x) as [e|] eqn:C; simpl; [|done]. destruct (e_obj e) eqn:O; simpl; [done|].
  apply IH. by eapply entry_dir_has.
Qed.
Lemma safe_getDirectoryAndError p : ∀ h d, has h d → safe (getDirectoryAndError d p) hassum h.
Proof.
  induction p as [|x p IH]; intros h d H; simpl; [done|]. intros h' W E. split; [by eapply ext_has|].
  destruct (contents h' d !! x) as [e|] eqn:C; simpl; [|done]. destruct (e_obj e) eqn:O; simpl; [done|].
  apply IH. by eapply entry_dir_has.
Qed.
Lemma create_res h d x : wf h → has h d → valid_component x →
  match snd (op_sem (CreateDirIfNeeded d x) h) with
  | inl d' => contents h d !! x = None ∧ d' = h_next h ∧ has (fst (op_sem (CreateDirIfNeeded d x) h)) d'
              ∨ ∃ e, contents h d !! x = Some e ∧ e_obj e = ODir d' ∧ has h d' ∧ fst (op_sem (CreateDirIfNeeded d x) h) = h
  | inr er => er = ErrPathInUse ∧ (∃ e m, contents h d !! x = Some e ∧ e_obj e = OMetric m)
              ∧ fst (op_sem (CreateDirIfNeeded d x) h) = h
  end.
Proof.
  intros W H V. destruct (contents h d !! x) as [e|] eqn:C.
  - unfold op_sem. rewrite C. destruct (e_obj e) as [m|d'] eqn:O; simpl.
    + split_and!; eauto.
    + right. exists e. split_and!; try done. by eapply entry_dir_has.
  - destruct (create_change h d x W H V C) as (_ & _ & A & _). unfold op_sem in *. rewrite C in *. simpl in *.
    left. split_and!; try done. apply A. by left.
Qed.
Lemma safe_registerDirectory p : Forall valid_component p → ∀ h d, has h d → safe (registerDirectory d p) hassum h.
Proof.
  induction 1 as [|x p V _ IH]; intros h d H; [done|]. cbn [registerDirectory bind atomic safe]. intros h' W E.
  assert (H' : has h' d) by (by eapply ext_has). split; [by split|].
  pose proof (create_res h' d x W H' V) as R.
  destruct (snd (op_sem (CreateDirIfNeeded d x) h')) as [d'|er]; [|done]. apply IH.
  destruct R as [(_&_&R)|(e&_&_&R&Eq)]; [done|]. rewrite Eq. done.
Qed.
Lemma safe_registerMetric p m h d : Forall valid_component p → has h d → safe (registerMetric d p m) (λ _ _, True) h.
Proof.
  intros V H. unfold registerMetric. destruct (Dir_Base p) as [[-> ->]|(a & x & -> & -> & ->)]; [done|].
  apply Forall_app in V as [Va Vx]. inversion Vx; subst. eapply safe_bind; [by apply safe_registerDirectory|].
  intros h1 [d1|er] H1; [|done]. simpl in H1.
  assert (St : ∀ h0, ext h1 h0 → safe (do e <- atomic (StoreMetric d1 x m); Ret match (e : option err) with None => MOk | Some e => MErr e end) (λ _ _, True) h0).
  { intros h0 E0. cbn. intros h2 W2 E2. split; [|done]. split; [|done]. eapply ext_has; [|done]. by eapply ext_trans. }
  destruct (mi_spec m) as [di|v|v|v]; cbn [newValue bind atomic safe]; try done.
  - intros h2 W2 E2. split; [done|]. pose proof (op_change (SetUnit di (mi_unit m)) h2 W2 I) as CH.
    pose proof (change_ext _ _ W2 CH) as E3.
    destruct (snd (op_sem (SetUnit di (mi_unit m)) h2)); cbn [safe bind]; [|done]. apply St. by eapply ext_trans.
  - apply St. apply ext_refl.
Qed.
Lemma safe_getDirectoryOrMetric p h d : has h d →
  safe (getDirectoryOrMetric d p) (λ h' r, match r with Some (NDir d') => has h' d' | _ => True end) h.
Proof.
  intros H. unfold getDirectoryOrMetric. destruct (Dir_Base p) as [[-> ->]|(a & x & -> & -> & ->)]; [done|].
  eapply safe_bind; [by apply safe_getDirectory|]. intros h1 [d1|] H1; [|done]. simpl in H1. cbn. intros h2 W2 E2.
  split; [by eapply ext_has|]. destruct (contents h2 d1 !! x) as [e|] eqn:C; simpl; [|done].
  unfold node_of. destruct (e_obj e) eqn:O; [done|]. by eapply entry_dir_has.
Qed.
Lemma safe_unregisterPath p h d : has h d → safe (unregisterPath d p) (λ _ _, True) h.
Proof.
  intros H. unfold unregisterPath. destruct (Dir_Base p) as [[-> ->]|(a & x & -> & -> & ->)]; [done|].
  eapply safe_bind; [by apply safe_getDirectory|]. intros h1 [d1|] H1; [|done]. simpl in H1. cbn. intros h2 W2 E2.
  split; [by eapply ext_has|done].
Qed.
Lemma safe_unregisterDirectory h d : has h d → safe (unregisterDirectory d) (λ _ _, True) h.
Proof.
  intros H. cbn. intros h' W E. assert (H' : has h' d) by (by eapply ext_has). split; [done|].
  destruct (encl h' d) as [e|] eqn:EE; [|done].
  destruct (decide (d = root)) as [->|N]; [by rewrite (encl_root h' W) in EE|].
  destruct (wf_encl _ W d H' N) as (e' & E' & O & I & V & pd & P & P2 & P3). rewrite E' in EE. injection EE as ->.
  rewrite P. cbn. intros h2 W2 E2. split; [|done]. split; [by eapply ext_has|]. split; [done|]. exists d.
  split; [by eapply ext_has|]. destruct E2 as [E2 _]. by destruct (E2 d H') as [_ ->].
Qed.

(** ** sequential specifications *)
Lemma answer_none_app h a b : answer h a = None → answer h (a ++ b) = None.
Proof. unfold answer. rewrite find_app. by intros ->. Qed.
Lemma answer_metric_app h a b : is_metric (answer h a) → b ≠ [] → answer h (a ++ b) = None.
Proof. unfold answer. rewrite find_app. intros [e ->]. by destruct b. Qed.
Lemma live_below h d a q : live h d a → below q a → is_dir (answer h q).
Proof.
  intros L [r ->]. unfold live, answer, is_dir in *. rewrite find_app in L. destruct (find h root q) as [[d'|e]|]; [eauto| |done].
  by destruct r.
Qed.
Lemma live_app h d a b : live h d a → answer h (a ++ b) = find h d b.
Proof. unfold live, answer. rewrite find_app. by intros ->. Qed.
Lemma below_snoc q a x : below q (a ++ [x]) ↔ below q a ∨ q = a ++ [x].
Proof.
  split.
  - intros [r E]. destruct r as [|y r _] using rev_ind; [right; by rewrite app_nil_r in E|].
    rewrite app_assoc in E. apply app_inj_tail in E as [-> _]. left. by exists r.
  - intros [[r ->]| ->]; [exists (r ++ [x]); by rewrite app_assoc|apply below_refl].
Qed.
Lemma below_trans a b c : below a b → below b c → below a c.
Proof. intros [r ->] [r' ->]. exists (r ++ r'). by rewrite app_assoc. Qed.
Lemma below_antisym a b : below a b → below b a → a = b.
Proof.
  intros [r ->] [r' E]. rewrite <- app_assoc in E. rewrite <- (app_nil_r a) in E at 1. apply app_inv_head in E.
  destruct r; [by rewrite app_nil_r|done].
Qed.
Lemma adds_dirs_refl h p d : live h d p → adds_dirs h h p.
Proof.
  intros L q. split_and!; [done| |done]. intros N B. destruct (live_below h d p q L B) as [d' E]. congruence.
Qed.
Lemma adds_dirs_trans h1 h2 h3 p q : adds_dirs h1 h2 p → adds_dirs h2 h3 q → below p q → adds_dirs h1 h3 q.
Proof.
  intros A B P r. destruct (A r) as (A1 & A2 & A3). destruct (B r) as (B1 & B2 & B3). split_and!.
  - intros N. rewrite <- (A1 N). apply B1. by rewrite (A1 N).
  - intros N Bl. destruct (decide (below r p)) as [Bp|Np].
    + destruct (A2 N Bp) as [d E]. exists d. rewrite <- E. apply B1. by rewrite E.
    + apply B2; auto.
  - intros N Nb. destruct (decide (below r p)) as [Bp|Np].
    + exfalso. apply Nb. by eapply below_trans.
    + apply B3; auto.
Qed.

Lemma create_spec h d a x : wf h → live h d a → valid_component x →
  let '(h', r) := op_sem (CreateDirIfNeeded d x) h in
  wf h' ∧ ext h h' ∧ h_units h' = h_units h ∧
  match r with
  | inl d' => live h' d' (a ++ [x]) ∧ adds_dirs h h' (a ++ [x]) ∧
      (is_dir (answer h (a ++ [x])) ∧ h' = h ∨ answer h (a ++ [x]) = None)
  | inr er => er = ErrPathInUse ∧ h' = h ∧ is_metric (answer h (a ++ [x]))
  end.
Proof.
  intros W L V. pose proof (live_exists h d a W L) as H.
  assert (K : op_ok (CreateDirIfNeeded d x) h) by done.
  pose proof (op_change _ h W K) as CH.
  assert (Ans : answer h (a ++ [x]) = node_of <$> contents h d !! x).
  { unfold answer. rewrite find_snoc. unfold live, answer in L. by rewrite L. }
  destruct (contents h d !! x) as [e|] eqn:C.
  - unfold op_sem in *. rewrite C in *. simpl in Ans. unfold node_of in Ans. destruct (e_obj e) as [m|d'] eqn:O.
    + split_and!; auto using ext_refl. by exists e.
    + split_and!; auto using ext_refl; [by eapply adds_dirs_refl|]. left. split; [by exists d'|done].
  - destruct (create_change h d x W H V C) as (Hc & He & Hh & Hn & Hu).
    destruct (op_sem (CreateDirIfNeeded d x) h) as [h' r] eqn:E. simpl in *.
    assert (r = inl (h_next h)) as ->. { unfold op_sem in E. rewrite C in E. by inversion E. }
    split_and!; [by eapply change_wf|by eapply change_ext|done| | |by right].
    all: pose proof (not_has_next h W) as NN.
    all: assert (Ans' : ∀ q, answer h' q = if decide (q = a ++ [x]) then Some (NDir (h_next h)) else answer h q).
    1,3: intros q; eapply (answer_insert h h' d x (Entry (h_next h) x (ODir (h_next h)) (encl h d)) a q); try done;
      [intros d' N; rewrite Hc; by rewrite decide_False|rewrite Hc; by rewrite decide_True|
       simpl; intros d' [=<-]; rewrite Hc, decide_False by (intros E'; apply NN; by rewrite E'); by apply contents_none].
    + unfold live. rewrite Ans'. by rewrite decide_True.
    + intros q. rewrite Ans'. split_and!.
      * intros N. rewrite decide_False; [done|]. intros ->. done.
      * intros N [B| ->]%below_snoc; [|rewrite decide_True by done; by eexists].
        destruct (live_below h d a q L B) as [d' E']. congruence.
      * intros N B. rewrite decide_False; [done|]. intros ->. apply B, below_refl.
Qed.

Lemma registerDirectory_spec p : Forall valid_component p → ∀ h d a, wf h → live h d a →
  let '(h', r) := run (registerDirectory d p) h in
  wf h' ∧ ext h h' ∧ h_units h' = h_units h ∧
  match r with
  | inl d' => live h' d' (a ++ p) ∧ adds_dirs h h' (a ++ p)
  | inr er => er = ErrPathInUse ∧ h' = h ∧ ∃ q, below q (a ++ p) ∧ is_metric (answer h q)
  end.
Proof.
  induction 1 as [|x p V _ IH]; intros h d a W L.
  - simpl. rewrite app_nil_r. split_and!; auto using ext_refl. by eapply adds_dirs_refl.
  - cbn [registerDirectory bind atomic run]. pose proof (create_spec h d a x W L V) as C.
    destruct (op_sem (CreateDirIfNeeded d x) h) as [h1 r]. destruct C as (W1 & E1 & U1 & C).
    destruct r as [d1|er].
    + destruct C as (L1 & A1 & C). specialize (IH h1 d1 (a ++ [x]) W1 L1). cbn [bind].
      destruct (run (registerDirectory d1 p) h1) as [h2 r]. destruct IH as (W2 & E2 & U2 & IH).
      rewrite <- app_assoc in IH. simpl in IH.
      split; [done|]. split; [by eapply ext_trans|]. split; [congruence|]. destruct r as [d2|er].
      * destruct IH as [L2 A2]. split; [done|]. eapply adds_dirs_trans; [done|done|]. exists p. by rewrite <- app_assoc.
      * destruct IH as (-> & -> & q & B & M). split; [done|]. destruct C as [[D ->]|N]; [eauto|]. exfalso.
        destruct (A1 q) as (_ & A2 & A3). destruct (answer h q) as [n|] eqn:Eq.
        -- destruct (A1 q) as (A4 & _). rewrite A4 in M by congruence.
           (* q is a prefix of a ++ x :: p that exists in h, so a prefix of a *)
           destruct B as [r B]. destruct (decide (below (a ++ [x]) q)) as [[r' ->]|Nb].
           { rewrite (answer_none_app h (a ++ [x]) r' N) in Eq. done. }
           assert (Ba : below q a).
           { clear -B Nb. revert q B Nb. induction a as [|y a IHa]; intros q B Nb; simpl in *.
             - destruct q as [|z q]; [by exists []|]. simpl in B. injection B as <- E. exfalso. apply Nb. by exists q.
             - destruct q as [|z q]; [by eexists|]. simpl in B. injection B as <- E. destruct (IHa q E) as [s ->].
               + intros [s ->]. apply Nb. by exists s.
               + by exists s. }
           destruct (live_below h d a q L Ba) as [d' E']. rewrite Eq in M. destruct M as [e M]. congruence.
        -- destruct (decide (below q (a ++ [x]))) as [B'|B'].
           ++ destruct (A2 eq_refl B') as [d' E']. destruct M as [e M]. congruence.
           ++ rewrite (A3 eq_refl B') in M. by destruct M.
    + destruct C as (-> & -> & M). cbn. split_and!; auto using ext_refl. exists (a ++ [x]). split; [|done].
      exists p. by rewrite <- app_assoc.
Qed.

(** a live handle and the absolute path it stands for are interchangeable *)
Lemma run_getDirectory_app h d a r : live h d a → run (getDirectory root (a ++ r)) h = run (getDirectory d r) h.
Proof. intros L. rewrite !run_getDirectory. f_equal. pose proof (live_app h d a r L) as E. unfold answer in E. by rewrite E. Qed.
Lemma run_getDirectoryAndError_app h a r : ∀ s d, find h s a = Some (NDir d) →
  run (getDirectoryAndError s (a ++ r)) h = run (getDirectoryAndError d r) h.
Proof.
  induction a as [|x a IH]; intros s d F; [simpl in F; by inversion F|]. simpl. rewrite find_cons in F.
  destruct (contents h s !! x) as [e|]; [|done]. destruct (e_obj e); [by destruct a|]. simpl. by apply IH.
Qed.
Lemma run_registerDirectory_app h a r : ∀ s d, find h s a = Some (NDir d) →
  run (registerDirectory s (a ++ r)) h = run (registerDirectory d r) h.
Proof.
  induction a as [|x a IH]; intros s d F; [simpl in F; by inversion F|]. rewrite find_cons in F.
  cbn [app registerDirectory bind atomic run op_sem].
  destruct (contents h s !! x) as [e|]; [|done]. destruct (e_obj e); [by destruct a|]. simpl. by apply IH.
Qed.
Lemma Dir_Base_app a r : r ≠ [] → ∃ r' x, r = r' ++ [x] ∧ Dir r = Some r' ∧ Base r = Some x ∧
  Dir (a ++ r) = Some (a ++ r') ∧ Base (a ++ r) = Some x.
Proof.
  intros N. destruct (Dir_Base r) as [[-> _]|(r' & x & E & D & B)]; [done|]. exists r', x. split_and!; try done.
  - destruct (Dir_Base (a ++ r)) as [[E' _]|(r2 & x2 & E' & D' & _)]; [by destruct a, r|].
    rewrite E, app_assoc in E'. apply app_inj_tail in E' as [-> _]. done.
  - destruct (Dir_Base (a ++ r)) as [[E' _]|(r2 & x2 & E' & _ & B')]; [by destruct a, r|].
    rewrite E, app_assoc in E'. apply app_inj_tail in E' as [_ ->]. done.
Qed.
Lemma run_registerMetric_app h d a r m : live h d a → r ≠ [] →
  run (registerMetric root (a ++ r) m) h = run (registerMetric d r m) h.
Proof.
  intros L N. destruct (Dir_Base_app a r N) as (r' & x & -> & D & B & D' & B'). unfold registerMetric.
  rewrite D, B, D', B'. rewrite !run_bind. by rewrite (run_registerDirectory_app h a r' root d L).
Qed.
Lemma run_unregisterPath_app h d a r : live h d a → r ≠ [] →
  run (unregisterPath root (a ++ r)) h = run (unregisterPath d r) h.
Proof.
  intros L N. destruct (Dir_Base_app a r N) as (r' & x & -> & D & B & D' & B'). unfold unregisterPath.
  rewrite D, B, D', B'. rewrite !run_bind. by rewrite (run_getDirectory_app h d a r' L).
Qed.
Lemma run_unregisterDirectory h d a : wf h → live h d a → a ≠ [] →
  run (unregisterDirectory d) h = run (unregisterPath root a) h.
Proof.
  intros W L N. destruct (Dir_Base a) as [[-> _]|(a' & x & E & D & B)]; [done|]. subst a.
  pose proof L as L0. apply find_dir_inv in L0 as (d0 & e & F & C & O).
  destruct (wf_entry_dir _ W _ _ _ _ C O) as (I & Ee & Hd). destruct (wf_entry _ W _ _ _ C) as (En & V & Ep & _).
  assert (Pd : parentDir e = Some d0).
  { unfold parentDir. rewrite Ep. destruct (decide (d0 = root)) as [->|Nr]; [by rewrite encl_root|].
    destruct (wf_encl _ W d0 (contents_has _ _ _ _ C) Nr) as (e0 & -> & -> & _). done. }
  unfold unregisterPath. rewrite D, B, run_bind, run_getDirectory, F.
  unfold unregisterDirectory. cbn. rewrite Ee, Pd. cbn. rewrite En, C. rewrite decide_True by done. done.
Qed.

(** ** RegisterMetric *)
Lemma store_spec h d a x m : wf h → live h d a → valid_component x →
  let '(h', r) := op_sem (StoreMetric d x m) h in
  wf h' ∧ ext h h' ∧ h_units h' = h_units h ∧
  match r with
  | None => answer h (a ++ [x]) = None ∧ ∃ e, e_obj e = OMetric m ∧
      ∀ q, answer h' q = if decide (q = a ++ [x]) then Some (NMetric e) else answer h q
  | Some er => er = ErrPathInUse ∧ h' = h ∧ answer h (a ++ [x]) ≠ None
  end.
Proof.
  intros W L V. pose proof (live_exists h d a W L) as H.
  assert (K : op_ok (StoreMetric d x m) h) by done.
  pose proof (op_change _ h W K) as CH.
  assert (Ans : answer h (a ++ [x]) = node_of <$> contents h d !! x).
  { unfold answer. rewrite find_snoc. unfold live, answer in L. by rewrite L. }
  destruct (contents h d !! x) as [e|] eqn:C.
  - unfold op_sem in *. rewrite C in *. simpl in Ans. split_and!; auto using ext_refl. by rewrite Ans.
  - destruct (store_change h d x m W H V C) as (Hc & He & Hh & Hn & Hu).
    destruct (op_sem (StoreMetric d x m) h) as [h' r] eqn:E. simpl in *.
    assert (r = None) as ->. { unfold op_sem in E. rewrite C in E. by inversion E. }
    split_and!; [by eapply change_wf|by eapply change_ext|done|done|].
    exists (Entry (h_next h) x (OMetric m) (encl h d)). split; [done|]. intros q.
    eapply (answer_insert h h' d x (Entry (h_next h) x (OMetric m) (encl h d)) a q); try done;
      [intros d' N; rewrite Hc; by rewrite decide_False|rewrite Hc; by rewrite decide_True].
Qed.
Lemma setUnit_spec h di u : let '(h', ok) := op_sem (SetUnit di u) h in
  h_dirs h' = h_dirs h ∧ h_next h' = h_next h ∧
  match h_units h !! di with
  | None => ok = true ∧ h_units h' = <[di := u]> (h_units h)
  | Some u' => ok = bool_decide (u = u') ∧ h' = h
  end.
Proof. cbn. destruct (h_units h !! di); done. Qed.

Lemma find_dirs h h' : h_dirs h' = h_dirs h → ∀ q s, find h' s q = find h s q.
Proof.
  intros E. induction q as [|x q IH]; intros s; [done|]. rewrite !find_cons. unfold contents. rewrite E.
  destruct (match h_dirs h !! s with Some dd => d_contents dd | None => ∅ end !! x) as [e|]; [|done].
  destruct (e_obj e); [done|apply IH].
Qed.
Lemma answer_dirs h h' q : h_dirs h' = h_dirs h → answer h' q = answer h q.
Proof. intros E. by apply find_dirs. Qed.
Lemma newValue_spec h m : wf h →
  let '(h', r) := run (newValue (mi_spec m) (mi_unit m)) h in
  wf h' ∧ ext h h' ∧ h_dirs h' = h_dirs h ∧
  match r with
  | MOk => accepts h m
  | _ => h' = h ∧ ¬ accepts h m ∧
         match mi_spec m, r with MDist di, MErr ErrWrongUnit => ∃ u, h_units h !! di = Some u ∧ u ≠ mi_unit m | MBadType _, MErr ErrWrongType => True | MPanics _, MPanicked => True | _, _ => False end
  end.
Proof.
  intros W. unfold accepts. destruct (mi_spec m) as [di|v|v|v]; try (cbn; split_and!; auto using ext_refl; done).
  cbn [newValue bind atomic run].
  pose proof (setUnit_spec h di (mi_unit m)) as S. pose proof (op_change (SetUnit di (mi_unit m)) h W I) as CH.
  destruct (op_sem (SetUnit di (mi_unit m)) h) as [h' ok]. destruct S as (Sd & Sn & S). simpl in CH.
  pose proof (change_wf _ _ W CH). pose proof (change_ext _ _ W CH).
  destruct (h_units h !! di) as [u|].
  - destruct S as [-> ->]. destruct (bool_decide_reflect (mi_unit m = u)) as [->|N]; cbn; split_and!; auto.
    + intros [?|?]; congruence.
    + exists u. split; congruence.
  - destruct S as [-> S]. cbn. split_and!; auto.
Qed.

Lemma adds_dirs_below h h' p d : live h' d p → adds_dirs h h' p → ∀ q, below q p → ¬ is_metric (answer h q).
Proof.
  intros L A q B [e M]. destruct (live_below h' d p q L B) as [d' E]. destruct (A q) as (A1 & _). rewrite A1 in E; congruence.
Qed.
Lemma registerMetric_spec h d a p m : Forall valid_component p → wf h → live h d a →
  let '(h', r) := run (registerMetric d p m) h in
  wf h' ∧ ext h h' ∧
  match r with
  | MOk => ¬ obstructed h (a ++ p) ∧ p ≠ [] ∧ accepts h m ∧ adds_at h h' (a ++ p) ∧
           ∃ e, answer h' (a ++ p) = Some (NMetric e) ∧ e_obj e = OMetric m
  | MErr ErrPathInUse => (p = [] ∨ obstructed h (a ++ p)) ∧ same_answers h h'
  | MErr ErrWrongType => ¬ accepts h m ∧ p ≠ [] ∧ answer h' (a ++ p) = answer h (a ++ p) ∧ adds_at h h' (a ++ p) ∧ h_units h' = h_units h ∧ ∃ v, mi_spec m = MBadType v
  | MErr ErrWrongUnit => ¬ accepts h m ∧ p ≠ [] ∧ answer h' (a ++ p) = answer h (a ++ p) ∧ adds_at h h' (a ++ p) ∧ h_units h' = h_units h ∧
           ∃ di u, mi_spec m = MDist di ∧ h_units h !! di = Some u ∧ u ≠ mi_unit m
  | MErr ErrNotFound => False
  | MPanicked => ¬ accepts h m ∧ p ≠ [] ∧ answer h' (a ++ p) = answer h (a ++ p) ∧ adds_at h h' (a ++ p) ∧ h_units h' = h_units h ∧ ∃ v, mi_spec m = MPanics v
  end.
Proof.
  intros V W L. unfold registerMetric. destruct (Dir_Base p) as [[-> ->]|(p' & x & -> & -> & ->)].
  { cbn. split_and!; auto using ext_refl. by intros q. }
  apply Forall_app in V as [Vp Vx]. inversion Vx as [|? ? Vx' _]; subst.
  rewrite run_bind. pose proof (registerDirectory_spec p' Vp h d a W L) as R.
  destruct (run (registerDirectory d p') h) as [h1 [d1|er]]; destruct R as (W1 & E1 & U1 & R).
  2: { destruct R as (-> & -> & q & B & M). cbn. split_and!; auto.
       - right. right. right. exists q. split; [|done]. destruct B as [r B]. rewrite app_assoc, B.
         destruct r as [|y r]; [exists x, []; by rewrite app_nil_r|]. exists y, (r ++ [x]). by rewrite <- app_assoc.
       - by intros q'. }
  destruct R as [L1 A1]. rewrite app_assoc. set (b := a ++ p') in *.
  assert (Nb : ∀ q, below q b → q ≠ b ++ [x]).
  { intros q [r E] ->. rewrite <- app_assoc in E. rewrite <- (app_nil_r b) in E at 1. apply app_inv_head in E. done. }
  assert (Bx : answer h1 (b ++ [x]) = answer h (b ++ [x])).
  { destruct (A1 (b ++ [x])) as (X1 & X2 & X3). destruct (answer h (b ++ [x])) eqn:E; [apply X1; congruence|].
    apply X3; [done|]. intros B. by apply (Nb _ B). }
  assert (At : adds_at h h1 (b ++ [x])).
  { intros q Nq. destruct (A1 q) as (X1 & X2 & X3). split_and!; [done| |].
    - intros N [B|?]%below_snoc; [|done]. destruct (X2 N B) as [d' E]. by exists d'.
    - intros N B. apply X3; [done|]. intros B'. apply B. apply below_snoc. by left. }
  rewrite run_bind. pose proof (newValue_spec h1 m W1) as NV.
  destruct (run (newValue (mi_spec m) (mi_unit m)) h1) as [h2 v]. destruct NV as (W2 & E2 & D2 & NV).
  assert (Acc : accepts h1 m ↔ accepts h m) by (unfold accepts; by rewrite U1).
  destruct v as [|er|].
  - (* the object is fine: store it *)
    assert (L2 : live h2 d1 b) by (unfold live; by rewrite (answer_dirs h1 h2)).
    cbn [bind atomic run]. pose proof (store_spec h2 d1 b x m W2 L2 Vx') as S.
    destruct (op_sem (StoreMetric d1 x m) h2) as [h3 r]. destruct S as (W3 & E3 & U3 & S).
    split; [by destruct r|]. split; [by eapply ext_trans; [|eapply ext_trans]|]. destruct r as [er|].
    + destruct S as (-> & -> & Nn). rewrite (answer_dirs h1 h2 _ D2) in Nn. rewrite Bx in Nn. split; [right; right; by left|].
      intros q. rewrite (answer_dirs h1 h2 _ D2). destruct (A1 q) as (X1 & X2 & X3).
      destruct (answer h q) eqn:E; [apply X1; congruence|]. apply X3; [done|]. intros [r B].
      apply Nn. rewrite B, <- app_assoc. by apply answer_none_app.
    + destruct S as (Nn & e & Oe & S). rewrite (answer_dirs h1 h2 _ D2) in Nn. rewrite Bx in Nn. split_and!.
      * intros [E|[E|(q & (y & r & E) & M)]].
        -- by destruct b.
        -- done.
        -- assert (B : below q b).
           { destruct (decide (r = [])) as [->|Nr].
             - apply app_inj_tail in E as [-> _]. apply below_refl.
             - destruct r as [|z r _] using rev_ind; [done|]. rewrite app_comm_cons, app_assoc in E.
               apply app_inj_tail in E as [-> _]. by eexists. }
           by apply (adds_dirs_below h h1 b d1 L1 A1 q B).
      * by destruct p'.
      * by apply Acc.
      * intros q Nq. rewrite S. rewrite decide_False by done. rewrite (answer_dirs h1 h2 _ D2). by apply At.
      * exists e. split; [|done]. rewrite S. by rewrite decide_True.
  - destruct NV as (-> & Na & NV). cbn. destruct (mi_spec m) as [di|v|v|v]; destruct er; try done.
    + split_and!; auto; [by rewrite <- Acc|by destruct p'|]. destruct NV as (u & X & Y). rewrite U1 in X. eauto.
    + split_and!; auto; [by rewrite <- Acc|by destruct p'|]. eauto.
  - destruct NV as (-> & Na & NV). cbn. destruct (mi_spec m) as [di|v|v|v]; try done.
    split_and!; auto; [by rewrite <- Acc|by destruct p'|]. eauto.
Qed.

(** ** UnregisterPath *)
Lemma unregisterPath_spec h d a p : wf h → live h d a →
  let '(h', _) := run (unregisterPath d p) h in
  wf h' ∧ ext h h' ∧ h_units h' = h_units h ∧
  ∀ q, answer h' q = if decide (p ≠ [] ∧ below (a ++ p) q) then None else answer h q.
Proof.
  intros W L. unfold unregisterPath. destruct (Dir_Base p) as [[-> ->]|(p' & x & -> & -> & ->)].
  { cbn. split_and!; auto using ext_refl. }
  rewrite run_bind, run_getDirectory.
  assert (Hp : p' ++ [x] ≠ []) by (by destruct p').
  destruct (find h d p') as [[d1|e]|] eqn:F.
  - assert (L1 : live h d1 (a ++ p')). { unfold live. by rewrite (live_app h d a p' L). }
    pose proof (live_exists h d1 _ W L1) as H1. cbn [bind atomic run].
    pose proof (op_change (RemoveListEntry d1 x) h W H1) as CH.
    destruct (remove_change h d1 x H1) as (Hc & He & Hh & Hn & Hu).
    destruct (op_sem (RemoveListEntry d1 x) h) as [h' []]. simpl in *.
    split_and!; [by eapply change_wf|by eapply change_ext|done|]. intros q.
    rewrite (answer_delete h h' d1 x (a ++ p') q W L1).
    + rewrite <- app_assoc. destruct (decide (below _ q)) as [B|B].
      * by rewrite decide_True.
      * rewrite decide_False; [done|]. by intros [_ ?].
    + intros d' N. rewrite Hc. by rewrite decide_False.
    + rewrite Hc. by rewrite decide_True.
  - cbn. split_and!; auto using ext_refl. intros q. destruct (decide _) as [[_ [r ->]]|]; [|done].
    rewrite <- app_assoc. rewrite (live_app h d a _ L). by rewrite <- app_assoc, find_app, F.
  - cbn. split_and!; auto using ext_refl. intros q. destruct (decide _) as [[_ [r ->]]|]; [|done].
    rewrite <- app_assoc. rewrite (live_app h d a _ L). by rewrite <- app_assoc, find_app, F.
Qed.

(** ** dead handles *)
Lemma root_live h : live h root [].
Proof. done. Qed.
(** the parent link of the entry of a live directory is the live directory containing it *)
Lemma parentDir_container h d x e : wf h → contents h d !! x = Some e → parentDir e = Some d.
Proof.
  intros W C. destruct (wf_entry _ W _ _ _ C) as (_ & _ & P & _). unfold parentDir. rewrite P.
  destruct (decide (d = root)) as [->|N]; [by rewrite encl_root|].
  destruct (wf_encl _ W d (contents_has _ _ _ _ C) N) as (e0 & -> & -> & _). done.
Qed.
(** c is d or was created somewhere below d *)
Inductive under (h : heap) (d : nat) : nat → Prop :=
| UHere : has h d → under h d d
| UChild c e p : has h c → encl h c = Some e → parentDir e = Some p → under h d p → under h d c.
Lemma under_has h d c : under h d c → has h c.
Proof. by destruct 1. Qed.
Lemma under_ext h h' d c : ext h h' → under h d c → under h' d c.
Proof.
  intros [E N] U. induction U as [H|c e p H En P U IH]; [apply UHere; by apply E|].
  destruct (E c H) as [H' En']. eapply UChild; try done. congruence.
Qed.
Lemma under_child h d c x e c' : wf h → under h d c → contents h c !! x = Some e → e_obj e = ODir c' → under h d c'.
Proof.
  intros W U C O. destruct (wf_entry_dir _ W _ _ _ _ C O) as (I & E & H'). eapply UChild; try done. by eapply parentDir_container.
Qed.
Lemma dead_under h d c : wf h → dead h d → under h d c → dead h c.
Proof.
  intros W D U. induction U as [H|c e p H En P U IH]; [done|]. split; [done|]. intros a L.
  destruct a as [|y a _] using rev_ind.
  { unfold answer in L. simpl in L. injection L as <-. by rewrite (encl_root h W) in En. }
  apply find_dir_inv in L as (d0 & e0 & F & C0 & O0). destruct (wf_entry_dir _ W _ _ _ _ C0 O0) as (_ & E0 & _).
  assert (e0 = e) as -> by congruence. rewrite (parentDir_container h d0 y e W C0) in P. injection P as ->.
  by apply (proj2 IH a).
Qed.
(** other threads may do anything that keeps dead directories dead *)
Definition extd (h h' : heap) : Prop := ext h h' ∧ ∀ d, dead h d → dead h' d.
Lemma extd_refl h : extd h h.
Proof. split; auto using ext_refl. Qed.
Lemma extd_trans h1 h2 h3 : extd h1 h2 → extd h2 h3 → extd h1 h3.
Proof. intros [A B] [C D]. split; [by eapply ext_trans|auto]. Qed.
Lemma change_extd h h' : wf h → change h h' → extd h h'.
Proof. intros W C. split; [by apply change_ext|]. intros d. by apply change_dead. Qed.
(** a program whose steps change no answer while directory d is dead, whatever the other threads do *)
Fixpoint conf {A} (d : nat) (p : prog A) (Q : heap → A → Prop) (h : heap) : Prop :=
  match p with
  | Ret a => Q h a
  | Step o k => ∀ h', wf h' → ext h h' →
      (dead h' d → same_answers h' (fst (op_sem o h'))) ∧ conf d (k (snd (op_sem o h'))) Q (fst (op_sem o h'))
  end.
Lemma conf_ext {A} d (p : prog A) (Q : heap → A → Prop) h h' :
  (∀ h1 h2 a, ext h1 h2 → Q h1 a → Q h2 a) → ext h h' → conf d p Q h → conf d p Q h'.
Proof.
  intros HQ E. destruct p as [a|B o k]; simpl; [by apply HQ|]. intros S h2 W2 E2. apply S; [done|]. by eapply ext_trans.
Qed.
Lemma conf_bind {A B} d (p : prog A) (f : A → prog B) (Q : heap → A → Prop) (R : heap → B → Prop) h :
  conf d p Q h → (∀ h' a, Q h' a → conf d (f a) R h') → conf d (bind p f) R h.
Proof.
  revert h. induction p as [a|B0 o k IH]; simpl; intros h S F; [by apply F|].
  intros h' W E. destruct (S h' W E) as [K S']. split; [done|]. by apply IH.
Qed.
Lemma dead_op_same {B} (o : op B) h d c : wf h → dead h d → op_ok o h →
  (match o with RemoveListEntry d' _ | CreateDirIfNeeded d' _ | StoreMetric d' _ _ => d' = c | RemoveChildDirectory _ _ => False | _ => True end) →
  under h d c → same_answers h (fst (op_sem o h)).
Proof.
  intros W D0 K M U q. destruct (dead_under h d c W D0 U) as [H D]. destruct o as [d0 n|d0 n|d0 e|d0 n|d0 n m|di u|d0]; try done; simpl in M, K; subst.
  - eapply answer_dead; [done|]. intros d' N. destruct (remove_change h c n K) as (A & _). rewrite A. by rewrite decide_False.
  - destruct K as [_ V]. destruct (contents h c !! n) as [e|] eqn:C; [unfold op_sem; rewrite C; by destruct (e_obj e)|].
    eapply answer_dead; [done|]. intros d' N. destruct (create_change h c n W H V C) as (A & _). rewrite A. by rewrite decide_False.
  - destruct K as [_ V]. destruct (contents h c !! n) as [e|] eqn:C; [unfold op_sem; by rewrite C|].
    eapply answer_dead; [done|]. intros d' N. destruct (store_change h c n m W H V C) as (A & _). rewrite A. by rewrite decide_False.
  - apply answer_dirs. cbn. by destruct (h_units h !! di).
Qed.
Definition undersum {E} (d : nat) (h : heap) (r : nat + E) : Prop := match r with inl c => under h d c | inr _ => True end.
Lemma create_under h d c x : wf h → under h d c → valid_component x →
  undersum d (fst (op_sem (CreateDirIfNeeded c x) h)) (snd (op_sem (CreateDirIfNeeded c x) h)).
Proof.
  intros W U V. pose proof (under_has _ _ _ U) as H. pose proof (create_res h c x W H V) as R.
  assert (K : op_ok (CreateDirIfNeeded c x) h) by (split; done).
  pose proof (change_ext _ _ W (op_change _ h W K)) as E. pose proof (change_wf _ _ W (op_change _ h W K)) as W'.
  destruct (snd (op_sem (CreateDirIfNeeded c x) h)) as [c'|er]; [|done]. unfold undersum.
  destruct R as [(C & -> & R)|(e & C & O & R & Eq)].
  - destruct (create_change h c x W H V C) as (Hc & He & _). set (h1 := fst _) in *.
    eapply under_child with (c := c) (x := x) (e := Entry (h_next h) x (ODir (h_next h)) (encl h c)); [done|by eapply under_ext| |done].
    rewrite Hc, decide_True by done. by rewrite lookup_insert.
  - rewrite Eq. by eapply under_child.
Qed.
Lemma conf_registerDirectory d p : Forall valid_component p → ∀ h c, under h d c → conf d (registerDirectory c p) (undersum d) h.
Proof.
  induction 1 as [|x p V _ IH]; intros h c U; [done|]. cbn [registerDirectory bind atomic conf]. intros h' W E.
  pose proof (under_ext _ _ _ _ E U) as U'. assert (K : op_ok (CreateDirIfNeeded c x) h') by (split; [by eapply under_has|done]).
  split; [intros D; by apply (dead_op_same _ h' d c W D K eq_refl)|].
  pose proof (create_under h' d c x W U' V) as R.
  destruct (snd (op_sem (CreateDirIfNeeded c x) h')) as [d'|er]; [|done]. by apply IH.
Qed.
Lemma conf_getDirectory d p : ∀ h c, under h d c →
  conf d (getDirectory c p) (λ h r, match r with Some c => under h d c | None => True end) h.
Proof.
  induction p as [|x p IH]; intros h c U; [done|]. cbn [getDirectory bind atomic conf]. intros h' W E.
  pose proof (under_ext _ _ _ _ E U) as U'. split; [done|]. simpl.
  destruct (contents h' c !! x) as [e|] eqn:C; [|done]. destruct (e_obj e) as [m|d'] eqn:O; [done|]. apply IH. by eapply under_child.
Qed.
Lemma conf_getDirectoryAndError d p : ∀ h c, under h d c → conf d (getDirectoryAndError c p) (λ _ _, True) h.
Proof.
  induction p as [|x p IH]; intros h c U; [done|]. cbn [getDirectoryAndError bind atomic conf]. intros h' W E.
  pose proof (under_ext _ _ _ _ E U) as U'. split; [done|]. simpl.
  destruct (contents h' c !! x) as [e|] eqn:C; [|done]. destruct (e_obj e) as [m|d'] eqn:O; [done|]. apply IH. by eapply under_child.
Qed.
Lemma conf_getDirectoryOrMetric d p h : has h d → conf d (getDirectoryOrMetric d p) (λ _ _, True) h.
Proof.
  intros H. unfold getDirectoryOrMetric. destruct (Dir_Base p) as [[-> ->]|(a & x & -> & -> & ->)]; [done|].
  eapply conf_bind; [apply conf_getDirectory; by apply UHere|]. intros h1 [d1|] U1; [|done]. cbn. done.
Qed.
Lemma conf_registerMetric p m h d : Forall valid_component p → has h d → conf d (registerMetric d p m) (λ _ _, True) h.
Proof.
  intros V H. unfold registerMetric. destruct (Dir_Base p) as [[-> ->]|(a & x & -> & -> & ->)]; [done|].
  apply Forall_app in V as [Va Vx]. inversion Vx; subst. eapply conf_bind; [apply conf_registerDirectory; [done|by apply UHere]|].
  intros h1 [d1|er] U1; [|done]. simpl in U1.
  assert (St : ∀ h0, ext h1 h0 → conf d (do e <- atomic (StoreMetric d1 x m); Ret match (e : option err) with None => MOk | Some e => MErr e end) (λ _ _, True) h0).
  { intros h0 E0. cbn [bind atomic conf]. intros h2 W2 E2. split; [|done]. intros D2.
    assert (U2 : under h2 d d1) by (exact (under_ext _ _ _ _ (ext_trans _ _ _ E0 E2) U1)).
    apply (dead_op_same (StoreMetric d1 x m) h2 d d1 W2 D2); [|done|done]. split; [by eapply under_has|done]. }
  destruct (mi_spec m) as [di|v|v|v]; cbn [newValue bind atomic conf]; try done.
  - intros h2 W2 E2. pose proof (op_change (SetUnit di (mi_unit m)) h2 W2 I) as CH.
    pose proof (change_ext _ _ W2 CH) as E3. split.
    { intros D2. eapply (dead_op_same (SetUnit di (mi_unit m)) h2 d d1 W2 D2 I I). by eapply under_ext. }
    destruct (snd (op_sem (SetUnit di (mi_unit m)) h2)); cbn [conf bind]; [|done]. apply St. by eapply ext_trans.
  - apply St. apply ext_refl.
Qed.
Lemma conf_unregisterPath p h d : has h d → conf d (unregisterPath d p) (λ _ _, True) h.
Proof.
  intros H. unfold unregisterPath. destruct (Dir_Base p) as [[-> ->]|(a & x & -> & -> & ->)]; [done|].
  eapply conf_bind; [apply conf_getDirectory; by apply UHere|]. intros h1 [d1|] U1; [|done]. cbn [bind atomic conf]. intros h2 W2 E2.
  split; [|done]. intros D2. pose proof (under_ext _ _ _ _ E2 U1) as U2.
  apply (dead_op_same (RemoveListEntry d1 x) h2 d d1 W2 D2); [by eapply under_has|done|done].
Qed.
Lemma removeChild_dead_same h d e pd : wf h → dead h d → encl h d = Some e → parentDir e = Some pd → e_obj e = ODir d →
  same_answers h (fst (op_sem (RemoveChildDirectory pd e) h)).
Proof.
  intros W D E P O. unfold op_sem. destruct (contents h pd !! e_name e) as [e'|] eqn:C; [|done].
  destruct (decide (e_id e' = e_id e)) as [I|]; [|done].
  (* the entry found is the entry of d, so pd is dead too *)
  assert (Hd : has h d) by apply D.
  assert (Nr : d ≠ root) by (intros ->; by apply (proj2 D [])).
  destruct (wf_encl _ W d Hd Nr) as (e0 & E0 & O0 & I0 & V0 & _). assert (e0 = e) as -> by congruence.
  assert (O' : e_obj e' = ODir d).
  { destruct (e_obj e') as [m|d'] eqn:O'.
    - exfalso. apply (wf_entry_metric _ W _ _ _ _ C O'). by rewrite I, I0.
    - destruct (wf_entry_dir _ W _ _ _ _ C O') as (I' & _). congruence. }
  destruct (live_or_dead h pd W) as [[a L]|Dp].
  - exfalso. apply (proj2 D (a ++ [e_name e])). rewrite (live_app h pd a _ L). rewrite find_cons, C, O'. done.
  - intros q. eapply answer_dead; [done|]. intros d' N. cbn [fst]. rewrite contents_set by (by eapply contents_has). by rewrite decide_False.
Qed.
Lemma conf_unregisterDirectory h d : has h d → conf d (unregisterDirectory d) (λ _ _, True) h.
Proof.
  intros H. unfold unregisterDirectory. cbn [bind atomic conf]. intros h' W E. split; [done|].
  cbn [op_sem snd fst]. assert (H' : has h' d) by (by eapply ext_has).
  destruct (encl h' d) as [e0|] eqn:E0; [|done].
  assert (Nr : d ≠ root) by (intros ->; by rewrite (encl_root h' W) in E0).
  destruct (wf_encl _ W d H' Nr) as (e & Ee & O & I & V & pd & P & _). assert (e0 = e) as -> by congruence. rewrite P. cbn [atomic conf].
  intros h2 W2 E2. split; [|done]. intros D2. apply removeChild_dead_same with (d := d); try done.
  destruct E2 as [E2 _]. destruct (E2 d H') as [_ E3]. congruence.
Qed.
Lemma conf_run {A} d (p : prog A) (Q : heap → A → Prop) (R : heap → A → Prop) h : wf h → dead h d → safe p R h → conf d p Q h →
  same_answers h (fst (run p h)) ∧ dead (fst (run p h)) d.
Proof.
  revert h. induction p as [a|B o k IH]; intros h W D Sf Qu; simpl; [split; [by intros q|done]|].
  destruct (Sf h W (ext_refl h)) as [K S']. destruct (Qu h W (ext_refl h)) as [SA Q'].
  pose proof (op_change o h W K) as CH. destruct (op_sem o h) as [h1 b]. simpl in *.
  destruct (IH b h1 (change_wf _ _ W CH)) as [X Y]; [by eapply change_dead|done|done|]. split; [|done].
  intros q. by rewrite X, SA.
Qed.

(** ** absolute paths *)
Lemma names_notnil e : names e ≠ [].
Proof. rewrite names_eq. by destruct (match e_parent e with Some p => names p | None => [] end). Qed.
Fixpoint entry_ids (e : entry) : list nat :=
  let '(Entry i _ _ p) := e in i :: match p with None => [] | Some p' => entry_ids p' end.
Lemma pathUp_none e : pathUp e None = (reverse (names e), true).
Proof.
  revert e. fix IH 1. intros [i n o [p|]]; simpl.
  - rewrite IH. rewrite reverse_app. done.
  - done.
Qed.
Lemma pathFrom_root e : pathFrom e None = names e.
Proof. unfold pathFrom. rewrite pathUp_none. apply reverse_involutive. Qed.
Lemma absPath_names e : absPath e = String.append "/" (join (names e)).
Proof. unfold absPath. by rewrite pathFrom_root. Qed.
