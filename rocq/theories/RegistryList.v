(** Listings: order, completeness, soundness. *)
From stdpp Require Import gmap strings sorting.
From Verif Require Import PathModel PathSpec PathProofs RegistryModel RegistrySpec RegistryProofs RegistryConc RegistryConcProofs.
From Verif Require Export RegistryConcSpec.

(** ** byte order on strings *)
Lemma ascii_compare_N a b : Ascii.compare a b = N.compare (Ascii.N_of_ascii a) (Ascii.N_of_ascii b).
Proof. done. Qed.
Lemma slt_cons a x b y : slt (String a x) (String b y) ↔
  (Ascii.N_of_ascii a < Ascii.N_of_ascii b)%N ∨ a = b ∧ slt x y.
Proof.
  unfold slt. simpl. rewrite ascii_compare_N. destruct (N.compare_spec (Ascii.N_of_ascii a) (Ascii.N_of_ascii b)) as [E|L|L].
  - assert (a = b) as ->. { rewrite <- (Ascii.ascii_N_embedding a), <- (Ascii.ascii_N_embedding b). by rewrite E. }
    split; [by right|]. intros [?|[_ ?]]; [lia|done].
  - split; [by left|done].
  - split; [done|]. intros [?|[-> _]]; lia.
Qed.
Lemma slt_irrefl a : ¬ slt a a.
Proof. induction a as [|c a IH]; [done|]. rewrite slt_cons. intros [?|[_ ?]]; [lia|done]. Qed.
Lemma slt_trans a b c : slt a b → slt b c → slt a c.
Proof.
  revert b c. induction a as [|x a IH]; intros [|y b] [|z c]; try done.
  rewrite !slt_cons. intros [L1|[-> L1]] [L2|[-> L2]]; [left; lia|by left|by left|right; eauto].
Qed.
Lemma slt_total a b : slt a b ∨ a = b ∨ slt b a.
Proof.
  unfold slt. rewrite (String.compare_antisym b a). destruct (String.compare a b) eqn:E; simpl; auto.
  right. left. by apply String.compare_eq_iff.
Qed.
Lemma leb_slt a b : String.leb a b = true ↔ a = b ∨ slt a b.
Proof.
  unfold String.leb, slt. destruct (String.compare a b) eqn:E.
  - apply String.compare_eq_iff in E. split; auto.
  - split; auto.
  - split; [done|]. intros [->|?]; [|done]. exfalso. pose proof (String.compare_antisym b b) as A. rewrite E in A. done.
Qed.

(** ** lexicographic order on paths: the first component that differs decides, and there must be one *)
Lemma ilt_extend a b r s : ilt a b → ilt (a ++ r) (b ++ s).
Proof. intros (c & x & y & r' & s' & -> & -> & L). exists c, x, y, (r' ++ r), (s' ++ s). by rewrite <- !app_assoc. Qed.
Lemma ilt_irrefl a : ¬ ilt a a.
Proof.
  intros (c & x & y & r & s & E1 & E2 & L). rewrite E1 in E2. apply app_inv_head in E2. injection E2 as -> _. by apply slt_irrefl in L.
Qed.
Lemma ilt_cons_inv x a y b : ilt (x :: a) (y :: b) ↔ slt x y ∨ x = y ∧ ilt a b.
Proof.
  split.
  - intros (c & x' & y' & r & s & E1 & E2 & L). destruct c as [|z c]; simpl in *.
    + injection E1 as -> _. injection E2 as -> _. by left.
    + injection E1 as -> E1. injection E2 as -> E2. right. split; [done|]. by exists c, x', y', r, s.
  - intros [L|[-> (c & x' & y' & r & s & -> & -> & L)]]; [by exists [], x, y, a, b|]. by exists (y :: c), x', y', r, s.
Qed.
Lemma ilt_trans a b c : ilt a b → ilt b c → ilt a c.
Proof.
  revert b c. induction a as [|x a IH]; intros b c H1 H2.
  { destruct H1 as ([|] & ? & ? & ? & ? & E & _); discriminate. }
  destruct b as [|y b]. { destruct H1 as ([|] & ? & ? & ? & ? & _ & E & _); discriminate. }
  destruct c as [|z c]. { destruct H2 as ([|] & ? & ? & ? & ? & _ & E & _); discriminate. }
  apply ilt_cons_inv in H1, H2. apply ilt_cons_inv. destruct H1 as [L1|[-> L1]], H2 as [L2|[-> L2]]; eauto.
  left. exact (slt_trans _ _ _ L1 L2).
Qed.

(** ** sorting *)
Definition nlt (e1 e2 : entry) : Prop := slt (e_name e1) (e_name e2).
Lemma insert_sorted x l : StronglySorted nlt l → Forall (λ y, e_name y ≠ e_name x) l → StronglySorted nlt (insert_entry x l).
Proof.
  induction l as [|y l IH]; intros S N; simpl; [constructor; constructor|].
  inversion S as [|? ? S' F]; inversion N as [|? ? Ny N']; subst.
  destruct (String.leb (e_name x) (e_name y)) eqn:L.
  - apply leb_slt in L as [?|L]; [congruence|]. constructor; [done|]. constructor; [done|].
    eapply Forall_impl; [exact F|]. intros z. unfold nlt. intros Lz. exact (slt_trans _ _ _ L Lz).
  - constructor; [by apply IH|]. apply Forall_forall. intros z Hz. rewrite insert_perm in Hz.
    apply elem_of_cons in Hz as [->|Hz]; [|by apply (proj1 (Forall_forall _ _) F)].
    unfold nlt. destruct (slt_total (e_name y) (e_name x)) as [?|[?|G]]; [done|congruence|].
    assert (String.leb (e_name x) (e_name y) = true) by (apply leb_slt; by right). congruence.
Qed.
Lemma sort_sorted l : NoDup (e_name <$> l) → StronglySorted nlt (sortListEntries l).
Proof.
  induction l as [|x l IH]; intros N; simpl; [constructor|]. apply NoDup_cons in N as [Nx N]. apply insert_sorted; [by apply IH|].
  apply Forall_forall. intros y Hy E. rewrite sort_perm in Hy. apply Nx. rewrite <- E. by apply elem_of_list_fmap_1.
Qed.
Lemma entries_names h d : wf h → e_name <$> entries_of h d = (map_to_list (contents h d)).*1.
Proof.
  intros W. unfold entries_of. rewrite <- list_fmap_compose. apply list_fmap_ext. intros i [x e] E. simpl.
  apply elem_of_list_lookup_2, elem_of_map_to_list in E. by destruct (wf_entry _ W _ _ _ E).
Qed.
Lemma listing_sorted h d l : wf h → l ≡ₚ entries_of h d → StronglySorted nlt (sortListEntries l).
Proof. intros W P. apply sort_sorted. rewrite P, (entries_names h d W). apply NoDup_fst_map_to_list. Qed.

(** ** invariants of one thread along an execution *)
Lemma during_ind_mem (J : config → Prop) c l c' : during c l c' →
  (∀ a b, a ∈ l → b ∈ l → cinv a → step a b → J a → J b) → cinv c → J c → J c'.
Proof.
  intros D H. assert (G : ∃ l', l ⊆ l' ∧ ∀ a b, a ∈ l' → b ∈ l' → cinv a → step a b → J a → J b) by (exists l; done).
  clear H. destruct G as (l' & Sub & H). revert Sub. induction D as [c|c c1 l c2 S D IH]; intros Sub I K; [done|].
  assert (Hc : c ∈ l') by (apply Sub; constructor).
  assert (Hc1 : c1 ∈ l') by (apply Sub; constructor; by eapply during_first).
  apply IH; [intros x Hx; apply Sub; by constructor|by eapply step_inv|]. exact (H c c1 Hc Hc1 I S K).
Qed.
(** a program run only on heaps satisfying I, with interference *)
Fixpoint hoare {A} (I : heap → Prop) (p : prog A) (Q : A → Prop) : Prop :=
  match p with
  | Ret a => Q a
  | Step o k => ∀ h, I h → hoare I (k (snd (op_sem o h))) Q
  end.
Lemma hoare_bind {A B} I (p : prog A) (f : A → prog B) (Q : A → Prop) (R : B → Prop) :
  hoare I p Q → (∀ a, Q a → hoare I (f a) R) → hoare I (bind p f) R.
Proof. induction p as [a|B0 o k IH]; simpl; intros S F; [by apply F|]. intros h W. by apply IH; [apply S|]. Qed.

(** thread t of the pool runs a listing; its state satisfies the given invariants *)
Definition listing (t : nat) (ca : call) (I : heap → Prop) (K : list witem → list entry → Prop) (c : config) : Prop :=
  match c_pool c !! t with
  | None => True
  | Some (MkThread ca' s) => ca' = ca →
      match s with
      | TRun p => hoare I p (λ r, match r with inr w => K w [] | inl _ => False end)
      | TList w out => K w out
      | TDone (RList out) => K [] out
      | TDone _ => False
      end
  end.
Lemma listing_step t d s (I : heap → Prop) (K : list witem → list entry → Prop) l c c' : during c l c' → cinv c → c_pool c !! t = None →
  (∀ x, x ∈ l → I (c_heap x)) →
  hoare I (prog_of (CList d s)) (λ r, match r with inr w => K w [] | inl _ => False end) →
  (∀ e w out, K (WMetric e :: w) out → K w (out ++ [e])) →
  (∀ x d' es w out, x ∈ l → cinv x → es ≡ₚ entries_of (c_heap x) d' → K (WDir d' :: w) out → has (c_heap x) d' →
     K (map item_of (sortListEntries es) ++ w) out) →
  listing t (CList d s) I K c'.
Proof.
  intros D Ci N HI Hp Hm Hd. eapply during_ind_mem; [exact D| |exact Ci|by unfold listing; rewrite N].
  intros a b Ha Hb Ca St J. unfold listing in *.
  destruct St as [h T t' ca Nt H|h T t' ca s0 h' s' Tt St]; simpl in *.
  - destruct (decide (t' = t)) as [->|Ne].
    + rewrite lookup_insert. by intros ->.
    + by rewrite lookup_insert_ne.
  - destruct (decide (t' = t)) as [->|Ne].
    2: by rewrite lookup_insert_ne.
    rewrite lookup_insert. rewrite Tt in J. intros ->. specialize (J eq_refl).
    pose proof (ci_threads _ Ca _ _ Tt) as Kt. simpl in Kt.
    destruct St as [h B o k|h r|h w|h d' es w out P|h e w out|h out]; simpl in *; try done.
    + apply J. by apply (HI _ Ha).
    + eapply (Hd (MkConfig h T)); try done. simpl. by inversion Kt.
    + by apply Hm.
Qed.

(** ** order *)
Definition ipath (h : heap) (i : witem) : list string := match i with WDir d => dpath h d | WMetric e => names e end.
Lemma dpath_ext h h' d : ext h h' → has h d → dpath h' d = dpath h d.
Proof. intros [E _] H. unfold dpath. by destruct (E d H) as [_ ->]. Qed.
Lemma item_path h d x e : wf h → contents h d !! x = Some e → ipath h (item_of e) = dpath h d ++ [x].
Proof.
  intros W C. unfold item_of. destruct (e_obj e) eqn:O; simpl; [by eapply entry_names|].
  destruct (wf_entry_dir _ W _ _ _ _ C O) as (_ & E & _). unfold dpath at 1. rewrite E. by eapply entry_names.
Qed.
Lemma ipath_ext h h' i : ext h h' → item_has h i → ipath h' i = ipath h i.
Proof. intros E. destruct i; simpl; [by apply dpath_ext|done]. Qed.
Lemma StronglySorted_map_impl {A B} (R : A → A → Prop) (S : B → B → Prop) (f : A → B) l :
  (∀ x y, x ∈ l → y ∈ l → R x y → S (f x) (f y)) → StronglySorted R l → StronglySorted S (map f l).
Proof.
  induction l as [|x l IH]; intros H St; simpl; [constructor|]. inversion St as [|? ? St' F]; subst. constructor.
  - apply IH; [|done]. intros y z Hy Hz. apply H; by constructor.
  - apply Forall_forall. intros y Hy. apply elem_of_list_fmap in Hy as (z & -> & Hz). apply H; [constructor|by constructor|].
    by apply (proj1 (Forall_forall _ _) F).
Qed.
Lemma StronglySorted_app {A} (R : A → A → Prop) l1 l2 :
  StronglySorted R (l1 ++ l2) ↔ StronglySorted R l1 ∧ StronglySorted R l2 ∧ (∀ x y, x ∈ l1 → y ∈ l2 → R x y).
Proof.
  induction l1 as [|x l1 IH]; simpl.
  - split; [intros H; split_and!; [constructor|done|intros ?? H1; by apply elem_of_nil in H1]|by intros (_&?&_)].
  - split.
    + intros H. inversion H as [|? ? H1 F]; subst. apply IH in H1 as (A1 & A2 & A3). apply Forall_app in F as [F1 F2]. split_and!; [by constructor|done|].
      intros a b [->|Ha]%elem_of_cons Hb; [by apply (proj1 (Forall_forall _ _) F2)|by apply A3].
    + intros (A1 & A2 & A3). inversion A1 as [|? ? A1' F]; subst. constructor.
      * apply IH. split_and!; [done|done|]. intros a b Ha Hb. apply A3; [by constructor|done].
      * apply Forall_app. split; [done|]. apply Forall_forall. intros b Hb. apply A3; [constructor|done].
Qed.
(** the children of d in heap h, as seen from a later heap h1 *)
Lemma children_paths h h1 d es : wf h → ext h h1 → es ≡ₚ entries_of h d →
  StronglySorted ilt (map (ipath h1) (map item_of (sortListEntries es))) ∧
  ∀ i, i ∈ map item_of (sortListEntries es) → ∃ x e, contents h d !! x = Some e ∧ i = item_of e ∧ ipath h1 i = dpath h d ++ [x].
Proof.
  intros W E P.
  assert (Mem : ∀ e, e ∈ sortListEntries es → ∃ x, contents h d !! x = Some e).
  { intros e He. rewrite sort_perm, P in He. by apply entries_of_elem. }
  assert (Pth : ∀ e x, contents h d !! x = Some e → ipath h1 (item_of e) = dpath h d ++ [x]).
  { intros e x C. rewrite (ipath_ext h h1); [by apply item_path|done|]. unfold item_of. destruct (e_obj e) eqn:O; simpl; [done|].
    by eapply entry_dir_has. }
  split.
  - rewrite map_map. eapply StronglySorted_map_impl; [|by eapply listing_sorted].
    intros e1 e2 H1 H2 L. destruct (Mem _ H1) as [x1 C1]. destruct (Mem _ H2) as [x2 C2].
    rewrite (Pth _ _ C1), (Pth _ _ C2). exists (dpath h d), x1, x2, [], []. split_and!; try done.
    destruct (wf_entry _ W _ _ _ C1) as (<- & _). destruct (wf_entry _ W _ _ _ C2) as (<- & _). done.
  - intros i Hi. apply elem_of_list_fmap in Hi as (e & -> & He). destruct (Mem _ He) as [x C]. exists x, e. eauto.
Qed.
Definition order_inv (h1 : heap) (w : list witem) (out : list entry) : Prop :=
  StronglySorted ilt (map names out ++ map (ipath h1) w).
Lemma hoare_any {A} I (p : prog A) (Q : A → Prop) : (∀ a, Q a) → hoare I p Q.
Proof. intros H. induction p as [a|B o k IH]; simpl; auto. Qed.
Lemma listing_order t d s l c c' out : during c l c' → cinv c → c_pool c !! t = None →
  c_pool c' !! t = Some (MkThread (CList d s) (TDone (RList out))) → StronglySorted ilt (map names out).
Proof.
  intros D Ci N Done.
  assert (L : listing t (CList d s) (λ _, True) (order_inv (c_heap c')) c').
  { eapply listing_step; [exact D|exact Ci|exact N|done| | |].
    - cbn [prog_of]. eapply hoare_bind; [by apply (hoare_any _ _ (λ _, True))|].
      intros [[d'|e]|] _; simpl; unfold order_inv; simpl; repeat constructor.
    - intros e w o K. unfold order_inv in *. rewrite map_app, <- app_assoc. done.
    - intros x d' es w o Hx Cx P K H. unfold order_inv in *. simpl in K.
      destruct (during_split _ _ _ _ D Hx) as (l1 & l2 & _ & D2 & _).
      assert (E : ext (c_heap x) (c_heap c')) by (by destruct (during_extd _ _ _ Cx D2) as [_ [? _]]).
      destruct (children_paths _ _ _ _ (ci_wf _ Cx) E P) as [Sc Mc].
      rewrite (dpath_ext _ _ _ E H) in K. rewrite map_app.
      apply StronglySorted_app in K as (K1 & K2 & K3). inversion K2 as [|? ? K2' K4]; subst.
      apply StronglySorted_app. split; [done|]. split.
      + apply StronglySorted_app. split_and!; [done|done|]. intros a b Ha Hb.
        apply elem_of_list_fmap in Ha as (i & -> & Hi). destruct (Mc _ Hi) as (y & e & C & -> & ->).
        rewrite Forall_forall in K4. specialize (K4 _ Hb). rewrite <- (app_nil_r b). by apply ilt_extend.
      + intros a b Ha Hb. apply elem_of_app in Hb as [Hb|Hb]; [|apply K3; [done|by constructor]].
        apply elem_of_list_fmap in Hb as (i & -> & Hi). destruct (Mc _ Hi) as (y & e & C & -> & ->).
        rewrite <- (app_nil_r a). apply ilt_extend. apply K3; [done|constructor]. }
  unfold listing in L. rewrite Done in L. specialize (L eq_refl). unfold order_inv in L. simpl in L. by rewrite app_nil_r in L.
Qed.

(** ** soundness *)
(** e was the entry of a metric in some directory at some point of the execution *)
Definition seen (l : list config) (e : entry) : Prop :=
  ∃ x d n m, x ∈ l ∧ contents (c_heap x) d !! n = Some e ∧ e_obj e = OMetric m.
Definition mem_heap (l : list config) (h : heap) : Prop := ∃ x, x ∈ l ∧ c_heap x = h.
Definition sound_item (h1 : heap) (p : list string) (l : list config) (i : witem) : Prop :=
  match i with WMetric e => seen l e ∧ below p (names e) | WDir d => below p (dpath h1 d) end.
Definition sound_inv h1 p l (w : list witem) (out : list entry) : Prop :=
  Forall (λ e, seen l e ∧ below p (names e)) out ∧ Forall (sound_item h1 p l) w.
Lemma mem_heap_props c l c' h : during c l c' → cinv c → mem_heap l h → wf h ∧ ext h (c_heap c').
Proof.
  intros D Ci (x & Hx & <-). destruct (during_inv _ _ _ Ci D) as [F _]. rewrite Forall_forall in F. specialize (F _ Hx).
  split; [apply F|]. destruct (during_split _ _ _ _ D Hx) as (l1 & l2 & _ & D2 & _).
  by destruct (during_extd _ _ _ F D2) as [_ [? _]].
Qed.
Lemma hoare_getDirectory_path c l c' p : during c l c' → cinv c → ∀ d,
  hoare (mem_heap l) (getDirectory d p) (λ r, match r with Some d' => dpath (c_heap c') d' = dpath (c_heap c') d ++ p | None => True end).
Proof.
  intros D Ci. induction p as [|x p IH]; intros d; [simpl; by rewrite app_nil_r|].
  cbn [getDirectory bind atomic hoare]. intros h Hh. destruct (mem_heap_props _ _ _ _ D Ci Hh) as [W E]. simpl.
  destruct (contents h d !! x) as [e|] eqn:C; [|done]. destruct (e_obj e) as [m|d'] eqn:O; [done|].
  assert (P : dpath (c_heap c') d' = dpath (c_heap c') d ++ [x]).
  { destruct (wf_entry_dir _ W _ _ _ _ C O) as (_ & Ee & H'). rewrite (dpath_ext _ _ d' E H'), (dpath_ext _ _ d E (contents_has _ _ _ _ C)).
    unfold dpath at 1. rewrite Ee. by eapply entry_names. }
  specialize (IH d'). revert IH. generalize (getDirectory d' p). intros pr. rewrite P. induction pr as [r|B o k IHk]; simpl.
  - destruct r as [d2|]; [|done]. intros ->. by rewrite <- app_assoc.
  - intros G h2 H2. apply IHk. by apply G.
Qed.
Lemma listing_sound t d s l c c' out : during c l c' → cinv c → c_pool c !! t = None →
  c_pool c' !! t = Some (MkThread (CList d s) (TDone (RList out))) →
  Forall (λ e, seen l e ∧ below (dpath (c_heap c') d ++ newPathSpec s) (names e)) out.
Proof.
  intros D Ci N Done. set (p := dpath (c_heap c') d ++ newPathSpec s).
  assert (L : listing t (CList d s) (mem_heap l) (sound_inv (c_heap c') p l) c').
  { eapply listing_step; [exact D|exact Ci|exact N|intros x Hx; by exists x| | |].
    - cbn [prog_of]. eapply hoare_bind with (Q := λ n, match n with Some (NDir d') => dpath (c_heap c') d' = p | Some (NMetric e) => seen l e ∧ names e = p | None => True end).
      + unfold getDirectoryOrMetric. destruct (Dir_Base (newPathSpec s)) as [[E ->]|(a & x & E & -> & ->)].
        { simpl. unfold p. by rewrite E, app_nil_r. }
        eapply hoare_bind; [by eapply hoare_getDirectory_path|]. intros [d1|] P1; [|done]. cbn [bind atomic hoare].
        intros h Hh. destruct (mem_heap_props _ _ _ _ D Ci Hh) as [W Ex]. simpl. destruct (contents h d1 !! x) as [e|] eqn:C; simpl; [|done].
        pose proof (item_path _ _ _ _ W C) as Pi. unfold item_of in Pi. unfold node_of. destruct (e_obj e) as [m|d'] eqn:O; simpl in Pi.
        * split; [destruct Hh as (y & Hy & <-); by exists y, d1, x, m|]. rewrite Pi.
          rewrite <- (dpath_ext _ _ d1 Ex (contents_has _ _ _ _ C)), P1. unfold p. by rewrite E, app_assoc.
        * rewrite (dpath_ext _ _ d' Ex) by (by eapply entry_dir_has). rewrite Pi.
          rewrite <- (dpath_ext _ _ d1 Ex (contents_has _ _ _ _ C)), P1. unfold p. by rewrite E, app_assoc.
      + intros [[d'|e]|] Q; simpl; (split; [constructor|]); try constructor; try constructor.
        * simpl. rewrite Q. apply below_refl.
        * by destruct Q.
        * destruct Q as [_ ->]. apply below_refl.
    - intros e w o [K1 K2]. inversion K2; subst. split; [|done]. apply Forall_app. split; [done|by constructor].
    - intros x d' es w o Hx Cx P [K1 K2] H. inversion K2 as [|? ? K3 K4]; subst. split; [done|]. apply Forall_app. split; [|done].
      destruct (mem_heap_props _ _ _ _ D Ci ltac:(by exists x)) as [W E].
      destruct (children_paths _ _ _ _ W E P) as [_ Mc]. apply Forall_forall. intros i Hi.
      destruct (Mc _ Hi) as (y & e & C & -> & Pi). simpl in K3. rewrite (dpath_ext _ _ _ E H) in K3.
      assert (B : below p (dpath (c_heap x) d' ++ [y])) by (eapply below_trans; [done|apply below_app]).
      unfold item_of in *. destruct (e_obj e) as [m|d2] eqn:O; simpl in *; rewrite Pi; [|done]. split; [|done].
      by exists x, d', y, m. }
  unfold listing in L. rewrite Done in L. specialize (L eq_refl). by destruct L.
Qed.
Lemma seen_registered l e c c' : during c l c' → cinv c → seen l e →
  (∃ a d, names e = a ++ [e_name e] ∧ parentDir e = Some d ∧ (live (c_heap c') d a → ∃ x, x ∈ l ∧ answer (c_heap x) (names e) = Some (NMetric e))).
Proof.
  intros D Ci (x & d & n & m & Hx & C & O). destruct (mem_heap_props _ _ _ _ D Ci ltac:(by exists x)) as [W E].
  exists (dpath (c_heap x) d), d. destruct (wf_entry _ W _ _ _ C) as (En & _). split_and!.
  - rewrite En. by eapply entry_names.
  - by eapply parentDir_container.
  - intros L. exists x. split; [done|]. rewrite (entry_names _ _ _ _ W C).
    destruct (live_or_dead (c_heap x) d W) as [[a La]|Dd].
    + rewrite (live_path _ _ W _ La). rewrite (live_app _ _ _ _ La), find_cons, C, O. done.
    + exfalso. destruct (during_split _ _ _ _ D Hx) as (l1 & l2 & D1 & D2 & _).
      assert (Cx : cinv x) by (by destruct (during_inv _ _ _ Ci D1)).
      destruct (during_extd _ _ _ Cx D2) as [_ [_ Dd']]. apply (proj2 (Dd' d (conj (contents_has _ _ _ _ C) Dd)) _ L).
Qed.

(** ** completeness *)
Definition at_entry (h : heap) (q : list string) (e : entry) : Prop :=
  ∃ a x d, q = a ++ [x] ∧ live h d a ∧ contents h d !! x = Some e.
Lemma at_const h h' q : wf h → wf h' → ∀ e, at_entry h q e → at_entry h' q e →
  ∀ q', properly_below q' q → answer h q' = answer h' q'.
Proof.
  intros W W'. induction q as [|x a IH] using rev_ind; intros e (a1 & x1 & d1 & E1 & L1 & C1) (a2 & x2 & d2 & E2 & L2 & C2) q' (y & r & B).
  { by destruct a1. }
  apply app_inj_tail in E1 as [<- <-]. apply app_inj_tail in E2 as [<- <-].
  assert (d2 = d1) as ->.
  { pose proof (parentDir_container _ _ _ _ W C1). pose proof (parentDir_container _ _ _ _ W' C2). congruence. }
  destruct r as [|z r _] using rev_ind.
  - apply app_inj_tail in B as [<- _]. by rewrite L1, L2.
  - rewrite app_comm_cons, app_assoc in B. apply app_inj_tail in B as [B _].
    destruct a as [|u a _] using rev_ind; [by destruct q'|].
    pose proof L1 as M1. pose proof L2 as M2.
    apply find_dir_inv in M1 as (p1 & e1 & F1 & G1 & O1). apply find_dir_inv in M2 as (p2 & e2 & F2 & G2 & O2).
    destruct (wf_entry_dir _ W _ _ _ _ G1 O1) as (_ & Ee1 & _). destruct (wf_entry_dir _ W' _ _ _ _ G2 O2) as (_ & Ee2 & _).
    destruct (wf_entry _ W _ _ _ C1) as (_ & _ & P1 & _). destruct (wf_entry _ W' _ _ _ C2) as (_ & _ & P2 & _).
    assert (e2 = e1) as -> by congruence.
    eapply IH; [by exists a, u, p1|by exists a, u, p2|]. by exists y, r.
Qed.
Lemma metric_at h q e : answer h q = Some (NMetric e) → at_entry h q e.
Proof. intros F. apply find_metric_inv in F as (a & x & d & -> & F & C & _). by exists a, x, d. Qed.
Definition covers (l : list config) (q : list string) (e : entry) (i : witem) : Prop :=
  match i with
  | WMetric e' => e' = e
  | WDir d => ∃ q', properly_below q' q ∧ ∀ x, x ∈ l → answer (c_heap x) q' = Some (NDir d)
  end.
Lemma below_proper q p : below q p → q = p ∨ properly_below q p.
Proof. intros [[|x r] ->]; [left; by rewrite app_nil_r|right; by exists x, r]. Qed.
Section complete.
  Context (c c' : config) (l : list config) (D : during c l c') (Ci : cinv c).
  Context (q : list string) (e : entry) (Hq : ∀ x, x ∈ l → answer (c_heap x) q = Some (NMetric e)).
  Lemma l_wf x : x ∈ l → wf (c_heap x).
  Proof using D Ci. intros Hx. by destruct (mem_heap_props _ _ _ (c_heap x) D Ci ltac:(by exists x)). Qed.
  Lemma anc_const q' d x : x ∈ l → properly_below q' q → answer (c_heap x) q' = Some (NDir d) →
    ∀ y, y ∈ l → answer (c_heap y) q' = Some (NDir d).
  Proof using D Ci Hq.
    intros Hx B A y Hy. rewrite <- A.
    refine (at_const _ _ q _ _ e _ _ q' B); [by apply l_wf|by apply l_wf|apply metric_at; by apply Hq|apply metric_at; by apply Hq].
  Qed.
  Lemma hoare_walk p : ∀ a d, properly_below (a ++ p) q → (∀ x, x ∈ l → answer (c_heap x) a = Some (NDir d)) →
    hoare (mem_heap l) (getDirectory d p) (λ r, ∃ d', r = Some d' ∧ ∀ x, x ∈ l → answer (c_heap x) (a ++ p) = Some (NDir d')).
  Proof using D Ci Hq.
    induction p as [|y p IH]; intros a d B A; [simpl; rewrite app_nil_r; eauto|].
    cbn [getDirectory bind atomic hoare]. intros h (x & Hx & <-). simpl.
    assert (B' : properly_below (a ++ [y]) q).
    { destruct B as (z & r & E). destruct p as [|p0 p]; [by exists z, r|]. exists p0, (p ++ z :: r). rewrite E. by rewrite <- !app_assoc. }
    pose proof (Hq x Hx) as Q. destruct B' as (z & r & E). rewrite E in Q. unfold answer in Q. rewrite find_app, find_snoc in Q.
    pose proof (A x Hx) as Ax. unfold answer in Ax. rewrite Ax in Q.
    destruct (contents (c_heap x) d !! y) as [e'|] eqn:C; [|done]. simpl in Q. unfold node_of in Q.
    destruct (e_obj e') as [m|d'] eqn:O; [done|].
    assert (A' : ∀ x, x ∈ l → answer (c_heap x) (a ++ [y]) = Some (NDir d')).
    { intros y' Hy'. eapply anc_const; [exact Hx|by exists z, r| |done]. unfold answer. rewrite find_snoc, Ax, C. simpl. unfold node_of. by rewrite O. }
    specialize (IH (a ++ [y]) d'). rewrite <- app_assoc in IH. apply IH; [done|done].
  Qed.
  Lemma listing_complete t s out : c_pool c !! t = None →
    c_pool c' !! t = Some (MkThread (CList root s) (TDone (RList out))) → below (newPathSpec s) q → e ∈ out.
  Proof using D Ci Hq.
    intros N Done B. set (p := newPathSpec s) in *.
    assert (L : listing t (CList root s) (mem_heap l) (λ w out, e ∈ out ∨ Exists (covers l q e) w) c').
    { eapply listing_step; [exact D|exact Ci|exact N|intros x Hx; by exists x| | |].
      - cbn [prog_of]. fold p. eapply hoare_bind with (Q := λ n, ∃ n', n = Some n' ∧ covers l q e (match n' with NDir d => WDir d | NMetric e => WMetric e end)).
        + unfold getDirectoryOrMetric. destruct (Dir_Base p) as [[E ->]|(a & y & E & -> & ->)].
          { simpl. eexists. split; [done|]. simpl. exists []. split; [|done]. destruct q as [|z r]; [|by exists z, r].
            specialize (Hq c (during_first _ _ _ D)). done. }
          assert (Ba : properly_below a q). { destruct B as [r ->]. rewrite E. exists y, r. by rewrite <- app_assoc. }
          eapply hoare_bind; [apply (hoare_walk a [] root); [done|done]|]. intros r (d' & -> & A). cbn [bind atomic hoare].
          intros h (x & Hx & <-). simpl. simpl in A. pose proof (A x Hx) as Ax. unfold answer in Ax.
          assert (Fp : find (c_heap x) root p = node_of <$> contents (c_heap x) d' !! y) by (rewrite E, find_snoc, Ax; done).
          destruct (below_proper _ _ B) as [->|Bp].
          * pose proof (Hq x Hx) as Q. unfold answer in Q. rewrite Q in Fp. rewrite <- Fp. simpl. eexists. split; [done|]. done.
          * pose proof (Hq x Hx) as Q. destruct Bp as (z & r & E'). rewrite E' in Q. unfold answer in Q. rewrite find_app, Fp in Q.
            destruct (contents (c_heap x) d' !! y) as [e'|] eqn:C; [|done]. simpl in *. eexists. split; [done|].
            unfold node_of in *. destruct (e_obj e') as [m|d2] eqn:O; [done|]. simpl. exists p. split; [by exists z, r|].
            eapply anc_const; [exact Hx|by exists z, r|done].
        + intros n (n' & -> & Cv). destruct n'; simpl; right; by constructor.
      - intros e' w o [K|K]; [left; apply elem_of_app; by left|]. apply Exists_cons in K as [K|K]; [|by right].
        simpl in K. subst. left. apply elem_of_app. right. by constructor.
      - intros x d es w o Hx Cx P [K|K] H; [by left|]. apply Exists_cons in K as [K|K].
        2: { right. apply Exists_app. by right. }
        destruct K as (q' & (y & r & E) & A). right. apply Exists_app. left.
        pose proof (A x Hx) as Ax. pose proof (Hq x Hx) as Q. rewrite E in Q. unfold answer in Q, Ax. rewrite find_app, Ax, find_cons in Q.
        destruct (contents (c_heap x) d !! y) as [e'|] eqn:C; [|done].
        apply Exists_exists. exists (item_of e'). split.
        + apply elem_of_list_fmap. exists e'. split; [done|]. rewrite sort_perm, P. apply entries_of_elem. eauto.
        + unfold item_of. destruct (e_obj e') as [m|d'] eqn:O.
          * destruct r; [|done]. simpl. congruence.
          * destruct r as [|z r]; [done|]. simpl. exists (q' ++ [y]). split; [exists z, r; by rewrite <- app_assoc|].
            eapply anc_const; [exact Hx|exists z, r; by rewrite <- app_assoc|]. unfold answer. rewrite find_snoc, Ax, C. simpl.
            unfold node_of. by rewrite O. }
    unfold listing in L. rewrite Done in L. specialize (L eq_refl). destruct L as [L|L]; [done|]. by apply Exists_nil in L.
  Qed.
End complete.

(** ** a quiescent registry *)
Definition live_item (h : heap) (i : witem) : Prop :=
  match i with WDir d => live h d (dpath h d) | WMetric e => answer h (names e) = Some (NMetric e) end.
Lemma hoare_ro_getDirectory h p : ∀ d, hoare (λ h', h' = h) (getDirectory d p) (λ r, r = match find h d p with Some (NDir d') => Some d' | _ => None end).
Proof.
  induction p as [|x p IH]; intros d; [done|]. cbn [getDirectory bind atomic hoare]. intros h' ->. rewrite find_cons. simpl.
  destruct (contents h d !! x) as [e|]; [|done]. destruct (e_obj e); [by destruct p|apply IH].
Qed.
Lemma hoare_ro_lookup h d p : hoare (λ h', h' = h) (getDirectoryOrMetric d p) (λ r, r = find h d p).
Proof.
  unfold getDirectoryOrMetric. destruct (Dir_Base p) as [[-> ->]|(a & x & -> & -> & ->)]; [done|].
  eapply hoare_bind; [apply hoare_ro_getDirectory|]. intros r ->. rewrite find_snoc.
  destruct (find h d a) as [[d'|e]|]; [|done|done]. cbn. by intros h' ->.
Qed.
Lemma live_dpath h d a : wf h → live h d a → live h d (dpath h d).
Proof. intros W L. by rewrite (live_path h a W d L). Qed.
Lemma listing_quiescent t s l c c' h out : during c l c' → cinv c → c_pool c !! t = None →
  c_pool c' !! t = Some (MkThread (CList root s) (TDone (RList out))) → (∀ x, x ∈ l → c_heap x = h) →
  Forall (λ e, answer h (names e) = Some (NMetric e)) out.
Proof.
  intros D Ci N Done Hh. pose proof (Hh c (during_first _ _ _ D)) as Hc. pose proof (ci_wf _ Ci) as W. rewrite Hc in W.
  assert (L : listing t (CList root s) (λ h', h' = h) (λ w out, Forall (λ e, answer h (names e) = Some (NMetric e)) out ∧ Forall (live_item h) w) c').
  { eapply listing_step; [exact D|exact Ci|exact N|done| | |].
    - cbn [prog_of]. eapply hoare_bind; [apply hoare_ro_lookup|]. intros r ->. simpl. destruct (find h root (newPathSpec s)) as [[d'|e]|] eqn:F.
      + split; [constructor|]. constructor; [|constructor]. simpl. by eapply live_dpath.
      + split; [constructor|]. constructor; [|constructor]. simpl. by rewrite (metric_path h _ e W F).
      + split; constructor.
    - intros e w o [K1 K2]. inversion K2; subst. split; [|done]. apply Forall_app. split; [done|by constructor].
    - intros x d es w o Hx Cx P [K1 K2] H. inversion K2 as [|? ? K3 K4]; subst. split; [done|]. apply Forall_app. split; [|done].
      rewrite (Hh x Hx) in P. apply Forall_forall. intros i Hi. apply elem_of_list_fmap in Hi as (e & -> & He).
      rewrite sort_perm, P in He. apply entries_of_elem in He as [y C]. pose proof (entry_names _ _ _ _ W C) as Ne.
      simpl in K3. assert (A : answer (c_heap c) (names e) = Some (node_of e)).
      { rewrite Ne. unfold answer, live in *. unfold answer in K3. rewrite find_snoc, K3, C. done. }
      unfold item_of, node_of in *. destruct (e_obj e) as [m|d'] eqn:O; simpl; [done|].
      by eapply live_dpath. }
  unfold listing in L. rewrite Done in L. specialize (L eq_refl). by destruct L.
Qed.

(** ** every call finishes if it is left alone *)
Lemma depth_bound h : ∃ n, ∀ d, has h d → length (dpath h d) ≤ n.
Proof.
  exists (max_list ((λ d, length (dpath h d)) <$> elements (dom h.(h_dirs)))). intros d H. apply max_list_elem_of_le.
  apply elem_of_list_fmap. exists d. split; [done|]. apply elem_of_elements. by apply elem_of_dom.
Qed.
Lemma tstep_inv h s h' s' : tstep h s h' s' →
  match s with
  | TRun (Step o k) => h' = fst (op_sem o h) ∧ s' = TRun (k (snd (op_sem o h)))
  | TRun (Ret (inl r)) => h' = h ∧ s' = TDone r
  | TRun (Ret (inr w)) => h' = h ∧ s' = TList w []
  | TList (WDir d :: w) out => h' = h ∧ ∃ l, l ≡ₚ entries_of h d ∧ s' = TList (map item_of (sortListEntries l) ++ w) out
  | TList (WMetric e :: w) out => h' = h ∧ s' = TList w (out ++ [e])
  | TList [] out => h' = h ∧ s' = TDone (RList out)
  | TDone _ => False
  end.
Proof. destruct 1; eauto. Qed.
Definition solo (x y : heap * tstate) : Prop := tstep (fst y) (snd y) (fst x) (snd x).
Lemma acc_done h r : Acc solo (h, TDone r).
Proof. constructor. intros [h' s'] St. by apply tstep_inv in St. Qed.
Lemma acc_list h : wf h → ∀ w, Forall (item_has h) w → ∀ out, Acc solo (h, TList w out).
Proof.
  intros W. assert (Nil : ∀ out, Acc solo (h, TList [] out)).
  { intros out. constructor. intros [h' s'] St; apply tstep_inv in St; simpl in St; destruct St as [-> ->]. apply acc_done. }
  assert (M : ∀ e w, (∀ out, Acc solo (h, TList w out)) → ∀ out, Acc solo (h, TList (WMetric e :: w) out)).
  { intros e w A out. constructor. intros [h' s'] St; apply tstep_inv in St; simpl in St; destruct St as [-> ->]. apply A. }
  destruct (depth_bound h) as [n Hn].
  assert (Dr : ∀ k d, has h d → n - length (dpath h d) < k → ∀ w, (∀ out, Acc solo (h, TList w out)) → ∀ out, Acc solo (h, TList (WDir d :: w) out)).
  { induction k as [|k IH]; intros d H L w A out; [lia|]. constructor. intros [h' s'] St; apply tstep_inv in St; simpl in St; destruct St as [-> (es & P & ->)].
    assert (Mem : ∀ e, e ∈ sortListEntries es → ∃ x, contents h d !! x = Some e).
    { intros e He. rewrite sort_perm, P in He. by apply entries_of_elem. }
    clear P. revert out. induction (sortListEntries es) as [|e r IHr]; intros out; [apply A|]. simpl.
    destruct (Mem e ltac:(constructor)) as [x C]. pose proof (item_path _ _ _ _ W C) as Pi.
    assert (Ar : ∀ out, Acc solo (h, TList (map item_of r ++ w) out)).
    { apply IHr. intros e' He'. apply Mem. by constructor. }
    unfold item_of at 1. unfold item_of in Pi. destruct (e_obj e) as [m|d'] eqn:O; [by apply M|]. apply IH; [by eapply entry_dir_has| |done].
    simpl in Pi. rewrite Pi, app_length. simpl. pose proof (Hn _ (entry_dir_has _ _ _ _ _ W C O)) as B. rewrite Pi, app_length in B. simpl in B. lia. }
  intros w F. induction F as [|i w Hi F IH]; [apply Nil|]. destruct i as [d|e]; [|by apply M].
  eapply Dr; [done|apply Nat.lt_succ_diag_r|done].
Qed.
Lemma acc_thread h s : wf h → tstate_ok h s → Acc solo (h, s).
Proof.
  destruct s as [p|w out|r]; [|intros W K; by apply acc_list|intros _ _; apply acc_done].
  revert h. induction p as [a|B o k IH]; intros h W K; constructor; intros [h' s'] St.
  - pose proof (tstep_change _ _ _ _ W K St) as [CH K']. apply tstep_inv in St. simpl in St.
    destruct a as [r|w]; destruct St as [-> ->]; [apply acc_done|by apply acc_list].
  - pose proof (tstep_change _ _ _ _ W K St) as [CH K']. apply tstep_inv in St as [E1 E2]. simpl in *. subst h' s'.
    apply IH; [by eapply change_wf|done].
Qed.
Lemma tstate_progress h s : (∃ r, s = TDone r) ∨ ∃ h' s', tstep h s h' s'.
Proof.
  destruct s as [[[r|w]|B o k]|[|[d|e] w] out|r]; [right..|left; eauto]; do 2 eexists; econstructor; done.
Qed.
Lemma call_finishes c t ca s : cinv c → c_pool c !! t = Some (MkThread ca s) →
  ∃ l c' r, during c l c' ∧ c_pool c' !! t = Some (MkThread ca (TDone r)) ∧
    ∀ t', t' ≠ t → c_pool c' !! t' = c_pool c !! t'.
Proof.
  intros I Ht. pose proof (acc_thread _ _ (ci_wf _ I) (ci_threads _ I _ _ Ht)) as A. simpl in A.
  remember (c_heap c, s) as x eqn:Ex. revert c s Ex I Ht. induction A as [x _ IH]. intros c s -> I Ht.
  destruct (tstate_progress (c_heap c) s) as [[r ->]|(h' & s' & St)].
  - exists [c], c, r. split_and!; [constructor|done|done].
  - set (c1 := MkConfig h' (<[t := MkThread ca s']> (c_pool c))).
    assert (S : step c c1). { destruct c as [h T]. simpl in *. by eapply StepThread. }
    destruct (step_inv _ _ I S) as [I1 _].
    destruct (IH (h', s') St c1 s' eq_refl I1) as (l & c' & r & D & Dn & O); [unfold c1; simpl; by rewrite lookup_insert|].
    exists (c :: l), c', r. split_and!; [by econstructor|done|]. intros t' N. rewrite O by done. unfold c1; simpl. by rewrite lookup_insert_ne.
Qed.
