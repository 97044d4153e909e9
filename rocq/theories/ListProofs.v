From Verif Require Import GoBase GoVal UnitsModel DurationModel TypesModel.
From stdpp Require Import list.
From Verif Require Import ReflectModel ListModel ListSpec.

Lemma primitive_reported w t k : getPrimitiveType w t = Some (k, false) ↔ reported_as w t k.
Proof.
  split.
  - destruct t as [[] n| | | |]; simpl; intros E; try (destruct w); simplify_eq; constructor.
  - intros []; done.
Qed.
Lemma primitive_ptr w t k : getPrimitiveType w t = Some (k, true) → t = RTimePtr.
Proof. destruct t as [[] n| | | |]; simpl; congruence. Qed.

Section W.
  Context (w : wordsize).
  (** *** one step *)
  Lemma wrap32_id z : (-2^31 <= z < 2^31)%Z → wrap32 z = z.
  Proof. intros H. unfold wrap32. rewrite Z.mod_small; lia. Qed.
  Lemma sized_of v t : rval_ok w v = true → is_int_or_uint (rtype_of v) = true → getPrimitiveType w (rtype_of v) = Some (t, false) →
    valueToInterface v t false = Some (sized w v).
  Proof.
    intros O I E. destruct v as [[] n z| | | |]; try discriminate I; simpl in E, O; destruct w; injection E as <-; simpl; try done.
    - unfold valueToInterface. simpl. apply andb_true_iff in O as [?%Z.leb_le ?%Z.ltb_lt]. by rewrite wrap32_id.
    - unfold valueToInterface. simpl. unfold to_uint. apply andb_true_iff in O as [?%Z.leb_le ?%Z.ltb_lt]. rewrite Z.mod_small by lia. done.
  Qed.
  Lemma sized_same v : is_int_or_uint (rtype_of v) = false → sized w v = v.
  Proof. by destruct v as [[] n z| | | |], w. Qed.
  Lemma mapM_some {A B} (f : A → option B) (g : A → B) l : Forall (λ x, f x = Some (g x)) l → mapM f l = Some (g <$> l).
  Proof. induction 1 as [|x l E F IH]; simpl; [done|]. by rewrite E, IH. Qed.

  Definition arr_ok (a : array) : Prop := Forall (λ v, rtype_of v = a_elem a ∧ rval_ok w v = true) (a_cells a).
  Definition heap_ok (h : aheap) : Prop := Forall arr_ok h.
  Lemma cells_ok h s : heap_ok h → slice_ok h s = true → Forall (λ v, rtype_of v = s_elem s ∧ rval_ok w v = true) (cells h s).
  Proof.
    intros H S. unfold slice_ok, cells in *. destruct (h !! s_array s) as [a|] eqn:E; [|done].
    apply andb_true_iff in S as [S1 S2]. apply bool_decide_eq_true in S1. rewrite <- S1.
    apply Forall_take, Forall_drop. exact (proj1 (Forall_lookup _ _) H _ _ E).
  Qed.
  Lemma slice_ok_new h e vs n : slice_ok (h ++ [MkArray e vs]) (MkSlice n e (length h) 0 (length vs)) = true.
  Proof. unfold slice_ok. cbn [s_array]. rewrite (list_lookup_middle h []) by done. apply andb_true_iff. split; [by apply bool_decide_eq_true|apply Nat.leb_refl]. Qed.
  Lemma cells_new h e vs n : cells (h ++ [MkArray e vs]) (MkSlice n e (length h) 0 (length vs)) = vs.
  Proof. unfold cells. cbn [s_array]. rewrite (list_lookup_middle h []) by done. cbn. by rewrite drop_0, firstn_all. Qed.
  (** asSliceValue allocates at most one array; the result holds the values *)
  Lemma asSlice_ok h s m r : heap_ok h → slice_ok h s = true → asSliceValue w h (ISlice s) m = Ok r →
    ∃ h' s' t, r = (h', s', t) ∧ reported_as w (s_elem s) t ∧ slice_ok h' s' = true ∧ reported_as w (s_elem s') t ∧ heap_ok h' ∧
      cells h' s' = sized w <$> cells h s ∧
      ((h' = h ∧ s' = s ∧ ¬ isolated s m) ∨ (∃ a, h' = h ++ [a]) ∧ s_array s' = length h ∧ isolated s m).
  Proof.
    intros H S. unfold asSliceValue. pose proof (cells_ok h s H S) as C.
    destruct (getPrimitiveType w (s_elem s)) as [[t []]|] eqn:P; try discriminate. pose proof (proj1 (primitive_reported _ _ _) P) as PR.
    destruct (is_int_or_uint (s_elem s)) eqn:I.
    - unfold convertFromIntOrUintSlice.
      rewrite (mapM_some _ (sized w)); [|eapply Forall_impl; [exact C|]; simpl; intros v [Ty O]; apply sized_of; rewrite ?Ty; done].
      destruct (s_elem s) as [[] n| | | |] eqn:Es; try discriminate I; destruct w eqn:Ew; simpl in P; injection P as <-;
        (intros [= <-]; simpl; eexists _, _, _; split; [reflexivity|]; split_and!;
         [exact PR
         |apply slice_ok_new
         |constructor
         |apply Forall_app; split; [done|]; constructor; [|constructor]; unfold arr_ok; simpl; apply Forall_fmap; eapply Forall_impl; [exact C|];
          intros v [Ty O]; destruct v; simpl in Ty; try discriminate; injection Ty as -> ->; simpl in *; split; [done|exact O]
         |apply cells_new
         |right; split; [eauto|]; split; [done|]; right; exists n; rewrite Es; auto]).
    - assert (Id : sized w <$> cells h s = cells h s).
      { transitivity (id <$> cells h s); [|by rewrite list_fmap_id]. apply Forall_fmap_ext_1. eapply Forall_impl; [exact C|]. intros v [Ty O]. apply (sized_same v). by rewrite Ty. }
      rewrite Id. destruct m.
      + unfold copySlice. intros [= <-]. eexists _, _, _. split; [reflexivity|]. simpl. split_and!; try done.
        * apply slice_ok_new.
        * apply Forall_app. split; [done|]. constructor; [|constructor]. exact C.
        * apply cells_new.
        * right. split; [eauto|]. split; [done|]. by left.
      + intros [= <-]. eexists _, _, _. split; [reflexivity|]. split_and!; try done. left. split_and!; try done.
        intros [?|[n [E|E]]]; [done|rewrite E in I; done..].
  Qed.
  Lemma asSlice_panic h s m msg : heap_ok h → slice_ok h s = true → asSliceValue w h (ISlice s) m = Panic msg →
    ∀ t, ¬ reported_as w (s_elem s) t.
  Proof.
    intros H S E t R. unfold asSliceValue in E. pose proof (cells_ok h s H S) as C. pose proof (proj2 (primitive_reported _ _ _) R) as P. rewrite P in E.
    destruct (is_int_or_uint (s_elem s)) eqn:I; [|by destruct m].
    unfold convertFromIntOrUintSlice in E.
    rewrite (mapM_some _ (sized w)) in E; [|eapply Forall_impl; [exact C|]; simpl; intros v [Ty O]; apply sized_of; rewrite ?Ty; done].
    inversion R as [| | | | | | | | | | | | | | | | | ]; subst; rewrite <- ?H0, <- ?H1, <- ?H2 in *; simpl in *; try discriminate; try (destruct w; discriminate).
  Qed.

  (** *** invariant *)
  Record inv (st : world) : Prop := {
    inv_heap : heap_ok (w_heap st);
    inv_lists : ∀ l al, w_lists st !! l = Some al → slice_ok (w_heap st) (l_slice al) = true ∧ reported_as w (s_elem (l_slice al)) (l_subType al);
    inv_pending : ∀ p pe, w_pending st !! p = Some pe → slice_ok (w_heap st) (p_slice pe) = true ∧
      ∃ al, w_lists st !! p_list pe = Some al ∧ reported_as w (s_elem (p_slice pe)) (l_subType al);
    inv_own : ∀ a, a ∈ w_own st → a < length (w_heap st) }.
  Lemma slice_ok_app h a s : slice_ok h s = true → slice_ok (h ++ [a]) s = true.
  Proof. unfold slice_ok. destruct (h !! s_array s) eqn:E; [|done]. intros S. by rewrite (lookup_app_l_Some _ _ _ _ E). Qed.
  Lemma cells_app h a s : slice_ok h s = true → cells (h ++ [a]) s = cells h s.
  Proof. unfold slice_ok, cells. destruct (h !! s_array s) eqn:E; [|done]. intros S. by rewrite (lookup_app_l_Some _ _ _ _ E). Qed.
  Lemma slice_ok_write h a ar i v s : h !! a = Some ar → slice_ok h s = true → slice_ok (<[a := MkArray (a_elem ar) (<[i := v]> (a_cells ar))]> h) s = true.
  Proof.
    intros E. unfold slice_ok. destruct (decide (a = s_array s)) as [->|N].
    - rewrite E, list_lookup_insert by (by eapply lookup_lt_Some). simpl. by rewrite insert_length.
    - by rewrite list_lookup_insert_ne.
  Qed.
  Lemma slice_lt h s : slice_ok h s = true → s_array s < length h.
  Proof. unfold slice_ok. destruct (h !! s_array s) eqn:E; [|done]. intros _. by eapply lookup_lt_Some. Qed.
  Lemma asSlice_heap h x m h' s t : asSliceValue w h x m = Ok (h', s, t) → h' = h ∨ ∃ a, h' = h ++ [a].
  Proof.
    unfold asSliceValue, copySlice, convertFromIntOrUintSlice. intros E. repeat (case_match; simplify_eq); eauto.
  Qed.
  Lemma asSlice_inv h x m h' s t : heap_ok h → iface_ok h x = true → asSliceValue w h x m = Ok (h', s, t) →
    heap_ok h' ∧ slice_ok h' s = true ∧ reported_as w (s_elem s) t ∧ (h' = h ∨ ∃ a, h' = h ++ [a]).
  Proof.
    intros H O E. pose proof (asSlice_heap _ _ _ _ _ _ E). destruct x as [sl| |]; try discriminate.
    destruct (asSlice_ok _ _ _ _ H O E) as (? & ? & ? & [= <- <- <-] & _ & ? & ? & ? & _). done.
  Qed.
  Lemma slice_ok_mono h h' s : (h' = h ∨ ∃ a, h' = h ++ [a]) → slice_ok h s = true → slice_ok h' s = true.
  Proof. intros [->|[a ->]]; [done|]. apply slice_ok_app. Qed.
  Lemma step_inv st e st' r : inv st → step w st e = Some (st', r) → inv st'.
  Proof.
    intros [IH IL IP IO] E. destruct e as [a|a i v|x m ts|l x m ts|p]; simpl in E.
    - destruct (forallb _ _) eqn:F; [|done]. injection E as <- <-. constructor; simpl.
      + apply Forall_app. split; [done|]. constructor; [|constructor]. apply Forall_forall. intros v Hv.
        rewrite forallb_forall in F. specialize (F v). rewrite <- elem_of_list_In in F. apply F in Hv. apply andb_true_iff in Hv as [Hv ?].
        by apply bool_decide_eq_true in Hv.
      + intros l al L. destruct (IL l al L). split; [by apply slice_ok_app|done].
      + intros p pe L. destruct (IP p pe L). split; [by apply slice_ok_app|done].
      + intros a' [->|Ha]%elem_of_cons; rewrite app_length; simpl; [lia|]. specialize (IO _ Ha). lia.
    - destruct (w_heap st !! a) as [ar|] eqn:L; [|done]. destruct (_ && _) eqn:B; [|done]. injection E as <- <-.
      apply andb_true_iff in B as [[[B1 B2]%andb_true_iff B3]%andb_true_iff B4]. apply bool_decide_eq_true in B1, B2. constructor; simpl.
      + apply Forall_insert; [done|]. apply Forall_insert; [|done]. exact (proj1 (Forall_lookup _ _) IH _ _ L).
      + intros l al LL. destruct (IL l al LL). split; [by apply slice_ok_write|done].
      + intros p pe LL. destruct (IP p pe LL). split; [by apply slice_ok_write|done].
      + intros a' Ha. rewrite insert_length. auto.
    - destruct (iface_ok _ _) eqn:O; [|done]. unfold newList in E. destruct (asSliceValue w (w_heap st) x m) as [[[h' s] t]|msg] eqn:A; injection E as <- <-; [|done].
      destruct (asSlice_inv _ _ _ _ _ _ IH O A) as (H' & S' & R' & Mono). constructor; simpl; [done|..].
      + intros l al [L|(_ & [_ <-]%list_lookup_singleton_Some)]%lookup_app_Some; simpl.
        * destruct (IL l al L). split; [by eapply slice_ok_mono|done].
        * done.
      + intros p pe L. destruct (IP p pe L) as (? & al & ? & ?). split; [by eapply slice_ok_mono|]. exists al. split; [by apply lookup_app_l_Some|done].
      + intros a Ha. specialize (IO a Ha). destruct Mono as [->|[a' ->]]; [done|]. rewrite app_length. lia.
    - destruct (w_lists st !! l) as [al|] eqn:L; [|done]. destruct (iface_ok _ _) eqn:O; [|done]. unfold prepare in E.
      destruct (asSliceValue w (w_heap st) x m) as [[[h' s] t]|msg] eqn:A; [|injection E as <- <-; by constructor].
      destruct (asSlice_inv _ _ _ _ _ _ IH O A) as (H' & S' & R' & Mono).
      assert (G : inv (MkWorld h' (w_own st) (w_lists st) (w_pending st))).
      { constructor; simpl; [done|..].
        - intros l' al' L'. destruct (IL l' al' L'). split; [by eapply slice_ok_mono|done].
        - intros p pe L'. destruct (IP p pe L'). split; [by eapply slice_ok_mono|done].
        - intros a Ha. specialize (IO a Ha). destruct Mono as [->|[a' ->]]; [done|]. rewrite app_length. lia. }
      destruct (String.eqb t (l_subType al)) eqn:T; injection E as <- <-; [|done]. apply String.eqb_eq in T as ->.
      destruct G as [G1 G2 G3 G4]. constructor; [done|done| |done]. simpl in *.
      intros p pe [L'|(_ & [_ <-]%list_lookup_singleton_Some)]%lookup_app_Some; [by apply G3 in L'|]. simpl. split; [done|]. eauto.
    - destruct (w_pending st !! p) as [pe|] eqn:L; [|done]. destruct (w_lists st !! p_list pe) as [al|] eqn:L2; [|done]. injection E as <- <-.
      destruct (IP _ _ L) as (S & al' & L3 & R). rewrite L2 in L3. injection L3 as <-. constructor; simpl; [done|..|done].
      + intros l al' [(<- & <- & _)|(N & L')]%list_lookup_insert_Some; simpl; [done|]. by apply IL in L'.
      + intros p' pe' L'. destruct (IP _ _ L') as (S' & al' & L3 & R'). split; [done|].
        destruct (decide (p_list pe = p_list pe')) as [Eq|N].
        * rewrite <- Eq, list_lookup_insert by (by eapply lookup_lt_Some). eexists. split; [done|]. simpl. rewrite <- Eq, L2 in L3. injection L3 as <-. done.
        * rewrite list_lookup_insert_ne by done. eauto.
  Qed.
  Lemma run_inv es st st' : inv st → run w st es = Some st' → inv st'.
  Proof.
    revert st. induction es as [|e es IH]; intros st I E; simpl in E; [by simplify_eq|].
    destruct (step w st e) as [[st1 r]|] eqn:S; [|done]. eapply IH; [|done]. by eapply step_inv.
  Qed.
  Lemma init_inv : inv init.
  Proof. constructor; simpl; try done. constructor. intros a []%elem_of_nil. Qed.
  Lemma reachable_inv st : reachable w st → inv st.
  Proof. intros [es E]. by eapply run_inv; [apply init_inv|]. Qed.

  (** *** contents of slices over time *)
  (** a slice whose array the program does not write keeps its content *)
  Lemma step_cells st e st' r s : inv st → step w st e = Some (st', r) → slice_ok (w_heap st) s = true → (∀ i v, e = EWrite (s_array s) i v → s_array s ∉ w_own st) →
    slice_ok (w_heap st') s = true ∧ cells (w_heap st') s = cells (w_heap st) s ∧ (s_array s ∉ w_own st → s_array s ∉ w_own st').
  Proof.
    intros I E S K. pose proof (inv_heap _ I) as IH. pose proof (slice_lt _ _ S) as Lt. destruct e as [a|a i v|x m ts|l x m ts|p]; simpl in E.
    - destruct (forallb _ _); [|done]. injection E as <- <-. simpl. split_and!; [by apply slice_ok_app|by apply cells_app|].
      intros N [?|?]%elem_of_cons; [lia|done].
    - destruct (w_heap st !! a) as [ar|] eqn:L; [|done]. destruct (_ && _) eqn:B; [|done]. injection E as <- <-. simpl.
      split_and!; [by apply slice_ok_write| |done].
      apply andb_true_iff in B as [[[B1 _]%andb_true_iff _]%andb_true_iff _]. apply bool_decide_eq_true in B1.
      assert (N : a ≠ s_array s). { intros ->. by apply (K i v). }
      unfold cells. by rewrite list_lookup_insert_ne.
    - destruct (iface_ok _ _) eqn:O; [|done]. unfold newList in E. destruct (asSliceValue w (w_heap st) x m) as [[[h' s'] t]|msg] eqn:A; injection E as <- <-; [|done].
      destruct (asSlice_heap _ _ _ _ _ _ A) as [->|[a ->]]; simpl; [done|]. split_and!; [by apply slice_ok_app|by apply cells_app|done].
    - destruct (w_lists st !! l) as [al|] eqn:L; [|done]. destruct (iface_ok _ _) eqn:O; [|done]. unfold prepare in E.
      destruct (asSliceValue w (w_heap st) x m) as [[[h' s'] t]|msg] eqn:A; [|injection E as <- <-; done].
      assert (G : slice_ok h' s = true ∧ cells h' s = cells (w_heap st) s).
      { destruct (asSlice_heap _ _ _ _ _ _ A) as [->|[a ->]]; [done|]. split; [by apply slice_ok_app|by apply cells_app]. }
      destruct (String.eqb _ _); injection E as <- <-; simpl; destruct G; done.
    - destruct (w_pending st !! p) as [pe|]; [|done]. destruct (w_lists st !! p_list pe); [|done]. injection E as <- <-. done.
  Qed.
  Lemma run_cells es st st' s : inv st → run w st es = Some st' → slice_ok (w_heap st) s = true → s_array s ∉ w_own st ∨ keeps s es →
    slice_ok (w_heap st') s = true ∧ cells (w_heap st') s = cells (w_heap st) s ∧ (s_array s ∉ w_own st → s_array s ∉ w_own st').
  Proof.
    revert st. induction es as [|e es IH]; intros st I E S K; simpl in E; [by simplify_eq|].
    destruct (step w st e) as [[st1 r]|] eqn:St; [|done].
    destruct (step_cells _ _ _ _ s I St S) as (S1 & C1 & O1).
    { intros i v ->. destruct K as [K|K]; [done|]. exfalso. apply (K i v). constructor. }
    destruct (IH st1) as (S2 & C2 & O2); [by eapply step_inv|done|done| |].
    { destruct K as [K|K]; [left; auto|]. right. intros i v H. apply (K i v). by constructor. }
    split_and!; [done|congruence|auto].
  Qed.
  (** *** lists over time *)
  Lemma step_list st e st' r l al : step w st e = Some (st', r) → w_lists st !! l = Some al →
    ∃ al', w_lists st' !! l = Some al' ∧ l_subType al' = l_subType al ∧
      ((∀ p pe, e = ECommit p → w_pending st !! p = Some pe → p_list pe ≠ l) → al' = al).
  Proof.
    intros E L. destruct e as [a|a i v|x m ts|l' x m ts|p]; simpl in E.
    - destruct (forallb _ _); [|done]. injection E as <- <-. eauto.
    - destruct (w_heap st !! a); [|done]. destruct (_ && _); [|done]. injection E as <- <-. eauto.
    - destruct (iface_ok _ _); [|done]. destruct (newList _ _ _ _) as [[h' l']|]; injection E as <- <-; [|eauto]. simpl.
      exists al. split; [by apply lookup_app_l_Some|done].
    - destruct (w_lists st !! l') as [al'|]; [|done]. destruct (iface_ok _ _); [|done]. destruct (prepare _ _ _ _) as [h' [s|msg]]; injection E as <- <-; eauto.
    - destruct (w_pending st !! p) as [pe|] eqn:Lp; [|done]. destruct (w_lists st !! p_list pe) as [al'|] eqn:L2; [|done]. injection E as <- <-. simpl.
      destruct (decide (p_list pe = l)) as [Eq|N].
      + rewrite Eq in *. rewrite L in L2. injection L2 as <-. rewrite list_lookup_insert by (by eapply lookup_lt_Some).
        eexists. split_and!; [done|done|]. intros H. exfalso. by eapply H.
      + rewrite list_lookup_insert_ne by done. eauto.
  Qed.
  Lemma run_subType es st st' l al : run w st es = Some st' → w_lists st !! l = Some al → ∃ al', w_lists st' !! l = Some al' ∧ l_subType al' = l_subType al.
  Proof.
    revert st al. induction es as [|e es IH]; intros st al E L; simpl in E; [simplify_eq; eauto|].
    destruct (step w st e) as [[st1 r]|] eqn:St; [|done]. destruct (step_list _ _ _ _ _ _ St L) as (al1 & L1 & T1 & _).
    destruct (IH _ _ E L1) as (al2 & L2 & T2). exists al2. split; [done|congruence].
  Qed.
  Lemma run_quiet es st st' l al : run w st es = Some st' → w_lists st !! l = Some al → quiet w l st es → w_lists st' !! l = Some al.
  Proof.
    revert st. induction es as [|e es IH]; intros st E L Q; simpl in E; [by simplify_eq|].
    destruct (step w st e) as [[st1 r]|] eqn:St; [|done]. destruct Q as [Q1 Q2]. destruct (step_list _ _ _ _ _ _ St L) as (al1 & L1 & _ & S).
    rewrite (S Q1) in L1. by eapply IH; [|apply L1|eapply Q2].
  Qed.
  Lemma run_pending es st st' p pe : run w st es = Some st' → w_pending st !! p = Some pe → w_pending st' !! p = Some pe.
  Proof.
    revert st. induction es as [|e es IH]; intros st E L; simpl in E; [by simplify_eq|].
    destruct (step w st e) as [[st1 r]|] eqn:St; [|done]. apply (IH st1); [done|].
    destruct e as [a|a i v|x m ts|l x m ts|q]; simpl in St; repeat case_match; simplify_eq; simpl; try done; by apply lookup_app_l_Some.
  Qed.
  Lemma run_app es es' st : run w st (es ++ es') = run w st es ≫= λ st', run w st' es'.
  Proof. revert st. induction es as [|e es IH]; intros st; simpl; [done|]. destruct (step w st e) as [[st1 r]|]; simpl; auto. Qed.

  (** *** the theorems *)
  Lemma new_isolated st s m ts st1 es st2 es' st3 : reachable w st → step w st (ENewList (ISlice s) m ts) = Some (st1, RUnit) → isolated s m ∨ keeps s (es ++ es') →
    run w st1 es = Some st2 → quiet w (length (w_lists st)) st1 es → run w st2 es' = Some st3 →
    ∃ al, w_lists st2 !! length (w_lists st) = Some al ∧ l_ts al = ts ∧ cells (w_heap st3) (l_slice al) = sized w <$> cells (w_heap st) s.
  Proof.
    intros R E Is R1 Q R2. apply reachable_inv in R as I. pose proof (step_inv _ _ _ _ I E) as I1. simpl in E. destruct (slice_ok (w_heap st) s) eqn:O; [|done].
    unfold newList in E. destruct (asSliceValue w (w_heap st) (ISlice s) m) as [[[h' s'] t]|msg] eqn:A; [|done]. injection E as <-.
    destruct (asSlice_ok _ _ _ _ (inv_heap _ I) O A) as (? & ? & ? & [= <- <- <-] & _ & S' & _ & _ & C & Cases).
    exists (MkList t s' ts). split_and!; [|done|].
    - eapply run_quiet; [done| |done]. simpl. by rewrite list_lookup_middle.
    - simpl. rewrite <- C. assert (RR : run w (MkWorld h' (w_own st) (w_lists st ++ [MkList t s' ts]) (w_pending st)) (es ++ es') = Some st3) by (rewrite run_app, R1; done).
      edestruct run_cells as (_ & Eq & _); [exact I1|exact RR|exact S'| |exact Eq]. simpl.
      destruct Cases as [(-> & -> & N)|((a & ->) & Ar & _)].
      + right. destruct Is; done.
      + left. rewrite Ar. intros Ha. apply (inv_own _ I) in Ha. lia.
  Qed.
  Lemma change_isolated st l s m ts st1 es0 st2 st2' es st3 es' st4 : reachable w st → step w st (EPrepare l (ISlice s) m ts) = Some (st1, RUnit) →
    isolated s m ∨ keeps s (es0 ++ es ++ es') →
    run w st1 es0 = Some st2 → step w st2 (ECommit (length (w_pending st))) = Some (st2', RUnit) →
    run w st2' es = Some st3 → quiet w l st2' es → run w st3 es' = Some st4 →
    ∃ al, w_lists st3 !! l = Some al ∧ l_ts al = ts ∧ cells (w_heap st4) (l_slice al) = sized w <$> cells (w_heap st) s.
  Proof.
    intros R E Is R0 Co R1 Q R2. apply reachable_inv in R as I. pose proof (step_inv _ _ _ _ I E) as I1. simpl in E.
    destruct (w_lists st !! l) as [al|] eqn:L; [|done]. destruct (slice_ok (w_heap st) s) eqn:O; [|done].
    unfold prepare in E. destruct (asSliceValue w (w_heap st) (ISlice s) m) as [[[h' s'] t]|msg] eqn:A; [|done]. destruct (String.eqb t (l_subType al)) eqn:T; [|done]. injection E as <-.
    destruct (asSlice_ok _ _ _ _ (inv_heap _ I) O A) as (? & ? & ? & [= <- <- <-] & _ & S' & _ & _ & C & Cases).
    assert (P2 : w_pending st2 !! length (w_pending st) = Some (MkPending l s' ts)).
    { eapply run_pending; [exact R0|]. simpl. by rewrite list_lookup_middle. }
    pose proof Co as Co'. simpl in Co'. rewrite P2 in Co'. simpl in Co'. destruct (w_lists st2 !! l) as [al2|] eqn:L2; [|done]. injection Co' as Co'.
    exists (MkList (l_subType al2) s' ts). split_and!; [|done|].
    - eapply run_quiet; [done| |done]. rewrite <- Co'. simpl. rewrite list_lookup_insert by (by eapply lookup_lt_Some). done.
    - simpl. rewrite <- C.
      assert (RR : run w (MkWorld h' (w_own st) (w_lists st) (w_pending st ++ [MkPending l s' ts])) (es0 ++ ECommit (length (w_pending st)) :: es ++ es') = Some st4).
      { rewrite run_app, R0. cbn [mbind option_bind run]. rewrite Co. rewrite run_app, R1. done. }
      edestruct run_cells as (_ & Eq & _); [exact I1|exact RR|exact S'| |exact Eq]. simpl.
      destruct Cases as [(-> & -> & N)|((a & ->) & Ar & _)].
      + right. destruct Is as [|K]; [done|]. intros i v Hin. apply (K i v). rewrite !elem_of_app in *. rewrite elem_of_cons, elem_of_app in Hin. naive_solver.
      + left. rewrite Ar. intros Ha. apply (inv_own _ I) in Ha. lia.
  Qed.
  Lemma change_panics st l al x m ts st' r : reachable w st → w_lists st !! l = Some al → step w st (EPrepare l x m ts) = Some (st', r) →
    ((∃ msg, r = RPanic msg) ↔ ¬ ∃ s, x = ISlice s ∧ reported_as w (s_elem s) (l_subType al)).
  Proof.
    intros R L E. apply reachable_inv in R as I. simpl in E. rewrite L in E. destruct (iface_ok _ _) eqn:O; [|done]. unfold prepare in E.
    destruct x as [s|v|].
    - destruct (asSliceValue w (w_heap st) (ISlice s) m) as [[[h' s'] t]|msg] eqn:A.
      + destruct (asSlice_ok _ _ _ _ (inv_heap _ I) O A) as (? & ? & ? & [= <- <- <-] & Ra & _).
        destruct (String.eqb t (l_subType al)) eqn:T; injection E as <- <-.
        * apply String.eqb_eq in T as <-. split; [by intros [??]|]. intros N. destruct N. eauto.
        * apply String.eqb_neq in T. split; [|eauto]. intros _ (? & [= <-] & Ra'). apply T.
          apply primitive_reported in Ra, Ra'. congruence.
      + injection E as <- <-. split; [|eauto]. intros _ (? & [= <-] & Ra). by eapply asSlice_panic; [apply I|apply O|apply A|apply Ra].
    - simpl in E. injection E as <- <-. split; [|eauto]. intros _ (? & ? & _). done.
    - simpl in E. injection E as <- <-. split; [|eauto]. intros _ (? & ? & _). done.
  Qed.
  Lemma new_panics st x m ts st' r : reachable w st → step w st (ENewList x m ts) = Some (st', r) →
    ((∃ msg, r = RPanic msg) ↔ ¬ ∃ s t, x = ISlice s ∧ reported_as w (s_elem s) t).
  Proof.
    intros R E. apply reachable_inv in R as I. simpl in E. destruct (iface_ok _ _) eqn:O; [|done]. unfold newList in E.
    destruct x as [s|v|].
    - destruct (asSliceValue w (w_heap st) (ISlice s) m) as [[[h' s'] t]|msg] eqn:A; injection E as <- <-.
      + destruct (asSlice_ok _ _ _ _ (inv_heap _ I) O A) as (? & ? & ? & [= <- <- <-] & Ra & _).
        split; [by intros [??]|]. intros N. destruct N. eauto.
      + split; [|eauto]. intros _ (? & t & [= <-] & Ra). by eapply asSlice_panic; [apply I|apply O|apply A|apply Ra].
    - simpl in E. injection E as <- <-. split; [|eauto]. intros _ (? & ? & ? & _). done.
    - simpl in E. injection E as <- <-. split; [|eauto]. intros _ (? & ? & ? & _). done.
  Qed.
  Lemma new_subType st s m ts st' : step w st (ENewList (ISlice s) m ts) = Some (st', RUnit) →
    ∃ al, w_lists st' = w_lists st ++ [al] ∧ reported_as w (s_elem s) (l_subType al).
  Proof.
    intros E. simpl in E. destruct (slice_ok _ _); [|done]. unfold newList in E.
    destruct (asSliceValue w (w_heap st) (ISlice s) m) as [[[h' s'] t]|msg] eqn:A; [|done]. injection E as <-. simpl. eexists. split; [done|]. simpl.
    unfold asSliceValue in A. apply primitive_reported. destruct (getPrimitiveType w (s_elem s)) as [[t' []]|]; try done.
    repeat (case_match; simplify_eq); done.
  Qed.
  (** a panic changes no list, and no content of a list *)
  Lemma panic_nothing st l x m ts st' msg : reachable w st → step w st (EPrepare l x m ts) = Some (st', RPanic msg) →
    w_lists st' = w_lists st ∧ w_pending st' = w_pending st ∧ ∀ l' al, w_lists st !! l' = Some al → cells (w_heap st') (l_slice al) = cells (w_heap st) (l_slice al).
  Proof.
    intros R E. apply reachable_inv in R as I. pose proof E as E'. simpl in E. destruct (w_lists st !! l) as [al|]; [|done]. destruct (iface_ok _ _); [|done].
    destruct (prepare _ _ _ _) as [h' [s|msg']]; simplify_eq. simpl. split_and!; [done..|]. intros l' al' L.
    destruct (step_cells _ _ _ _ (l_slice al') I E') as (_ & C & _); [by eapply inv_lists|done|]. exact C.
  Qed.
  Lemma elements_reported st l al : reachable w st → w_lists st !! l = Some al → Forall (λ v, reported_as w (rtype_of v) (l_subType al)) (cells (w_heap st) (l_slice al)).
  Proof.
    intros R L. apply reachable_inv in R as I. destruct (inv_lists _ I _ _ L) as [S Ra]. eapply Forall_impl; [by apply cells_ok; [apply I|]|].
    simpl. intros v [-> _]. done.
  Qed.
End W.
