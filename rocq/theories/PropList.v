(** Property theorems C48 and C49: lists. *)
From Verif Require Import GoBase GoVal UnitsModel DurationModel TypesModel.
From stdpp Require Import list.
From Verif Require Import ReflectModel ListModel ListSpec ListProofs.

(** C48. A list made from a mutable slice (or from ints or uints) reports the values the slice had at the call: until
    another Change takes effect (es) the list hands out a slice, whose content is still the same after anything else
    that happens (es'), whatever the program writes meanwhile. *)
Theorem c48_new : ∀ w st s m ts st1 es st2 es' st3, reachable w st →
  step w st (ENewList (ISlice s) m ts) = Some (st1, RUnit) → isolated s m →
  run w st1 es = Some st2 → quiet w (length (w_lists st)) st1 es → run w st2 es' = Some st3 →
  ∃ al, w_lists st2 !! length (w_lists st) = Some al ∧ snd (AsSlice al) = ts ∧ cells (w_heap st3) (fst (AsSlice al)) = sized w <$> cells (w_heap st) s.
Proof. intros w st s m ts st1 es st2 es' st3 R E I. exact (new_isolated w st s m ts st1 es st2 es' st3 R E (or_introl I)). Qed.
(** The same for Change: other goroutines may do anything (es0) between the copy and the moment it takes effect. *)
Theorem c48_change : ∀ w st l s m ts st1 es0 st2 st2' es st3 es' st4, reachable w st →
  step w st (EPrepare l (ISlice s) m ts) = Some (st1, RUnit) → isolated s m →
  run w st1 es0 = Some st2 → step w st2 (ECommit (length (w_pending st))) = Some (st2', RUnit) →
  run w st2' es = Some st3 → quiet w l st2' es → run w st3 es' = Some st4 →
  ∃ al, w_lists st3 !! l = Some al ∧ snd (AsSlice al) = ts ∧ cells (w_heap st4) (fst (AsSlice al)) = sized w <$> cells (w_heap st) s.
Proof. intros w st l s m ts st1 es0 st2 st2' es st3 es' st4 R E I. exact (change_isolated w st l s m ts st1 es0 st2 st2' es st3 es' st4 R E (or_introl I)). Qed.
(** And for a slice passed as immutable, if the program keeps its word. *)
Theorem c48_new_immutable : ∀ w st s m ts st1 es st2 es' st3, reachable w st →
  step w st (ENewList (ISlice s) m ts) = Some (st1, RUnit) → keeps s (es ++ es') →
  run w st1 es = Some st2 → quiet w (length (w_lists st)) st1 es → run w st2 es' = Some st3 →
  ∃ al, w_lists st2 !! length (w_lists st) = Some al ∧ snd (AsSlice al) = ts ∧ cells (w_heap st3) (fst (AsSlice al)) = sized w <$> cells (w_heap st) s.
Proof. intros w st s m ts st1 es st2 es' st3 R E I. exact (new_isolated w st s m ts st1 es st2 es' st3 R E (or_intror I)). Qed.
Theorem c48_change_immutable : ∀ w st l s m ts st1 es0 st2 st2' es st3 es' st4, reachable w st →
  step w st (EPrepare l (ISlice s) m ts) = Some (st1, RUnit) → keeps s (es0 ++ es ++ es') →
  run w st1 es0 = Some st2 → step w st2 (ECommit (length (w_pending st))) = Some (st2', RUnit) →
  run w st2' es = Some st3 → quiet w l st2' es → run w st3 es' = Some st4 →
  ∃ al, w_lists st3 !! l = Some al ∧ snd (AsSlice al) = ts ∧ cells (w_heap st4) (fst (AsSlice al)) = sized w <$> cells (w_heap st) s.
Proof. intros w st l s m ts st1 es0 st2 st2' es st3 es' st4 R E I. exact (change_isolated w st l s m ts st1 es0 st2 st2' es st3 es' st4 R E (or_intror I)). Qed.

(** C49. The element type is fixed at creation, *)
Theorem c49_subType : ∀ w st s m ts st' es st'' , step w st (ENewList (ISlice s) m ts) = Some (st', RUnit) → run w st' es = Some st'' →
  ∃ al, w_lists st'' !! length (w_lists st) = Some al ∧ reported_as w (s_elem s) (l_subType al).
Proof.
  intros w st s m ts st' es st'' E R. destruct (new_subType w st s m ts st' E) as (al & L & Ra).
  destruct (run_subType w es st' st'' (length (w_lists st)) al R) as (al' & L' & T); [rewrite L; by apply list_lookup_middle|]. exists al'. by rewrite T.
Qed.
(** so are the types of the elements: they are always those of its SubType. *)
Theorem c49_elements : ∀ w st l al, reachable w st → w_lists st !! l = Some al →
  Forall (λ v, reported_as w (rtype_of v) (l_subType al)) (cells (w_heap st) (l_slice al)).
Proof. exact elements_reported. Qed.
(** Change panics exactly when it is not given a slice of a type reported with this SubType, *)
Theorem c49_panics : ∀ w st l al x m ts st' r, reachable w st → w_lists st !! l = Some al → step w st (EPrepare l x m ts) = Some (st', r) →
  ((∃ msg, r = RPanic msg) ↔ ¬ ∃ s, x = ISlice s ∧ reported_as w (s_elem s) (l_subType al)).
Proof. exact change_panics. Qed.
(** NewList exactly when it is not given a slice of a supported type; *)
Theorem c49_new_panics : ∀ w st x m ts st' r, reachable w st → step w st (ENewList x m ts) = Some (st', r) →
  ((∃ msg, r = RPanic msg) ↔ ¬ ∃ s t, x = ISlice s ∧ reported_as w (s_elem s) t).
Proof. exact new_panics. Qed.
(** and a Change that panics changes no list. *)
Theorem c49_panic_changes_nothing : ∀ w st l x m ts st' msg, reachable w st → step w st (EPrepare l x m ts) = Some (st', RPanic msg) →
  w_lists st' = w_lists st ∧ w_pending st' = w_pending st ∧
  ∀ l' al, w_lists st !! l' = Some al → cells (w_heap st') (fst (AsSlice al)) = cells (w_heap st) (fst (AsSlice al)).
Proof. exact panic_nothing. Qed.

(** ** The hypotheses are met by non-trivial programs *)
Definition ints (n : option string) (l : list Z) : array := MkArray (RBasic KInt n) ((λ z, RVBasic KInt n z : rval) <$> l).
Definition strs (l : list string) : array := MkArray (RBasic KString None) ((λ s, RVBasic KString None s : rval) <$> l).
Definition win (a : array) (i off len : nat) : slice := MkSlice None (a_elem a) i off len.
Definition T (n : Z) : gotime := MkTime n 0.
Definition a0 : array := ints (Some "main.Port"%string) [5; 6; 7; 8]%Z.
Definition a1 : array := strs ["x"; "y"]%string.
(** two lists: of declared ints passed as immutable, of strings passed as mutable *)
Definition ex_setup : list event := [EAlloc a0; EAlloc a1; ENewList (ISlice (win a1 1 0 2)) true (T 1)].
Definition ex_state (es : list event) : world := match run W64 init es with Some st => st | None => init end.
Definition ex_noise : list event := [EWrite 0 1 (RVBasic KInt (Some "main.Port"%string) 60%Z : rval); EWrite 1 0 (RVBasic KString None "z"%string : rval); EPrepare 0 (ISlice (win a1 1 0 1)) true (T 3)].
Lemma reach es st : run W64 init es = Some st → reachable W64 st.
Proof. by exists es. Qed.
Example c48_new_nonvacuous : ∃ st st1 st2 st3, reachable W64 st ∧ step W64 st (ENewList (ISlice (win a0 0 1 2)) false (T 2)) = Some (st1, RUnit) ∧
  isolated (win a0 0 1 2) false ∧ run W64 st1 ex_noise = Some st2 ∧ quiet W64 1 st1 ex_noise ∧ run W64 st2 [ECommit 0] = Some st3 ∧
  cells (w_heap st3) (win a0 0 1 2) ≠ cells (w_heap st) (win a0 0 1 2) ∧
  (∃ al, w_lists st3 !! 1 = Some al ∧ cells (w_heap st3) (l_slice al) = [RVBasic KInt64 None 6%Z; RVBasic KInt64 None 7%Z]).
Proof.
  eexists _, _, _, _. split; [apply (reach ex_setup); vm_compute; reflexivity|]. split; [vm_compute; reflexivity|]. split; [right; eexists; left; reflexivity|].
  split; [vm_compute; reflexivity|]. split; [repeat split; try (intros; discriminate); intros st' r E; vm_compute in E; injection E as <- <-; repeat split; try (intros; discriminate); intros st' r E; vm_compute in E; injection E as <- <-; repeat split; try (intros; discriminate)|].
  split; [vm_compute; reflexivity|]. split; [intros E; apply (f_equal (fmap (M := list) value_Int)) in E; vm_compute in E; discriminate E|]. eexists. split; vm_compute; reflexivity.
Qed.
Example c48_change_nonvacuous : ∃ st st1 st2 st3, reachable W64 st ∧ step W64 st (EPrepare 0 (ISlice (win a1 1 1 1)) true (T 2)) = Some (st1, RUnit) ∧
  run W64 st1 [EWrite 1 1 (RVBasic KString None "z"%string : rval)] = Some st2 ∧ step W64 st2 (ECommit 0) = Some (st3, RUnit) ∧
  (∃ al, w_lists st3 !! 0 = Some al ∧ cells (w_heap st3) (l_slice al) = [RVBasic KString None "y"%string]).
Proof.
  eexists _, _, _, _. split; [apply (reach ex_setup); vm_compute; reflexivity|]. split; [vm_compute; reflexivity|]. split; [vm_compute; reflexivity|].
  split; [vm_compute; reflexivity|]. eexists. split; vm_compute; reflexivity.
Qed.
(** Without the program keeping its word, a list made from an immutable slice does change. *)
Example c48_immutable_aliases : ∃ st al, run W64 init [EAlloc a1; ENewList (ISlice (win a1 0 0 2)) false (T 1); EWrite 0 1 (RVBasic KString None "z"%string : rval)] = Some st ∧
  w_lists st !! 0 = Some al ∧ cells (w_heap st) (l_slice al) = [RVBasic KString None "x"%string; RVBasic KString None "z"%string].
Proof. eexists _, _. split_and!; vm_compute; reflexivity. Qed.
Example c49_nonvacuous : ∃ st al st', reachable W64 st ∧ w_lists st !! 0 = Some al ∧ l_subType al = TString ∧
  step W64 st (EPrepare 0 (ISlice (win a0 0 0 2)) true (T 2)) = Some (st', RPanic panicListSubTypeChanging) ∧ length (w_heap st') = S (length (w_heap st)).
Proof. eexists _, _, _. split; [apply (reach ex_setup); vm_compute; reflexivity|]. split_and!; vm_compute; reflexivity. Qed.
Print Assumptions c48_new.
Print Assumptions c48_change.
Print Assumptions c48_new_immutable.
Print Assumptions c48_change_immutable.
Print Assumptions c49_subType.
Print Assumptions c49_elements.
Print Assumptions c49_panics.
Print Assumptions c49_new_panics.
Print Assumptions c49_panic_changes_nothing.
