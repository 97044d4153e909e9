(** A registry, a program and requests for the examples of PropHttp.v. *)
From Verif Require Import GoBase GoVal UnitsModel DurationModel TypesModel FloatBase MessagesModel.
From stdpp Require Import gmap strings sorting.
From Verif Require DistModel.
From Verif Require Import DistMsgModel ReflectModel ListModel ValueModel ValueSpec FormatModel.
From Flocq Require Import IEEE754.BinarySingleNaN.
From Verif Require Import PathModel PathSpec PathProofs RegistryModel RegistrySpec RegistryConc RegistryWitness HttpModel HttpSpec.
Local Open Scope string_scope.
Local Open Scope list_scope.

(** ** A registry and a program for the examples *)
Definition reg (t : nat) (p : string) (v n : nat) : list instr := [Start t (CRegMetric root p (MkInfo (MVar v) 0 "None" "")); Go t n].
Definition the_heap (setup : list instr) : heap := match exec setup init_config with Some (_, c) => c_heap c | None => c_heap init_config end.
Definition the_list (setup : list instr) (path : string) (n : nat) : list entry :=
  match exec setup init_config with
  | Some (_, c) => match exec [Start 99 (CList root path); Go 99 n] c with Some (_, c') => match list_result 99 c' with Some (_, out) => out | None => [] end | None => [] end
  | None => []
  end.
(** Heaps can be compared. *)
Global Instance mspec_eq : EqDecision RegistryModel.mspec. Proof. solve_decision. Defined.
Global Instance minfo_eq : EqDecision minfo. Proof. solve_decision. Defined.
Global Instance obj_eq : EqDecision obj. Proof. solve_decision. Defined.
Fixpoint same_entry (a b : entry) : {a = b} + {a ≠ b}.
Proof.
  destruct a as [i n o p], b as [i' n' o' p'].
  destruct (decide (i = i')); [|right; congruence]. destruct (decide (n = n')); [|right; congruence]. destruct (decide (o = o')); [|right; congruence].
  destruct p as [q|], p' as [q'|]; [destruct (same_entry q q'); [left|right]; congruence|right; congruence|right; congruence|left; congruence].
Defined.
Global Instance entry_eq : EqDecision entry := same_entry.
Global Instance dir_eq : EqDecision dir. Proof. solve_decision. Defined.
Global Instance heap_eq : EqDecision heap. Proof. solve_decision. Defined.
Definition traversal_check (setup : list instr) (path : string) (n : nat) : bool :=
  match exec setup init_config with
  | Some (_, c) => match exec [Start 99 (CList root path); Go 99 n] c with
                   | Some (l, c') => forallb (λ x, bool_decide (c_heap x = c_heap c)) l && idle 99 c && match list_result 99 c' with Some (s, _) => String.eqb s path | None => false end
                   | None => false
                   end
  | None => false
  end.
Lemma traversed_witness setup path n : traversal_check setup path n = true → traversed (the_heap setup) path (the_list setup path n).
Proof.
  unfold the_heap, the_list, traversal_check. destruct (exec setup init_config) as [[l0 c]|] eqn:E0; [|done]. destruct (exec _ c) as [[l c']|] eqn:E; [|done].
  intros [[F I]%andb_true_iff R]%andb_true_iff. destruct (list_result 99 c') as [[s out]|] eqn:L; [|done]. apply String.eqb_eq in R. subst s. exists c, l, c', 99.
  split; [exists l0; by eapply exec_sound|].
  split; [by eapply exec_sound|]. split; [by apply idle_spec|]. split; [by apply list_result_spec|].
  intros x X%elem_of_list_In. rewrite forallb_forall in F. apply F in X. by apply bool_decide_eq_true in X.
Qed.
Definition setup : list instr := reg 1 "a/x" 0 3 ++ reg 2 "a/y" 1 3 ++ reg 3 "b" 2 2.
Definition h0 : heap := the_heap setup.
Definition out0 : list entry := the_list setup "/" 7.
Lemma out0_traversed : traversed h0 "/" out0.
Proof. apply traversed_witness. vm_compute. reflexivity. Qed.

(** what is registered at /a/x, /a/y and /b *)
Definition val_of {W} (s0 : W) (o : ValueModel.mspec W) : value W := match ValueModel.newValue W64 s0 o with NVOk v => v | _ => MkValue (SrcVal false (λ _, None)) TBool false end.
Definition env {W} (s0 : W) (x y b : ValueModel.mspec W) (sp : RegistryModel.mspec) : value W := val_of s0 (match sp with MVar 1 => y | MVar 2 => b | _ => x end).
Definition int_var {W} (z : Z) : ValueModel.mspec W := SpPtr (RBasic KInt64 None) (λ _, RVBasic KInt64 None z).
Definition nan : float64 := B754_nan.
Definition nan_var {W} : ValueModel.mspec W := SpPtr (RBasic KFloat64 None) (λ _, RVBasic KFloat64 None nan).
Definition string_var {W} (str : string) : ValueModel.mspec W := SpPtr (RBasic KString None) (λ _, RVBasic KString None str).
(** a distribution with the buckets (-inf, 1), [1, 2), [2, inf) after adding values *)
Definition one : float64 := f64_of_N 1. Definition two : float64 := f64_of_N 2.
Definition dist_after (vs : list float64) : dist_msg :=
  match DistModel.newBucketerFromEndpoints ([one; two] : list (DistModel.nt DistModel.num64)) with
  | Some ps =>
      match DistModel.Snapshot (snd (DistModel.callsf (DistModel.CSetUnit "None" :: map (λ v, DistModel.CAdd (DistModel.DFloat64 v) (MkTime 0 0)) vs) (DistModel.newDistributionWithTimeStamp ps false (MkTime 0 0)))) with
      | Some sn => distMessage sn
      | None => MkDist nan nan nan nan nan 0 0 false []
      end
  | None => MkDist nan nan nan nan nan 0 0 false []
  end.
Definition dist_var {W} (vs : list float64) : ValueModel.mspec W := SpDist true (λ _, dist_after vs).
(** a list of type nm with elements of type t *)
Definition list_events (nm : option string) (t : rtype) (vs : list rval) : list event := [EAlloc (MkArray t vs); ENewList (ISlice (MkSlice nm t 0 0 (length vs))) false (MkTime 0 0)].
Definition list_world (nm : option string) (t : rtype) (vs : list rval) : world := match ListModel.run W64 ListModel.init (list_events nm t vs) with Some st => st | None => ListModel.init end.
Definition no_list : alist := MkList TBool (MkSlice None (RBasic KBool None) 0 0 0) (MkTime 0 0).
Definition list_var {W} (st : world) : ValueModel.mspec W := SpList (λ _, match w_lists st with l :: _ => l | [] => no_list end).
Definition no_stamp {W} (mi : minfo) (s : W) : gotime := MkTime 0 0.
Definition no_group {W} (mi : minfo) (s : W) : Z := 0%Z.
Definition no_sprintf (v : goval) : string := "".
Definition some_float {A} (f : A) : string := "1.5".

Definition good {W} (o : ValueModel.mspec W) : Prop := well_typed W64 o ∧ readable o ∧ ∀ s, ∃ v, ValueModel.newValue W64 s o = NVOk v.
Definition no_lists {W} (o : ValueModel.mspec W) : Prop := match o with SpList _ => False | _ => True end.
Lemma env_objects (x y b : ValueModel.mspec ()) (st : world) : good x → good y → good b → no_lists x → no_lists y →
  no_lists b ∨ b = list_var st ∧ ListModel.reachable W64 st ∧ (∃ l ls, w_lists st = l :: ls) → objects W64 (env () x y b) (λ _, w_heap st).
Proof.
  intros Gx Gy Gb Nx Ny Nb.
  assert (D : ∀ sp, ∃ o, good o ∧ env () x y b sp = val_of () o ∧ (no_lists o ∨ o = b)).
  { intros [d|[|[|[|v]]]|v|v]; unfold env; eauto 6. }
  assert (K : ∀ o, no_lists o → good o → ∀ l, v_src (val_of () o) ≠ SrcList l).
  { intros o N (T & R & V) l E. destruct (V ()) as [v Ev]. unfold val_of in E. rewrite Ev in E. destruct o as [[] d|l'|g str|isnil args [|t [|]] f|t f| | |]; simpl in Ev; try done.
    - by injection Ev as <-.
    - destruct (match g with Some g => g | None => _ end ()); [|done]. destruct (getPrimitiveType _ _) as [[]|]; by injection Ev as <-.
    - destruct (getPrimitiveType _ _) as [[]|]; [|done]. by injection Ev as <-.
    - destruct (getPrimitiveType _ _) as [[]|]; [|done]. by injection Ev as <-. }
  split.
  - intros sp. destruct (D sp) as (o & (T & R & V) & E & _). exists o, (). split; [done|]. split; [done|]. rewrite E. unfold val_of. destruct (V ()) as [v ->]. done.
  - intros sp l [] E. destruct (D sp) as (o & G & Eo & [N| ->]); rewrite Eo in E; [by destruct (K o N G l)|].
    destruct Nb as [N|(-> & R & l1 & ls & Ls)]; [by destruct (K b N G l)|]. simpl in E. injection E as <-. exists st, 0. split; [done|]. by rewrite Ls.
Qed.
Lemma good_int z : in64 z → good (W := ()) (int_var z).
Proof. intros Z. split_and!; [|done|by eexists]. intros s. split; [done|]. simpl. unfold between. apply andb_true_iff. rewrite Z.leb_le, Z.ltb_lt. unfold in64 in Z. lia. Qed.
Lemma good_nan : good (W := ()) nan_var.
Proof. by split_and!; [| |eexists]. Qed.
Lemma good_string str : good (W := ()) (string_var str).
Proof. by split_and!; [| |eexists]. Qed.
Lemma good_dist vs : good (W := ()) (dist_var vs).
Proof. by split_and!; [| |eexists]. Qed.
Lemma good_list st : good (W := ()) (list_var st).
Proof. by split_and!; [| |eexists]. Qed.
Lemma list_reachable nm t vs : ListModel.reachable W64 (list_world nm t vs).
Proof. unfold list_world. destruct (ListModel.run _ _ _) as [st|] eqn:E; [by eexists|by exists []]. Qed.
Definition empty_world : world := ListModel.init.
Definition aheap_of (st : world) (_ : ()) : list array := w_heap st.

Lemma root_components : components "/" [].
Proof. by apply newPathSpec_iff. Qed.
(** a distribution to which NaN was added, a list with NaN, a list whose type is a declared slice of durations *)
Definition nan_list : world := list_world None (RBasic KFloat64 None) [RVBasic KFloat64 None nan].
Definition declared_list : world := list_world (Some "Delays") RDuration [RVDuration 1].
Definition duration_list : world := list_world None RDuration [RVDuration 1].
Lemma root_objects b st : good b → no_lists b ∨ b = list_var st ∧ ListModel.reachable W64 st ∧ (∃ l ls, w_lists st = l :: ls) →
  objects W64 (env () (int_var 5) (int_var 6) b) (aheap_of st).
Proof. intros G N. apply (env_objects _ _ _ st); try done; by apply good_int. Qed.
Definition is_error (r : response) : bool := match r with Resp c (BText t) => (c =? 200)%Z && String.eqb t ("Error in template." +:+ newline) | _ => false end.
Lemma is_error_spec r : is_error r = true → r = error_page.
Proof. destruct r as [c [t| | | |]|]; try done. simpl. intros [->%Z.eqb_eq ->%String.eqb_eq]%andb_true_iff. done. Qed.
Definition is_dropped (r : response) : bool := match r with Dropped => true | _ => false end.
Definition lists_metrics (n : nat) (r : response) : bool := match r with Resp c (BMetrics ms) => (c =? 200)%Z && Nat.eqb (length ms) n | _ => false end.
Lemma lists_metrics_spec n r : lists_metrics n r = true → ∃ ms, r = Resp 200 (BMetrics ms) ∧ length ms = n.
Proof. destruct r as [c [|ms| | |]|]; try done. simpl. intros [->%Z.eqb_eq E%Nat.eqb_eq]%andb_true_iff. eauto. Qed.
