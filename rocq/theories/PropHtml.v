(** Properties of the HTML pages: C71, C72 and C73. *)
From Verif Require Import GoBase GoVal UnitsModel DurationModel TypesModel FloatBase MessagesModel FloatConvModel.
From stdpp Require Import gmap strings sorting.
From Verif Require Import DistMsgModel ReflectModel ListModel ValueModel ValueSpec FormatModel.
From Flocq Require Import IEEE754.BinarySingleNaN.
From Verif Require Import PathModel PathSpec PathProofs RegistryModel RegistrySpec RegistryProofs RegistryConc RegistryConcSpec RegistryConcProofs RegistryWitness.
From Verif Require Import HttpModel HttpSpec HttpWitness HttpProofs UrlModel UrlSpec UrlProofs HtmlModel HtmlSpec HtmlProofs.
Local Open Scope string_scope.
Local Open Scope list_scope.

(** ** C71: the link to a directory leads to the directory *)
(** Whoever follows the link to the directory with the path a gets this directory if and only if all names in a are
    safe. What is missing: directories with other names, for which the property does not hold. *)
Theorem c71_links_partial : ∀ h d a, reachable_heap h → live h d a →
  (visited h (Link (dirAbsPath h d)) = Some (NDir d) ↔ Forall link_safe a).
Proof. intros h d a R L. apply link_visits; [by apply reachable_wf|done]. Qed.
Definition dirs (paths : list string) : list instr := concat (imap (λ i p, [Start (S i) (CRegDir root p); Go (S i) (S (length (newPathSpec p)))]) paths).
(** the directories with odd names *)
Definition odd : heap := the_heap (dirs ["/a?b"; "/a b/caf<&>"; "/100%25"; "/100%"]).
Lemma the_heap_reachable is : reachable_heap (the_heap is).
Proof. unfold the_heap. destruct (exec is init_config) as [[l c]|] eqn:E; [exists c; split; [exists l; by eapply exec_sound|done]|exists init_config; split; [|done]; eexists; constructor]. Qed.
Theorem c71_refuted : ¬ ∀ h d a, reachable_heap h → live h d a → visited h (Link (dirAbsPath h d)) = Some (NDir d).
Proof.
  intros H. assert (∃ d, live odd d ["a?b"] ∧ dirAbsPath odd d = "/a?b") as (d & L & E) by (eexists; split; [vm_compute; reflexivity|vm_compute; reflexivity]).
  pose proof (H odd d ["a?b"] (the_heap_reachable _) L) as V. rewrite E in V. vm_compute in V. discriminate V.
Qed.
(** The link to a?b leads nowhere, the one to 100%25 to another directory. *)
Example c71_nonvacuous :
  reachable_heap odd ∧
  (∃ d, live odd d ["a b"; "caf<&>"] ∧ dirAbsPath odd d = "/a b/caf<&>" ∧ visited odd (Link (dirAbsPath odd d)) = Some (NDir d)) ∧
  (∃ d, live odd d ["a?b"] ∧ visited odd (Link (dirAbsPath odd d)) = None) ∧
  (∃ d d', live odd d ["100%25"] ∧ live odd d' ["100%"] ∧ d ≠ d' ∧ visited odd (Link (dirAbsPath odd d)) = Some (NDir d') ∧ visited odd (Link (dirAbsPath odd d')) = Some (NDir d')).
Proof.
  split; [apply the_heap_reachable|]. split_and!.
  - eexists. split_and!; vm_compute; reflexivity.
  - eexists. split_and!; vm_compute; reflexivity.
  - eexists _, _. split_and!; [vm_compute; reflexivity..|discriminate|vm_compute; reflexivity|vm_compute; reflexivity].
Qed.

(** ** C72: the page of a directory *)
(** [l]: the entries in any order, as a Go map yields them. Each name in the directory is shown once, in order. *)
Theorem c72_page : ∀ W w val arrays FF FT h path p d (s : W), objects w val arrays → reachable_heap h → components path p → answer h p = Some (NDir d) →
  htmlHandler (looked_up h path) = Resp 200 (BHtmlDirectory d) ∧
  ∀ l, l ≡ₚ entries_of h d → ∃ items ns, htmlDirectory val arrays FF FT h l s = Some items ∧
    StronglySorted slt ns ∧ (∀ n, n ∈ ns ↔ answer h (p ++ [n]) ≠ None) ∧ Forall2 (λ n it, shows_node val arrays h s (p ++ [n]) it) ns items.
Proof.
  intros W w val arrays FF FT h path p d s O R C A. split; [by rewrite (looked_up_answer h path p C), A|]. intros l P. by apply (directory_page w val arrays FF FT O h d p l s).
Qed.
(** The page of a metric. *)
Theorem c72_metric : ∀ W w val arrays FF FT h path p e (s : W), objects w val arrays → reachable_heap h → components path p → answer h p = Some (NMetric e) →
  htmlHandler (looked_up h path) = Resp 200 (BHtmlMetric e) ∧
  ∃ mi sc, e_obj e = OMetric mi ∧ htmlMetric val arrays FF FT e s = Some sc ∧ shows_metric val arrays s p mi sc.
Proof.
  intros W w val arrays FF FT h path p e s O R C A. split; [by rewrite (looked_up_answer h path p C), A|].
  destruct (section_some w val arrays FF FT O h p e s R A) as (mi & sc & Oe & E & Sh & _). by exists mi, sc.
Qed.
Definition some_time (t : gotime) : string := "".
Definition page (b : ValueModel.mspec ()) (st : world) (d : nat) : option (list item) :=
  htmlDirectory (env () (int_var 1234567) (string_var "hi") b) (aheap_of st) some_float some_time h0 (rev (entries_of h0 d)) ().
Definition text_of (it : item) : string :=
  match it with
  | ILink href text => href +:+ " " +:+ text
  | ISection sc => sc_path sc +:+ " " +:+ match sc_shown sc with ShValue x t => t +:+ " " +:+ x | ShList t l => t +:+ join_bar l | ShDist _ _ => "distribution" end
  end.
Definition texts (o : option (list item)) : list string := match o with Some l => map text_of l | None => [] end.
(** the numbers of the rows of a distribution *)
Definition row_kind (r : row) : nat * N := match r with RowBelow _ n => (0, n) | RowRange _ _ n => (1, n) | RowFrom _ n => (2, n) end.
Definition rows_in (o : option (list item)) : list (nat * N) :=
  match o with Some l => concat (map (λ it, match it with ISection sc => match sc_shown sc with ShDist rows _ => map row_kind rows | _ => [] end | _ => [] end) l) | None => [] end.
Example c72_nonvacuous :
  reachable_heap h0 ∧ objects W64 (env () (int_var 1234567) (string_var "hi") (dist_var [one])) (aheap_of empty_world) ∧
  texts (page (list_var duration_list) duration_list 0) = ["/metrics/a /a"; "/b duration1ns"] ∧
  texts (page (int_var 1) empty_world 1) = ["/a/x int64 1,234,567"; "/a/y string ""hi"""] ∧
  rows_in (page (dist_var [f64_of_N 0; one; one]) empty_world 0) = [(0, 1%N); (1, 2%N)].
Proof.
  split; [apply the_heap_reachable|]. split.
  { apply (env_objects _ _ _ empty_world); [by apply good_int|apply good_string|apply good_dist|done|done|by left]. }
  split_and!; vm_compute; reflexivity.
Qed.

(** ** C73: HTML and JSON agree *)
Theorem c73_agree : ∀ W w val arrays stamp group sp FF FT h path p out (s : W) m, objects w val arrays → reachable_heap h → components path p →
  jsonHandler val arrays stamp group sp true (looked_up h path) out s = Resp 200 (BMetric m) →
  ∃ e sc, htmlHandler (looked_up h path) = Resp 200 (BHtmlMetric e) ∧ htmlMetric val arrays FF FT e s = Some sc ∧ agrees sc m.
Proof.
  intros W w val arrays stamp group sp FF FT h path p out s m O R C J. unfold jsonHandler in J. destruct (looked_up h path) as [[d|e]|]; [discriminate J| |discriminate J].
  destruct (InitJsonMetric _ _ _ _ _ _ _) as [j|] eqn:E; [|discriminate J]. destruct (marshals _ _ _ _); [|discriminate J]. injection J as ->.
  destruct (json_agrees w val arrays FF FT O stamp group sp e s m E) as (sc & H & A). by exists e, sc.
Qed.
Definition json_types (b : ValueModel.mspec ()) (st : world) (path : string) : string :=
  match jsonHandler (env () (int_var 1234567) (string_var "hi") b) (aheap_of st) no_stamp no_group no_sprintf true (looked_up h0 path) [] () with
  | Resp _ (BMetric m) => m_kind m +:+ " " +:+ m_subType m +:+ match m_value m with VScalar SString str => " " +:+ str | VSlice SString (Some l) => " " +:+ join_bar l | _ => "" end
  | _ => ""
  end.
Example c73_nonvacuous :
  components "/a/y" ["a"; "y"] ∧ objects W64 (env () (int_var 1234567) (string_var "hi") (dist_var [one])) (aheap_of empty_world) ∧
  json_types (int_var 1) empty_world "/a/y" = "string  hi" ∧ json_types (list_var duration_list) duration_list "b" = "list duration 0.000000001".
Proof.
  split; [by apply newPathSpec_iff|]. split.
  { apply (env_objects _ _ _ empty_world); [by apply good_int|apply good_string|apply good_dist|done|done|by left]. }
  split; vm_compute; reflexivity.
Qed.

Print Assumptions c71_links_partial.
Print Assumptions c71_refuted.
Print Assumptions c72_page.
Print Assumptions c72_metric.
Print Assumptions c73_agree.
