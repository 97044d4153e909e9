(** Properties of the request handlers: C55, C65, C66 and C67. *)
From Verif Require Import GoBase GoVal UnitsModel DurationModel TypesModel FloatBase MessagesModel.
From stdpp Require Import gmap strings sorting.
From Verif Require DistModel.
From Verif Require Import DistMsgModel ReflectModel ListModel ValueModel ValueSpec FormatModel.
From Flocq Require Import IEEE754.BinarySingleNaN.
From Verif Require Import PathModel PathSpec PathProofs RegistryModel RegistrySpec RegistryProofs RegistryConc RegistryList RegistryWitness PropRegistry HttpModel HttpSpec HttpWitness HttpProofs HttpText.
Local Open Scope string_scope.
Local Open Scope list_scope.

(** ** C55 *)
Theorem c55_agree : ∀ W w val arrays stamp group sp FF FF32 h path p out (s : W), objects w val arrays → traversed h path out → components path p →
  ((∃ b, jsonHandler val arrays stamp group sp true (looked_up h path) out s = Resp 404 b) ↔ ¬ is_metric (answer h p)) ∧
  (rpcGetMetric val arrays stamp group (looked_up h path) s = Some (inr ErrMetricNotFound) ↔ ¬ is_metric (answer h p)) ∧
  (textHandler val arrays FF FF32 (looked_up h path) out s = Resp 200 (BText "*Path does not exist.*") ↔ answer h p = None) ∧
  (htmlHandler (looked_up h path) = Resp 200 (BText "Path does not exist.") ↔ answer h p = None) ∧
  (answer h p = None → jsonHandler val arrays stamp group sp false (looked_up h path) out s = Resp 200 (BMetrics []) ∧ rpcListMetrics val arrays stamp group out s = Some []).
Proof.
  intros W w val arrays stamp group sp FF FF32 h path p out s O T C. split; [by apply json_missing|]. split; [by apply rpc_missing|]. split; [by eapply text_missing|]. split.
  - rewrite (looked_up_answer h path p C). by destruct (answer h p) as [[]|].
  - intros N. assert (out = []) as ->; [|done]. destruct (traversed_exact _ _ _ _ T C) as [E _]. destruct out as [|e out]; [done|]. exfalso. destruct (proj1 (E e) ltac:(constructor)) as (q & [r ->] & A).
    unfold answer in *. by rewrite find_app, N in A.
Qed.

Example c55_nonvacuous : objects W64 (env () (int_var 5) nan_var (string_var "s")) (aheap_of empty_world) ∧ traversed h0 "/" out0 ∧ length out0 = 3 ∧
  is_metric (answer h0 ["a"; "x"]) ∧ is_dir (answer h0 ["a"]) ∧ answer h0 ["c"] = None.
Proof.
  split; [|split; [exact out0_traversed|vm_compute; split; [done|]; split; [by eexists|]; split; [by eexists|done]]].
  apply (env_objects _ _ _ empty_world); try done; [by apply good_int|apply good_nan|apply good_string|by left].
Qed.

(** ** C65 *)
Theorem c65_json : ∀ W w val arrays stamp group sp h path p out (s : W) ms, objects w val arrays → traversed h path out → components path p →
  jsonHandler val arrays stamp group sp false (looked_up h path) out s = Resp 200 (BMetrics ms) →
  ∃ qs, Forall2 (λ m q, components (m_path m) q) ms qs ∧ StronglySorted ilt qs ∧
    (∀ q, q ∈ qs ↔ ∃ e mi, metric_at h p q e mi ∧ ¬ no_number val s mi) ∧
    ∀ m out', m ∈ ms → jsonHandler val arrays stamp group sp true (looked_up h (m_path m)) out' s = Resp 200 (BMetric m).
Proof. intros W w val arrays stamp group sp h path p out s ms O T C. by apply (json_list w). Qed.
Theorem c65_rpc : ∀ W w val arrays stamp group sp h path p out (s : W), objects w val arrays → traversed h path out → components path p →
  ∃ rs qs, rpcListMetrics val arrays stamp group out s = Some rs ∧ Forall2 (λ m q, components (m_path m) q) rs qs ∧ StronglySorted ilt qs ∧
    (∀ q, q ∈ qs ↔ ∃ e mi, metric_at h p q e mi ∧ ¬ no_number val s mi) ∧
    (∀ m, m ∈ rs → rpcGetMetric val arrays stamp group (looked_up h (m_path m)) s = Some (inl m)) ∧
    ∀ ms, jsonHandler val arrays stamp group sp false (looked_up h path) out s = Resp 200 (BMetrics ms) → Forall2 (λ r m, convertToJson sp r = Some m) rs ms.
Proof. intros W w val arrays stamp group sp h path p out s O T C. by apply (rpc_list w). Qed.
(** What is left out of a listing because it is no number is an error page when it is asked for alone. *)
Theorem c65_left_out : ∀ W w val arrays stamp group sp h path p out (s : W) e mi, objects w val arrays → components path p → answer h p = Some (NMetric e) → e_obj e = OMetric mi →
  no_number val s mi → jsonHandler val arrays stamp group sp true (looked_up h path) out s = error_page.
Proof.
  intros W w val arrays stamp group sp h path p out s e mi O C A Oe N. rewrite (looked_up_answer h path p C), A.
  destruct (json_no_number w val arrays stamp group sp O e mi s Oe N) as [[j J] M]. simpl. by rewrite J, M.
Qed.
Definition texts_of (r : response) : list (string * string) :=
  match r with Resp _ (BMetrics ms) => map (λ m, (m_path m, match m_value m with VScalar SString v => v | VScalar SInt64 z => fmt_d z | _ => "?" end)) ms | _ => [] end.
Example c65_nonvacuous : let r := jsonHandler (env () (int_var 5) nan_var (string_var "s")) (aheap_of empty_world) no_stamp no_group no_sprintf false (looked_up h0 "/") out0 () in
  texts_of r = [("/a/x", "5"); ("/b", "s")] ∧ (∃ ms, r = Resp 200 (BMetrics ms) ∧ length ms = 2) ∧
  jsonHandler (env () (int_var 5) nan_var (string_var "s")) (aheap_of empty_world) no_stamp no_group no_sprintf true (looked_up h0 "/a/y") out0 () = error_page.
Proof. split; [vm_compute; reflexivity|]. split; [apply lists_metrics_spec|apply is_error_spec]; vm_compute; reflexivity. Qed.

(** ** C66 *)
Theorem c66_answers_partial : ∀ W w val arrays stamp group sp h path p out (s : W), objects w val arrays → traversed h path out → components path p →
  ((∃ ms, jsonHandler val arrays stamp group sp false (looked_up h path) out s = Resp 200 (BMetrics ms)) ↔ ∀ q e mi, metric_at h p q e mi → encodable val arrays s mi).
Proof. intros W w val arrays stamp group sp h path p out s O T C. by apply (json_answers w). Qed.
Definition json_root (b : ValueModel.mspec ()) (st : world) : response :=
  jsonHandler (env () (int_var 5) (int_var 6) b) (aheap_of st) no_stamp no_group no_sprintf false (looked_up h0 "/") out0 ().
Theorem c66_refuted : ¬ ∀ W w val arrays stamp group sp h path p out (s : W), objects w val arrays → traversed h path out → components path p →
  ∃ ms, jsonHandler val arrays stamp group sp false (looked_up h path) out s = Resp 200 (BMetrics ms).
Proof.
  intros H. destruct (H unit W64 _ _ no_stamp no_group no_sprintf h0 "/" [] out0 () (root_objects (dist_var [nan]) empty_world (good_dist _) (or_introl I)) out0_traversed root_components) as [ms E].
  assert (json_root (dist_var [nan]) empty_world = error_page) as E' by (apply is_error_spec; vm_compute; reflexivity). unfold json_root in E'. rewrite E' in E. discriminate E.
Qed.
Example c66_causes :
  json_root (dist_var [nan]) empty_world = error_page ∧ json_root (list_var nan_list) nan_list = error_page ∧ is_dropped (json_root (list_var declared_list) declared_list) = true ∧
  (∃ ms, json_root (dist_var [one; two]) empty_world = Resp 200 (BMetrics ms) ∧ length ms = 3) ∧ (∃ ms, json_root (list_var duration_list) duration_list = Resp 200 (BMetrics ms) ∧ length ms = 3).
Proof. split; [apply is_error_spec; vm_compute; reflexivity|]. split; [apply is_error_spec; vm_compute; reflexivity|]. split; [vm_compute; reflexivity|]. split; apply lists_metrics_spec; vm_compute; reflexivity. Qed.
Example c66_declared_objects : objects W64 (env () (int_var 5) (int_var 6) (list_var declared_list)) (aheap_of declared_list) ∧ objects W64 (env () (int_var 5) (int_var 6) (list_var nan_list)) (aheap_of nan_list).
Proof. split; apply root_objects; try apply good_list; right; (split; [done|]); (split; [apply list_reachable|]); vm_compute; eauto. Qed.

(** ** C67 *)
(** [parts]: for each metric its path and the text of its value *)
Theorem c67_listing : ∀ W w val arrays FF FF32 h path p d out (s : W), objects w val arrays → traversed h path out → components path p → answer h p = Some (NDir d) →
  ∃ parts qs, textHandler val arrays FF FF32 (looked_up h path) out s = Resp 200 (BText (concat_strings (map (λ x, x.1 +:+ " " +:+ x.2 +:+ newline) parts))) ∧
    Forall2 (λ x q, components x.1 q) parts qs ∧ StronglySorted ilt qs ∧ (∀ q, q ∈ qs ↔ ∃ e mi, metric_at h p q e mi ∧ ¬ no_number val s mi) ∧
    ∀ x out', x ∈ parts → textHandler val arrays FF FF32 (looked_up h x.1) out' s = Resp 200 (BText (x.2 +:+ newline)).
Proof.
  intros W w val arrays FF FF32 h path p d out s O T C A. destruct (text_listing w val arrays FF FF32 O h path p d out s T C A) as (parts & qs & H1 & H2 & H3 & H4 & H5 & _).
  exists parts, qs. done.
Qed.
(** Reading the listing line by line, and each line up to its first space, gives back paths and values. *)
Theorem c67_lines_partial : ∀ W w val arrays FF FF32 h path p d out (s : W), objects w val arrays → traversed h path out → components path p → answer h p = Some (NDir d) →
  (∀ f, no_char "010" (FF f)) → (∀ f, no_char "010" (FF32 f)) →
  (∀ q e mi, metric_at h p q e mi → Forall plain_name q ∧ one_line val arrays s mi) →
  ∃ b ls parts qs, textHandler val arrays FF FF32 (looked_up h path) out s = Resp 200 (BText b) ∧ text_lines "" b = (ls, "") ∧ map split_space ls = map Some parts ∧
    Forall2 (λ x q, components x.1 q) parts qs ∧ StronglySorted ilt qs ∧ (∀ q, q ∈ qs ↔ ∃ e mi, metric_at h p q e mi ∧ ¬ no_number val s mi) ∧
    ∀ x out', x ∈ parts → textHandler val arrays FF FF32 (looked_up h x.1) out' s = Resp 200 (BText (x.2 +:+ newline)).
Proof.
  intros W w val arrays FF FF32 h path p d out s O T C A F1 F2 N. destruct (text_listing w val arrays FF FF32 O h path p d out s T C A) as (parts & qs & H1 & H2 & H3 & H4 & H5 & H6).
  specialize (H6 F1 F2 N). destruct (listing_lines parts H6) as [L1 L2]. eexists _, _, parts, qs. split; [exact H1|]. split; [exact L1|]. split; [|done].
  clear -L2. induction L2 as [|x l E L2 IH]; [done|]. simpl. by rewrite E, IH.
Qed.
Definition text_root (b : ValueModel.mspec ()) (st : world) : response :=
  textHandler (env () (int_var 5) (int_var 6) b) (aheap_of st) some_float some_float (looked_up h0 "/") out0 ().
Definition lines_of (r : response) : list string := match r with Resp _ (BText b) => fst (text_lines "" b) | _ => [] end.
Definition quote (s : string) : string := String "034" (s +:+ String "034" "").
Example c67_nonvacuous : lines_of (text_root (string_var "up and running") empty_world) = ["/a/x 5"; "/a/y 6"; "/b " +:+ quote "up and running"] ∧
  (∀ q e mi, metric_at h0 [] q e mi → Forall plain_name q ∧ one_line (env () (int_var 5) (int_var 6) (string_var "up and running")) (aheap_of empty_world) () mi).
Proof.
  split; [vm_compute; reflexivity|]. intros q e mi (_ & A & Oe).
  assert (e ∈ out0) as He. { apply (proj1 (traversed_exact _ _ _ _ out0_traversed root_components)). exists q. split; [by exists q|done]. }
  assert (names e = q) as <-. { apply (answer_names h0); [|done]. by eapply traversed_reachable, out0_traversed. }
  assert (Forall (λ e, Forall plain_name (names e) ∧ ∃ v, e_obj e = OMetric (MkInfo (MVar v) 0 "None" "") ∧ v < 3) out0) as F.
  { vm_compute. repeat constructor; eexists; (split; [reflexivity|lia]). }
  rewrite Forall_forall in F. destruct (F e He) as (P & v & Ov & Lv). rewrite Ov in Oe. injection Oe as <-. split; [done|]. intros m M. destruct v as [|[|[|v]]]; [..|lia]; vm_compute in M; injection M as <-; vm_compute; done.
Qed.
(** The full property is false: a line break in a string makes up the line of a metric that does not exist. *)
Theorem c67_refuted : ¬ ∀ W w val arrays FF FF32 h path p d out (s : W), objects w val arrays → traversed h path out → components path p → answer h p = Some (NDir d) →
  (∀ f, no_char "010" (FF f)) → (∀ f, no_char "010" (FF32 f)) →
  ∀ b, textHandler val arrays FF FF32 (looked_up h path) out s = Resp 200 (BText b) →
  Forall (λ l, ∃ path v q e, split_space l = Some (path, v) ∧ components path q ∧ answer h q = Some (NMetric e)) (fst (text_lines "" b)).
Proof.
  intros H. specialize (H unit W64 _ _ some_float some_float h0 "/" [] root out0 () (root_objects (string_var ("x" +:+ newline +:+ "/forged 7")) empty_world (good_string _) (or_introl I)) out0_traversed root_components eq_refl
    ltac:(by intros) ltac:(by intros)).
  assert (∃ b, text_root (string_var ("x" +:+ newline +:+ "/forged 7")) empty_world = Resp 200 (BText b) ∧ fst (text_lines "" b) !! 3 = Some ("/forged 7" +:+ String "034" "")) as (b & E & L) by (vm_compute; eexists; split; reflexivity).
  specialize (H b E). rewrite Forall_lookup in H. destruct (H 3 _ L) as (path & v & q & e & S & C & A). vm_compute in S. injection S as <- <-.
  assert (components "/forged" ["forged"]) as C' by (by apply newPathSpec_iff). apply newPathSpec_iff in C, C'. rewrite C in C'. subst q. vm_compute in A. discriminate A.
Qed.
(** Different lists of strings look the same. *)
Definition str_list (l : list string) : world := list_world None (RBasic KString None) (map (λ x, RVBasic KString None x) l).
Definition ab : string := "a" +:+ String "034" ("|" +:+ String "034" "b").
Example c67_lists_ambiguous : text_root (list_var (str_list ["a"; "b"])) (str_list ["a"; "b"]) = text_root (list_var (str_list [ab])) (str_list [ab]) ∧
  lines_of (text_root (list_var (str_list ["a"; "b"])) (str_list ["a"; "b"])) = ["/a/x 5"; "/a/y 6"; "/b " +:+ quote "a" +:+ "|" +:+ quote "b"].
Proof. vm_compute. done. Qed.
Print Assumptions c55_agree.
Print Assumptions c65_json.
Print Assumptions c65_rpc.
Print Assumptions c65_left_out.
Print Assumptions c66_answers_partial.
Print Assumptions c66_refuted.
Print Assumptions c67_listing.
Print Assumptions c67_lines_partial.
Print Assumptions c67_refuted.
