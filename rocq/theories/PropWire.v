(** Properties of what clients receive: C74, C75 and C76. *)
From Verif Require Import GoBase GoVal UnitsModel DurationModel TypesModel FloatBase FloatLemmas MessagesModel MessagesSpec MessagesProofs.
From stdpp Require Import gmap strings.
From Flocq Require Import IEEE754.BinarySingleNaN.
From Coq Require Import Reals.
From Verif Require Import ReflectModel ListModel ValueModel ValueSpec.
From Verif Require Import PathModel PathSpec PathProofs RegistryModel RegistrySpec RegistryProofs RegistryConc HttpModel HttpSpec HttpWitness HttpProofs WireModel WireSpec WireProofs.
Local Open Scope string_scope.
Local Open Scope list_scope.

(** ** C74 *)
(** ListMetrics answers exactly when every metric of the listing has a value of a documented type; otherwise the
    connection is closed. *)
Theorem c74_list_partial : ∀ W w val arrays stamp group h path p out (s : W), objects w val arrays → traversed h path out → components path p →
  ((∃ ms, serveListMetrics val arrays stamp group out s = RpcReply ms) ↔ ∀ q e mi, metric_at h p q e mi → ¬ no_number val s mi → sendable_metric val s mi) ∧
  (serveListMetrics val arrays stamp group out s = RpcClosed ∨ ∃ ms, serveListMetrics val arrays stamp group out s = RpcReply ms ∧ rpcListMetrics val arrays stamp group out s = Some ms).
Proof. intros W w val arrays stamp group h path p out s O T C. destruct (list_reply w val arrays stamp group O h path p out s T C) as [A B]. split; [exact B|exact A]. Qed.
Theorem c74_get_partial : ∀ W w val arrays stamp group h path p e mi (s : W), objects w val arrays → components path p → answer h p = Some (NMetric e) → e_obj e = OMetric mi →
  (∃ m, serveGetMetric val arrays stamp group (looked_up h path) s = RpcReply m) ↔ sendable_metric val s mi.
Proof. intros W w val arrays stamp group h path p e mi s O C A Oe. by apply (get_reply w val arrays stamp group O h path p e mi s). Qed.
(** Programs that declare no types for their metrics, except for integers of 32 bits and more, always get an answer. *)
Theorem c74_plain_partial : ∀ W w val arrays stamp group h path p out (s : W), objects w val arrays → plain_objects w val → traversed h path out → components path p →
  ∃ ms, serveListMetrics val arrays stamp group out s = RpcReply ms.
Proof.
  intros W w val arrays stamp group h path p out s O P T C. apply (proj2 (list_reply w val arrays stamp group O h path p out s T C)). intros q e mi _ _. by apply (plain_sendable w).
Qed.
(** type Level string *)
Definition level_var {W} : ValueModel.mspec W := SpPtr (RBasic KString (Some "Level")) (λ _, RVBasic KString (Some "Level") "high").
Lemma good_level : good (W := ()) level_var.
Proof. by split_and!; [| |eexists]. Qed.
Definition list_root (b : ValueModel.mspec ()) : rpc_outcome (list metric) := serveListMetrics (env () (int_var 5) (int_var 6) b) (aheap_of empty_world) no_stamp no_group out0 ().
(** The full property is false: one metric of a declared type makes the listing of all metrics fail. *)
Theorem c74_refuted : ¬ ∀ W w val arrays stamp group h path p out (s : W), objects w val arrays → traversed h path out → components path p →
  ∃ ms, serveListMetrics val arrays stamp group out s = RpcReply ms.
Proof.
  intros H. destruct (H unit W64 _ _ no_stamp no_group h0 "/" [] out0 () (root_objects level_var empty_world good_level (or_introl I)) out0_traversed root_components) as [ms E].
  assert (list_root level_var = RpcClosed) as E' by (vm_compute; reflexivity). unfold list_root in E'. rewrite E' in E. discriminate E.
Qed.
Definition outcome_paths (r : rpc_outcome (list metric)) : option (list string) := match r with RpcReply ms => Some (map m_path ms) | _ => None end.
Example c74_nonvacuous : outcome_paths (list_root (string_var "high")) = Some ["/a/x"; "/a/y"; "/b"] ∧ outcome_paths (list_root (dist_var [one; two])) = Some ["/a/x"; "/a/y"; "/b"] ∧
  outcome_paths (list_root level_var) = None ∧
  objects W64 (env () (int_var 5) (int_var 6) (string_var "high")) (aheap_of empty_world) ∧ plain_objects W64 (env () (int_var 5) (int_var 6) (string_var "high")).
Proof.
  split; [vm_compute; reflexivity|]. split; [vm_compute; reflexivity|]. split; [vm_compute; reflexivity|]. split; [apply root_objects; [apply good_string|by left]|].
  intros sp. destruct (good_int 5 ltac:(by split)) as (T5 & _). destruct (good_int 6 ltac:(by split)) as (T6 & _). destruct (good_string "high") as (Ts & _).
  destruct sp as [d|[|[|[|v]]]|v|v]; first [exists (int_var 5), (); split; [exact T5|split; reflexivity]|exists (int_var 6), (); split; [exact T6|split; reflexivity]|exists (string_var "high"), (); split; [exact Ts|split; reflexivity]].
Qed.
Print Assumptions c74_list_partial.
Print Assumptions c74_get_partial.
Print Assumptions c74_plain_partial.
Print Assumptions c74_refuted.

(** ** C75 *)
(** A response is compressed exactly when an element of the first header mentions gzip. So it is compressed for every client that asks for gzip there, ... *)
Theorem c75_asked : ∀ l ls, (∃ e, e ∈ split_on "," l ∧ is_gzip e) → gzipped (l :: ls) = true.
Proof. intros l ls (e & He & G). apply gzip_iff. exists l, ls, e. split; [done|]. split; [done|]. by apply coding_occurs. Qed.
(** ... and not for clients that do not mention it; a client that gets it compressed accepts that, unless it mentions gzip to refuse
    it, or as a part of another name. *)
Theorem c75_accepted_partial : ∀ lines, gzipped lines = true →
  accepts_gzip lines ∨ ∃ l ls e, lines = l :: ls ∧ e ∈ split_on "," l ∧ occurs "gzip" e ∧ (refused e ∨ ¬ is_gzip e).
Proof.
  intros lines (l & ls & e & -> & He & Oe)%gzip_iff.
  assert (Dg : Decision (is_gzip e)) by (unfold is_gzip; apply _).
  destruct Dg as [G|G]; [|right; exists l, ls, e; auto].
  assert (Dr : Decision (refused e)). { destruct (decide (Exists (λ x, trim x ∈ zero_weights) (tail (split_on ";" e)))) as [X|X]; rewrite list.Exists_exists in X; [left|right]; exact X. }
  destruct Dr as [R|R]; [right; exists l, ls, e; auto|]. left. right. left. exists e. split; [|done]. simpl. apply elem_of_app. by left.
Qed.
(** The full property is false: the client refuses gzip and gets it. *)
Theorem c75_refuted : ¬ ∀ lines, gzipped lines = true → accepts_gzip lines.
Proof.
  intros H. specialize (H ["gzip;q=0, identity"] eq_refl). destruct H as [E|[(e & He & G & R)|(_ & e & He & G & R)]]; [done| |].
  - change (concat (map (split_on ",") ["gzip;q=0, identity"])) with ["gzip;q=0"; " identity"] in He. rewrite !elem_of_cons in He. destruct He as [->|[->|He]]; [|destruct G as [G|G]; vm_compute in G; discriminate G|by apply elem_of_nil in He].
    apply R. exists "q=0". split; vm_compute; constructor.
  - change (concat (map (split_on ",") ["gzip;q=0, identity"])) with ["gzip;q=0"; " identity"] in He. rewrite !elem_of_cons in He. destruct He as [->|[->|He]]; [vm_compute in G; discriminate G|vm_compute in G; discriminate G|by apply elem_of_nil in He].
Qed.
Example c75_nonvacuous : gzipped ["deflate, gzip;q=0.5"] = true ∧ accepts_gzip ["deflate, gzip;q=0.5"] ∧ is_gzip " gzip;q=0.5" ∧ " gzip;q=0.5" ∈ split_on "," "deflate, gzip;q=0.5" ∧
  gzipped ["identity"] = false ∧ gzipped [] = false ∧ (* a name that contains gzip *) gzipped ["nogzip"] = true.
Proof.
  assert (" gzip;q=0.5" ∈ split_on "," "deflate, gzip;q=0.5") as M by (vm_compute; repeat constructor).
  split; [reflexivity|]. split; [|split; [left; reflexivity|split; [exact M|done]]]. right. left. exists " gzip;q=0.5". split; [exact M|]. split; [left; reflexivity|].
  intros (x & X & Z). change (tail (split_on ";" " gzip;q=0.5")) with ["q=0.5"] in X. rewrite elem_of_cons in X. destruct X as [->|X]; [|by apply elem_of_nil in X]. change (trim "q=0.5") with "q=0.5" in Z. unfold zero_weights in Z. repeat (rewrite elem_of_cons in Z; destruct Z as [Z|Z]; [discriminate Z|]). by apply elem_of_nil in Z.
Qed.
Print Assumptions c75_asked.
Print Assumptions c75_accepted_partial.
Print Assumptions c75_refuted.

(** ** C76 *)
(** Reading the JSON text of a metric and calling ConvertToGoRPC gives the Go RPC metric, when its value is a bool, a
    string, a float64, a time or a duration. *)
Theorem c76_values_partial : ∀ sp widen base64 m t x, rpc_metric m → ¬ In zero_time (times_of (m_value m)) → readable_text m → m_value m = VScalar t x → survives t = true →
  ∃ j, convertToJson sp m = Some j ∧ convertToGoRPC (json_read_metric widen base64 j) = (false, m).
Proof. exact read_survives. Qed.
(** Integers arrive as float64, and exactly when they have at most 53 bits. *)
Theorem c76_integers_partial : ∀ sp widen base64 m z, rpc_metric m → readable_text m → integer_of (m_value m) = Some z →
  ∃ j f, convertToJson sp m = Some j ∧ convertToGoRPC (json_read_metric widen base64 j) = (false, with_value m (VScalar SFloat64 f)) ∧
    ((Z.abs z ≤ 2 ^ 53)%Z → B2R f = IZR z ∧ is_finite f = true).
Proof.
  intros sp widen base64 m z R RT I. destruct (read_other sp widen base64 m R RT) as (j & J & H). exists j, (f64_of_Z z). split; [exact J|]. split; [|apply f64_of_Z_exact].
  destruct (m_value m) as [|t x| | | |] eqn:V; try discriminate I. destruct t; try discriminate I; injection I as <-; exact (H eq_refl).
Qed.
(** Lists of times and durations cannot be converted; lists of bytes arrive as text. *)
Theorem c76_lists_partial : ∀ sp widen base64 m t l, rpc_metric m → readable_text m → m_value m = VSlice t (Some l) →
  ∃ j, convertToJson sp m = Some j ∧
    match t with
    | STime | SDuration => fst (convertToGoRPC (json_read_metric widen base64 j)) = true
    | SUint8 => ∃ text, convertToGoRPC (json_read_metric widen base64 j) = (false, with_value m (VString text))
    | _ => convertToGoRPC (json_read_metric widen base64 j) = (false, with_value m (VOther "[]interface {}" (SliceNil false) 0))
    end.
Proof.
  intros sp widen base64 m t l R RT V. destruct (read_other sp widen base64 m R RT) as (j & J & H). exists j. split; [exact J|]. rewrite V in H. destruct t; try exact H. eexists. exact H.
Qed.
Definition int_metric : metric := MkMetric "/a" "d" "None" "int32" "" 32 (VScalar SInt32 5%Z) VNil 0.
Definition time_metric : metric := MkMetric "/a" "d" "Seconds" "goTime" "" 0 (VTime (MkTime 7 5)) (VTime (MkTime 3 4)) 1.
Definition delays_metric : metric := MkMetric "/a" "d" "Seconds" "list" "goDuration" 0 (VSlice SDuration (Some [1000%Z])) VNil 1.
Ltac ascii_text := unfold readable_text; cbn [app m_path m_description m_unit m_value strings_of int_metric time_metric delays_metric VTime]; repeat (apply Forall_cons_2; [apply ascii7_utf8; reflexivity|]); apply Forall_nil_2.
Lemma int_metric_rpc : rpc_metric int_metric.
Proof. split; [apply (TagScalar SInt32); cbn; lia|]. split; [constructor|by left]. Qed.
Theorem c76_refuted : ¬ ∀ sp widen base64 m, rpc_metric m → ¬ In zero_time (times_of (m_value m)) → readable_text m →
  ∃ j, convertToJson sp m = Some j ∧ convertToGoRPC (json_read_metric widen base64 j) = (false, m).
Proof.
  intros H. destruct (H (λ _, "") (λ _, f64_nan) (λ _, "") int_metric int_metric_rpc ltac:(intros []) ltac:(ascii_text)) as (j & J & E).
  injection J as <-. apply (f_equal (λ r, match m_value (snd r) with VScalar SFloat64 _ => true | _ => false end)) in E. vm_compute in E. discriminate E.
Qed.
Example c76_nonvacuous : rpc_metric time_metric ∧ ¬ In zero_time (times_of (m_value time_metric)) ∧ readable_text time_metric ∧ rpc_metric int_metric ∧ readable_text int_metric ∧ integer_of (m_value int_metric) = Some 5%Z ∧
  rpc_metric delays_metric ∧ readable_text delays_metric.
Proof.
  split; [split; [apply (TagScalar STime); cbn; lia|]; split; [repeat constructor|right; eexists; split; [reflexivity|split; [cbn; lia|reflexivity]]]|].
  split; [intros [E|[]]; discriminate E|]. split; [ascii_text|]. split; [exact int_metric_rpc|]. split; [ascii_text|]. split; [reflexivity|]. split; [|ascii_text].
  split; [apply (TagSlice SDuration); repeat constructor; cbn; lia|]. split; [constructor|by left].
Qed.
Print Assumptions c76_values_partial.
Print Assumptions c76_integers_partial.
Print Assumptions c76_lists_partial.
Print Assumptions c76_refuted.
