(** Proofs about the request handlers. *)
From Verif Require Import GoBase GoVal UnitsModel DurationModel TypesModel FloatBase MessagesModel.
From stdpp Require Import gmap strings sorting.
From Verif Require Import ReflectModel ListModel ListSpec ListProofs ValueModel ValueSpec ValueProofs FormatModel.
From Flocq Require Import IEEE754.BinarySingleNaN.
From Verif Require Import PathModel PathSpec PathProofs RegistryModel RegistrySpec RegistryProofs RegistryConc RegistryConcProofs RegistryList PropRegistry PropRegistryConc HttpModel HttpSpec.
Local Open Scope string_scope.
Local Open Scope list_scope.

(** ** lookups and traversals *)
Lemma looked_up_answer h path p : components path p → looked_up h path = answer h p.
Proof. intros C. apply newPathSpec_iff in C as <-. unfold looked_up. by rewrite run_getDirectoryOrMetric. Qed.
Lemma traversed_reachable h path out : traversed h path out → reachable_heap h.
Proof. intros (c & l & c' & t & R & D & _ & _ & H). exists c. split; [done|]. apply H. by eapply during_first. Qed.
Lemma traversed_exact h path p out : traversed h path out → components path p →
  (∀ e, e ∈ out ↔ ∃ q, below p q ∧ answer h q = Some (NMetric e)) ∧ StronglySorted ilt (map names out).
Proof. intros (c & l & c' & t & R & D & N & Dn & H) C. exact (c27_exact c l c' t path p out h R (conj D (conj N Dn)) C H). Qed.
Lemma answer_metric h q e : answer h q = Some (NMetric e) → ∃ mi, e_obj e = OMetric mi.
Proof. intros A. apply find_metric_inv in A as (a & x & d & -> & F & C & m & O). eauto. Qed.
Lemma absPath_lookup h q e : reachable_heap h → answer h q = Some (NMetric e) → looked_up h (absPath e) = Some (NMetric e) ∧ components (absPath e) q.
Proof. intros R A. destruct (c24_abs_path h q e R A) as (C & E & _). split; [|done]. unfold looked_up. by rewrite E. Qed.
Lemma answer_names h q e : reachable_heap h → answer h q = Some (NMetric e) → names e = q.
Proof. intros R A. apply (metric_path h q e); [|done]. by apply reachable_heap_wf. Qed.

Section Env.
  Context {W : Type} (w : wordsize) (val : RegistryModel.mspec → value W).
  Context (arrays : W → list array) (O : objects w val arrays).
  Lemma reads_env sp s : (∃ m, rpcMetric (val sp) s = Some m) ∧ ∃ b, IsInfNaN (val sp) s = Some b.
  Proof. destruct (proj1 O sp) as (o & s0 & T & R & E). exact (reads w o s0 _ s T R E). Qed.
  Lemma infnan_env mi s : IsInfNaN (val (mi_spec mi)) s = Some true ↔ no_number val s mi.
  Proof.
    destruct (proj1 O (mi_spec mi)) as (o & s0 & T & R & E). unfold no_number. rewrite <- (left_out w o s0 _ s s T R E). unfold ValueModel.collect.
    destruct (reads w o s0 _ s T R E) as [[m M] [b B]]. rewrite B, M. destruct b; simpl; split; congruence.
  Qed.
  Lemma collected_spec out s : (∀ e, e ∈ out → ∃ mi, e_obj e = OMetric mi) →
    ∃ es, collected val out s = Some es ∧ sublist es out ∧ ∀ e, e ∈ es ↔ e ∈ out ∧ ∃ mi, e_obj e = OMetric mi ∧ ¬ no_number val s mi.
  Proof.
    induction out as [|e out IH]; intros M; simpl.
    { exists []. split; [done|]. split; [constructor|]. intros e. split; [intros He|intros [He _]]; by apply elem_of_nil in He. }
    destruct IH as (es & E & S & H); [intros x Hx; apply M; by constructor|]. destruct (M e) as [mi Oe]; [constructor|]. unfold info. rewrite Oe, E.
    destruct (reads_env (mi_spec mi) s) as [_ [b B]]. rewrite B. pose proof (infnan_env mi s) as I. rewrite B in I. destruct b.
    - exists es. split; [done|]. split; [by constructor|]. intros x. rewrite (H x), elem_of_cons. split.
      + intros [? ?]. split; [by right|done].
      + intros [[->|?] (mx & Ox & N)]; [|by eauto]. assert (mx = mi) as -> by congruence. by destruct N; apply I.
    - exists (e :: es). split; [done|]. split; [by constructor|]. intros x. rewrite !elem_of_cons, (H x). split.
      + intros [->|[? ?]]; [|by auto]. split; [by left|]. exists mi. split; [done|]. intros Z%I. done.
      + intros [[->|?] ?]; [by left|by right].
  Qed.
End Env.

(** ** JSON and RPC *)
Section Json.
  Context {W : Type} (w : wordsize) (val : RegistryModel.mspec → value W) (arrays : W → list array) (stamp : minfo → W → gotime) (group : minfo → W → Z).
  Context (sprintf_v : goval → string) (FormatFloat : float32 + float64 → string) (FormatFloat32 : float64 → string).
  Notation rpc := (InitRpcMetric val arrays stamp group).
  Notation js := (InitJsonMetric val arrays stamp group sprintf_v).
  Notation json := (jsonHandler val arrays stamp group sprintf_v).

  Lemma rpc_path e s m : rpc e s = Some m → m_path m = absPath e.
  Proof. unfold InitRpcMetric. destruct (info e); [|done]. destruct (rpcMetric _ _); [|done]. by intros [= <-]. Qed.
  Lemma convert_path r m : convertToJson sprintf_v r = Some m → m_path m = m_path r.
  Proof. unfold convertToJson. destruct (asJson _ _ _ _) as [[[v k] sb]|]; [|done]. by intros [= <-]. Qed.
  Lemma js_path e s m : js e s = Some m → m_path m = absPath e.
  Proof. unfold InitJsonMetric. destruct (rpc e s) eqn:E; [|done]. intros ->%convert_path. by eapply rpc_path. Qed.

  Section Listing.
    Context (O : objects w val arrays) (h : heap) (path : string) (p : list string) (out : list entry) (s : W) (T : traversed h path out) (C : components path p).
    Lemma listing_entries : ∃ es, collected val out s = Some es ∧ StronglySorted ilt (map names es) ∧
      (∀ e, e ∈ es → ∃ q mi, metric_at h p q e mi ∧ ¬ no_number val s mi ∧ names e = q ∧ components (absPath e) q ∧ looked_up h (absPath e) = Some (NMetric e)) ∧
      (∀ q e mi, metric_at h p q e mi → ¬ no_number val s mi → e ∈ es).
    Proof.
      destruct (traversed_exact _ _ _ _ T C) as [X S]. pose proof (traversed_reachable _ _ _ T) as R.
      destruct (collected_spec w val arrays O out s) as (es & E & Sub & H); [intros e (q & _ & A)%X; by eapply answer_metric|]. exists es. split_and!; [done| | |].
      - clear -S Sub. induction Sub as [|x l1 l2 Sub IH|x l1 l2 Sub IH]; simpl in *; [done| |]; inversion S as [|? ? S1 S2]; subst.
        + constructor; [by apply IH|]. rewrite Forall_forall in S2 |- *. intros z (y & -> & Hy)%elem_of_list_fmap. apply S2. apply elem_of_list_fmap. exists y. split; [done|].
          eapply elem_of_submseteq; [exact Hy|]. by apply sublist_submseteq.
        + by apply IH.
      - intros e [(q & B & A)%X (mi & Oe & N)]%H. exists q, mi. destruct (absPath_lookup h q e R A) as [L Cq]. split_and!; try done. by apply (answer_names h).
      - intros q e mi (B & A & Oe) N. apply H. split; [apply X; eauto|eauto].
    Qed.
    Lemma listing_paths es : collected val out s = Some es → StronglySorted ilt (map names es) ∧ (∀ q, q ∈ map names es ↔ ∃ e mi, metric_at h p q e mi ∧ ¬ no_number val s mi) ∧
      (∀ e, e ∈ es → looked_up h (absPath e) = Some (NMetric e) ∧ components (absPath e) (names e)).
    Proof.
      destruct listing_entries as (es' & E' & S & H1 & H2). intros E. rewrite E in E'. injection E' as <-. split_and!; [done| |].
      - intros q. rewrite elem_of_list_fmap. split.
        + intros (e & -> & He). destruct (H1 e He) as (q & mi & M & N & -> & _). eauto.
        + intros (e & mi & M & N). exists e. split; [|by eapply H2]. symmetry. apply (answer_names h); [by eapply traversed_reachable|apply M].
      - intros e He. destruct (H1 e He) as (q & mi & M & N & -> & ? & ?). done.
    Qed.
    Lemma json_list ms : json false (looked_up h path) out s = Resp 200 (BMetrics ms) →
      ∃ qs, Forall2 (λ m q, components (m_path m) q) ms qs ∧ StronglySorted ilt qs ∧ (∀ q, q ∈ qs ↔ ∃ e mi, metric_at h p q e mi ∧ ¬ no_number val s mi) ∧
        ∀ m out', m ∈ ms → json true (looked_up h (m_path m)) out' s = Resp 200 (BMetric m).
    Proof.
      unfold jsonHandler. destruct (collected val out s) as [es|] eqn:E; [|done]. destruct (mapM _ es) as [l|] eqn:M; [|done].
      destruct (forallb _ es) eqn:F; [|done]. intros [= <-]. destruct (listing_paths es E) as (S & P & L). exists (map names es). apply mapM_Some in M. split_and!; [|done|done|].
      - clear -M L. induction M as [|e m es ms J M IH]; simpl; constructor.
        + rewrite (js_path _ _ _ J). apply L. constructor.
        + apply IH. intros x Hx. apply L. by constructor.
      - intros m out' Hm. apply elem_of_list_lookup in Hm as [i Hi]. destruct (Forall2_lookup_r _ _ _ _ _ M Hi) as (e & He & J). simpl in J.
        apply elem_of_list_lookup_2 in He. rewrite (js_path _ _ _ J), (proj1 (L e He)), J. rewrite forallb_forall in F.
        by rewrite (F e) by (by apply elem_of_list_In).
    Qed.
    Lemma rpc_some e : e ∈ out → ∃ m, rpc e s = Some m.
    Proof.
      intros (q & _ & A)%(proj1 (traversed_exact _ _ _ _ T C)). apply answer_metric in A as [mi Oe]. unfold InitRpcMetric, info. rewrite Oe.
      destruct (reads_env w val arrays O (mi_spec mi) s) as [[m ->] _]. eauto.
    Qed.
    Lemma rpc_list : ∃ rs qs, rpcListMetrics val arrays stamp group out s = Some rs ∧ Forall2 (λ m q, components (m_path m) q) rs qs ∧ StronglySorted ilt qs ∧
        (∀ q, q ∈ qs ↔ ∃ e mi, metric_at h p q e mi ∧ ¬ no_number val s mi) ∧
        (∀ m, m ∈ rs → rpcGetMetric val arrays stamp group (looked_up h (m_path m)) s = Some (inl m)) ∧
        ∀ ms, json false (looked_up h path) out s = Resp 200 (BMetrics ms) → Forall2 (λ r m, convertToJson sprintf_v r = Some m) rs ms.
    Proof.
      destruct listing_entries as (es & E & _). destruct (listing_paths es E) as (S & P & L). unfold rpcListMetrics. rewrite E.
      assert (∃ rs, mapM (λ e, rpc e s) es = Some rs) as [rs M].
      { apply mapM_is_Some. apply Forall_forall. intros e He. change (is_Some (rpc e s)). unfold InitRpcMetric, info. destruct (L e He) as [Le Ce]. rewrite (looked_up_answer _ _ _ Ce) in Le.
        apply answer_metric in Le as [mi Oe]. rewrite Oe. destruct (reads_env w val arrays O (mi_spec mi) s) as [[m ->] _]. eauto. }
      exists rs, (map names es). split; [done|]. pose proof M as M'. apply mapM_Some in M. split_and!; [|done|done| |].
      - clear -M L. induction M as [|e m es ms J M IH]; simpl; constructor.
        + rewrite (rpc_path _ _ _ J). apply L. constructor.
        + apply IH. intros x Hx. apply L. by constructor.
      - intros m Hm. apply elem_of_list_lookup in Hm as [i Hi]. destruct (Forall2_lookup_r _ _ _ _ _ M Hi) as (e & He & J). simpl in J.
        apply elem_of_list_lookup_2 in He. rewrite (rpc_path _ _ _ J), (proj1 (L e He)). unfold rpcGetMetric. by rewrite J.
      - intros ms. unfold jsonHandler. rewrite E. destruct (mapM (λ e, js e s) es) as [l|] eqn:Mj; [|done]. destruct (forallb _ es); [|done]. intros [= <-]. apply mapM_Some in Mj.
        clear -M Mj. revert l Mj. induction M as [|e r es rs J M IH]; intros l Mj; inversion Mj as [|? m ? l' Jm Mj']; subst; constructor; [|by apply IH].
        unfold InitJsonMetric in Jm. by rewrite J in Jm.
    Qed.
  End Listing.

  (** what asJson and json.Marshal accept *)
  Lemma json_rval_number x : json_rval x = number x.
  Proof. by destruct x as [[]| | | |]. Qed.
  Lemma scalar_json x t p y u : getPrimitiveType w (rtype_of x) = Some (t, p) → valueToInterface x t p = Some y → is_Some (asJson (to_goval y) t Unknown u).
  Proof. destruct x as [[] n z| |o|d|]; simpl; intros E; try destruct w; try discriminate E; injection E as <- <-; cbn; try (destruct o; simpl); intros [= <-]; eexists; reflexivity. Qed.
  Lemma list_json h sl k u : reported_as w (s_elem sl) k →
    (is_Some (asJson (slice_goval h sl) TypesModel.TList k u) ↔ (s_elem sl = RTime ∨ s_elem sl = RDuration → s_named sl = None)).
  Proof.
    unfold slice_goval. generalize (s_elem sl). intros el R. destruct (s_named sl) as [nm|].
    - split.
      + intros A [->| ->]; inversion R; subst; destruct A as [? A]; discriminate A.
      + intros H. destruct R; try (eexists; reflexivity); exfalso; assert (Some nm = None) by auto; done.
    - split; [done|]. intros _. destruct R; simpl; try match goal with n : option string |- _ => destruct n end; eexists; reflexivity.
  Qed.
  Lemma convert_some m : is_Some (asJson (m_value m) (m_kind m) (m_subType m) (m_unit m)) ↔ is_Some (convertToJson sprintf_v m).
  Proof. unfold convertToJson. destruct (asJson _ _ _ _) as [[[v k] sb]|]; split; intros [? ?]; eauto; done. Qed.
  Lemma json_dist_finite d : json_dist d = true ↔
    Forall (λ f, is_finite f = true) ([dm_min d; dm_max d; dm_average d; dm_median d; dm_sum d] ++ map r_lower (dm_ranges d) ++ map r_upper (dm_ranges d)).
  Proof.
    unfold json_dist, json_float. rewrite Forall_app, !Forall_cons, Forall_nil, !andb_true_iff.
    assert (forallb (λ r, is_finite (r_lower r) && is_finite (r_upper r)) (dm_ranges d) = true ↔ Forall (λ f, is_finite f = true) (map r_lower (dm_ranges d) ++ map r_upper (dm_ranges d))) as ->; [|tauto].
    rewrite Forall_app, !Forall_fmap. induction (dm_ranges d) as [|r l IH]; simpl; [by split|]. rewrite !andb_true_iff, IH, !Forall_cons. unfold compose. tauto.
  Qed.
  Section One.
    Context (O : objects w val arrays) (e : entry) (mi : minfo) (s : W) (Oe : e_obj e = OMetric mi).
    Lemma json_ok : is_Some (js e s) ∧ marshals val arrays e s = true ↔ encodable val arrays s mi ∧ ¬ no_number val s mi.
    Proof.
      unfold InitJsonMetric, InitRpcMetric, marshals, info, encodable, no_number. rewrite Oe. destruct (reads_env w val arrays O (mi_spec mi) s) as [[m M] _]. rewrite !M.
      rewrite <- convert_some. simpl. destruct (mm_value m) as [d|sl|x] eqn:V; simpl.
      - rewrite json_dist_finite. split.
        + intros [_ H]. split; [intros m' [= <-]; by rewrite V|]. intros (m' & x & [= <-] & V' & _). congruence.
        + intros [H _]. specialize (H m eq_refl). rewrite V in H. split; [|done]. unfold rpcMetric in M. destruct (proj1 O (mi_spec mi)) as (o & s0 & T & R & E).
          destruct (v_src (val (mi_spec mi))) as [d'|l|b f] eqn:Sv; simpl in M; [..|destruct (AsInterface _ _); [|done]]; injection M as <-; simpl in V; try done.
          injection V as <-. simpl. destruct o as [[] ?|?|g ?|? ? [|? [|]] ?|? ?| | |]; simpl in E; try done; try (destruct (getPrimitiveType _ _) as [[]|]; simpl in E; try done); try (injection E as E; rewrite <- E in *; try done; eexists; reflexivity).
          destruct (match g with Some g => g | None => _ end s0) as [v0|]; [|done]. destruct (getPrimitiveType _ _) as [[]|]; injection E as E; rewrite <- E in *; done.
      - unfold rpcMetric in M. destruct (v_src (val (mi_spec mi))) as [d'|l|b f] eqn:Sv; simpl in M; [..|destruct (AsInterface _ _); [|done]]; injection M as <-; simpl in V; try done.
        injection V as <-. simpl. destruct (proj2 O _ _ s Sv) as (st & i & R & L & Hh). destruct (inv_lists w st (ListProofs.reachable_inv w st R) _ _ L) as [_ Ra].
        unfold ValueModel.SubType. rewrite Sv. assert (v_type (val (mi_spec mi)) = TypesModel.TList) as ->.
        { destruct (proj1 O (mi_spec mi)) as (o & s0 & T & Rd & E).
          destruct o as [[] ?|?|g ?|? ? [|? [|]] ?|? ?| | |]; simpl in E; try done; try (destruct (getPrimitiveType _ _) as [[]|]; simpl in E; try done); try (injection E as E; rewrite <- E in *; done).
          destruct (match g with Some g => g | None => _ end s0) as [v0|]; [|done]. destruct (getPrimitiveType _ _) as [[]|]; injection E as E; rewrite <- E in *; done. }
        rewrite (list_json _ _ _ _ Ra). assert (forallb json_rval (cells (arrays s) (l_slice (l s))) = true ↔ Forall (λ x, number x = true) (cells (arrays s) (l_slice (l s)))) as ->.
        { rewrite forallb_forall, Forall_forall. setoid_rewrite elem_of_list_In. by setoid_rewrite json_rval_number. }
        split; [|by intros [H _]; destruct (H _ eq_refl)]. intros [A B]. split; [by intros m' [= <-]|]. intros (m' & x & [= <-] & V' & _). done.
      - rewrite json_rval_number. split.
        + intros [_ H]. split; [intros m' [= <-]; by rewrite V|]. intros (m' & x' & [= <-] & V' & N'). congruence.
        + intros [_ H]. split; [|destruct (number x) eqn:N; [done|by destruct H; eauto 6]]. destruct (proj1 O (mi_spec mi)) as (o & s0 & T & R & E).
          destruct (eval_typed w o s0 _ T R E) as [(b & f & Src & F)|[Src NF]].
          * destruct (F s) as (z & Fz & G). unfold rpcMetric, AsInterface, evaluate in M. rewrite Src, Fz in M. destruct (valueToInterface z _ _) as [y|] eqn:Y; [|done].
            injection M as <-. simpl in V. injection V as <-. simpl. unfold ValueModel.SubType. rewrite Src. by eapply scalar_json.
          * unfold rpcMetric in M. destruct (v_src (val (mi_spec mi))) as [d'|l|b f] eqn:Sv; [..|by destruct (Src b f)]; injection M as <-; done.
    Qed.
    (** a single value that is no number *)
    Lemma json_no_number : no_number val s mi → is_Some (js e s) ∧ marshals val arrays e s = false.
    Proof.
      intros (m & x & M & V & N). split; [|unfold marshals, info; by rewrite Oe, M, V; simpl; rewrite json_rval_number].
      unfold InitJsonMetric, InitRpcMetric, info. rewrite Oe, M. rewrite <- convert_some. simpl. rewrite V. simpl. destruct (proj1 O (mi_spec mi)) as (o & s0 & T & R & E).
      destruct (eval_typed w o s0 _ T R E) as [(b & f & Src & F)|[Src NF]].
      * destruct (F s) as (z & Fz & G). unfold rpcMetric, AsInterface, evaluate in M. rewrite Src, Fz in M. destruct (valueToInterface z _ _) as [y|] eqn:Y; [|done].
        injection M as <-. simpl in V. injection V as <-. simpl. unfold ValueModel.SubType. rewrite Src. by eapply scalar_json.
      * unfold rpcMetric in M. destruct (v_src (val (mi_spec mi))) as [d'|l|b f] eqn:Sv; [..|by destruct (Src b f)]; injection M as <-; done.
    Qed.
  End One.
  Lemma json_answers (O : objects w val arrays) h path p out s : traversed h path out → components path p →
    ((∃ ms, json false (looked_up h path) out s = Resp 200 (BMetrics ms)) ↔ ∀ q e mi, metric_at h p q e mi → encodable val arrays s mi).
  Proof.
    intros T C. destruct (listing_entries O h path p out s T C) as (es & E & _ & H1 & H2). unfold jsonHandler. rewrite E. split.
    - intros (ms & J). destruct (mapM (λ e, js e s) es) as [l|] eqn:M; [|done]. destruct (forallb (λ e, marshals val arrays e s) es) eqn:F; [|done]. clear J.
      intros q e mi Ma. destruct (infnan_env w val arrays O mi s) as [_ I].
      destruct (reads_env w val arrays O (mi_spec mi) s) as [_ [b B]]. destruct b.
      + apply (infnan_env w val arrays O) in B. intros m Hm. destruct B as (m' & x & M' & V & _). rewrite Hm in M'. injection M' as <-. by rewrite V.
      + assert (¬ no_number val s mi) as N. { intros Z%I. congruence. } pose proof (H2 q e mi Ma N) as He. apply (json_ok O e mi s); [apply Ma|].
        rewrite forallb_forall in F. split; [|apply F; by apply elem_of_list_In]. apply mapM_Some in M. apply elem_of_list_lookup in He as [i He].
        destruct (Forall2_lookup_l _ _ _ _ _ M He) as (m & _ & J). simpl in J. eauto.
    - intros A. assert (∀ e, e ∈ es → is_Some (js e s) ∧ marshals val arrays e s = true) as K.
      { intros e He. destruct (H1 e He) as (q & mi & Ma & N & _). apply (json_ok O e mi s); [apply Ma|]. split; [by eapply A|done]. }
      assert (∃ ms, mapM (λ e, js e s) es = Some ms) as [ms ->]. { apply mapM_is_Some. apply Forall_forall. intros e He. by apply K. }
      assert (forallb (λ e, marshals val arrays e s) es = true) as ->. { apply forallb_forall. intros e He%elem_of_list_In. by apply K. }
      eauto.
  Qed.
End Json.
