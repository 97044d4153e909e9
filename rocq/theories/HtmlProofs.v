(** Proofs about the HTML pages. *)
From Verif Require Import GoBase GoVal UnitsModel DurationModel DurationProofs TypesModel FloatBase MessagesModel FloatConvModel.
From stdpp Require Import gmap strings sorting.
From Flocq Require Import IEEE754.BinarySingleNaN.
From Verif Require Import ReflectModel ListModel ListSpec ListProofs ValueModel ValueSpec ValueProofs FormatModel FormatSpec FormatValueSpec FormatThms.
From Verif Require Import PathModel PathSpec PathProofs RegistryModel RegistrySpec RegistryProofs RegistryConc RegistryConcSpec RegistryConcProofs RegistryList.
From Verif Require Import HttpModel HttpSpec HttpProofs HttpText UrlModel UrlSpec UrlProofs HtmlModel HtmlSpec.
Local Open Scope string_scope.
Local Open Scope list_scope.

(** ** Links *)
Lemma dirAbsPath_live h d a : wf h → live h d a → dirAbsPath h d = String "/" (join a).
Proof.
  intros Wf L. pose proof (live_path h a Wf d L) as D. unfold dpath in D. unfold dirAbsPath. destruct (encl h d) as [e|] eqn:E; rewrite <- D; [|done]. by rewrite absPath_names.
Qed.
Lemma link_visits h d a : wf h → live h d a → (visited h (Link (dirAbsPath h d)) = Some (NDir d) ↔ Forall link_safe a).
Proof.
  intros Wf L. rewrite (dirAbsPath_live h d a) by done. pose proof (find_components h root a _ Wf L) as V. unfold visited.
  destruct (decide (a = [])) as [->|Ne].
  { split; [constructor|]. intros _. change (followed (Link (String "/" (join [])))) with (Some "/"). cbv iota; rewrite (looked_up_answer h "/" []); [exact L|]. apply newPathSpec_iff. reflexivity. }
  rewrite <- (follow_iff a Ne V). split.
  - destruct (followed _) as [q|]; [|done]. intros E. exists q. split; [done|]. rewrite (looked_up_answer h q (newPathSpec q)) in E by (by apply newPathSpec_iff). by apply (live_unique h d).
  - intros (q & -> & E). rewrite (looked_up_answer h q a) by (by apply newPathSpec_iff). exact L.
Qed.

(** ** Distributions *)
Lemma rows_shown l : ∀ k n, n = k + length l → Forall2 (row_of n) (filter (λ x, r_count x.2 ≠ 0%N) (imap (λ i r, (k + i, r)) l)) (html_rows (Nat.eqb k 0) l).
Proof.
  induction l as [|r l IH]; intros k n En; [constructor|]. cbn [imap html_rows]. rewrite filter_cons. cbn [snd]. simpl in En.
  specialize (IH (S k) n ltac:(lia)). cbn [Nat.eqb] in IH.
  assert (filter (λ x, r_count x.2 ≠ 0%N) (imap ((λ i r, (k + i, r)) ∘ S) l) = filter (λ x, r_count x.2 ≠ 0%N) (imap (λ i r, (S k + i, r)) l)) as E.
  { f_equal. apply imap_ext. intros i x _. simpl. f_equal. lia. }
  unfold html_row. destruct (decide (r_count r ≠ 0%N)) as [N|N].
  - rewrite (proj2 (N.eqb_neq _ _) N). rewrite E. replace (k + 0) with k by lia. destruct (Nat.eqb_spec k 0) as [->|K]; [constructor; [constructor|exact IH]|].
    destruct l as [|r' l]; (constructor; [|exact IH]); constructor; simpl in En; lia.
  - assert (r_count r = 0%N) as -> by (by destruct (decide (r_count r = 0%N))). simpl. rewrite E. exact IH.
Qed.
Lemma dist_shown d : match html_dist d with ShDist rows su => Forall2 (row_of (length (dm_ranges d))) (nonempty (dm_ranges d)) rows ∧ summary_of d su | _ => False end.
Proof.
  unfold html_dist. split; [exact (rows_shown (dm_ranges d) 0 _ eq_refl)|]. destruct (N.eqb_spec (dm_count d) 0); simpl; [done|]. done.
Qed.

(** ** Sections *)
Lemma html_unit_shown u : shows_unit u (html_unit u).
Proof. unfold html_unit. destruct (String.eqb_spec u UNone); simpl; [done|]. done. Qed.
Section Pages.
  Context {W : Type} (w : wordsize) (val : RegistryModel.mspec → value W) (arrays : W → list array).
  Context (FormatFloat : float32 + float64 → string) (FormatTime : gotime → string).
  Context (O : objects w val arrays).
  Notation html := (htmlMetric val arrays FormatFloat FormatTime).

  Lemma html_cells xs el k u : reported_as w el k → Forall (λ x, rtype_of x = el ∧ rval_ok w x = true) xs →
    ∃ ts, mapM (λ x, fmt_ok (valueToHtmlString FormatFloat FormatTime x k u false)) xs = Some ts ∧ Forall2 (λ x t, html_shows u (content_of x) t) xs ts.
  Proof.
    intros Ra Co. induction Co as [|x xs [Tx Ox] Co IH]; [exists []; split; [done|constructor]|]. destruct IH as (ts & M & Sh).
    pose proof Ra as Ra'. apply primitive_reported in Ra'. rewrite <- Tx in Ra'. destruct (html_content FormatFloat FormatTime w x _ _ u Ox Ra') as (r & E & H).
    exists (r :: ts). split; [|by constructor]. simpl. rewrite E. simpl. rewrite M. done.
  Qed.
  Lemma shown_some sp u s : ∃ m sh, rpcMetric (val sp) s = Some m ∧ html_shown arrays FormatFloat FormatTime (val sp) u s = Some sh ∧ shows_value (arrays s) u m sh ∧
    match sh with ShDist _ _ => mm_kind m = v_type (val sp) ∧ ∃ d, mm_value m = MVDist d | ShList t _ => t = HtmlType (mm_sub m) ∧ ∃ sl, mm_value m = MVSlice sl | ShValue _ t => t = HtmlType (mm_kind m) ∧ mm_sub m = Unknown ∧ ∃ x, mm_value m = MVScalar x end.
  Proof.
    unfold html_shown, rpcMetric. destruct (eval_ok w val arrays O sp s) as [(b & f & x & Src & Fx & G & Ok)|[[d Src]|[l Src]]].
    - unfold AsInterface, evaluate, SubType. rewrite Src, Fx. destruct (html_content FormatFloat FormatTime w x _ _ u Ok G) as (r & E & Sh). rewrite E. simpl.
      destruct (interface_any w x _ _ G) as [y Y]. rewrite Y. simpl. eexists _, _. split; [done|]. split; [done|]. simpl. split; [|split; [done|]; split; [done|]; eauto].
      unfold shows_value. simpl. by rewrite (interface_content w x _ _ y Ok G Y).
    - rewrite Src. eexists _, _. split; [done|]. split; [done|]. split; [exact (dist_shown (d s))|]. simpl. split; [done|]. eauto.
    - unfold SubType. rewrite Src. destruct (proj2 O _ _ s Src) as (st & i & R & L & Hh). pose proof (ListProofs.reachable_inv w st R) as I. destruct (inv_lists w st I _ _ L) as [Sok Ra].
      pose proof (cells_ok w _ _ (inv_heap w st I) Sok) as Co. rewrite Hh in Co.
      destruct (html_cells _ _ _ u Ra Co) as (ts & M & Sh).
      rewrite M. eexists _, _. split; [done|]. split; [done|]. split; [exact Sh|]. simpl. split; [done|]. eauto.
  Qed.
  Lemma section_some h q e s : reachable_heap h → answer h q = Some (NMetric e) → ∃ mi sc, e_obj e = OMetric mi ∧ html e s = Some sc ∧ shows_metric val arrays s q mi sc ∧ sc_path sc = absPath e.
  Proof.
    intros R A. destruct (answer_metric _ _ _ A) as [mi Oe]. destruct (shown_some (mi_spec mi) (mi_unit mi) s) as (m & sh & Rm & E & Sh & _).
    unfold htmlMetric, info. rewrite Oe, E. eexists mi, _. split; [done|]. split; [done|]. split; [|done]. split; [|split; [done|split; [apply html_unit_shown|eauto]]].
    simpl. by apply (absPath_lookup h q e R A).
  Qed.

  (** ** Directories *)
  Lemma children h d l n e : l ≡ₚ entries_of h d → wf h → (contents h d !! n = Some e ↔ e ∈ l ∧ e_name e = n).
  Proof.
    intros P Wf. rewrite P. unfold entries_of. rewrite elem_of_list_fmap. split.
    - intros C. split; [|by apply (wf_entry h Wf) in C as [? _]]. exists (n, e). split; [done|]. by apply elem_of_map_to_list.
    - intros [([n' e'] & -> & C) E]. apply elem_of_map_to_list in C. simpl in *. pose proof C as C'. apply (wf_entry h Wf) in C' as [En _]. congruence.
  Qed.
  Lemma child_answer h d a n : live h d a → answer h (a ++ [n]) = match contents h d !! n with Some e => Some (node_of e) | None => None end.
  Proof. intros L. rewrite (live_app h d a [n] L). simpl. destruct (contents h d !! n) as [e|]; [|done]. unfold node_of. by destruct (e_obj e). Qed.
  Lemma sorted_perm l : sortListEntries l ≡ₚ l.
  Proof.
    assert (∀ x l, insert_entry x l ≡ₚ x :: l) as K.
    { intros x r. induction r as [|y r IH]; [done|]. simpl. destruct (String.leb _ _); [done|]. rewrite IH. constructor. }
    induction l as [|x l IH]; [done|]. simpl. by rewrite K, IH.
  Qed.
  Lemma directory_page h d a l s : reachable_heap h → live h d a → l ≡ₚ entries_of h d →
    ∃ items ns, htmlDirectory val arrays FormatFloat FormatTime h l s = Some items ∧ StronglySorted slt ns ∧ (∀ n, n ∈ ns ↔ answer h (a ++ [n]) ≠ None) ∧
      Forall2 (λ n it, shows_node val arrays h s (a ++ [n]) it) ns items.
  Proof.
    intros R L P. pose proof (reachable_wf h R) as Wf. pose proof (listing_sorted h d l Wf P) as So. set (es := sortListEntries l) in *.
    assert (∀ e, e ∈ es → contents h d !! e_name e = Some e) as C by (intros e He; apply (children h d l); [done..|]; split; [|done]; by rewrite <- (sorted_perm l)).
    assert (∀ e, e ∈ es → ∃ it, htmlItem val arrays FormatFloat FormatTime h s e = Some it ∧ shows_node val arrays h s (a ++ [e_name e]) it) as It.
    { intros e He. pose proof (C e He) as Ce. pose proof (child_answer h d a (e_name e) L) as A. rewrite Ce in A. unfold htmlItem, shows_node. unfold node_of in A. destruct (e_obj e) as [mi|d'] eqn:Oe.
      - destruct (section_some h _ e s R A) as (mi' & sc & Oe' & E & Sh & _). rewrite A. exists (ISection sc). rewrite E. split; [done|]. eauto.
      - rewrite A. eexists. split; [done|]. simpl. split; [|done]. rewrite (dirAbsPath_live h d' (a ++ [e_name e]) Wf A). apply newPathSpec_iff. rewrite newPathSpec_slash. apply newPathSpec_join.
        exact (find_components h root _ _ Wf A). }
    assert (∃ items, mapM (htmlItem val arrays FormatFloat FormatTime h s) es = Some items ∧ Forall2 (λ n it, shows_node val arrays h s (a ++ [n]) it) (map e_name es) items) as (items & M & F).
    { clear So C. clearbody es. induction es as [|e es IH]; [exists []; split; [done|constructor]|]. destruct IH as (items & M & F); [intros x Hx; apply It; by constructor|].
      destruct (It e) as (it & E & Sh); [constructor|]. exists (it :: items). split; [|by constructor]. simpl. rewrite E. simpl. by rewrite M. }
    exists items, (map e_name es). split; [exact M|]. split; [|split; [|exact F]].
    - clear -So. induction So as [|e es So IH F]; simpl; constructor; [done|]. apply Forall_map. exact F.
    - intros n. rewrite (child_answer h d a n L). split.
      + intros (e & -> & He)%elem_of_list_fmap. by rewrite (C e He).
      + destruct (contents h d !! n) as [e|] eqn:Cn; [|done]. intros _. apply (children h d l n e P Wf) in Cn as [He <-]. apply elem_of_list_fmap. exists e. split; [done|]. unfold es. by rewrite sorted_perm.
  Qed.

  (** ** Agreement with JSON *)
  Lemma goval_shows u x t y : to_goval x = VScalar t y → t ≠ STime → t ≠ SDuration → json_shows u (content_of x) (VScalar t y).
  Proof.
    intros E N1 N2. rewrite <- E. destruct x as [k [nm|] z| | | |]; try destruct k; simpl in *; try discriminate E; try reflexivity; exfalso; [apply N1|apply N2]; by inversion E.
  Qed.
  Lemma duration_shows u d : rval_ok w (RVDuration d) = true → json_shows u (CtDuration d) (VString (durationAsString d u)).
  Proof.
    intros Ok. exists (durationAsString d u). split; [done|]. apply newDuration_text. simpl in Ok. unfold between in Ok. rewrite andb_true_iff, Z.leb_le, Z.ltb_lt in Ok. unfold in64. lia.
  Qed.
  Lemma time_shows u t : json_shows u (CtTime t) (VString (timeAsString t u)).
  Proof. eexists. split; [done|]. exact (time_text t u). Qed.
  Lemma scalar_agrees x t p y u v k sb : rval_ok w x = true → getPrimitiveType w (rtype_of x) = Some (t, p) → valueToInterface x t p = Some y → asJson (to_goval y) t Unknown u = Some (v, k, sb) →
    k = HtmlType t ∧ match v with VOther _ _ _ => True | _ => json_shows u (content_of x) v end.
  Proof.
    intros Ok E Y. pose proof (interface_content w x t p y Ok E Y) as C. rewrite <- C. clear C.
    destruct x as [[] n z| |o|d|]; simpl in E; try destruct w; try discriminate E; injection E as <- <-; cbn in Y; try (destruct o; simpl in Y); injection Y as <-; intros [= <- <- <-]; (split; [reflexivity|]).
    all: try (destruct n as [nm|]; [exact I|]). all: cbv beta iota delta [VString to_goval].
    all: lazymatch goal with
         | |- json_shows _ (content_of (RVBasic ?k ?n ?z)) (VScalar ?t ?y) => apply (goval_shows u (RVBasic k n z) t y); [reflexivity|discriminate|discriminate]
         | |- json_shows _ (content_of (RVTime ?t)) _ => exact (time_shows u t)
         | |- json_shows _ (content_of (RVDuration ?d)) _ => exact (duration_shows u d Ok)
         end.
  Qed.
  Lemma typed_goval xs el t : sty_of el = Some t → Forall (λ x, rtype_of x = el) xs → Forall2 (λ x y, to_goval x = VScalar t y) xs (omap (λ v, as_sty t (to_goval v)) xs).
  Proof.
    intros E F. induction F as [|x xs Tx F IH]; [constructor|]. simpl.
    assert (∃ y, to_goval x = VScalar t y ∧ as_sty t (to_goval x) = Some y) as (y & E1 & E2); [|rewrite E2; by constructor].
    subst el. destruct x as [k [nm|] z| | | |]; try destruct k; simpl in E; try discriminate E; injection E as <-; eexists; split; reflexivity.
  Qed.
  Lemma list_agrees h sl k u v k' sb : reported_as w (s_elem sl) k → Forall (λ x, rtype_of x = s_elem sl ∧ rval_ok w x = true) (cells h sl) → asJson (slice_goval h sl) TypesModel.TList k u = Some (v, k', sb) →
    k' = "list" ∧ sb = HtmlType k ∧
    match v with VSlice t (Some l) => Forall2 (λ x y, json_shows u (content_of x) y) (cells h sl) (map (VScalar t) l) | VOther _ _ _ => True | _ => False end.
  Proof.
    intros R F. unfold slice_goval. destruct (s_named sl) as [nm|].
    { destruct R; intros A; try discriminate A; injection A as <- <- <-; done. }
    assert (∀ t, sty_of (s_elem sl) = Some t → Forall2 (λ x y, to_goval x = VScalar t y) (cells h sl) (omap (λ v, as_sty t (to_goval v)) (cells h sl))) as G.
    { intros t E. apply (typed_goval _ (s_elem sl)); [done|]. eapply list.Forall_impl; [exact F|]. by intros x [? _]. }
    destruct (sty_of (s_elem sl)) as [t|] eqn:E.
    2:{ destruct R; simpl in E; try match goal with n : option string |- _ => destruct n end; try discriminate E; intros A; try discriminate A; injection A as <- <- <-; done. }
    specialize (G t eq_refl). set (ys := omap _ _) in *. clearbody ys.
    assert (t ≠ STime → t ≠ SDuration → Forall2 (λ x y, json_shows u (content_of x) y) (cells h sl) (map (VScalar t) ys)) as K.
    { intros N1 N2. apply Forall2_fmap_r. eapply Forall2_impl; [exact G|]. intros x y Exy. by apply goval_shows. }
    destruct R; simpl in E; try match goal with n : option string |- _ => destruct n end; try discriminate E; injection E as <-; cbn; intros [= <- <- <-]; (split; [done|]; split; [done|]); try (apply K; discriminate).
    - apply Forall2_fmap_r, Forall2_fmap_r. eapply Forall2_impl; [exact G|]. intros x y Exy. destruct x as [[] [nm|] z|t| |d|]; simpl in Exy; try discriminate Exy. assert (Some t = Some y) as [= ->] by exact (f_equal (as_sty STime) Exy). apply time_shows.
    - apply Forall2_fmap_r, Forall2_fmap_r. clear K. revert F. induction G as [|x y xs ys Exy G IH]; intros F; [constructor|]. apply Forall_cons in F as [[_ Ok] F]. constructor; [|by apply IH].
      destruct x as [[] [nm|] z|t| |d|]; simpl in Exy; try discriminate Exy. assert (Some d = Some y) as [= ->] by exact (f_equal (as_sty SDuration) Exy). by apply duration_shows.
  Qed.
  Lemma value_types sp : match v_src (val sp) with SrcDist _ => v_type (val sp) = "distribution" | SrcList _ => v_type (val sp) = "list" | SrcVal _ _ => True end.
  Proof.
    destruct (proj1 O sp) as (o & s0 & T & Rd & E).
    destruct o as [[] ?|?|g ?|? ? [|? [|]] ?|? ?| | |]; simpl in E; try done; try (destruct (getPrimitiveType _ _) as [[]|]; simpl in E; try done); try (injection E as E; rewrite <- E in *; done).
    destruct (match g with Some g => g | None => _ end s0) as [v0|]; [|done]. destruct (getPrimitiveType _ _) as [[]|]; injection E as E; rewrite <- E in *; done.
  Qed.
  Section Json.
    Context (stamp : minfo → W → gotime) (group : minfo → W → Z) (sprintf_v : goval → string).
    Lemma json_agrees e s m : InitJsonMetric val arrays stamp group sprintf_v e s = Some m → ∃ sc, html e s = Some sc ∧ agrees sc m.
    Proof.
      unfold InitJsonMetric, InitRpcMetric, htmlMetric. destruct (info e) as [mi|]; [|done]. pose proof (value_types (mi_spec mi)) as T.
      unfold html_shown, rpcMetric. destruct (eval_ok w val arrays O (mi_spec mi) s) as [(b & f & x & Src & Fx & G & Ok)|[[d Src]|[l Src]]].
      - unfold AsInterface, evaluate, SubType. rewrite Src, Fx. destruct (html_content FormatFloat FormatTime w x _ _ (mi_unit mi) Ok G) as (r & E & Sh). rewrite E. cbn -[convertToJson].
        destruct (valueToInterface x _ _) as [y|] eqn:Y; [|done]. cbn [option_map]. cbv beta iota. unfold convertToJson. cbn [m_value m_kind m_subType m_unit m_timeStamp goval_of mm_value mm_kind mm_sub].
        destruct (asJson _ _ _ _) as [[[v k] sb]|] eqn:A; [|done]. intros [= <-]. eexists. split; [done|]. destruct (scalar_agrees x _ _ y (mi_unit mi) v k sb Ok G Y A) as [-> V].
        split; [done|]. split; [done|]. split; [apply html_unit_shown|]. simpl. destruct v; try (split; [done|]; by eexists). done.
      - rewrite Src in *. rewrite T. unfold SubType. rewrite Src. cbv beta iota. unfold convertToJson. cbn [m_value m_kind m_subType m_unit goval_of mm_value mm_kind mm_sub asJson]. intros [= <-]. eexists. split; [done|].
        split; [done|]. split; [done|]. split; [apply html_unit_shown|]. split; [done|]. exact (dist_shown (d s)).
      - rewrite Src in *. rewrite T. unfold SubType. rewrite Src. destruct (proj2 O _ _ s Src) as (st & i & R & L & Hh). pose proof (ListProofs.reachable_inv w st R) as I. destruct (inv_lists w st I _ _ L) as [Sok Ra].
        pose proof (cells_ok w _ _ (inv_heap w st I) Sok) as Co. rewrite Hh in Co. clear Hh R L I Sok st i.
        unfold convertToJson. cbn [m_value m_kind m_subType m_unit m_timeStamp goval_of mm_value mm_kind mm_sub].
        destruct (asJson _ _ _ _) as [[[v k] sb]|] eqn:A; [|done]. intros [= <-].
        destruct (list_agrees (arrays s) (l_slice (l s)) _ (mi_unit mi) v k sb Ra Co A) as (-> & -> & V). clear A.
        destruct (html_cells _ _ _ (mi_unit mi) Ra Co) as (ts & M & Sh).
        rewrite M. eexists. split; [done|]. split; [done|]. split; [done|]. split; [apply html_unit_shown|]. simpl.
        destruct v as [| |t [ys|]| | |]; try done. split; [done|]. split; [done|]. exists (map content_of (cells (arrays s) (l_slice (l s)))). split; by apply Forall2_fmap_l.
    Qed.
  End Json.
End Pages.
