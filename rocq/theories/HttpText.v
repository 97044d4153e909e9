(** Proofs about the text form, and about paths that do not exist. *)
From Verif Require Import GoBase StrLemmas TextSpec GoVal UnitsModel DurationModel TypesModel FloatBase MessagesModel.
From stdpp Require Import gmap strings sorting.
From Verif Require Import ReflectModel ListModel ListSpec ListProofs ValueModel ValueSpec ValueProofs FormatModel FormatValueSpec FormatThms.
From Flocq Require Import IEEE754.BinarySingleNaN.
From Verif Require Import PathModel PathSpec PathProofs RegistryModel RegistrySpec RegistryProofs RegistryConc RegistryConcProofs RegistryList PropRegistry PropRegistryConc HttpModel HttpSpec HttpProofs.
Local Open Scope string_scope.
Local Open Scope list_scope.
Local Arguments append : simpl nomatch.

Lemma app_assoc_str a b c : (a +:+ b) +:+ c = a +:+ (b +:+ c).
Proof. induction a as [|x a IH]; [done|]. change (String x ((a +:+ b) +:+ c) = String x (a +:+ (b +:+ c))). by rewrite IH. Qed.
Lemma app_nil_str a : a +:+ "" = a.
Proof. induction a as [|x a IH]; [done|]. change (String x (a +:+ "") = String x a). by rewrite IH. Qed.
(** ** characters *)
Lemma no_char_app c a b : no_char c (a +:+ b) ↔ no_char c a ∧ no_char c b.
Proof. unfold no_char. by rewrite str_all_app, andb_true_iff. Qed.
Lemma str_all_impl (P Q : ascii → bool) s : (∀ c, P c = true → Q c = true) → str_all P s = true → str_all Q s = true.
Proof. intros H. induction s as [|c s IH]; simpl; [done|]. rewrite !andb_true_iff. intros [? ?]. auto. Qed.
Lemma digits_no_newline s : str_all is_digit s = true → no_char "010" s.
Proof. apply str_all_impl. intros c D. destruct (Ascii.eqb_spec c "010") as [->|]; done. Qed.
Lemma fmt_d_no_newline z : no_char "010" (fmt_d z).
Proof. unfold fmt_d. destruct (Z.ltb _ _); [apply no_char_app; split; [done|]|]; apply digits_no_newline, dec_of_N_canonical. Qed.
Lemma pad0_no_newline k n : no_char "010" (pad0 k (dec_of_N n)).
Proof. unfold pad0. apply no_char_app. split; apply digits_no_newline; [apply zeros_digits|apply dec_of_N_canonical]. Qed.
Lemma fmt_0d_no_newline k z : no_char "010" (fmt_0d k z).
Proof. unfold fmt_0d. destruct (Z.ltb _ _); [apply no_char_app; split; [done|]|]; apply pad0_no_newline. Qed.
Lemma duration_no_newline d u : no_char "010" (StringUsingUnits d u).
Proof.
  unfold StringUsingUnits, toString. destruct (isNegative _); cbv zeta; repeat (apply no_char_app; split); try done; first [apply fmt_d_no_newline|apply fmt_0d_no_newline].
Qed.
Lemma text_lines_line l r cur : no_char "010" l → text_lines cur (l +:+ newline +:+ r) = let '(ls, k) := text_lines "" r in ((cur +:+ l) :: ls, k).
Proof.
  revert cur. induction l as [|c l IH]; intros cur N.
  - change (text_lines cur ("" +:+ newline +:+ r)) with (text_lines cur (String "010" r)). simpl. by rewrite app_nil_str.
  - unfold no_char in N. simpl in N. apply andb_true_iff in N as [Nc N]. change (text_lines cur (String c l +:+ newline +:+ r)) with (text_lines cur (String c (l +:+ newline +:+ r))).
    simpl. destruct (Ascii.eqb c "010"); [done|]. rewrite IH by done. destruct (text_lines "" r). by rewrite app_assoc_str.
Qed.
Lemma split_space_app a b : no_char " " a → split_space (a +:+ " " +:+ b) = Some (a, b).
Proof.
  induction a as [|c a IH]; [done|]. unfold no_char. cbn [str_all]. rewrite andb_true_iff. intros [Nc N].
  change (split_space (String c a +:+ " " +:+ b)) with (split_space (String c (a +:+ " " +:+ b))). cbn [split_space]. destruct (Ascii.eqb c " "); [done|]. by rewrite IH.
Qed.
Lemma join_no_char c p : c ≠ "/"%char → Forall (no_char c) p → no_char c (join p).
Proof.
  intros N. induction p as [|x p IH]; intros F; [done|]. inversion F as [|? ? Hx Hp]; subst. destruct p as [|y p]; [done|].
  change (join (x :: y :: p)) with (x +:+ "/" +:+ join (y :: p)). apply no_char_app. split; [done|]. apply no_char_app. split; [|by apply IH].
  unfold no_char. cbn [str_all]. destruct (Ascii.eqb_spec "/" c) as [E|]; [by rewrite E in N|done].
Qed.
Lemma absPath_plain e : Forall plain_name (names e) → plain_name (absPath e).
Proof.
  intros F. unfold absPath. rewrite pathFrom_root. split; (apply no_char_app; split; [done|]); apply join_no_char; try done; eapply Forall_impl; try exact F; intros x Hx; apply Hx.
Qed.
Lemma app_newline_inv a b : a +:+ newline = b → ∃ n, String.get n b = Some "010"%char.
Proof. intros <-. exists (String.length a). induction a as [|c a IH]; [done|]. exact IH. Qed.
Lemma get_app_r a b n c : String.get n b = Some c → ∃ m, String.get m (a +:+ b) = Some c.
Proof. intros H. exists (String.length a + n)%nat. induction a as [|x a IH]; [done|]. exact IH. Qed.

Section Text.
  Context {W : Type} (w : wordsize) (val : RegistryModel.mspec → value W) (arrays : W → list array) (stamp : minfo → W → gotime) (group : minfo → W → Z).
  Context (sprintf_v : goval → string) (FormatFloat : float32 + float64 → string) (FormatFloat32 : float64 → string).
  Notation emit := (textEmitMetric val arrays FormatFloat FormatFloat32).
  Notation text := (textHandler val arrays FormatFloat FormatFloat32).
  Notation json := (jsonHandler val arrays stamp group sprintf_v).
  Context (O : objects w val arrays).

  Lemma eval_ok sp s : (∃ b f x, v_src (val sp) = SrcVal b f ∧ f s = Some x ∧ getPrimitiveType w (rtype_of x) = Some (v_type (val sp), v_isPtr (val sp)) ∧ rval_ok w x = true) ∨
    (∃ d, v_src (val sp) = SrcDist d) ∨ ∃ l, v_src (val sp) = SrcList l.
  Proof.
    destruct (proj1 O sp) as (o & s0 & T & R & E). destruct o as [[] d|l|get str|isnil args outs f|t f| | |]; simpl in E; try done.
    - injection E as <-. right. left. simpl. eauto.
    - injection E as <-. right. right. simpl. eauto.
    - left. destruct get as [g|].
      + destruct R as [t R]. destruct (R s0) as (v0 & G0 & T0). rewrite G0, T0 in E.
        destruct (getPrimitiveType w t) as [[k p]|] eqn:Gp; injection E as <-.
        * destruct (R s) as (v1 & G1 & T1). eexists _, _, v1. split_and!; [done|done|by rewrite T1|]. by eapply T.
        * eexists _, _, _. split_and!; done.
      + simpl in E. injection E as <-. eexists _, _, _. split_and!; done.
    - left. destruct R as [-> ->]. destruct outs as [|t [|? ?]]; try done. destruct (getPrimitiveType w t) as [[k p]|] eqn:Gp; [|done]. injection E as <-.
      destruct (T s) as [Ty Ok]. eexists _, _, _. split_and!; [done|done|by rewrite Ty|done].
    - left. destruct (getPrimitiveType w t) as [[k p]|] eqn:Gp; [|done]. injection E as <-. destruct (T s) as [Ty Ok]. eexists _, _, _. split_and!; [done|done|by rewrite Ty|done].
  Qed.
  Lemma value_no_newline x t u p r : (∀ f, no_char "010" (FormatFloat f)) → no_line_break x → valueToTextString FormatFloat x t u p = FmtOk r → no_char "010" r.
  Proof.
    intros FF N. unfold valueToTextString.
    repeat match goal with |- context [if ?b then _ else _] => destruct b end; try done; unfold fmt_opt.
    - destruct (value_Bool x) as [[]|]; intros [= <-]; done.
    - destruct (value_Int x); intros [= <-]; apply fmt_d_no_newline.
    - destruct (value_Uint x); intros [= <-]; apply fmt_d_no_newline.
    - destruct (value_Float x); intros [= <-]; apply FF.
    - destruct (value_Float x); intros [= <-]; apply FF.
    - destruct (value_String x) as [str|] eqn:V; intros [= <-]. destruct x as [[]| | | |]; try discriminate V. injection V as ->. unfold no_line_break in N. simpl in N.
      change (no_char "010" (String "034" "" +:+ (str +:+ String "034" ""))). apply no_char_app. split; [done|]. apply no_char_app. done.
    - destruct (valueToTime x p); intros [= <-]; apply duration_no_newline.
    - destruct (valueToGoDuration x); intros [= <-]; apply duration_no_newline.
  Qed.
  Lemma mapM_texts u k xs r : mapM (λ x, fmt_ok (valueToTextString FormatFloat x k u false)) xs = Some r → (∀ f, no_char "010" (FormatFloat f)) → Forall no_line_break xs → Forall (no_char "010") r.
  Proof.
    intros M%mapM_Some FF F. revert F. induction M as [|x y xs r H M IH]; intros F; constructor; inversion F; subst; [|by apply IH].
    destruct (valueToTextString _ _ _ _ _) eqn:E; [|done..]. simpl in H. injection H as <-. by eapply value_no_newline.
  Qed.
  Lemma join_bar_no_newline l : Forall (no_char "010") l → no_char "010" (join_bar l).
  Proof.
    induction l as [|x l IH]; intros F; [done|]. inversion F; subst. destruct l as [|y l]; [done|]. change (join_bar (x :: y :: l)) with (x +:+ "|" +:+ join_bar (y :: l)).
    apply no_char_app. split; [done|]. apply no_char_app. split; [done|by apply IH].
  Qed.
  Lemma ranges_no_newline b l : (∀ f, no_char "010" (FormatFloat32 f)) → no_char "010" (text_ranges FormatFloat32 b l).
  Proof.
    intros FF. revert b. induction l as [|r l IH]; intros b; [done|]. cbn [text_ranges]. apply no_char_app. split; [|apply IH]. unfold text_range.
    destruct (N.eqb _ _); [done|]. apply no_char_app. split; [|apply fmt_d_no_newline]. destruct b; [|destruct (match l with [] => true | _ => false end)]; repeat (apply no_char_app; split); try done; apply FF.
  Qed.
  Lemma dist_text d : ∃ b, textEmitDistribution FormatFloat32 d = b +:+ newline ∧ ((∀ f, no_char "010" (FormatFloat32 f)) → no_char "010" b).
  Proof.
    unfold textEmitDistribution. eexists. split.
    - repeat rewrite <- app_assoc_str. reflexivity.
    - intros FF. repeat (apply no_char_app; split); try done; first [apply FF|apply fmt_d_no_newline|by apply ranges_no_newline].
  Qed.
  Lemma emit_some e mi s : e_obj e = OMetric mi → ∃ b, emit e s = Some (b +:+ newline) ∧
    ((∀ f, no_char "010" (FormatFloat f)) → (∀ f, no_char "010" (FormatFloat32 f)) → one_line val arrays s mi → no_char "010" b).
  Proof.
    intros Oe. unfold textEmitMetric, info, one_line. rewrite Oe. destruct (eval_ok (mi_spec mi) s) as [(b & f & x & Src & Fx & G & Ok)|[[d Src]|[l Src]]]; rewrite Src.
    - unfold evaluate, rpcMetric, AsInterface, evaluate. rewrite Src, Fx. destruct (text_content FormatFloat w x _ _ (mi_unit mi) Ok G) as (r & E & _). rewrite E. simpl.
      eexists. split; [done|]. intros F1 F2 H. eapply value_no_newline; [done| |exact E]. destruct (interface_any w x _ _ G) as [y Y]. rewrite Y in H. simpl in H. specialize (H _ eq_refl). simpl in H.
      unfold no_line_break in *. by rewrite <- (interface_content w x _ _ y Ok G Y).
    - destruct (dist_text (d s)) as (b & -> & H). exists b. split; [done|]. auto.
    - destruct (proj2 O _ _ s Src) as (st & i & R & L & Hh). pose proof (ListProofs.reachable_inv w st R) as I. destruct (inv_lists w st I _ _ L) as [Sok Ra].
      pose proof (cells_ok w _ _ (inv_heap w st I) Sok) as Co. rewrite Hh in Co.
      assert (∃ ts, mapM (λ x, fmt_ok (valueToTextString FormatFloat x (l_subType (l s)) (mi_unit mi) false)) (cells (arrays s) (l_slice (l s))) = Some ts) as [ts M].
      { apply mapM_is_Some. eapply Forall_impl; [exact Co|]. intros x [Tx Ox]. change (is_Some (fmt_ok (valueToTextString FormatFloat x (l_subType (l s)) (mi_unit mi) false))).
        apply primitive_reported in Ra. rewrite <- Tx in Ra. destruct (text_content FormatFloat w x _ _ (mi_unit mi) Ox Ra) as (r & -> & _). eexists. reflexivity. }
      rewrite M. simpl. eexists. split; [done|]. intros F1 F2 H. unfold rpcMetric in H. rewrite Src in H. specialize (H _ eq_refl). simpl in H.
      apply join_bar_no_newline. by eapply mapM_texts.
  Qed.

  Lemma text_metric h path p e s : components path p → answer h p = Some (NMetric e) → ∃ b, (∀ out, text (looked_up h path) out s = Resp 200 (BText (b +:+ newline))) ∧ emit e s = Some (b +:+ newline) ∧
    ((∀ f, no_char "010" (FormatFloat f)) → (∀ f, no_char "010" (FormatFloat32 f)) → (∀ mi, e_obj e = OMetric mi → one_line val arrays s mi) → no_char "010" b).
  Proof.
    intros C A. rewrite (looked_up_answer h path p C), A. destruct (answer_metric _ _ _ A) as [mi Oe]. destruct (emit_some e mi s Oe) as (b & E & H). exists b. simpl. rewrite E. split_and!; auto.
  Qed.
  (** the parts of a text listing: for each metric its path and the text of its value *)
  Definition listing_text (parts : list (string * string)) : string := concat_strings (map (λ x, x.1 +:+ " " +:+ x.2 +:+ newline) parts).
  Lemma text_listing h path p d out s : traversed h path out → components path p → answer h p = Some (NDir d) →
    ∃ parts qs, text (looked_up h path) out s = Resp 200 (BText (listing_text parts)) ∧ Forall2 (λ x q, components x.1 q) parts qs ∧ StronglySorted ilt qs ∧
      (∀ q, q ∈ qs ↔ ∃ e mi, metric_at h p q e mi ∧ ¬ no_number val s mi) ∧
      (∀ x out', x ∈ parts → text (looked_up h x.1) out' s = Resp 200 (BText (x.2 +:+ newline))) ∧
      ((∀ f, no_char "010" (FormatFloat f)) → (∀ f, no_char "010" (FormatFloat32 f)) → (∀ q e mi, metric_at h p q e mi → Forall plain_name q ∧ one_line val arrays s mi) →
        Forall (λ x, plain_name x.1 ∧ no_char "010" x.2) parts).
  Proof.
    intros T C A. destruct (listing_entries w val arrays O h path p out s T C) as (es & E & S & H1 & H2). destruct (listing_paths w val arrays O h path p out s T C es E) as (_ & P & L).
    assert (∃ bs, Forall2 (λ e b, emit e s = Some (b +:+ newline) ∧ (∀ out', text (looked_up h (absPath e)) out' s = Resp 200 (BText (b +:+ newline))) ∧
      ((∀ f, no_char "010" (FormatFloat f)) → (∀ f, no_char "010" (FormatFloat32 f)) → (∀ mi, e_obj e = OMetric mi → one_line val arrays s mi) → no_char "010" b)) es bs) as [bs B].
    { clear E S P H2. induction es as [|e es IH]; [exists []; constructor|]. destruct IH as [bs B]; [intros x Hx; apply H1; by constructor|intros x Hx; apply L; by constructor|].
      destruct (H1 e) as (q & mi & (_ & Aq & Oe) & _ & _ & Cq & _); [constructor|]. destruct (text_metric h _ q e s Cq Aq) as (b & ? & ? & ?). exists (b :: bs). by constructor. }
    exists (zip (map absPath es) bs), (map names es). assert (length es = length bs) as Len by (by eapply Forall2_length). split_and!.
    - rewrite (looked_up_answer h path p C), A. simpl. rewrite E. assert (mapM (λ e, textCollect val arrays FormatFloat FormatFloat32 e s) es = Some (map (λ x, x.1 +:+ " " +:+ x.2 +:+ newline) (zip (map absPath es) bs))) as ->; [|done].
      apply mapM_Some. clear -B. induction B as [|e b es bs [H _] B IH]; simpl; constructor; [|done]. unfold textCollect. by rewrite H.
    - clear -B L. induction B as [|e b es bs _ B IH]; simpl; constructor; [apply L; constructor|]. apply IH. intros x Hx. apply L. by constructor.
    - done.
    - done.
    - intros x out' Hx. clear -B Hx. induction B as [|e b es bs (_ & H & _) B IH]; simpl in Hx; [by apply elem_of_nil in Hx|]. apply elem_of_cons in Hx as [->|Hx]; [apply H|by apply IH].
    - intros F1 F2 N. assert (∀ e, e ∈ es → plain_name (absPath e) ∧ ∀ mi, e_obj e = OMetric mi → one_line val arrays s mi) as K.
      { intros e He. destruct (H1 e He) as (q & mi & Ma & _ & <- & _). destruct (N _ _ _ Ma) as [Nn No]. split; [by apply absPath_plain|]. intros mi' Oe'. destruct Ma as (_ & _ & Oe). by assert (mi' = mi) as -> by congruence. }
      clear -B K F1 F2. induction B as [|e b es bs (_ & _ & H) B IH]; simpl; constructor; [|apply IH; intros x Hx; apply K; by constructor]. destruct (K e) as [K1 K2]; [constructor|]. auto.
  Qed.
  Lemma listing_lines parts : Forall (λ x, plain_name x.1 ∧ no_char "010" x.2) parts →
    text_lines "" (listing_text parts) = (map (λ x, x.1 +:+ " " +:+ x.2) parts, "") ∧ Forall (λ x, split_space (x.1 +:+ " " +:+ x.2) = Some x) parts.
  Proof.
    induction parts as [|[a b] parts IH]; intros F; [done|]. inversion F as [|? ? [[Na Na'] Nb] F']; subst. destruct (IH F') as [IH1 IH2]. simpl in *. split.
    - unfold listing_text. cbn [map concat_strings fst snd]. assert ((a +:+ " " +:+ b +:+ newline) +:+ concat_strings (map (λ x, x.1 +:+ " " +:+ x.2 +:+ newline) parts) = (a +:+ " " +:+ b) +:+ newline +:+ listing_text parts) as ->.
      { unfold listing_text. by rewrite !app_assoc_str. }
      rewrite text_lines_line, IH1 by (apply no_char_app; split; [done|]; by apply no_char_app). done.
    - constructor; [by apply split_space_app|done].
  Qed.

  (** ** paths that do not exist *)
  Lemma ends_missing parts : listing_text parts ≠ "*Path does not exist.*".
  Proof.
    destruct parts as [|[a b] parts]; [done|]. intros E. assert (∃ n, String.get n (listing_text ((a, b) :: parts)) = Some "010"%char) as [n H].
    { unfold listing_text. cbn [map concat_strings fst snd]. exists (String.length (a +:+ " " +:+ b)). assert (((a +:+ " " +:+ b +:+ newline) +:+ concat_strings (map (λ x, x.1 +:+ " " +:+ x.2 +:+ newline) parts)) = (a +:+ " " +:+ b) +:+ newline +:+ listing_text parts) as ->.
      { unfold listing_text. by rewrite !app_assoc_str. }
      generalize (a +:+ " " +:+ b). intros x. induction x as [|c x IH]; [done|]. exact IH. }
    rewrite E in H. do 23 (destruct n as [|n]; [discriminate H|]). discriminate H.
  Qed.
  Lemma newline_missing b : b +:+ newline ≠ "*Path does not exist.*".
  Proof. intros E. apply app_newline_inv in E as [n H]. do 23 (destruct n as [|n]; [discriminate H|]). discriminate H. Qed.
  Lemma text_missing h path p out s : traversed h path out → components path p →
    (text (looked_up h path) out s = Resp 200 (BText "*Path does not exist.*") ↔ answer h p = None).
  Proof.
    intros T C. destruct (answer h p) as [[d|e]|] eqn:A.
    - destruct (text_listing h path p d out s T C A) as (parts & qs & -> & _). split; [|done]. intros [= E]. by apply ends_missing in E.
    - destruct (text_metric h path p e s C A) as (b & -> & _). split; [|done]. intros [= E]. by apply newline_missing in E.
    - rewrite (looked_up_answer h path p C), A. done.
  Qed.
  Lemma json_missing h path p out s : components path p → ((∃ b, json true (looked_up h path) out s = Resp 404 b) ↔ ¬ is_metric (answer h p)).
  Proof.
    intros C. rewrite (looked_up_answer h path p C). unfold jsonHandler, is_metric. destruct (answer h p) as [[d|e]|].
    - split; [|intros _; by eexists]. intros _ [e E]. done.
    - split.
      + intros [b B]. destruct (InitJsonMetric _ _ _ _ _ _ _); [|done]. by destruct (marshals _ _ _ _).
      + intros N. destruct N. by exists e.
    - split; [|intros _; by eexists]. intros _ [e E]. done.
  Qed.
  Lemma rpc_missing h path p s : components path p → (rpcGetMetric val arrays stamp group (looked_up h path) s = Some (inr ErrMetricNotFound) ↔ ¬ is_metric (answer h p)).
  Proof.
    intros C. rewrite (looked_up_answer h path p C). unfold rpcGetMetric, is_metric. destruct (answer h p) as [[d|e]|].
    - split; [|done]. intros _ [e E]. done.
    - split; [|intros N; destruct N; by exists e]. destruct (InitRpcMetric _ _ _ _ _ _); done.
    - split; [|done]. intros _ [e E]. done.
  Qed.
End Text.
