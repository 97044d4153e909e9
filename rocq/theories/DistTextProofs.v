(** Proofs about the text form of a distribution. *)
From Verif Require Import GoBase StrLemmas GoVal UnitsModel DurationModel DurationProofs TypesModel FloatBase TextSpec MessagesModel.
From stdpp Require Import gmap strings sorting.
From Verif Require Import DistModel DistSpec DistProofs DistThms DistApi DistMsgModel DistTextSpec.
From Verif Require Import ReflectModel ListModel ValueModel FormatModel PathModel PathSpec RegistryModel RegistrySpec HttpModel HttpSpec HttpProofs HttpText.
Local Open Scope string_scope.
Local Open Scope list_scope.
Local Arguments append : simpl nomatch.

Lemma parts_none c a : no_char c a → parts c a = [a].
Proof.
  unfold no_char. induction a as [|x a IH]; [done|]. cbn [str_all parts]. intros [N Ha]%andb_true_iff. apply negb_true_iff in N. by rewrite N, (IH Ha).
Qed.
Lemma parts_app c a b : no_char c a → parts c (a +:+ String c b) = a :: parts c b.
Proof.
  unfold no_char. induction a as [|x a IH].
  - intros _. change (parts c (String c b) = "" :: parts c b). cbn [parts]. by rewrite Ascii.eqb_refl.
  - cbn [str_all]. intros [N Ha]%andb_true_iff. apply negb_true_iff in N. change (parts c (String x (a +:+ String c b)) = String x a :: parts c b). cbn [parts]. by rewrite N, (IH Ha).
Qed.
Lemma str_all_mono (p q : ascii → bool) s : (∀ c, p c = true → q c = true) → str_all p s = true → str_all q s = true.
Proof. intros M. induction s as [|x s IH]; [done|]. cbn [str_all]. intros [A B]%andb_true_iff. apply andb_true_iff. split; auto. Qed.
Lemma sep_char c s : existsb (Ascii.eqb c) separators = true → no_separator s → no_char c s.
Proof.
  intros I. apply str_all_mono. intros x N. apply negb_true_iff. apply negb_true_iff in N. destruct (Ascii.eqb x c) eqn:E; [|done]. apply Ascii.eqb_eq in E. subst x. congruence.
Qed.
Lemma sep_app a b : no_separator a → no_separator b → no_separator (a +:+ b).
Proof. unfold no_separator. intros A B. rewrite str_all_app, A. exact B. Qed.
Lemma sep_dec n : no_separator (fmt_d (Z.of_N n)).
Proof.
  destruct (fmt_d_nonneg (Z.of_N n) ltac:(lia)) as (_ & D & _). unfold no_separator. revert D. apply str_all_mono. intros c D.
  apply negb_true_iff. apply not_true_iff_false. intros X. apply existsb_exists in X as (y & Hy & E). apply Ascii.eqb_eq in E. subst y.
  repeat (destruct Hy as [<-|Hy]; [vm_compute in D; discriminate D|]). destruct Hy.
Qed.
Lemma dec_canonical n : canonical_dec (fmt_d (Z.of_N n)) n.
Proof. pose proof (fmt_d_nonneg (Z.of_N n) ltac:(lia)) as C. by rewrite N2Z.id in C. Qed.

(** fields, each after a semicolon *)
Fixpoint semis (l : list (string * string)) : string := match l with [] => "" | x :: l => ";" +:+ (x.1 +:+ ":" +:+ x.2) +:+ semis l end.
Definition fieldstr (x : string * string) : string := x.1 +:+ ":" +:+ x.2.
Lemma field_str x : no_char ":" x.1 → no_char ":" x.2 → field (fieldstr x) = Some x.
Proof. destruct x as [k v]. simpl. intros K V. unfold field, fieldstr. cbn [fst snd]. change (":" +:+ v) with (String ":" v). by rewrite (parts_app _ _ _ K), (parts_none _ _ V). Qed.
Lemma parts_semis a l : no_char ";" a → Forall (λ x, no_char ";" (fieldstr x)) l → parts ";" (a +:+ semis l) = a :: map fieldstr l.
Proof.
  revert a. induction l as [|x l IH]; intros a A F.
  - cbn [semis map]. rewrite app_nil_str. by apply parts_none.
  - inversion F as [|? ? F1 F2]; subst. cbn [semis map]. change (parts ";" (a +:+ String ";" (fieldstr x +:+ semis l)) = a :: fieldstr x :: map fieldstr l).
    rewrite (parts_app _ _ _ A). f_equal. by apply IH.
Qed.
Lemma mapM_fields l : Forall (λ x, no_char ":" x.1 ∧ no_char ":" x.2) l → mapM field (map fieldstr l) = Some l.
Proof.
  induction l as [|x l IH]; intros F; [done|]. inversion F as [|? ? [F1 F2] F3]; subst. cbn [map]. change (mapM field (fieldstr x :: map fieldstr l)) with
    (y ← field (fieldstr x); k ← mapM field (map fieldstr l); mret (y :: k)). rewrite (field_str _ F1 F2). cbn. by rewrite (IH F3).
Qed.
Lemma semis_no_brace l : Forall (λ x, no_char "}" x.1 ∧ no_char "}" x.2) l → no_char "}" (semis l).
Proof.
  induction l as [|x l IH]; intros F; [done|]. inversion F as [|? ? [F1 F2] F3]; subst. cbn [semis]. apply no_char_app. split; [done|]. apply no_char_app. split; [|by apply IH].
  apply no_char_app. split; [done|]. by apply no_char_app.
Qed.

Section FF.
  Context (FF : float64 → string) (NS : ∀ f, no_separator (FF f)).
  (** the label of bucket i *)
  Definition labelstr (x : string * string) : string := "[" +:+ x.1 +:+ "," +:+ x.2 +:+ ")".
  Lemma label_str x : no_separator x.1 → no_separator x.2 → range_label (labelstr x) = Some x.
  Proof.
    destruct x as [lo hi]. cbn [fst snd]. intros A B. unfold labelstr. cbn [fst snd]. change ("[" +:+ lo +:+ "," +:+ hi +:+ ")") with (String "[" (lo +:+ String "," (hi +:+ String ")" ""))).
    unfold range_label. rewrite Ascii.eqb_refl. rewrite (parts_app _ _ _ (sep_char "," _ eq_refl A)). rewrite parts_none.
    - rewrite (parts_app _ _ _ (sep_char ")" _ eq_refl B)). done.
    - apply no_char_app. split; [by apply (sep_char "," _ eq_refl)|done].
  Qed.
  Definition lo_str (es : list num64) (i : nat) : string := match i with 0 => "-inf" | S j => match (es !! j : option num64) with Some e => FF e | None => "" end end.
  Definition hi_str (es : list num64) (i : nat) : string := match (es !! i : option num64) with Some e => FF e | None => "inf" end.
  Definition triple (es : list num64) (y : nat * N) : string * string * string := ((lo_str es y.1, hi_str es y.1), fmt_d (Z.of_N y.2)).
  Definition pair_of (t : string * string * string) : string * string := (labelstr t.1, t.2).

  Lemma lo_sep es i : no_separator (lo_str es i).
  Proof using NS. unfold lo_str. destruct i; [done|]. destruct (es !! i); [apply NS|done]. Qed.
  Lemma hi_sep es i : no_separator (hi_str es i).
  Proof using NS. unfold hi_str. destruct (es !! i); [apply NS|done]. Qed.

  Lemma ranges_semis (es : list num64) (all ps : list (piece num64)) (pre : list (piece num64)) (counts : list N) :
    newBucketerFromEndpoints es = Some all → all = pre ++ ps → length ps = length counts →
    text_ranges FF (Nat.eqb (length pre) 0) (asRanges (zip ps counts)) = semis (map pair_of (map (triple es) (occupied (length pre) counts))).
  Proof using All.
    intros B. revert pre counts. induction ps as [|p ps IH]; intros pre counts E L; [by destruct counts|]. destruct counts as [|n counts]; [done|].
    destruct (reported_ranges es all B) as [La Hr]. assert (all !! length pre = Some p) as Pp. { rewrite E, lookup_app_r, Nat.sub_diag by done. done. }
    destruct (Hr _ _ Pp) as (P1 & P2 & P3 & P4). assert (length es ≥ 1) as Le by (destruct es; [done|simpl; lia]).
    assert (length all = length pre + S (length ps)) as Lq by (rewrite E, app_length; done).
    specialize (IH (pre ++ [p]) counts). rewrite app_length in IH. cbn [length] in IH. rewrite Nat.add_1_r in IH. specialize (IH ltac:(rewrite <-app_assoc; exact E) ltac:(simpl in L; lia)).
    change (Nat.eqb (S (length pre)) 0) with false in IH.
    cbn [zip zip_with asRanges map text_ranges occupied]. unfold text_range at 1. cbn [r_count r_lower r_upper fst snd]. change (map _ (zip_with pair ps counts)) with (asRanges (zip ps counts)).
    destruct (N.eqb n 0) eqn:Nz; [exact IH|].
    cbn [map semis]. rewrite IH.
    match goal with |- (?X +:+ _) +:+ _ = _ => assert (X = ";" +:+ labelstr (lo_str es (length pre), hi_str es (length pre)) +:+ ":") as -> end.
    - unfold labelstr. cbn [fst snd]. unfold lo_str, hi_str. destruct (length pre) as [|k] eqn:K.
      + cbn [Nat.eqb]. rewrite P4; [|rewrite P2; apply bool_decide_eq_false; lia]. rewrite !app_assoc_str. done.
      + cbn [Nat.eqb]. specialize (P3 ltac:(rewrite P1; by apply bool_decide_eq_false)). rewrite Nat.sub_succ, Nat.sub_0_r in P3. rewrite P3.
        destruct ps as [|p' ps].
        * cbn [zip zip_with asRanges map]. rewrite (proj2 (lookup_ge_None es (S k))) by (simpl in Lq; lia). rewrite !app_assoc_str. done.
        * destruct counts as [|n' counts]; [done|]. cbn [zip zip_with asRanges map]. rewrite P4; [|rewrite P2; apply bool_decide_eq_false; simpl in Lq; lia]. rewrite !app_assoc_str. done.
    - unfold pair_of at 1, triple at 1. cbn [fst snd]. rewrite !app_assoc_str. done.
  Qed.

  Lemma occupied_bound i counts y : y ∈ occupied i counts → (i ≤ y.1 < i + length counts)%nat.
  Proof.
    revert i. induction counts as [|n counts IH]; intros i; cbn [occupied length]; [by intros ?%elem_of_nil|].
    destruct (N.eqb n 0); [intros I%IH; lia|]. intros [->|I%IH]%elem_of_cons; simpl; lia.
  Qed.
  Lemma mapM_labels l : Forall (λ t : string * string * string, no_separator t.1.1 ∧ no_separator t.1.2) l →
    mapM (λ f : string * string, match range_label f.1 with Some l => Some (l, f.2) | None => None end) (map pair_of l) = Some l.
  Proof.
    intros F. apply mapM_Some_2, Forall2_fmap_l, Forall_Forall2_diag. eapply Forall_impl; [exact F|]. intros t [F1 F2]. unfold compose, pair_of. cbn [fst snd]. rewrite (label_str _ F1 F2). by destruct t.
  Qed.

  Lemma text_shows es ps counts s : newBucketerFromEndpoints es = Some ps → length ps = length counts → s_breakdown s = zip ps counts →
    shows_distribution FF es (textEmitDistribution FF (distMessage s)) s counts.
  Proof using NS.
    intros B L Bd. set (st := [("max", FF (s_max s)); ("avg", FF (s_average s)); ("median", FF (s_median s)); ("sum", FF (s_sum s)); ("count", fmt_d (Z.of_N (s_count s)))]).
    set (ts := map (triple es) (occupied 0 counts)).
    assert (textEmitDistribution FF (distMessage s) = String "{" ((fieldstr ("min", FF (s_min s)) +:+ semis (st ++ map pair_of ts)) +:+ String "}" newline)) as ->.
    { unfold textEmitDistribution, distMessage, dm_min, dm_max, dm_average, dm_median, dm_sum, dm_count, dm_ranges. rewrite Bd. pose proof (ranges_semis es ps ps [] counts B eq_refl L) as R.
      cbn [length Nat.eqb] in R. rewrite R. fold ts. unfold st. cbn [app semis]. unfold fieldstr. cbn [fst snd]. rewrite !app_assoc_str. done. }
    assert (Forall (λ t : string * string * string, (no_separator t.1.1 ∧ no_separator t.1.2) ∧ no_separator t.2) ts) as Ft.
    { unfold ts. apply Forall_map, Forall_forall. intros y _. split; [split; [apply lo_sep|apply hi_sep]|apply sep_dec]. }
    assert (∀ c, existsb (Ascii.eqb c) [";"; ":"; "}"]%char = true → Forall (λ x, no_char c x.1 ∧ no_char c x.2) (("min", FF (s_min s)) :: st ++ map pair_of ts)) as Fa.
    { intros c Ic. assert (existsb (Ascii.eqb c) separators = true) as Is.
      { apply existsb_exists in Ic as (y & Hy & E). apply Ascii.eqb_eq in E. subst y. repeat (destruct Hy as [<-|Hy]; [reflexivity|]). destruct Hy. }
      assert (∀ f, no_char c (FF f)) as Nf by (intros f; apply (sep_char c _ Is), NS).
      assert (∀ k, no_separator k → no_char c k) as Nk by (intros k; by apply sep_char).
      apply Forall_cons. split; [split; [by apply Nk|apply Nf]|]. apply Forall_app. split.
      - unfold st. repeat (apply Forall_cons; split; [split; [by apply Nk|first [apply Nf|apply Nk, sep_dec]]|]). by apply Forall_nil.
      - apply Forall_map. eapply Forall_impl; [exact Ft|]. intros t [[T1 T2] T3]. unfold pair_of. cbn [fst snd]. split; [|by apply Nk]. unfold labelstr.
        apply existsb_exists in Ic as (y & Hy & E). apply Ascii.eqb_eq in E. subst y. repeat (apply no_char_app; split); try (by apply Nk); repeat (destruct Hy as [<-|Hy]; [reflexivity|]); destruct Hy. }
    pose proof (Fa ";"%char eq_refl) as F1. pose proof (Fa ":"%char eq_refl) as F2. pose proof (Fa "}"%char eq_refl) as F3. clear Fa.
    assert (∀ c (x : string * string), Ascii.eqb ":" c = false → no_char c x.1 ∧ no_char c x.2 → no_char c (fieldstr x)) as Fs.
    { intros c x N [X1 X2]. unfold fieldstr. apply no_char_app. split; [done|]. apply no_char_app. split; [|done]. unfold no_char. cbn [str_all]. by rewrite N. }
    exists (fmt_d (Z.of_N (s_count s))), ts. split; [|split; [apply dec_canonical|]].
    - unfold read_text. rewrite Ascii.eqb_refl.
      apply Forall_cons in F1 as [F1 F1']. apply Forall_cons in F3 as [F3 F3'].
      rewrite parts_app; [|apply no_char_app; split; [by apply Fs|by apply semis_no_brace]].
      rewrite (parts_none "}" newline) by done. unfold newline. rewrite parts_semis; [|by apply Fs|eapply Forall_impl; [exact F1'|intros x Hx; by apply Fs]].
      change (fieldstr ("min", FF (s_min s)) :: map fieldstr (st ++ map pair_of ts)) with (map fieldstr (("min", FF (s_min s)) :: st ++ map pair_of ts)).
      rewrite (mapM_fields _ F2). unfold st. cbn [app drop take]. rewrite drop_0, take_0, mapM_labels; [done|]. eapply Forall_impl; [exact Ft|]. intros t [T _]. exact T.
    - unfold ts. apply Forall2_fmap_l. apply Forall_Forall2_diag. apply Forall_forall. intros y Hy. apply occupied_bound in Hy. pose proof (bucketer_length es ps B) as Lb.
      unfold shows_range, triple. cbn [fst snd]. split; [|split; [unfold hi_str; by destruct (es !! y.1)|apply dec_canonical]].
      unfold lo_str. destruct y.1 as [|j] eqn:Y; [done|]. assert (is_Some (es !! j)) as [e E] by (apply lookup_lt_is_Some; lia). exists e. by rewrite E.
  Qed.
End FF.

Lemma dist_read (W : Type) (val : RegistryModel.mspec → value W) arrays FF FF32 h path p e mi out (st : W) f es ps nc ts hist rs d s :
  (∀ x, no_separator (FF32 x)) → components path p → answer h p = Some (NMetric e) → e_obj e = OMetric mi → v_src (val (mi_spec mi)) = SrcDist f →
  newBucketerFromEndpoints es = Some ps → performs hist (newDistributionWithTimeStamp ps nc ts) = (rs, d) → (N.of_nat (length hist) < 2 ^ 64)%N →
  Snapshot d = Some s → f st = distMessage s →
  ∃ b, textHandler val arrays FF FF32 (looked_up h path) out st = Resp 200 (BText b) ∧ shows_distribution FF32 es b s (d_counts d).
Proof.
  intros NS C A Oe Vs B P L Sn Fs. destruct (snap_breakdown es ps nc ts hist rs d B P L s Sn) as [Bd Le]. exists (textEmitDistribution FF32 (distMessage s)). split.
  - rewrite (looked_up_answer h path p C), A. unfold textHandler, textEmitMetric, info. rewrite Oe, Vs, Fs. done.
  - by eapply text_shows.
Qed.
