(** What valueToTextString and valueToHtmlString give for every value of a metric. *)
From Coq Require Import ZArith Reals Lra Lia Psatz.
From Verif Require Import GoBase StrLemmas TextSpec GoVal UnitsModel DurationModel DurationSpec DurationProofs TypesModel FloatBase.
From Flocq Require Import Core BinarySingleNaN.
From stdpp Require Import list.
From Verif Require Import FloatLemmas ReflectModel ListModel ValueModel ValueSpec FormatModel FormatSpec FormatValueSpec FormatProofs FormatFloat.
Local Open Scope string_scope.

Definition B1000 (k : nat) : R := IZR (2 * 10 ^ (19 - 3 * Z.of_nat k)).
Definition B1024 (k : nat) : R := bpow radix2 (64 - 10 * Z.of_nat k).
Lemma compact_1000 x : (Z.abs x <= 2 ^ 64)%Z → (1000 <= Z.abs x)%Z → ∃ s, iCompactForm x 1000 suffixes = FmtOk s ∧ shows_compact multiple x s.
Proof.
  apply (i_compact 1000 B1000).
  - lia.
  - intros k K. assert (k = 0 ∨ k = 1 ∨ k = 2 ∨ k = 3 ∨ k = 4 ∨ k = 5 ∨ k = 6)%nat as Ks by lia. unfold B1000. split.
    + apply generic_format_FLT. exists (Float radix2 (5 ^ (19 - 3 * Z.of_nat k)) (20 - 3 * Z.of_nat k)); cbn [Fnum Fexp]; [|destruct Ks as [->|[->|[->|[->|[->|[->| ->]]]]]]; vm_compute; reflexivity|lia].
      unfold F2R. cbn [Fnum Fexp]. rewrite <- (IZR_Zpower radix2) by lia. rewrite <- mult_IZR. f_equal.
      destruct Ks as [->|[->|[->|[->|[->|[->| ->]]]]]]; reflexivity.
    + apply Rle_lt_trans with (bpow radix2 65); [|by apply bpow_lt]. rewrite <- (IZR_Zpower radix2) by lia. apply IZR_le. destruct Ks as [->|[->|[->|[->|[->|[->| ->]]]]]]; vm_compute; discriminate.
  - intros k K. assert (k = 0 ∨ k = 1 ∨ k = 2 ∨ k = 3 ∨ k = 4 ∨ k = 5)%nat as Ks by lia. unfold B1000.
    apply Rmult_le_reg_r with 1000%R; [lra|]. unfold Rdiv. rewrite Rmult_assoc, Rinv_l, Rmult_1_r by lra. rewrite <- mult_IZR. apply IZR_le.
    destruct Ks as [->|[->|[->|[->|[->| ->]]]]]; vm_compute; discriminate.
  - unfold B1000. apply IZR_lt. vm_compute. reflexivity.
  - unfold B1000. rewrite <- (IZR_Zpower radix2) by lia. apply IZR_le. vm_compute. discriminate.
  - intros j J. assert (j = 1 ∨ j = 2 ∨ j = 3 ∨ j = 4 ∨ j = 5 ∨ j = 6)%nat as Js by lia.
    destruct Js as [->|[->|[->|[->|[->| ->]]]]]; eexists; (split; [reflexivity|constructor]).
Qed.
Lemma compact_1024 sfx mult x : (∀ j, (1 <= j <= 6)%nat → ∃ s, suffix_at sfx (Z.of_nat j - 1) = Some s ∧ mult s (1024 ^ Z.of_nat j)%Z) →
  (Z.abs x <= 2 ^ 64)%Z → (1024 <= Z.abs x)%Z → ∃ s, iCompactForm x 1024 sfx = FmtOk s ∧ shows_compact mult x s.
Proof.
  intros Sf. apply (i_compact 1024 B1024).
  - lia.
  - intros k K. unfold B1024. split; [apply generic_format_bpow; unfold FLT_exp; lia|apply bpow_lt; lia].
  - intros k K. unfold B1024. change 1024%R with (bpow radix2 10). unfold Rdiv. rewrite <- bpow_opp, <- bpow_plus. right. f_equal. lia.
  - unfold B1024. change 1024%R with (bpow radix2 10). by apply bpow_lt.
  - unfold B1024. apply bpow_le. lia.
  - exact Sf.
Qed.
Lemma byte_suffix j : (1 <= j <= 6)%nat → ∃ s, suffix_at byteSuffixes (Z.of_nat j - 1) = Some s ∧ multiple_byte s (1024 ^ Z.of_nat j)%Z.
Proof.
  intros J. assert (j = 1 ∨ j = 2 ∨ j = 3 ∨ j = 4 ∨ j = 5 ∨ j = 6)%nat as Js by lia.
  destruct Js as [->|[->|[->|[->|[->| ->]]]]]; eexists; (split; [reflexivity|constructor]).
Qed.
Lemma rate_suffix j : (1 <= j <= 6)%nat → ∃ s, suffix_at bytePerSecondSuffixes (Z.of_nat j - 1) = Some s ∧ multiple_rate s (1024 ^ Z.of_nat j)%Z.
Proof.
  intros J. assert (j = 1 ∨ j = 2 ∨ j = 3 ∨ j = 4 ∨ j = 5 ∨ j = 6)%nat as Js by lia.
  destruct Js as [->|[->|[->|[->|[->| ->]]]]]; eexists; (split; [reflexivity|]); eexists; (split; [constructor|reflexivity]).
Qed.

(** *** unsigned numbers *)
Lemma u_loop_i fr : is_finite fr = true → (2 <= B2R fr)%R → ∀ fuel fx idx, is_finite fx = true → (0 <= B2R fx)%R → u_loop fuel fr fx idx = i_loop fuel fr fx idx.
Proof.
  intros Ff Fr. induction fuel as [|fuel IH]; intros fx idx F P; [done|]. cbn [u_loop i_loop].
  assert (f64_le fx (f64_opp fr) = false) as ->. { destruct (opp_fin fr Ff) as [Fo Vo]. rewrite le_fin by done. apply Rle_bool_false. lra. }
  rewrite orb_false_r. destruct (f64_le fr fx); [|done].
  destruct (div_round fx fr (B2R fx) F) as (Fd & Vd & _); [lra|apply fmt_B2R|by apply key_bound| |].
  { rewrite Rabs_pos_eq by (apply Rmult_le_pos; [lra|]; apply Rlt_le, Rinv_0_lt_compat; lra).
    apply Rmult_le_reg_r with (B2R fr); [lra|]. unfold Rdiv. rewrite Rmult_assoc, Rinv_l by lra. nra. }
  apply IH; [done|]. rewrite Vd. rewrite <- (rnd_fmt 0) by apply generic_format_0. apply rnd_le. apply Rmult_le_pos; [lra|]. apply Rlt_le, Rinv_0_lt_compat. lra.
Qed.
Lemma i_loop_pos fr : is_finite fr = true → (2 <= B2R fr)%R → ∀ fuel fx idx fy j, is_finite fx = true → (0 <= B2R fx)%R → u_loop fuel fr fx idx = Some (fy, j) → is_finite fy = true ∧ (0 <= B2R fy)%R.
Proof.
  intros Ff Fr. induction fuel as [|fuel IH]; intros fx idx fy j F P E; [done|]. cbn [u_loop] in E. destruct (f64_le fr fx); [|by injection E as <- <-].
  destruct (div_round fx fr (B2R fx) F) as (Fd & Vd & _); [lra|apply fmt_B2R|by apply key_bound| |].
  { rewrite Rabs_pos_eq by (apply Rmult_le_pos; [lra|]; apply Rlt_le, Rinv_0_lt_compat; lra).
    apply Rmult_le_reg_r with (B2R fr); [lra|]. unfold Rdiv. rewrite Rmult_assoc, Rinv_l by lra. nra. }
  eapply IH; [exact Fd| |exact E]. rewrite Vd. rewrite <- (rnd_fmt 0) by apply generic_format_0. apply rnd_le. apply Rmult_le_pos; [lra|]. apply Rlt_le, Rinv_0_lt_compat. lra.
Qed.
Lemma u_compact_i x r sfx : (0 <= x <= 2 ^ 64)%Z → (2 <= r <= 2 ^ 53)%Z → uCompactForm x r sfx = iCompactForm x r sfx.
Proof.
  intros X R. unfold uCompactForm, iCompactForm. destruct (Z.ltb_spec (- r) x); [|lia]. cbn [andb]. destruct (Z.ltb_spec x r); [done|].
  destruct (f64_of_Z_exact r) as [Vr Fr]; [lia|]. assert (2 <= B2R (f64_of_Z r))%R by (rewrite Vr; apply IZR_le; lia).
  destruct (of_Z_round x) as [Fx Vx]; [lia|]. assert (0 <= B2R (f64_of_Z x))%R by (rewrite Vx, <- (rnd_fmt 0) by apply generic_format_0; apply rnd_le, IZR_le; lia).
  rewrite <- (u_loop_i (f64_of_Z r)) by done. destruct (u_loop compact_fuel (f64_of_Z r) (f64_of_Z x) (-1)) as [[fy j]|] eqn:E; [|done].
  destruct (i_loop_pos _ Fr ltac:(done) _ _ _ _ _ Fx ltac:(done) E) as [Fy Py].
  assert (∀ c, is_finite c = true → (0 < B2R c)%R → f64_lt (f64_opp c) fy = true) as Lt.
  { intros c Fc Pc. destruct (opp_fin c Fc) as [Fo Vo]. rewrite lt_fin by done. apply Rlt_bool_true. lra. }
  destruct c9995 as [F1 B1], c9995x10 as [F2 B2]. rewrite !Lt by (done || lra). done.
Qed.

(** *** values *)
Lemma fmt_d_exact z : exact_text z (fmt_d z).
Proof.
  unfold exact_text, fmt_d. destruct (Z.ltb_spec z 0).
  - exists (dec_of_N (Z.to_N (- z))). split; [|done]. replace (Z.abs_N z) with (Z.to_N (- z)) by lia. apply dec_of_N_canonical.
  - exists (dec_of_N (Z.to_N z)). split; [|done]. replace (Z.abs_N z) with (Z.to_N z) by lia. apply dec_of_N_canonical.
Qed.
Lemma exact_has_digit z s : exact_text z s → has_digit s.
Proof.
  intros (t & (N & D & _) & ->) H. unfold no_digits in H. rewrite str_all_app, andb_true_iff in H. destruct H as [_ H]. destruct t as [|c t]; [done|].
  simpl in D, H. apply andb_true_iff in D as [D _]. by rewrite D in H.
Qed.
Lemma i_small x r sfx : (Z.abs x < r)%Z → iCompactForm x r sfx = FmtOk (fmt_d x).
Proof. intros H. unfold iCompactForm. destruct (Z.ltb_spec (- r) x); [|lia]. destruct (Z.ltb_spec x r); [done|lia]. Qed.
Lemma html_by_unit u x f g (h : fmt_res) : (Z.abs x <= 2 ^ 64)%Z → h = FmtOk (fmt_d x) →
  (∀ sfx, f sfx = iCompactForm x 1024 sfx) → (∀ sfx, g sfx = iCompactForm x 1000 sfx) →
  ∃ s, (if String.eqb u UByte then f byteSuffixes else if String.eqb u UBytePerSecond then f bytePerSecondSuffixes else if String.eqb u UNone then separated h else g suffixes) = FmtOk s ∧
    html_number u x s.
Proof.
  intros X -> F G. unfold html_number, UByte, UBytePerSecond, UNone. rewrite !F, G. pose proof (fmt_d_exact x) as Ex.
  destruct (String.eqb_spec u "None") as [->|_].
  { simpl. destruct (add_grouped "," 3 (fmt_d x)) as (out & E & Gr); [lia|by eapply exact_has_digit|]. exists out. split; [exact E|]. by exists (fmt_d x). }
  destruct (String.eqb u "Bytes").
  { destruct (Z.ltb_spec (Z.abs x) 1024); [rewrite i_small by done; by eexists|]. apply compact_1024; [exact byte_suffix|done..]. }
  destruct (String.eqb u "BytesPerSecond").
  { destruct (Z.ltb_spec (Z.abs x) 1024); [rewrite i_small by done; by eexists|]. apply compact_1024; [exact rate_suffix|done..]. }
  destruct (Z.ltb_spec (Z.abs x) 1000); [rewrite i_small by done; by eexists|]. by apply compact_1000.
Qed.
Section V.
  Context (FF : float32 + float64 → string) (FT : gotime → string) (w : wordsize).
  Lemma html_integer v t p u x : rval_ok w v = true → getPrimitiveType w (rtype_of v) = Some (t, p) → content_of v = CtInt x →
    ∃ s, valueToHtmlString FF FT v t u p = FmtOk s ∧ html_number u x s.
  Proof.
    intros O E C. unfold valueToHtmlString.
    destruct v as [k n z| |[]| |]; try discriminate C. destruct k; try discriminate C; injection C as <-; simpl in O, E; try destruct w; injection E as <- <-; unfold between in O;
      rewrite andb_true_iff, Z.leb_le, Z.ltb_lt in O.
    all: match goal with |- context [IsInt ?t] => let b := eval vm_compute in (IsInt t) in change (IsInt t) with b end.
    all: try match goal with |- context [IsUint ?t] => let b := eval vm_compute in (IsUint t) in change (IsUint t) with b end.
    all: cbn [negb andb compact value_Int value_Uint].
    all: apply html_by_unit; [lia|reflexivity|intros; first [reflexivity|apply u_compact_i; lia]..].
  Qed.
  Lemma text_integer v t p u x : rval_ok w v = true → getPrimitiveType w (rtype_of v) = Some (t, p) → content_of v = CtInt x →
    valueToTextString FF v t u p = FmtOk (fmt_d x).
  Proof.
    intros O E C. destruct v as [k n z| |[]| |]; try discriminate C. destruct k; try discriminate C; injection C as <-; simpl in O, E; try destruct w; injection E as <- <-; reflexivity.
  Qed.
  Lemma zero_text u : decimal9 (StringUsingUnits (MkDur 0 0) u) 0.
  Proof. assert (valid_time (MkTime 0 0)) as V by (split; [done|by vm_compute]). pose proof (sinceEpoch_text (MkTime 0 0) u V) as H. unfold time_ns in H. simpl t_sec in H. simpl t_nsec in H. replace (per_second u * (0 * billion + 0))%Z with 0%Z in H by lia. apply H. unfold per_second. repeat destruct (String.eqb _ _); lia. Qed.
  Lemma time_text t u : text_shows u (CtTime t) (StringUsingUnits (timeToDuration t) u).
  Proof.
    unfold timeToDuration, time_IsZero. split.
    - intros ->. simpl. apply zero_text.
    - intros N V R. destruct (andb _ _) eqn:E; [|by apply sinceEpoch_text].
      exfalso. apply andb_true_iff in E as [E1%Z.eqb_eq E2%Z.eqb_eq]. apply N. destruct t. simpl in *. congruence.
  Qed.
  Lemma text_content v t p u : rval_ok w v = true → getPrimitiveType w (rtype_of v) = Some (t, p) →
    ∃ s, valueToTextString FF v t u p = FmtOk s ∧ text_shows u (content_of v) s.
  Proof.
    intros O E. destruct (content_of v) as [b|x|f|f|str|tm|d|nm pl] eqn:C.
    2:{ rewrite (text_integer v t p u x O E C). eexists. split; [done|]. apply fmt_d_exact. }
    all: destruct v as [[]| |[]| |]; try discriminate C; try (simpl in E; discriminate E); injection C; intros; subst; simpl in E; injection E as <- <-;
      (eexists; split; [reflexivity|]); try exact I; try reflexivity.
    all: try exact (time_text _ u). apply newDuration_text. simpl in O. unfold between in O. rewrite andb_true_iff, Z.leb_le, Z.ltb_lt in O. unfold in64. lia.
  Qed.
  Lemma html_content v t p u : rval_ok w v = true → getPrimitiveType w (rtype_of v) = Some (t, p) →
    ∃ s, valueToHtmlString FF FT v t u p = FmtOk s ∧ html_shows u (content_of v) s.
  Proof.
    intros O E. destruct (content_of v) as [b|x|f|f|str|tm|d|nm pl] eqn:C.
    2:{ by apply html_integer. }
    all: destruct v as [[]| |[]| |]; try discriminate C; try (simpl in E; discriminate E); injection C; intros; subst; simpl in E; injection E as <- <-.
    all: try (eexists; split; [reflexivity|]; first [exact I|reflexivity]).
    simpl in O. unfold between in O. rewrite andb_true_iff, Z.leb_le, Z.ltb_lt in O. assert (in64 d) as D by (unfold in64; lia).
    unfold valueToHtmlString. cbn [IsInt IsUint is_one_of existsb String.eqb Ascii.eqb Bool.eqb negb andb orb compact valueToGoDuration value_Int GoDuration Int8 Int16 Int32 Int64 Uint8 Uint16 Uint32 Uint64].
    destruct (newDuration_spec d D) as (N & V & _). destruct (prettyFormat_spec _ N) as [_ P]. unfold html_shows.
    destruct (Z.ltb_spec d 0).
    - assert (isNegative (newDuration d) = true) as ->. { unfold isNegative, dnorm, normalised, dvalue, billion in *. lia. }
      eexists. split; [reflexivity|]. by apply newDuration_text.
    - assert (isNegative (newDuration d) = false) as ->. { unfold isNegative, dnorm, normalised, dvalue, billion in *. lia. }
      destruct P as (s & q & g & E & Sh & B); [lia|]. rewrite E. eexists. split; [reflexivity|]. exists q, g. rewrite V in B. done.
  Qed.
End V.
