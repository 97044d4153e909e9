(** Property theorems C52, C53, C62 and C63: text and HTML forms of values. *)
From Verif Require Import GoBase StrLemmas TextSpec GoVal UnitsModel DurationModel DurationSpec DurationProofs TypesModel FloatBase.
From stdpp Require Import list.
From Verif Require Import ReflectModel ListModel ValueModel ValueSpec FormatModel FormatSpec FormatValueSpec FormatProofs FormatThms.
Local Open Scope string_scope.

(** ** C52 *)
Theorem c52_grouped : ∀ sep n orig out, (0 < n)%nat → (addSeparators orig sep (Z.of_nat n) = FmtOk out ↔ grouped sep n orig out).
Proof. intros sep n orig out. exact (add_iff sep n orig out). Qed.
Theorem c52_total : ∀ sep n orig, (0 < n)%nat → has_digit orig → ∃ out, addSeparators orig sep (Z.of_nat n) = FmtOk out.
Proof. intros sep n orig N H. destruct (add_grouped sep n orig N H) as (out & E & _). by exists out. Qed.
Theorem c52_delete : ∀ c n orig out, (0 < n)%nat → str_all (λ d, negb (is_byte c d)) orig = true → addSeparators orig (String c "") (Z.of_nat n) = FmtOk out → without c out = orig.
Proof.
  intros c n orig out N H E. apply (add_iff _ n _ _ N) in E. etransitivity; [exact (delete_separators c n orig out E)|]. by apply without_none.
Qed.
Theorem c52_no_digit : ∀ sep n orig, no_digits orig → addSeparators orig sep n = FmtPanic.
Proof. exact add_no_digit. Qed.
Example c52_nonvacuous : addSeparators "-1234567.25 km" "," 3 = FmtOk "-1,234,567.25 km" ∧ has_digit "-1234567.25 km" ∧
  str_all (λ d, negb (is_byte "," d)) "-1234567.25 km" = true ∧ without "," "-1,234,567.25 km" = "-1234567.25 km" ∧ no_digits "none" ∧
  grouped "," 3 "-123456.0" "-123,456.0".
Proof.
  split_and!; try (vm_compute; reflexivity); [vm_compute; discriminate|]. exists "-", "123", ["456"], ".0". split_and!; try (vm_compute; reflexivity); try (simpl; lia); repeat constructor.
Qed.

(** ** C53 *)
(** Every int64 and uint64: no panic, the loop ends, small numbers are exact and larger ones within 0.501 per cent. *)
Theorem c53_signed : ∀ x, (-2 ^ 63 <= x < 2 ^ 63)%Z →
  (∀ sfx r, (Z.abs x < r)%Z → iCompactForm x r sfx = FmtOk (fmt_d x) ∧ exact_text x (fmt_d x)) ∧
  ((1000 <= Z.abs x)%Z → ∃ s, iCompactForm x 1000 suffixes = FmtOk s ∧ shows_compact multiple x s) ∧
  ((1024 <= Z.abs x)%Z → ∃ s, iCompactForm x 1024 byteSuffixes = FmtOk s ∧ shows_compact multiple_byte x s) ∧
  ((1024 <= Z.abs x)%Z → ∃ s, iCompactForm x 1024 bytePerSecondSuffixes = FmtOk s ∧ shows_compact multiple_rate x s).
Proof.
  intros x X. split_and!.
  - intros sfx r R. split; [exact (i_small x r sfx R)|apply fmt_d_exact].
  - apply compact_1000. lia.
  - apply compact_1024; [exact byte_suffix|lia].
  - apply compact_1024; [exact rate_suffix|lia].
Qed.
Theorem c53_unsigned : ∀ x, (0 <= x < 2 ^ 64)%Z →
  (∀ sfx r, (x < r)%Z → uCompactForm x r sfx = FmtOk (fmt_d x) ∧ exact_text x (fmt_d x)) ∧
  ((1000 <= x)%Z → ∃ s, uCompactForm x 1000 suffixes = FmtOk s ∧ shows_compact multiple x s) ∧
  ((1024 <= x)%Z → ∃ s, uCompactForm x 1024 byteSuffixes = FmtOk s ∧ shows_compact multiple_byte x s) ∧
  ((1024 <= x)%Z → ∃ s, uCompactForm x 1024 bytePerSecondSuffixes = FmtOk s ∧ shows_compact multiple_rate x s).
Proof.
  intros x X. split_and!.
  - intros sfx r R. split; [unfold uCompactForm; by rewrite (proj2 (Z.ltb_lt x r) R)|apply fmt_d_exact].
  - intros R. rewrite u_compact_i by lia. apply compact_1000; lia.
  - intros R. rewrite u_compact_i by lia. apply compact_1024; [exact byte_suffix|lia..].
  - intros R. rewrite u_compact_i by lia. apply compact_1024; [exact rate_suffix|lia..].
Qed.
(** The largest and smallest numbers; 999999 is shown as 1000 thousand. *)
Example c53_nonvacuous : iCompactForm (-2 ^ 63) 1000 suffixes = FmtOk "-9.22M trillion" ∧ uCompactForm (2 ^ 64 - 1) 1024 byteSuffixes = FmtOk "16.0 EiB" ∧
  iCompactForm 999999 1000 suffixes = FmtOk "1000 thousand" ∧ iCompactForm 999 1000 suffixes = FmtOk "999" ∧ uCompactForm 1536 1024 bytePerSecondSuffixes = FmtOk "1.50 KiB/s".
Proof. split_and!; vm_compute; reflexivity. Qed.

(** ** C62 *)
(** For every value of every supported type and every unit the HTML form exists and shows the value; whatever the
    library functions for floats and times return. *)
Theorem c62_html : ∀ FF FT w v t p u, rval_ok w v = true → getPrimitiveType w (rtype_of v) = Some (t, p) →
  ∃ s, valueToHtmlString FF FT v t u p = FmtOk s ∧ html_shows u (content_of v) s.
Proof. intros FF FT w v t p u. exact (html_content FF FT w v t p u). Qed.
Definition ff : float32 + float64 → string := λ _, "1.5".
Definition ft : gotime → string := λ _, "2006-01-02T15:04:05Z".
Definition sample (v : rval) (u : string) : fmt_res := match getPrimitiveType W64 (rtype_of v) with Some (t, p) => valueToHtmlString ff ft v t u p | None => FmtPanic end.
Example c62_nonvacuous : sample (RVBasic KInt (Some "main.Count") (-1234567)%Z) "None" = FmtOk "-1,234,567" ∧ rval_ok W64 (RVBasic KInt (Some "main.Count") (-1234567)%Z) = true ∧
  sample (RVBasic KUint8 None 200%Z) "Bytes" = FmtOk "200" ∧ sample (RVBasic KInt64 None 123456%Z) "Celsius" = FmtOk "123 thousand" ∧
  sample (RVDuration 61500000000%Z) "Seconds" = FmtOk "1m 1.500s" ∧ sample (RVDuration (-1500000000)%Z) "Milliseconds" = FmtOk "-1500.000000000".
Proof. split_and!; vm_compute; reflexivity. Qed.

(** ** C63 *)
Theorem c63_text : ∀ FF w v t p u, rval_ok w v = true → getPrimitiveType w (rtype_of v) = Some (t, p) →
  ∃ s, valueToTextString FF v t u p = FmtOk s ∧ text_shows u (content_of v) s.
Proof. intros FF w v t p u. exact (text_content FF w v t p u). Qed.
Definition text_sample (v : rval) (u : string) : fmt_res := match getPrimitiveType W64 (rtype_of v) with Some (t, p) => valueToTextString ff v t u p | None => FmtPanic end.
Example c63_nonvacuous : text_sample (RVBasic KUint64 None (2 ^ 64 - 1)%Z) "None" = FmtOk "18446744073709551615" ∧ rval_ok W64 (RVBasic KUint64 None (2 ^ 64 - 1)%Z) = true ∧
  text_sample (RVTimePtr (Some (MkTime (-2) 500000000))) "Seconds" = FmtOk "-1.500000000" ∧ text_sample (RVBasic KString None "x") "None" = FmtOk (String "034" ("x" ++ String "034" "")) ∧
  text_sample (RVBasic KBool None false) "None" = FmtOk "false" ∧ text_sample (RVTimePtr None) "Seconds" = FmtOk "0.000000000".
Proof. split_and!; vm_compute; reflexivity. Qed.
Print Assumptions c52_grouped.
Print Assumptions c52_total.
Print Assumptions c52_delete.
Print Assumptions c52_no_digit.
Print Assumptions c53_signed.
Print Assumptions c53_unsigned.
Print Assumptions c62_html.
Print Assumptions c63_text.
