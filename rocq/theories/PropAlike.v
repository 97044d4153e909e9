(** Property theorems C88: values that look alike in a browser are alike. *)
From Verif Require Import GoBase TextSpec GoVal UnitsModel DurationModel DurationSpec TypesModel FloatBase.
From stdpp Require Import list.
From Verif Require Import ReflectModel ListModel ValueModel ValueSpec FormatModel FormatSpec FormatValueSpec PrettySpec AlikeSpec AlikeProofs.
Local Open Scope string_scope.

(** C88: two values of any supported types and the same unit, whatever the library functions for floats and times return. *)
Theorem c88_alike : ∀ FF FT w w' v v' t p t' p' u s,
  rval_ok w v = true → getPrimitiveType w (rtype_of v) = Some (t, p) →
  rval_ok w' v' = true → getPrimitiveType w' (rtype_of v') = Some (t', p') →
  valueToHtmlString FF FT v t u p = FmtOk s → valueToHtmlString FF FT v' t' u p' = FmtOk s →
  alike u (content_of v) (content_of v').
Proof. exact html_values_alike. Qed.

Definition shown (v : rval) (u : string) : fmt_res :=
  match getPrimitiveType W64 (rtype_of v) with Some (t, p) => valueToHtmlString (λ _, "1.5") (λ _, "2006") v t u p | None => FmtPanic end.
(** Numbers and durations that look the same, and some that may not. *)
Example c88_nonvacuous :
  shown (RVBasic KInt64 None 123456%Z) "Celsius" = FmtOk "123 thousand" ∧ shown (RVBasic KUint32 None 123499%Z) "Celsius" = FmtOk "123 thousand" ∧
  rval_ok W64 (RVBasic KInt64 None 123456%Z) = true ∧ rval_ok W64 (RVBasic KUint32 None 123499%Z) = true ∧
  ¬ alike "Celsius" (CtInt 123456) (CtInt 125000) ∧ ¬ alike "None" (CtInt 123456) (CtInt 123457) ∧
  shown (RVDuration 7200000000001%Z) "Seconds" = FmtOk "2h 0m 0s" ∧ shown (RVDuration 7200999999999%Z) "Seconds" = FmtOk "2h 0m 0s" ∧
  ¬ alike "Seconds" (CtDuration 7200000000001) (CtDuration 7201000000000) ∧ ¬ alike "Seconds" (CtDuration (-1)) (CtDuration 1).
Proof. split_and!; try (vm_compute; reflexivity); vm_compute; try congruence; intros H; try destruct H; congruence. Qed.
Print Assumptions c88_alike.
