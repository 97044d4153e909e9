(** Property theorems C89: the text form of a value determines it. *)
From Verif Require Import GoBase TextSpec GoVal UnitsModel DurationModel DurationSpec TypesModel FloatBase.
From stdpp Require Import list.
From Verif Require Import ReflectModel ListModel ValueModel ValueSpec FormatModel FormatSpec FormatValueSpec TextAlikeSpec TextAlikeProofs.
Local Open Scope string_scope.

(** C89: two values of any supported types and the same unit.  Missing for the full property: the time that is not set
    has the text of the epoch. *)
Theorem c89_text_partial : ∀ FF w w' v v' t p t' p' u s,
  rval_ok w v = true → getPrimitiveType w (rtype_of v) = Some (t, p) →
  rval_ok w' v' = true → getPrimitiveType w' (rtype_of v') = Some (t', p') →
  valueToTextString FF v t u p = FmtOk s → valueToTextString FF v' t' u p' = FmtOk s →
  same_value u (content_of v) (content_of v').
Proof. exact text_values_same. Qed.

(** The full property, for times. *)
Theorem c89_refuted : ¬ (∀ FF t t' u s, in_range u t → in_range u t' →
  valueToTextString FF (RVTime t) GoTime u false = FmtOk s → valueToTextString FF (RVTime t') GoTime u false = FmtOk s → t = t').
Proof.
  intros T. assert (MkTime (-62135596800) 0 = MkTime 0 0) as E; [|discriminate E].
  apply (T (λ _, "") _ _ "Seconds" "0.000000000"); try (vm_compute; reflexivity);
    unfold in_range, in64; cbn [t_sec t_nsec]; change (per_second "Seconds") with 1%Z; lia.
Qed.

Definition text_of (v : rval) (u : string) : fmt_res :=
  match getPrimitiveType W64 (rtype_of v) with Some (t, p) => valueToTextString (λ _, "1.5") v t u p | None => FmtPanic end.
(** The same number in two types, and a time through a pointer. *)
Example c89_nonvacuous :
  text_of (RVBasic KInt64 None 1234567%Z) "Bytes" = FmtOk "1234567" ∧ text_of (RVBasic KUint32 None 1234567%Z) "Bytes" = FmtOk "1234567" ∧
  rval_ok W64 (RVBasic KInt64 None 1234567%Z) = true ∧ rval_ok W64 (RVBasic KUint32 None 1234567%Z) = true ∧
  text_of (RVTime (MkTime 5 250000000)) "Milliseconds" = FmtOk "5250.000000000" ∧
  text_of (RVTimePtr (Some (MkTime 5 250000000))) "Milliseconds" = FmtOk "5250.000000000" ∧
  in_range "Milliseconds" (MkTime 5 250000000) ∧ ¬ same_value "Bytes" (CtInt 5) (CtInt 6).
Proof.
  split_and!; try (vm_compute; reflexivity); [|by vm_compute].
  unfold in_range, in64. cbn [t_sec t_nsec]. change (per_second "Milliseconds") with 1000%Z. lia.
Qed.
Print Assumptions c89_text_partial.
Print Assumptions c89_refuted.
