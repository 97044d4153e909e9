(** Property theorems C87: the text of durations shown to people says the duration up to its last digit. *)
From Verif Require Import GoBase TextSpec UnitsModel DurationModel DurationSpec DurationProofs PrettySpec PrettyProofs.
Local Open Scope Z_scope.

(** C87: the texts of two durations are the same exactly if the durations agree up to the last digit shown. *)
Theorem c87_same_text : forall d1 d2,
  normalised (Seconds d1) (Nanoseconds d1) -> normalised (Seconds d2) (Nanoseconds d2) ->
  let v1 := Seconds d1 * 1000000000 + Nanoseconds d1 in
  let v2 := Seconds d2 * 1000000000 + Nanoseconds d2 in
  0 <= v1 -> 0 <= v2 ->
  (prettyFormat d1 = prettyFormat d2 <-> cut v1 = cut v2).
Proof. exact pretty_same. Qed.

(** A text can be read in one way only. *)
Theorem c87_readable : forall s q g q' g', shows s q g -> shows s q' g' -> q = q' /\ g = g'.
Proof. exact shows_text. Qed.

(** The text can be read: it shows the duration cut off after the digit of the specification.  Whoever reads it is off
    by less than this digit, and by less than a tenth of the duration. *)
Theorem c87_error : forall d s,
  normalised (Seconds d) (Nanoseconds d) -> prettyFormat d = Some s ->
  let v := Seconds d * 1000000000 + Nanoseconds d in
  shows s (cut v) (precision v) /\
  forall q g, shows s q g -> q <= v < q + g /\ g = precision v /\ (q = v \/ 10 * (v - q) < v).
Proof. intros d s N E. exact (conj (pretty_reads d N s E) (fun q g => pretty_error d N s q g E)). Qed.

(** Of two durations the longer is never shown as the shorter. *)
Theorem c87_order : forall d1 d2 s1 s2 q1 q2 g1 g2,
  normalised (Seconds d1) (Nanoseconds d1) -> normalised (Seconds d2) (Nanoseconds d2) ->
  prettyFormat d1 = Some s1 -> prettyFormat d2 = Some s2 -> shows s1 q1 g1 -> shows s2 q2 g2 ->
  Seconds d1 * 1000000000 + Nanoseconds d1 <= Seconds d2 * 1000000000 + Nanoseconds d2 -> q1 <= q2.
Proof. intros d1 d2 s1 s2 q1 q2 g1 g2 N1 N2. exact (pretty_mono d1 d2 N1 N2 s1 s2 q1 q2 g1 g2). Qed.

(** One hour minus 1 ns and one hour; two durations above one hour that look the same and two that do not. *)
Example c87_nonvacuous :
  normalised 3599 999999999 /\ normalised 3600 0 /\ normalised 3600 999999999 /\
  prettyFormat (MkDur 3599 999999999) = Some "59m 59.999s"%string /\ cut 3599999999999 = 3599999000000 /\
  prettyFormat (MkDur 3600 0) = prettyFormat (MkDur 3600 999999999) /\ cut 3600999999999 = cut 3600000000000 /\
  prettyFormat (MkDur 3600 0) = Some "1h 0m 0s"%string /\ cut 3600000000000 <> cut 3601000000000 /\
  shows "59m 59.999s" 3599999000000 1000000 /\ shows "1h 0m 0s" 3600000000000 1000000000.
Proof.
  unfold normalised, billion. repeat split; try lia; try (vm_compute; congruence).
  - apply (ShowM "59" "59" "999" 59 59 999); try lia; repeat split; try lia; vm_compute; congruence.
  - apply (ShowH "1" "0" "0" 1 0 0); try lia; repeat split; try lia; vm_compute; congruence.
Qed.
Print Assumptions c87_same_text.
Print Assumptions c87_readable.
Print Assumptions c87_error.
Print Assumptions c87_order.
