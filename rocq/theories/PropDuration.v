(** Property theorems C01-C06: the duration package. *)
From Verif Require Import GoBase TextSpec StrLemmas UnitsModel DurationModel DurationSpec DurationProofs.
From Coq Require Import ZifyBool.
Local Open Scope Z_scope.

(** C01 *)
Theorem c01_duration_roundtrip : forall d, in64 d -> asGoDuration (newDuration d) = d.
Proof. exact newDuration_roundtrip. Qed.
Theorem c01_duration_exact : forall d, in64 d ->
  normalised (Seconds (newDuration d)) (Nanoseconds (newDuration d)) /\
  Seconds (newDuration d) * 1000000000 + Nanoseconds (newDuration d) = d.
Proof. intros d H. destruct (newDuration_spec d H) as (N & V & _). exact (conj N V). Qed.
Example c01_nonvacuous : in64 (-1999999999) /\ newDuration (-1999999999) = MkDur (-1) (-999999999) /\ in64 (-2^63).
Proof. repeat split; unfold in64; try lia. Qed.
Print Assumptions c01_duration_roundtrip.
Print Assumptions c01_duration_exact.

(** C02 *)
Theorem c02_time_roundtrip : forall t, in64 (t_sec t) /\ 0 <= t_nsec t < 1000000000 -> asGoTime (sinceEpoch t) = t.
Proof. exact sinceEpoch_roundtrip. Qed.
Theorem c02_time_exact : forall t, in64 (t_sec t) /\ 0 <= t_nsec t < 1000000000 ->
  normalised (Seconds (sinceEpoch t)) (Nanoseconds (sinceEpoch t)) /\
  Seconds (sinceEpoch t) * 1000000000 + Nanoseconds (sinceEpoch t) = t_sec t * 1000000000 + t_nsec t.
Proof. intros t H. destruct (sinceEpoch_spec t H) as (N & V & _). exact (conj N V). Qed.
Example c02_nonvacuous :
  sinceEpoch (MkTime (-2) 1) = MkDur (-1) (-999999999) /\ asGoTime (MkDur (-1) (-999999999)) = MkTime (-2) 1.
Proof. split; vm_compute; reflexivity. Qed.
Print Assumptions c02_time_roundtrip.
Print Assumptions c02_time_exact.

(** C03: [decimal9 s n] says s is the text of n * 10^-9; a duration of d ns is d * 10^-9 seconds. *)
Theorem c03_text_exact : forall d u, in64 d ->
  decimal9 (StringUsingUnits (newDuration d) u) (d * (if String.eqb u "Milliseconds" then 1000 else 1)).
Proof. intros d u H. rewrite Z.mul_comm. exact (newDuration_text d u H). Qed.
(** The text of a given number is unique, so C03 determines the output completely. *)
Theorem c03_text_unique : forall s s' n, decimal9 s n -> decimal9 s' n -> s = s'.
Proof. exact decimal9_unique. Qed.
Theorem c03_time_text_exact : forall t u, in64 (t_sec t) /\ 0 <= t_nsec t < 1000000000 ->
  (Z.abs (t_sec t) + 1) * (if String.eqb u "Milliseconds" then 1000 else 1) < 2^63 ->
  decimal9 (StringUsingUnits (sinceEpoch t) u)
    ((t_sec t * 1000000000 + t_nsec t) * (if String.eqb u "Milliseconds" then 1000 else 1)).
Proof. intros t u H H2. rewrite Z.mul_comm. exact (sinceEpoch_text t u H H2). Qed.
Example c03_nonvacuous : StringUsingUnits (newDuration (-53200000000)) UMillisecond = "-53200.000000000"%string.
Proof. vm_compute; reflexivity. Qed.
Print Assumptions c03_text_exact.
Print Assumptions c03_text_unique.
Print Assumptions c03_time_text_exact.

(** C04 *)
Theorem c04_print_parse_duration : forall d u, in64 d ->
  ParseWithUnit (StringUsingUnits (newDuration d) u) u = Some (newDuration d).
Proof. exact newDuration_text_roundtrip. Qed.
Theorem c04_print_parse_time : forall t u, in64 (t_sec t) /\ 0 <= t_nsec t < 1000000000 ->
  (Z.abs (t_sec t) + 1) * (if String.eqb u "Milliseconds" then 1000 else 1) < 2^63 ->
  ParseWithUnit (StringUsingUnits (sinceEpoch t) u) u = Some (sinceEpoch t).
Proof. exact sinceEpoch_text_roundtrip. Qed.
Example c04_nonvacuous :
  ParseWithUnit (StringUsingUnits (sinceEpoch (MkTime (-5) 250)) UMillisecond) UMillisecond = Some (sinceEpoch (MkTime (-5) 250)).
Proof. vm_compute; reflexivity. Qed.
Print Assumptions c04_print_parse_duration.
Print Assumptions c04_print_parse_time.

(** C05: [parses] is the grammar of DurationSpec.v. *)
Theorem c05_parse_exactly : forall s sec ns,
  parse s = Some (MkDur sec ns) <-> parses s sec ns.
Proof. exact parse_iff. Qed.
Theorem c05_parse_with_unit : forall s u,
  ParseWithUnit s u = None <-> ~ (exists sec ns, parses s sec ns).
Proof. exact parse_with_unit_none. Qed.
Theorem c05_parse_with_unit_value : forall s u sec ns, parses s sec ns ->
  exists d, ParseWithUnit s u = Some d /\ normalised (Seconds d) (Nanoseconds d) /\
    Seconds d * 1000000000 + Nanoseconds d
    = Z.quot (sec * 1000000000 + ns) (if String.eqb u "Milliseconds" then 1000 else 1).
Proof. exact parse_with_unit_value. Qed.
Example c05_nonvacuous : parse "-4326.1601" = Some (MkDur (-4326) (-160100000)) /\ parse "1.2x" = None /\ parse "" = None
  /\ parse "--1" = None /\ parse "1.123456789xyz" = Some (MkDur 1 123456789).
Proof. repeat split; vm_compute; reflexivity. Qed.
Print Assumptions c05_parse_exactly.
Print Assumptions c05_parse_with_unit.
Print Assumptions c05_parse_with_unit_value.

(** C06 *)
Theorem c06_pretty_format : forall d, normalised (Seconds d) (Nanoseconds d) ->
  let v := Seconds d * 1000000000 + Nanoseconds d in
  (prettyFormat d = None <-> v < 0) /\
  (0 <= v -> exists s q g, prettyFormat d = Some s /\ shows s q g /\ q <= v < q + g).
Proof. exact prettyFormat_exact. Qed.
Example c06_nonvacuous : prettyFormat (MkDur 200000 0) = Some "2d 7h 33m 20s"%string /\ normalised 200000 0.
Proof. split; [vm_compute; reflexivity|]. unfold normalised, billion. lia. Qed.
Print Assumptions c06_pretty_format.
