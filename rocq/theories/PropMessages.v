(** Property theorems C07-C12: conversions between JSON and Go RPC metrics, type tags. *)
From Verif Require Import GoBase GoVal UnitsModel DurationModel DurationSpec TypesModel MessagesModel MessagesSpec MessagesProofs.
Local Open Scope string_scope.

(** C07. The string denotes (sec*10^9+ns)/per_second nanoseconds (truncated). *)
Theorem c07_in_range_exact_partial : forall s u sec ns, parses s sec ns ->
  let v := Z.quot (sec * 1000000000 + ns) (if String.eqb u "Milliseconds" then 1000 else 1) in
  in64 v -> stringAsDuration s u = Some v.
Proof. intros s u sec ns H v I. rewrite (stringAsDuration_value s u sec ns H). f_equal. apply wrap64_id. exact I. Qed.
(** Outside the range no error is reported and the result is always a different duration. *)
Theorem c07_refuted : forall s u sec ns, parses s sec ns ->
  let v := Z.quot (sec * 1000000000 + ns) (if String.eqb u "Milliseconds" then 1000 else 1) in
  ~ in64 v -> exists d, stringAsDuration s u = Some d /\ d <> v.
Proof.
  intros s u sec ns H v I. eexists. split; [exact (stringAsDuration_value s u sec ns H)|].
  intros E. apply I. apply wrap64_eq_iff. exact E.
Qed.
Example c07_witness : stringAsDuration "9223372036.854775808" USecond = Some (-9223372036854775808)%Z.
Proof. vm_compute. reflexivity. Qed.
Example c07_nonvacuous : stringAsDuration "53200.5" UMillisecond = Some 53200500000%Z.
Proof. vm_compute. reflexivity. Qed.
Print Assumptions c07_in_range_exact_partial.
Print Assumptions c07_refuted.

(** C08 *)
Theorem c08_json_roundtrip : forall sprintf_v m, rpc_metric m -> ~ In zero_time (times_of (m_value m)) ->
  exists j, convertToJson sprintf_v m = Some j /\ convertToGoRPC j = (false, with_value m (no_nil (m_value m))).
Proof. exact metric_roundtrip. Qed.
Definition c08_example : metric :=
  MkMetric "/a" "d" "Milliseconds" "list" "goTime" 0 (VSlice STime (Some [MkTime (-2) 5; MkTime 7 0])) (VTime (MkTime 3 4)) 1.
Example c08_nonvacuous : rpc_metric c08_example /\ ~ In zero_time (times_of (m_value c08_example)).
Proof.
  split.
  - split; [apply (TagSlice STime); repeat constructor; cbn; lia|].
    split; [repeat constructor|]. right. exists (MkTime 3 4). split; [reflexivity|]. split; [cbn; lia|vm_compute; reflexivity].
  - cbn. intros [H|[H|[]]]; discriminate.
Qed.
Print Assumptions c08_json_roundtrip.

(** C09: the zero time comes back as the epoch, every other time in range as itself. *)
Theorem c09_nonzero_partial : forall t u, scalar_ok STime t -> printable u t -> t <> zero_time ->
  stringAsTime (timeAsString t u) u = Some t.
Proof. exact stringAsTime_roundtrip. Qed.
Theorem c09_refuted : forall sprintf_v m, m_kind m = "goTime" -> m_value m = VTime zero_time -> m_timeStamp m = VNil ->
  exists j m', convertToJson sprintf_v m = Some j /\ convertToGoRPC j = (false, m') /\
    m_value m' = VTime (MkTime 0 0) /\ m_value m' <> m_value m.
Proof. exact zero_time_metric. Qed.
Example c09_nonvacuous : zero_time <> MkTime 0 0 /\ scalar_ok STime (MkTime 1 2).
Proof. split; [discriminate|cbn; lia]. Qed.
Print Assumptions c09_nonzero_partial.
Print Assumptions c09_refuted.

(** C10 *)
Theorem c10_failed_conversion_changes_nothing : forall m,
  fst (convertToGoRPC m) = true -> snd (convertToGoRPC m) = m.
Proof. intros m. exact (proj1 (convertToGoRPC_spec m)). Qed.
Theorem c10_success : forall m, fst (convertToGoRPC m) = false ->
  let m' := snd (convertToGoRPC m) in
  same_identity m m' /\
  m_kind m' <> "time" /\ m_kind m' <> "duration" /\ m_subType m' <> "time" /\ m_subType m' <> "duration" /\
  (m_timeStamp m' = VNil \/ exists t, m_timeStamp m' = VTime t) /\
  convertToGoRPC m' = (false, m').
Proof. intros m. exact (proj2 (convertToGoRPC_spec m)). Qed.
Example c10_nonvacuous :
  fst (convertToGoRPC (MkMetric "/a" "" "None" "duration" "" 0 (VString "x") VNil 0)) = true /\
  fst (convertToGoRPC (MkMetric "/a" "" "None" "duration" "" 0 (VString "1.5") VNil 0)) = false /\
  fst (convertToGoRPC (MkMetric "/a" "" "None" "duration" "" 0 (VString "1.5") (VString "z") 0)) = true.
Proof. vm_compute. auto. Qed.
Print Assumptions c10_failed_conversion_changes_nothing.
Print Assumptions c10_success.

(** C11 *)
Theorem c11_convert_to_json : forall sprintf_v m, rpc_tagged (m_value m) (m_kind m) (m_subType m) ->
  exists j, convertToJson sprintf_v m = Some j /\ same_identity m j /\
   m_kind j <> "goTime" /\ m_kind j <> "goDuration" /\ m_subType j <> "goTime" /\ m_subType j <> "goDuration" /\
   (exists s, m_timeStamp j = VString s) /\ (forall t, m_value j <> VSlice t None) /\
   convertToJson sprintf_v j = Some j.
Proof. exact convertToJson_spec. Qed.
Example c11_nonvacuous : rpc_tagged (VSlice SInt64 None) "list" "int64" /\ rpc_tagged (VDuration (-5)) "goDuration" "".
Proof. split; [exact (TagNilSlice SInt64)|exact (TagScalar SDuration (-5)%Z ltac:(cbn; lia))]. Qed.
Print Assumptions c11_convert_to_json.

(** C12 *)
Theorem c12_tags_of_values : forall v k s, rpc_tagged v k s -> FromGoValueWithSubType v = (k, s) /\ FromGoValue v = k.
Proof. intros v k s H. pose proof (rpc_tagged_from v k s H) as E. unfold FromGoValue. rewrite E. exact (conj eq_refl eq_refl). Qed.
Theorem c12_zero_value : forall t v, ZeroValue t = Some v ->
  FromGoValueWithSubType v = (if orb (String.eqb t "time") (String.eqb t "duration") then "string" else t, "").
Proof. exact zero_tag. Qed.
Theorem c12_nil_slice : forall t v, NilSlice t = Some v ->
  FromGoValueWithSubType v = ("list", if orb (String.eqb t "time") (String.eqb t "duration") then "string" else t).
Proof. exact nil_tag. Qed.
Theorem c12_domain : forall t,
  (ZeroValue t = None <-> ~ In t known_scalars) /\ (NilSlice t = None <-> ~ In t known_scalars).
Proof. intros t. exact (conj (zero_defined t) (nil_defined t)). Qed.
Theorem c12_bits : forall t, (forall n, In (t, n) width_table -> Bits t = n) /\ (~ In t (map fst width_table) -> Bits t = 0%Z).
Proof. exact bits_table. Qed.
Theorem c12_classes : forall t,
  (IsInt t = true <-> In t ["int8"; "int16"; "int32"; "int64"]) /\
  (IsUint t = true <-> In t ["uint8"; "uint16"; "uint32"; "uint64"]) /\
  (IsFloat t = true <-> In t ["float32"; "float64"]).
Proof. exact classes. Qed.
Example c12_nonvacuous : ZeroValue "uint16" = Some (VScalar SUint16 0%Z) /\ NilSlice "duration" = Some (VSlice SString None)
  /\ ZeroValue "distribution" = None /\ Bits "float32" = 32%Z.
Proof. vm_compute. auto. Qed.
Print Assumptions c12_tags_of_values.
Print Assumptions c12_zero_value.
Print Assumptions c12_nil_slice.
Print Assumptions c12_domain.
Print Assumptions c12_bits.
Print Assumptions c12_classes.
