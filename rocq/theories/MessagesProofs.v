From Verif Require Import GoBase TextSpec StrLemmas GoVal UnitsModel DurationModel DurationSpec DurationProofs
  TypesModel MessagesModel MessagesSpec.
From Coq Require Import ZifyBool.
Local Open Scope string_scope.

Lemma stringAsDuration_roundtrip d u : in64 d -> stringAsDuration (durationAsString d u) u = Some d.
Proof.
  intros H. unfold stringAsDuration, durationAsString. rewrite newDuration_text_roundtrip by auto.
  rewrite newDuration_roundtrip; auto.
Qed.
Lemma IsZero_iff t : time_IsZero t = true <-> t = zero_time.
Proof.
  destruct t as [s n]. unfold time_IsZero, zero_time. cbn. rewrite andb_true_iff, !Z.eqb_eq. split.
  - intros [-> ->]. reflexivity.
  - intros H. inversion H. auto.
Qed.
Lemma stringAsTime_roundtrip t u : scalar_ok STime t -> printable u t -> t <> zero_time ->
  stringAsTime (timeAsString t u) u = Some t.
Proof.
  intros H P Z. unfold stringAsTime, timeAsString.
  destruct (time_IsZero t) eqn:E; [apply IsZero_iff in E; contradiction|].
  rewrite sinceEpoch_text_roundtrip by auto. rewrite sinceEpoch_roundtrip; auto.
Qed.
Lemma zero_time_roundtrip u : stringAsTime (timeAsString zero_time u) u = Some (MkTime 0 0).
Proof.
  unfold stringAsTime, timeAsString. change (time_IsZero zero_time) with true. cbv iota.
  change (MkDur 0 0) with (newDuration 0). rewrite newDuration_text_roundtrip by (unfold in64; lia). reflexivity.
Qed.

Lemma String_is_StringUsingUnits d : dnorm d -> in64 (Seconds d) -> (- 2^63 < Seconds d)%Z ->
  toString d = StringUsingUnits d USecond.
Proof.
  intros N I L.
  assert (F : dfits d (per_second USecond)).
  { unfold dfits, per_second, dnorm, normalised, dvalue, billion, in64 in *. simpl. lia. }
  destruct (convert_out d USecond N F) as (A & B & C & D).
  assert (E : convert d USecond USecond = d).
  { destruct d as [s n], (convert (MkDur s n) USecond USecond) as [s' n'].
    unfold dvalue, per_second in B. unfold dnorm, normalised, billion, dvalue in *. simpl in *.
    f_equal; lia. }
  unfold StringUsingUnits. rewrite E. reflexivity.
Qed.
Lemma timestamp_roundtrip t : scalar_ok STime t -> printable "Seconds" t ->
  stringAsTime (toString (sinceEpoch t)) USecond = Some t.
Proof.
  intros H P. destruct (sinceEpoch_spec t H) as (N & V & I).
  unfold stringAsTime. rewrite String_is_StringUsingUnits; auto.
  - rewrite sinceEpoch_text_roundtrip by auto. rewrite sinceEpoch_roundtrip; auto.
  - unfold printable in P. simpl in P.
    unfold dnorm, normalised, dvalue, time_ns, valid_time, billion, in64 in *. cbn in H. lia.
Qed.
Lemma timestamp_nonempty d : toString d <> "".
Proof. unfold toString. destruct (isNegative d); simpl; try discriminate. destruct (fmt_d (Seconds d)); discriminate. Qed.

Lemma map_err_map {A B} (f : A -> string) (g : string -> option B) (h : A -> B) l :
  Forall (fun x => g (f x) = Some (h x)) l -> map_err g (map f l) = Some (map h l).
Proof. induction 1; simpl; auto. rewrite H, IHForall. reflexivity. Qed.
Lemma map_err_id {A} (f : A -> string) (g : string -> option A) l :
  Forall (fun x => g (f x) = Some x) l -> map_err g (map f l) = Some l.
Proof. intros H. rewrite (map_err_map f g (fun x => x)) by auto. now rewrite map_id. Qed.

(** the value part of the round trip *)
Lemma value_roundtrip v k s u : rpc_tagged v k s -> Forall (printable u) (times_of v) ->
  ~ In zero_time (times_of v) ->
  exists v' k' s', asJson v k s u = Some (v', k', s') /\ asGoRPC v' k' s' u = Some (no_nil v, k, s).
Proof.
  intros T P Z. destruct T as [t v OK | t | t l OK | d].
  - destruct t; cbn in v |- *; try (do 3 eexists; split; [reflexivity|reflexivity]).
    + cbn in P, Z. inversion P; subst. do 3 eexists; split; [reflexivity|].
      unfold asGoRPC. cbn -[stringAsTime timeAsString]. rewrite stringAsTime_roundtrip; auto.
    + do 3 eexists; split; [reflexivity|].
      unfold asGoRPC. cbn -[stringAsDuration durationAsString]. rewrite stringAsDuration_roundtrip; auto.
  - destruct t; cbn; try (do 3 eexists; split; [reflexivity|reflexivity]).
  - destruct t; cbn in l |- *; try (do 3 eexists; split; [reflexivity|reflexivity]).
    + cbn in P, Z. do 3 eexists; split; [reflexivity|].
      unfold asGoRPC. cbn -[stringAsTime timeAsString]. rewrite map_err_id; auto.
      rewrite Forall_forall in *. intros x Hx. apply stringAsTime_roundtrip; auto. intros ->; auto.
    + do 3 eexists; split; [reflexivity|].
      unfold asGoRPC. cbn -[stringAsDuration durationAsString]. rewrite map_err_id; auto.
      rewrite Forall_forall in *. intros x Hx. apply stringAsDuration_roundtrip; auto. apply OK; auto.
  - do 3 eexists; split; reflexivity.
Qed.

Lemma metric_roundtrip f m : rpc_metric m -> ~ In zero_time (times_of (m_value m)) ->
  exists j, convertToJson f m = Some j /\ convertToGoRPC j = (false, with_value m (no_nil (m_value m))).
Proof.
  intros (T & P & TS) Z.
  destruct (value_roundtrip _ _ _ (m_unit m) T P Z) as (v' & k' & s' & E1 & E2).
  unfold convertToJson. rewrite E1.
  eexists; split; [reflexivity|]. unfold convertToGoRPC. cbn [m_value m_kind m_subType m_unit m_timeStamp set_conv].
  rewrite E2. destruct m as [p d u k s b v ts g]. cbn [m_value m_kind m_subType m_unit m_timeStamp] in *.
  destruct TS as [-> | (t & -> & OK & PR)].
  - reflexivity.
  - unfold VTime at 1. unfold VString. cbn -[stringAsTime toString sinceEpoch].
    destruct (String.eqb_spec (toString (sinceEpoch t)) ""); [now apply timestamp_nonempty in e|].
    rewrite timestamp_roundtrip by auto. reflexivity.
Qed.

(** ** C10 *)
Lemma asGoRPC_kinds v k s u v' k' s' : asGoRPC v k s u = Some (v', k', s') ->
  k' <> "time" /\ k' <> "duration" /\ s' <> "time" /\ s' <> "duration" /\
  asGoRPC v' k' s' u = Some (v', k', s').
Proof.
  unfold asGoRPC at 1.
  destruct (String.eqb_spec k TDuration).
  { destruct (valueAsString v); [|discriminate]. destruct (stringAsDuration _ _); [|discriminate].
    intros H; inversion H; subst. repeat split; try discriminate; reflexivity. }
  destruct (String.eqb_spec k Time).
  { destruct (valueAsString v); [|discriminate]. destruct (stringAsTime _ _); [|discriminate].
    intros H; inversion H; subst. repeat split; try discriminate; reflexivity. }
  destruct (String.eqb_spec k TList).
  { destruct (String.eqb_spec s TDuration).
    { destruct (valueAsStringSlice v); [|discriminate]. destruct (map_err _ _); [|discriminate].
      intros H; inversion H; subst. repeat split; try discriminate; reflexivity. }
    destruct (String.eqb_spec s Time).
    { destruct (valueAsStringSlice v); [|discriminate]. destruct (map_err _ _); [|discriminate].
      intros H; inversion H; subst. repeat split; try discriminate; reflexivity. }
    intros H; inversion H; subst. repeat split; auto; try discriminate.
    unfold asGoRPC. change (TList =? TDuration) with false. change (TList =? Time) with false. change (TList =? TList) with true.
    cbv iota. apply String.eqb_neq in n1, n2. rewrite n1, n2. reflexivity. }
  intros H; inversion H; subst. repeat split; auto; try discriminate.
  unfold asGoRPC. apply String.eqb_neq in n, n0, n1. rewrite n, n0, n1. reflexivity.
Qed.

Lemma convertToGoRPC_spec m :
  (fst (convertToGoRPC m) = true -> snd (convertToGoRPC m) = m) /\
  (fst (convertToGoRPC m) = false ->
   let m' := snd (convertToGoRPC m) in
   same_identity m m' /\
   m_kind m' <> "time" /\ m_kind m' <> "duration" /\ m_subType m' <> "time" /\ m_subType m' <> "duration" /\
   (m_timeStamp m' = VNil \/ exists t, m_timeStamp m' = VTime t) /\
   convertToGoRPC m' = (false, m')).
Proof.
  unfold convertToGoRPC at 1 2 3 4.
  destruct (asGoRPC _ _ _ _) as [[[v k] s]|] eqn:E; [|split; [reflexivity|discriminate]].
  destruct (asGoRPC_kinds _ _ _ _ _ _ _ E) as (K1 & K2 & K3 & K4 & ID).
  match goal with |- context [match ?X with Some _ => _ | None => _ end] => destruct X as [ts|] eqn:TS end;
    [|split; [reflexivity|discriminate]].
  split; [discriminate|]. intros _. cbn [snd fst].
  assert (G : ts = VNil \/ exists t, ts = VTime t).
  { destruct (m_timeStamp m) as [|t x| | | |]; try discriminate.
    - inversion TS; auto.
    - destruct t; try discriminate.
      + destruct (x =? ""); [inversion TS; auto|]. destruct (stringAsTime _ _); inversion TS; eauto.
      + inversion TS; eauto. }
  repeat split; auto.
  unfold convertToGoRPC. cbn [m_value m_kind m_subType m_unit m_timeStamp set_conv]. rewrite ID.
  destruct G as [-> | [t ->]]; reflexivity.
Qed.

(** ** C11 *)
Lemma asJson_spec v k s u : rpc_tagged v k s -> exists v' k' s',
  asJson v k s u = Some (v', k', s') /\ k' <> "goTime" /\ k' <> "goDuration" /\ s' <> "goTime" /\ s' <> "goDuration" /\
  (forall t, v' <> VSlice t None) /\ asJson v' k' s' u = Some (v', k', s').
Proof.
  intros T. destruct T as [t v OK | t | t l OK | d].
  - destruct t; cbn; do 3 eexists; (split; [reflexivity|]); repeat split; try discriminate.
  - destruct t; cbn; do 3 eexists; (split; [reflexivity|]); repeat split; try discriminate.
  - destruct t; cbn; do 3 eexists; (split; [reflexivity|]); repeat split; try discriminate.
  - cbn; do 3 eexists; (split; [reflexivity|]); repeat split; try discriminate.
Qed.
Lemma convertToJson_spec f m : rpc_tagged (m_value m) (m_kind m) (m_subType m) ->
  exists j, convertToJson f m = Some j /\ same_identity m j /\
   m_kind j <> "goTime" /\ m_kind j <> "goDuration" /\ m_subType j <> "goTime" /\ m_subType j <> "goDuration" /\
   (exists s, m_timeStamp j = VString s) /\ (forall t, m_value j <> VSlice t None) /\
   convertToJson f j = Some j.
Proof.
  intros T. destruct (asJson_spec _ _ _ (m_unit m) T) as (v & k & s & E & K1 & K2 & K3 & K4 & NN & ID).
  unfold convertToJson at 1. rewrite E. eexists; split; [reflexivity|].
  match goal with |- same_identity m (set_conv m v k s ?X) /\ _ =>
    assert (G : exists st, X = VString st) end.
  { destruct (m_timeStamp m) as [|t x| | | |]; try destruct t; eauto. }
  destruct G as [st G]. rewrite G.
  split; [repeat split|]. do 4 (split; [assumption|]). split; [eexists; reflexivity|]. split; [exact NN|].
  unfold convertToJson. cbn [m_value m_kind m_subType m_unit m_timeStamp set_conv]. rewrite ID. reflexivity.
Qed.

(** ** C07 *)
Lemma stringAsDuration_value s u sec ns : parses s sec ns ->
  stringAsDuration s u = Some (wrap64 (Z.quot (sec * billion + ns) (per_second u))).
Proof.
  intros H. destruct (parse_with_unit_value s u sec ns H) as (d & E & N & V).
  unfold stringAsDuration. rewrite E, asGoDuration_mod, V. reflexivity.
Qed.
Lemma wrap64_id z : in64 z -> wrap64 z = z.
Proof. unfold in64, wrap64. intros H. rewrite Z.mod_small; lia. Qed.
Lemma wrap64_eq_iff z : wrap64 z = z <-> in64 z.
Proof.
  split; [|apply wrap64_id]. intros H. unfold wrap64 in H. unfold in64.
  pose proof (Z.mod_pos_bound (z + 2^63) (2^64)). lia.
Qed.

(** ** C12 *)
Lemma scalar_type_wire t : scalar_type t = wire_name t.
Proof. destruct t; reflexivity. Qed.

Lemma rpc_tagged_from v k s : rpc_tagged v k s -> FromGoValueWithSubType v = (k, s).
Proof. intros H; destruct H; cbn; rewrite ?scalar_type_wire; reflexivity. Qed.

Ltac eqb_cases t :=
  repeat match goal with
  | |- context [String.eqb t ?n] => destruct (String.eqb_spec t n); subst; cbn in *; try discriminate
  | H : context [String.eqb t ?n] |- _ => destruct (String.eqb_spec t n); subst; cbn in *; try discriminate
  end.

Definition json_tag (t : string) : string := if orb (String.eqb t "time") (String.eqb t "duration") then "string" else t.
Lemma zero_tag t v : ZeroValue t = Some v -> FromGoValueWithSubType v = (json_tag t, "").
Proof.
  unfold ZeroValue, SafeZeroValue, is_one_of. cbn [existsb]. intros H.
  eqb_cases t; inversion H; subst; reflexivity.
Qed.
Lemma nil_tag t v : NilSlice t = Some v -> FromGoValueWithSubType v = ("list", json_tag t).
Proof.
  unfold NilSlice, SafeNilSlice, is_one_of. cbn [existsb]. intros H.
  eqb_cases t; inversion H; subst; reflexivity.
Qed.
Lemma zero_defined t : ZeroValue t = None <-> ~ In t known_scalars.
Proof.
  unfold ZeroValue, SafeZeroValue, is_one_of, known_scalars. cbn [existsb].
  eqb_cases t; split; intros; try discriminate; try (exfalso; apply H; cbn; tauto); auto.
  intros I. unfold TBool, Int8, Int16, Int32, Int64, Uint8, Uint16, Uint32, Uint64, Float32, Float64, TString, GoTime, GoDuration, Time, TDuration in *. cbn in I. intuition congruence.
Qed.
Lemma nil_defined t : NilSlice t = None <-> ~ In t known_scalars.
Proof.
  unfold NilSlice, SafeNilSlice, is_one_of, known_scalars. cbn [existsb].
  eqb_cases t; split; intros; try discriminate; try (exfalso; apply H; cbn; tauto); auto.
  intros I. unfold TBool, Int8, Int16, Int32, Int64, Uint8, Uint16, Uint32, Uint64, Float32, Float64, TString, GoTime, GoDuration, Time, TDuration in *. cbn in I. intuition congruence.
Qed.
Lemma bits_table t : (forall n, In (t, n) width_table -> Bits t = n) /\ (~ In t (map fst width_table) -> Bits t = 0%Z).
Proof.
  split.
  - intros n H. cbn in H. repeat (destruct H as [H | H]; [inversion H; reflexivity|]). destruct H.
  - intros H. unfold Bits, is_one_of. cbn [existsb]. eqb_cases t; try reflexivity; exfalso; apply H; cbn; tauto.
Qed.
Lemma classes t :
  (IsInt t = true <-> In t ["int8"; "int16"; "int32"; "int64"]) /\
  (IsUint t = true <-> In t ["uint8"; "uint16"; "uint32"; "uint64"]) /\
  (IsFloat t = true <-> In t ["float32"; "float64"]).
Proof.
  unfold IsInt, IsUint, IsFloat, is_one_of. rewrite !existsb_exists.
  repeat split; try (intros (x & I & E); apply String.eqb_eq in E; subst; exact I);
    intros I; exists t; split; auto; apply String.eqb_refl.
Qed.

Lemma zero_time_metric f m : m_kind m = "goTime" -> m_value m = VTime zero_time -> m_timeStamp m = VNil ->
  exists j m', convertToJson f m = Some j /\ convertToGoRPC j = (false, m') /\
    m_value m' = VTime (MkTime 0 0) /\ m_value m' <> m_value m.
Proof.
  intros K V T. unfold convertToJson. rewrite K, V, T. unfold asJson. cbn -[timeAsString].
  do 2 eexists. split; [reflexivity|]. unfold convertToGoRPC, asGoRPC. cbn -[timeAsString stringAsTime].
  rewrite zero_time_roundtrip. cbn. split; [reflexivity|]. split; [reflexivity|].
  cbn. intros H. unfold VTime in H.
  assert (E : assertTime (VScalar STime (MkTime 0 0)) = assertTime (VScalar STime zero_time)) by now rewrite H.
  cbn in E. discriminate.
Qed.
